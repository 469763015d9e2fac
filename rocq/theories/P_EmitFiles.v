(** C136: what is loaded from well-formed files fits the text of ucd.cpp (the hypothesis of C131). *)
From Coq Require Import String Permutation Sorted Lia.
From Verif Require Import Base M_TableGen M_PropGen M_UcdApi M_Tables M_Emit M_EmitUcd Spec_Tables Spec_TableGen Spec_PropGen Spec_UcdApi Spec_Cpp Spec_EmitUcd Spec_EmitFiles
  P_Tables P_TableGen P_TableGen2 P_TableGen8 P_PropGen P_PropGen2 P_PropGen3 P_PropGen4 P_PropGen5 P_PropGen6 P_PropGen7
  P_UcdApi P_UcdApi2 P_UcdApi3 P_UcdApi4 P_UcdApi5 P_UcdApi6 T_UcdApi T_UcdApi2 P_Enums P_Enums2 P_Enums4 P_Emit4 P_EmitUcd4 T_EmitUcd.
Open Scope N_scope.

Definition com (c : str) : Prop := one_line c /\ no_end c.
Lemma few_le {A B} (l : list A) (m : list B) : (length l <= length m)%nat -> few m -> few l.
Proof. unfold few. intros H K. eapply N.le_lt_trans; [|exact K]. lia. Qed.
Lemma few_map {A B} (f : A -> B) l : few l -> few (map f l).
Proof. unfold few. now rewrite map_length. Qed.
Lemma few_unmap {A B} (f : A -> B) l : few (map f l) -> few l.
Proof. unfold few. now rewrite map_length. Qed.
Lemma few_sorted {V} (l l' : list (N * N * V)) : sorted_by_first l l' -> few l -> few l'.
Proof. intros [P _]. apply few_le. rewrite (Permutation_length P). apply le_n. Qed.
Lemma sorted_in {V} (l l' : list (N * N * V)) r : sorted_by_first l l' -> In r l' -> In r l.
Proof. intros [P _] H. exact (Permutation_in _ (Permutation_sym P) H). Qed.
Lemma max_fits x : x <= 0x10FFFF -> x < 2 ^ 32.
Proof. intros H. eapply N.le_lt_trans; [exact H|reflexivity]. Qed.
Lemma range_fits0 l p : st_ok l -> fits (r_first (range_of l p)) (r_last (range_of l p)).
Proof.
  intros [H _]. unfold fits, range_of, r_first, r_last. cbn [fst snd]. destruct (st_span l) as [c|a b]; cbn [span_ok span_first span_last] in *.
  - split; apply max_fits; exact H.
  - split; apply max_fits; lia.
Qed.
Lemma st_covers l : st_ok l -> covers (st_span l) (span_first (st_span l)).
Proof. intros [H _]. destruct (st_span l); cbn in *; lia. Qed.
Lemma has_gives f l : st_ok l -> has f l -> gives f (span_first (st_span l)) (st_prop l).
Proof. intros H K. exists l. split; [exact K|]. split; [exact (st_covers l H)|reflexivity]. Qed.
Lemma addto_some o rs l : addto o rs = Some l -> l = match o with Some x => x | None => [] end ++ rs.
Proof. destruct rs as [|r rs]; cbn [addto]; [intros ->; now rewrite app_nil_r|congruence]. Qed.
Lemma of_value_few k f : few (data f) -> few (of_value k f).
Proof. apply few_le. unfold of_value. generalize (data f). intros l. induction l as [|a l IH]; cbn [filter length]; [apply le_n|]. destruct (str_eqb k (st_prop a)); cbn [length]; lia. Qed.
Lemma grouped_sorted key lines : ssorted (load_grouped key lines).
Proof.
  unfold load_grouped. assert (G : forall lines st, ssorted (snd st) -> ssorted (snd (fold_left (load_grouped_line key) lines st))).
  { clear. induction lines as [|line lines IH]; intros [g m] H; [exact H|]. cbn [fold_left]. apply IH. cbn [snd] in H. unfold load_grouped_line.
    assert (P : ssorted (snd (match parse_standard_line line with Some (a, b, p) => (g, push g (a, b, first_word p) m) | None => (g, m) end))).
    { destruct (parse_standard_line line) as [[[a b] p]|]; [|exact H]. cbn [snd]. now apply push_sorted. }
    destruct (trim line) as [|c t]; [exact P|]. destruct (c =? ch_hash); [|exact P]. destruct (find_sub (key ++ [58]) line) as [pos|]; [|exact H].
    destruct line as [|c0 line]; [exact H|]. destruct (c0 =? ch_hash); [|exact H]. cbn [snd]. destruct (smap_get _ m); [exact H|]. now apply smap_set_sorted. }
  apply G. constructor.
Qed.
Lemma gc_sorted m lines cats l : load_gc m lines = Some (cats, l) -> ssorted cats.
Proof.
  unfold load_gc. destruct (smap_get (lit "General_Category") m) as [al|]; [|discriminate].
  assert (G : forall lines st, (forall c m l, st = Some (c, m, l) -> ssorted m) -> forall c m l, fold_left (load_gc_line al) lines st = Some (c, m, l) -> ssorted m).
  { clear. induction lines as [|line lines IH]; intros st H c m l E; [exact (H c m l E)|]. cbn [fold_left] in E. refine (IH _ _ c m l E). clear c m l E.
    intros c m l E. unfold load_gc_line in E. destruct st as [[[c0 m0] l0]|]; [|discriminate E]. specialize (H c0 m0 l0 eq_refl). cbv zeta in E.
    destruct (starts_with (lit "# General_Category=") line).
    - injection E as _ <- _. destruct (smap_get _ m0); [exact H|]. now apply smap_set_sorted.
    - destruct (parse_standard_line line) as [[[a b] p]|]; [|injection E as _ <- _; exact H]. destruct (smap_get (first_word p) al); [|discriminate E].
      injection E as _ <- _. now apply push_sorted. }
  destruct (fold_left (load_gc_line al) lines (Some ([], [], []))) as [[[c g] l']|] eqn:E; [|discriminate]. intros X. injection X as <- _.
  refine (G lines _ _ c g l' E). intros c1 m1 l1 X. injection X as _ <- _. constructor.
Qed.
(** the maps: [c] are the lists with their comments, [m] the map the loader leaves, before the lists are sorted *)
Lemma sorted_groups_in m m' name l : groups_sorted m m' -> In (name, l) m' -> exists l0, In (name, l0) m /\ sorted_by_first l0 l.
Proof.
  induction 1 as [|[k1 l1] [k2 l2] m m' [E P] _ IH]; intros H; [destruct H|]. cbn [fst snd] in E, P. destruct H as [H|H].
  - injection H as <- <-. exists l1. rewrite E. split; [left; reflexivity|exact P].
  - destruct (IH H) as (l0 & H1 & H2). exists l0. split; [right; exact H1|exact H2].
Qed.
Lemma range_fits_in rs (c : list crange) : (forall r, In r rs -> fits (r_first r) (r_last r)) -> sorted_by_first rs (map fst c) -> Forall (fun r => fits (c_first r) (c_last r)) c.
Proof. intros H S. apply Forall_forall. intros r Hr. apply H. apply (sorted_in rs (map fst c) (fst r) S). now apply in_map. Qed.
Lemma both_in {A} (P Q : A -> Prop) l : Forall P l -> Forall Q l -> Forall (fun x => P x /\ Q x) l.
Proof. intros H K. apply Forall_and; assumption. Qed.
Lemma map_fits_of m (us : list (str * list crange)) : groups_sorted m (map without_comments us) ->
  (forall name l, In (name, l) m -> identifier name /\ few l /\ forall r, In r l -> fits (r_first r) (r_last r)) ->
  Forall (fun e => Forall (fun r => com (snd r)) (snd e)) us -> Forall (map_fits com) us.
Proof.
  intros G H K. apply Forall_forall. intros e He. assert (X : In (fst e, map fst (snd e)) (map without_comments us)) by (apply (in_map without_comments) in He; exact He).
  destruct (sorted_groups_in _ _ _ _ G X) as (l0 & H0 & S). destruct (H _ _ H0) as (H1 & H2 & H3). split; [exact H1|]. split.
  - exact (few_unmap fst _ (few_sorted _ _ S H2)).
  - apply both_in; [exact (range_fits_in l0 (snd e) H3 S)|exact (proj1 (Forall_forall _ _) K e He)].
Qed.

Section Files.
Variables (crlf : bool) (F : ucd_files) (A : api_files) (u : ucd_src).
Hypothesis Hok : files_ok F.
Hypothesis HA : api_files_ok F A.
Hypothesis Hn : names_ok F A.
Hypothesis Hs : sizes_ok F A.
Hypothesis Hl : loaded_api crlf F A u.
Hypothesis Hc : comments_ok u.

Lemma few_of f : In f [f_scripts F; f_gc F; f_core F; f_emoji F; f_gcb F; f_eaw F; ap_sce A; ap_blocks A; ap_mirror A] -> few (data f).
Proof. intros H. destruct Hs as (K & _). exact (proj1 (Forall_forall _ _) K f H). Qed.
Ltac sz := apply few_of; cbn [In]; tauto.
Lemma value_lines f : In f [f_scripts F; f_gc F; f_isc F; f_age F; f_gcb F; f_wb F; f_eaw F; f_hst F] -> lines_ok word_line f.
Proof. intros H. destruct Hok as (_ & K & _). exact (proj1 (proj1 (Forall_forall _ _) K f H)). Qed.
Lemma core_lines : lines_ok core_line (f_core F). Proof. destruct Hok as (_ & _ & [H _] & _). exact H. Qed.
Lemma emoji_lines : lines_ok word_line (f_emoji F). Proof. destruct Hok as (_ & _ & _ & H & _). exact H. Qed.
Lemma comment_maps e : In e (u_core u ++ u_cats u ++ u_emoji u ++ u_breaks u) -> Forall (fun r => com (snd r)) (snd e).
Proof. intros H. destruct Hc as (K & _). exact (proj1 (Forall_forall _ _) K e H). Qed.
Lemma comment_lists r : In r (u_gcs u ++ u_scripts u ++ u_widths u) -> com (snd r).
Proof. intros H. destruct Hc as (_ & K & _). exact (proj1 (Forall_forall _ _) K r H). Qed.

Lemma core_fits : Forall (map_fits com) (u_core u).
Proof.
  destruct Hl as (_ & _ & G & _). refine (map_fits_of _ _ G _ _).
  - intros name l Hin. destruct (load_core_in crlf (f_core F) core_lines) as (So & _ & I & _).
    assert (Hr : forall r, In r l -> exists x, has (f_core F) x /\ word (st_prop x) /\ st_prop x = name /\ r = range_of x []).
    { intros r Hr. apply I. exists l. auto. }
    assert (Hfit : forall r, In r l -> fits (r_first r) (r_last r)).
    { intros r Hr'. destruct (Hr r Hr') as (x & Hx & _ & _ & ->). apply range_fits0. exact (proj1 (core_lines _ Hx)). }
    pose proof (core_keys (file_text st_text crlf (f_core F))) as K. pose proof (proj1 (Forall_forall _ _) K _ Hin) as Ne. cbn [snd] in Ne.
    destruct l as [|r0 l0]; [contradiction|]. destruct (Hr r0 (or_introl eq_refl)) as (x & Hx & Hw & E & _).
    split; [|split; [|exact Hfit]].
    + destruct Hn as (_ & N2 & _). apply (N2 (span_first (st_span x))); [|rewrite <- E; exact Hw]. rewrite <- E. apply has_gives; [exact (proj1 (core_lines _ Hx))|exact Hx].
    + apply (smap_in _ _ _ So) in Hin. rewrite load_core_get in Hin; [|exact core_lines|rewrite <- E; exact Hw]. apply addto_some in Hin. cbn [app] in Hin. rewrite Hin.
      apply few_map, of_value_few. sz.
  - apply Forall_forall. intros e He. apply comment_maps. apply in_or_app. left. exact He.
Qed.
Lemma emoji_fits : Forall (map_fits com) (u_emoji u).
Proof.
  destruct Hl as (_ & _ & _ & G & _). refine (map_fits_of _ _ G _ _).
  - intros name l Hin. destruct (load_emoji_in crlf (f_emoji F) emoji_lines) as (So & I).
    assert (Hr : forall r, In r l -> exists x, has (f_emoji F) x /\ st_prop x = name /\ r = range_of x name).
    { intros r Hr. apply I. exists l. auto. }
    assert (Hfit : forall r, In r l -> fits (r_first r) (r_last r)).
    { intros r Hr'. destruct (Hr r Hr') as (x & Hx & _ & ->). apply range_fits0. exact (proj1 (emoji_lines _ Hx)). }
    apply (smap_in _ _ _ So) in Hin. rewrite load_emoji_get in Hin by exact emoji_lines.
    assert (E : l = map (fun x => range_of x name) (of_value name (f_emoji F))) by (apply addto_some in Hin; cbn [app] in Hin; exact Hin).
    split; [|split; [rewrite E; apply few_map, of_value_few; sz|exact Hfit]].
    destruct (of_value name (f_emoji F)) as [|x r] eqn:Eo; [discriminate Hin|].
    assert (Hx : In x (of_value name (f_emoji F))) by (rewrite Eo; left; reflexivity). apply of_value_in in Hx as [Hx <-].
    destruct Hn as (_ & _ & N3 & _). apply (N3 (span_first (st_span x))). apply has_gives; [exact (proj1 (emoji_lines _ Hx))|exact Hx].
  - apply Forall_forall. intros e He. apply comment_maps. apply in_or_app; right; apply in_or_app; right; apply in_or_app; left. exact He.
Qed.
Lemma breaks_fits : Forall (fun e => identifier (fst e) /\ few (snd e) /\ Forall (fun r => range_fits (fst r) /\ com (snd r)) (snd e)) (u_breaks u).
Proof.
  destruct Hl as (_ & _ & _ & _ & _ & _ & G & _). destruct HA as (_ & _ & _ & _ & _ & (Sep & Ne & Gf) & _).
  assert (Hf : lines_ok word_line (f_gcb F)) by (apply value_lines; cbn [In]; tauto).
  apply Forall_forall. intros e He. assert (X : In (fst e, map fst (snd e)) (map without_comments (u_breaks u))) by (apply (in_map without_comments) in He; exact He).
  pose proof (in_get _ _ _ X) as X'.
  destruct (sorted_groups_in _ _ _ _ G X) as (l0 & H0 & S). destruct (load_grouped_keys crlf GCB (f_gcb F) _ Hf Gf H0) as [K1 K2]. cbn [fst snd] in K1, K2.
  assert (Hr : forall r, In r l0 -> exists x, has (f_gcb F) x /\ r = range_of x (st_prop x)).
  { intros r Hr. apply (load_grouped_in crlf (lit "Property") (f_gcb F) Hf r). unfold ungroup. apply in_concat. exists l0. split; [|exact Hr]. apply (in_map snd) in H0. exact H0. }
  split; [rewrite K1; ident|]. split.
  - apply (few_unmap fst). apply (few_sorted _ _ S). apply (smap_in _ _ _ (grouped_sorted _ _)) in H0. rewrite K1 in H0.
    change (lit "Property") with PROP in H0. rewrite (load_grouped_get crlf GCB (f_gcb F) Hf Gf Ne) in H0. injection H0 as <-. apply few_map. sz.
  - apply both_in.
    + apply Forall_forall. intros r Hr0. assert (Hin : In (fst r) l0) by (apply (sorted_in l0 _ _ S); now apply in_map). destruct (Hr _ Hin) as (x & Hx & E). split.
      * rewrite E. apply range_fits0. exact (proj1 (Hf _ Hx)).
      * rewrite E. unfold r_prop, range_of. cbn [snd]. destruct Hn as (_ & _ & _ & N4 & _). apply (N4 (span_first (st_span x))). apply has_gives; [exact (proj1 (Hf _ Hx))|exact Hx].
    + apply comment_maps. apply in_or_app; right; apply in_or_app; right; apply in_or_app; right. exact He.
Qed.
(** lists of lines *)
Lemma generic_fits f (us : list crange) : lines_ok word_line f -> few (data f) -> sorted_by_first (load_generic (file_text st_text crlf f)) (map fst us) ->
  few us /\ Forall (fun r => fits (c_first r) (c_last r)) us /\ forall r, In r us -> exists x, has f x /\ c_prop r = st_prop x.
Proof.
  intros Hf Hfew S. rewrite load_generic_data in S by exact Hf.
  assert (Hin : forall r, In r us -> exists x, has f x /\ fst r = range_of x (st_prop x)).
  { intros r Hr. apply (in_map fst) in Hr. apply (sorted_in _ _ _ S), in_map_iff in Hr as (x & E & Hx). exists x. split; [now apply data_in|congruence]. }
  split; [apply (few_unmap fst), (few_sorted _ _ S), few_map, Hfew|]. split.
  - apply Forall_forall. intros r Hr. destruct (Hin r Hr) as (x & Hx & E). unfold c_first, c_last. rewrite E. apply range_fits0. exact (proj1 (Hf _ Hx)).
  - intros r Hr. destruct (Hin r Hr) as (x & Hx & E). exists x. split; [exact Hx|]. unfold c_prop. rewrite E. reflexivity.
Qed.
Lemma scripts_fits : few (u_scripts u) /\ Forall (fun r => range_fits (fst r) /\ com (snd r)) (u_scripts u).
Proof.
  destruct Hl as (_ & _ & _ & _ & S & _). assert (Hf : lines_ok word_line (f_scripts F)) by (apply value_lines; cbn [In]; tauto).
  destruct (generic_fits (f_scripts F) (u_scripts u) Hf ltac:(sz) S) as (H1 & H2 & H3). split; [exact H1|]. apply Forall_forall. intros r Hr. split; [split|].
  - exact (proj1 (Forall_forall _ _) H2 r Hr).
  - destruct (H3 r Hr) as (x & Hx & E). change (r_prop (fst r)) with (c_prop r). rewrite E. destruct Hn as (N1 & _). apply (N1 (span_first (st_span x))). apply has_gives; [exact (proj1 (Hf _ Hx))|exact Hx].
  - apply comment_lists. apply in_or_app; right; apply in_or_app; left. exact Hr.
Qed.
Lemma widths_fits : few (u_widths u) /\ Forall (fun r => fits (c_first r) (c_last r) /\ com (snd r)) (u_widths u).
Proof.
  destruct Hl as (_ & _ & _ & _ & _ & S & _). assert (Hf : lines_ok word_line (f_eaw F)) by (apply value_lines; cbn [In]; tauto).
  destruct (generic_fits (f_eaw F) (u_widths u) Hf ltac:(sz) S) as (H1 & H2 & H3). split; [exact H1|]. apply Forall_forall. intros r Hr. split.
  - exact (proj1 (Forall_forall _ _) H2 r Hr).
  - apply comment_lists. apply in_or_app; right; apply in_or_app; right. exact Hr.
Qed.

(** aliases *)
Lemma alias_list prop al : prop <> lit "Block" -> smap_get prop (u_pva u) = Some al -> ssorted al /\ forall a v, In (a, v) al <-> alias (f_pva F) prop a v.
Proof.
  intros Hp E. destruct Hl as (Ep & _). rewrite Ep in E. destruct Hok as (Hpva & _). destruct (load_pva_in crlf (f_pre F) (f_pva F) prop Hpva Hp) as [H1 H2].
  rewrite E in H1, H2. auto.
Qed.
Lemma alias_ident prop a v : In prop [GC; SC; AGE] -> alias (f_pva F) prop a v -> identifier v.
Proof. destruct Hn as (_ & _ & _ & _ & N5 & _). apply N5. Qed.
Lemma script_aliases al : smap_get (lit "Script") (u_pva u) = Some al -> Forall (fun e => identifier (snd e)) al.
Proof.
  intros E. destruct (alias_list (lit "Script") al ltac:(discriminate) E) as [_ H]. apply Forall_forall. intros [a v] Hin. cbn [snd]. apply H in Hin.
  apply (alias_ident SC a v); [cbn [In]; tauto|exact Hin].
Qed.
Lemma age_fits al : smap_get (lit "Age") (u_pva u) = Some al ->
  few al /\ Forall (fun e => Forall (fun c => c <> 34 /\ c <> 10 /\ c <> 92) (fst e) /\ identifier (snd e)) al.
Proof.
  intros E. destruct (alias_list (lit "Age") al ltac:(discriminate) E) as [So H]. split.
  - destruct Hs as (_ & _ & _ & K). apply K; [intros a v Hin; apply H; exact Hin|now apply sorted_keys].
  - apply Forall_forall. intros [a v] Hin. cbn [fst snd]. apply H in Hin. split.
    + destruct Hn as (_ & _ & _ & _ & _ & _ & _ & N8). exact (N8 a v Hin).
    + apply (alias_ident AGE a v); [cbn [In]; tauto|exact Hin].
Qed.

(** general categories *)
Lemma gc_lines : lines_ok word_line (f_gc F). Proof. apply value_lines. cbn [In]. tauto. Qed.
Lemma gc_loaded : exists al cats, smap_get GC (u_pva u) = Some al /\ (forall a v, smap_get a al = Some v <-> alias (f_pva F) GC a v) /\
  (forall x, has (f_gc F) x -> exists v, smap_get (st_prop x) al = Some v) /\
  load_gc (u_pva u) (file_text st_text crlf (f_gc F)) = Some (cats, map (valued_range al) (data (f_gc F))) /\ forall k, smap_get k cats = addto None (sec_ranges al k (ap_secs A)).
Proof.
  destruct HA as ((Ef & Ne & Gs & _) & _). destruct Hok as (Hpva & _). destruct Hl as (Ep & _).
  destruct (gc_aliases crlf (f_pre F) (f_pva F) (ap_pre A) (ap_secs A) Hpva Ne Gs) as (al & Hm & Hget & Hcov).
  pose proof gc_lines as Hf. rewrite Ef in Hf. destruct Gs as (Hpre & Hh & Hnd & Hsec).
  destruct (load_gc_get crlf al _ (ap_pre A) (ap_secs A) Hm Hf Hpre Hh (fun s Hin => match Hsec s Hin with conj a (conj b (conj _ (conj d _))) => conj a (conj b d) end) Hcov) as (cats & E & Hc').
  exists al, cats. rewrite Ep, Ef. auto.
Qed.
Lemma gcs_fits : few (u_gcs u) /\ Forall (fun r => range_fits (fst r) /\ com (snd r)) (u_gcs u).
Proof.
  destruct gc_loaded as (al & cats & Hm & Hget & Hcov & E & _). destruct Hl as (_ & (l & E' & S) & _). rewrite E in E'. injection E' as _ <-.
  split; [apply (few_unmap fst), (few_sorted _ _ S), few_map; sz|]. apply Forall_forall. intros r Hr. split.
  - apply (in_map fst) in Hr. apply (sorted_in _ _ _ S), in_map_iff in Hr as (x & Ex & Hx). rewrite <- Ex. apply data_in in Hx. split; [apply range_fits0; exact (proj1 (gc_lines _ Hx))|].
    destruct (Hcov x Hx) as [v Hv]. unfold valued_range. rewrite Hv. unfold r_prop, range_of. cbn [snd]. apply (alias_ident GC (st_prop x) v); [cbn [In]; tauto|now apply Hget].
  - apply comment_lists. apply in_or_app. left. exact Hr.
Qed.
Lemma sec_ranges_in al k secs r : In r (sec_ranges al k secs) -> exists s x, In s secs /\ gs_name s = k /\ has (gs_body s) x /\ r = valued_range al x.
Proof.
  unfold sec_ranges. intros H. apply in_flat_map in H as (s & Hin & H). destruct (str_eqb_spec k (gs_name s)) as [->|]; [|destruct H].
  apply in_map_iff in H as (x & <- & Hx). exists s, x. rewrite data_in. auto.
Qed.
Lemma sec_ranges_len al k : forall secs, (length (sec_ranges al k secs) <= length (data (gc_file [] secs)))%nat.
Proof.
  unfold sec_ranges, gc_file. cbn [app]. induction secs as [|s secs IH]; [apply le_n|]. cbn [flat_map]. rewrite data_app, data_cons, !app_length. cbn [app length].
  destruct (str_eqb k (gs_name s)); [rewrite map_length; lia|cbn [length]; lia].
Qed.
Lemma cats_fits : Forall (map_fits com) (u_cats u).
Proof.
  destruct gc_loaded as (al & cats & Hm & Hget & Hcov & E & Hk). destruct Hl as (_ & (l & E' & _) & _). rewrite E in E'. injection E' as Ec _.
  pose proof (gc_sorted _ _ _ _ E) as So. destruct HA as ((Ef & Ne & (Hpre & Hh & Hnd & Hsec) & _) & _).
  apply Forall_forall. intros e He. assert (X : In (fst e, map fst (snd e)) cats) by (rewrite Ec; apply (in_map without_comments) in He; exact He).
  apply (smap_in _ _ _ So) in X. rewrite Hk in X.
  assert (X' : map fst (snd e) = sec_ranges al (fst e) (ap_secs A)) by (apply addto_some in X; exact X).
  assert (Hr : forall r, In r (snd e) -> exists s x, In s (ap_secs A) /\ gs_name s = fst e /\ has (gs_body s) x /\ fst r = valued_range al x).
  { intros r Hr. apply (in_map fst) in Hr. rewrite X' in Hr. exact (sec_ranges_in _ _ _ _ Hr). }
  assert (Hst : forall s x, In s (ap_secs A) -> has (gs_body s) x -> has (f_gc F) x).
  { intros s x Hin Hx. rewrite Ef. unfold has, gc_file. apply in_app_iff. right. apply in_flat_map. exists s. split; [exact Hin|right; exact Hx]. }
  split; [|split].
  - destruct (sec_ranges al (fst e) (ap_secs A)) as [|r0 rs] eqn:Er; [discriminate X|].
    assert (Hr0 : In r0 (sec_ranges al (fst e) (ap_secs A))) by (rewrite Er; left; reflexivity).
    destruct (sec_ranges_in _ _ _ _ Hr0) as (s & x & Hin & <- & Hx & _). destruct (Hsec s Hin) as (_ & _ & _ & _ & Ha). apply (alias_ident GC (st_prop x)); [cbn [In]; tauto|exact (Ha x Hx)].
  - apply (few_unmap fst). rewrite X'. apply (few_le _ (data (f_gc F))); [|sz]. rewrite Ef. unfold gc_file. rewrite data_app, app_length.
    pose proof (sec_ranges_len al (fst e) (ap_secs A)) as L. unfold gc_file in L. cbn [app] in L. lia.
  - apply both_in.
    + apply Forall_forall. intros r Hr0. destruct (Hr r Hr0) as (s & x & Hin & _ & Hx & Ex). unfold c_first, c_last. rewrite Ex. apply range_fits0. exact (proj1 (gc_lines _ (Hst s x Hin Hx))).
    + apply comment_maps. apply in_or_app; right; apply in_or_app; left. exact He.
Qed.

(** blocks, script extensions, mirrored code points *)
Lemma blocks_fits : few (u_blocks u) /\ Forall (fun r => fits (r_first r) (r_last r) /\ identifier (sanitize (r_prop r))) (u_blocks u).
Proof.
  destruct Hl as (_ & _ & _ & _ & _ & _ & _ & _ & -> & _). destruct HA as (_ & _ & _ & _ & _ & _ & _ & (Hf & _ & _) & _).
  rewrite load_blocks_data by exact Hf. split.
  - apply few_map. apply (few_le _ (data (ap_blocks A))); [|sz]. generalize (data (ap_blocks A)). intros l. induction l as [|a l IH]; cbn [filter length]; [apply le_n|]. destruct (spanb a); cbn [length]; lia.
  - apply Forall_forall. intros r Hr. apply in_map_iff in Hr as (x & <- & Hx). apply filter_In in Hx as [Hx Sp]. apply data_in in Hx. split; [apply range_fits0; exact (Hf _ Hx)|].
    unfold r_prop, range_of. cbn [snd]. destruct Hn as (_ & _ & _ & _ & _ & _ & N7 & _). apply (N7 x Hx). unfold spanb in Sp. unfold is_span. destruct (st_span x); [discriminate Sp|exact I].
Qed.
Lemma sces_fits : few (u_sces u) /\
  Forall (fun r => fits (fst (fst (fst r))) (snd (fst (fst r))) /\ few (snd (fst r)) /\ Forall identifier (snd (fst r)) /\ com (snd r)) (u_sces u).
Proof.
  destruct Hl as (_ & _ & _ & _ & _ & _ & _ & S & _). destruct HA as (_ & _ & _ & _ & _ & _ & (Hf & _ & _ & _) & _).
  rewrite load_sce_data in S by exact Hf. split; [apply (few_unmap fst), (few_sorted _ _ S), few_map; sz|].
  apply Forall_forall. intros r Hr. pose proof Hr as Hr0. apply (in_map fst) in Hr. apply (sorted_in _ _ _ S), in_map_iff in Hr as (x & Ex & Hx). apply data_in in Hx.
  destruct (Hf _ Hx) as [ws Hws]. rewrite <- Ex. cbn [fst snd]. rewrite (sce_tokens _ _ Hws).
  assert (Hli : lists (ap_sce A) (span_first (st_span x)) ws).
  { exists x. split; [exact Hx|]. split; [|exact Hws]. apply st_covers, Hws. }
  split; [|split; [|split]].
  - apply (range_fits0 x []). apply Hws.
  - destruct Hs as (_ & _ & K & _). apply (few_le _ ws); [|exact (K _ _ Hli)]. rewrite (Permutation_length (ssort_perm ws)). apply le_n.
  - destruct Hn as (_ & _ & _ & _ & _ & N6 & _). eapply Permutation_Forall; [|exact (N6 _ _ Hli)]. apply Permutation_sym, ssort_perm.
  - destruct Hc as (_ & _ & K). exact (proj1 (Forall_forall _ _) K r Hr0).
Qed.
Lemma compress_len : forall l last, (length (compress last l) <= length l + match last with Some _ => 1 | None => 0 end)%nat.
Proof.
  induction l as [|x l IH]; intros [[a b]|]; cbn [compress length]; try lia.
  - destruct (_ =? x); [pose proof (IH (Some (a, x))); cbv beta iota in *; lia|]. cbn [length]. pose proof (IH (Some (x, x))). cbv beta iota in *. lia.
  - pose proof (IH (Some (x, x))). cbv beta iota in *. lia.
Qed.
Lemma mirrored_fits : few (u_mirrored u) /\ Forall (fun e => fits (fst e) (snd e)) (u_mirrored u).
Proof.
  destruct Hl as (_ & _ & _ & _ & _ & _ & _ & _ & _ & -> & _). destruct HA as (_ & _ & _ & _ & _ & _ & _ & _ & (Hf & Hone & x0 & Hx0) & _).
  set (f := ap_ud A) in *. rewrite load_mirrored_data by exact Hf.
  assert (Hin : forall x, In x (mirrored_cps f) <-> mirrored f x).
  { intros x. unfold mirrored_cps. rewrite in_flat_map. split.
    - intros (l & Hu & Hx). destruct (str_eqb_spec (ul_f9 l) (lit "Y")) as [E|_]; [|destruct Hx]. destruct Hx as [<-|[]]. exists l. rewrite data_in. auto.
    - intros (l & Hu & <- & E). exists l. split; [now apply data_in|]. rewrite E, str_eqb_refl. left. reflexivity. }
  assert (Hnd : NoDup (mirrored_cps f)).
  { unfold one_line_each in Hone. unfold mirrored_cps. induction (data f) as [|l ls IH]; cbn [flat_map map] in *; [constructor|]. inversion_clear Hone as [|? ? N1 N2].
    destruct (str_eqb (ul_f9 l) (lit "Y")); cbn [app]; [|apply IH; exact N2]. constructor; [|apply IH; exact N2].
    intros H. apply N1. apply in_flat_map in H as (w & Hw & Hx). destruct (str_eqb (ul_f9 w) (lit "Y")); [|destruct Hx]. destruct Hx as [<-|[]]. now apply in_map. }
  assert (Hb : Forall (fun x => x <= 0x10FFFF) (nsort (mirrored_cps f))).
  { eapply Permutation_Forall; [symmetry; apply nsort_perm|]. apply Forall_forall. intros x Hx. apply Hin in Hx as (l & Hu & <- & _). apply (Hf _ Hu). }
  assert (Hss : StronglySorted N.lt (nsort (mirrored_cps f))).
  { apply sorted_nodup; [apply nsort_sorted|]. eapply Permutation_NoDup; [symmetry; apply nsort_perm|exact Hnd]. }
  assert (Hne : nsort (mirrored_cps f) <> []).
  { apply Hin in Hx0. intros E. pose proof (Permutation_in _ (Permutation_sym (nsort_perm (mirrored_cps f))) Hx0) as G. rewrite E in G. destruct G. }
  destruct (compress_none _ Hne Hss Hb) as (_ & [_ M2] & M3 & _). split.
  - destruct Hs as (_ & K & _). apply (few_le _ (data f)); [|exact K]. pose proof (compress_len (nsort (mirrored_cps f)) None) as L.
    rewrite (Permutation_length (nsort_perm _)) in L. cbv beta iota in L.
    assert (L' : (length (mirrored_cps f) <= length (data f))%nat).
    { unfold mirrored_cps. generalize (data f). intros l. induction l as [|y l IH]; cbn [flat_map length]; [apply le_n|]. rewrite app_length. destruct (str_eqb (ul_f9 y) (lit "Y")); cbn [length]; lia. }
    lia.
  - apply Forall_forall. intros e He. pose proof (proj1 (Forall_forall _ _) M2 e He) as X. pose proof (proj1 (Forall_forall _ _) M3 e He) as Y. cbv beta in X, Y.
    split; apply max_fits; lia.
Qed.
Lemma glyphs_fits : few (u_glyphs u) /\ Forall (fun e => fits (fst e) (snd e)) (u_glyphs u).
Proof.
  destruct Hl as (_ & _ & _ & _ & _ & _ & _ & _ & _ & _ & ->). destruct HA as (_ & _ & _ & _ & _ & _ & _ & _ & _ & (Hf & _) & _).
  rewrite load_mirroring_data by exact Hf. split.
  - eapply few_le; [|apply few_of; cbn [In]; do 8 right; left; reflexivity]. rewrite (Permutation_length (psort_perm _)), map_length. apply le_n.
  - apply Forall_forall. intros e He. apply (Permutation_in _ (psort_perm _)), in_map_iff in He as (x & <- & Hx). apply data_in in Hx. cbn [fst snd].
    destruct (Hf _ Hx) as (c & t & [Hsp _] & E1 & Ht & E2). rewrite E1 in *. cbn [span_ok span_first] in *. rewrite E2, parse_hexs0 by exact Ht. split; apply max_fits; assumption.
Qed.
Lemma files_fit : src_fits (fun c => one_line c /\ no_end c) u.
Proof.
  split; [exact core_fits|]. split; [exact cats_fits|]. split; [exact emoji_fits|]. split; [exact gcs_fits|]. split; [exact scripts_fits|]. split; [exact sces_fits|].
  split; [exact script_aliases|]. split; [exact blocks_fits|]. split; [exact breaks_fits|]. split; [exact widths_fits|]. split; [exact mirrored_fits|]. split; [exact glyphs_fits|]. exact age_fits.
Qed.
End Files.
