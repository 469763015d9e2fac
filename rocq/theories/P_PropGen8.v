(** Proofs about the property table generator, part 8: the records generated for the files of a database. *)
From Coq Require Import Ascii String Permutation Sorted.
From Verif Require Import Base M_TableGen M_PropGen Spec_TableGen Spec_PropGen P_TableGen P_TableGen2 P_TableGen3 P_TableGen8
  P_PropGen P_PropGen2 P_PropGen3 P_PropGen4 P_PropGen5 P_PropGen6 P_PropGen7.
Open Scope N_scope.

(** ** Flags *)
Lemma flag_bit fl k : flag_set fl (2 ^ k) = N.testbit fl k.
Proof.
  unfold flag_set. destruct (N.eqb_spec (N.land fl (2 ^ k)) 0) as [E|E]; cbn [negb].
  - destruct (N.testbit fl k) eqn:T; [|reflexivity]. exfalso.
    assert (H : N.testbit (N.land fl (2 ^ k)) k = true) by (rewrite N.land_spec, T, N.pow2_bits_true; reflexivity). rewrite E, N.bits_0 in H. discriminate.
  - destruct (N.testbit fl k) eqn:T; [reflexivity|]. exfalso. apply E. apply N.bits_inj. intros j. rewrite N.land_spec, N.bits_0.
    destruct (N.eqb_spec k j) as [->|N]; [rewrite T; reflexivity|]. rewrite N.pow2_bits_false by exact N. apply andb_false_r.
Qed.
Lemma or_all_bit f rs t x k : N.testbit (or_all f rs t x) k = N.testbit (t x) k || (N.testbit f k && covered rs x).
Proof. rewrite or_all_spec. destruct (covered rs x); [rewrite N.lor_spec, andb_true_r; reflexivity|now rewrite andb_false_r, orb_false_r]. Qed.
Lemma emoji_bits x k : forall m t,
  N.testbit (fold_left (fun t (g : str * list prange) => match emoji_flag (fst g) with Some f => or_all f (snd g) t | None => t end) m t x) k = true <->
  N.testbit (t x) k = true \/ exists (g : str) r f, gin g r m /\ inside r x /\ emoji_flag g = Some f /\ N.testbit f k = true.
Proof.
  induction m as [|[g l] m IH]; intros t; cbn [fold_left fst snd].
  - split; [auto|]. intros [H|(g & r & f & (l & [] & _) & _)]. exact H.
  - rewrite IH. assert (A : N.testbit ((match emoji_flag g with Some f => or_all f l t | None => t end) x) k = true <->
      N.testbit (t x) k = true \/ exists r f, In r l /\ inside r x /\ emoji_flag g = Some f /\ N.testbit f k = true).
    { destruct (emoji_flag g) as [f|].
      - rewrite or_all_bit, orb_true_iff, andb_true_iff, covered_in. split.
        + intros [H|[H [r [Hr Hi]]]]; [auto|]. right. exists r, f. auto.
        + intros [H|(r & f' & Hr & Hi & Ef & Hk)]; [auto|]. injection Ef as <-. right. split; [exact Hk|eauto].
      - split; [auto|]. intros [H|(r & f' & Hr & Hi & Ef & Hk)]; [auto|discriminate]. }
    rewrite A. split.
    + intros [[H|(r & f & Hr & H)]|(g' & r & f & (l' & Hl & Hr) & H)]; [auto| |].
      * right. exists g, r, f. split; [exists l; split; [left; reflexivity|exact Hr]|exact H].
      * right. exists g', r, f. split; [exists l'; split; [right; exact Hl|exact Hr]|exact H].
    + intros [H|(g' & r & f & (l' & [E|Hl] & Hr) & H)]; [auto| |].
      * injection E as -> ->. left. right. exists r, f. auto.
      * right. exists g', r, f. split; [exists l'; auto|exact H].
Qed.
Lemma emoji_flag_bit (g : str) f : emoji_flag g = Some f -> forall k, N.testbit f k = true ->
  In (g, k) [(lit "Emoji", 0); (lit "Emoji_Presentation", 1); (lit "Emoji_Component", 2); (lit "Emoji_Modifier", 3);
             (lit "Emoji_Modifier_Base", 4); (lit "Extended_Pictographic", 5)].
Proof.
  unfold emoji_flag. intros H k Hk.
  assert (G : forall n, f = 2 ^ n -> k = n). { intros n ->. destruct (N.eq_dec n k); [congruence|]. rewrite N.pow2_bits_false in Hk by assumption. discriminate. }
  repeat match type of H with (if str_eqb g ?s then _ else _) = _ => destruct (str_eqb_spec g s) as [->|];
    [injection H as <-; first [rewrite (G 0 eq_refl)|rewrite (G 1 eq_refl)|rewrite (G 2 eq_refl)|rewrite (G 3 eq_refl)|rewrite (G 4 eq_refl)|rewrite (G 5 eq_refl)]; cbn [In]; tauto|] end.
  discriminate.
Qed.
Lemma emoji_flag_of (g : str) k : In (g, k) [(lit "Emoji", 0); (lit "Emoji_Presentation", 1); (lit "Emoji_Component", 2); (lit "Emoji_Modifier", 3);
             (lit "Emoji_Modifier_Base", 4); (lit "Extended_Pictographic", 5)] -> emoji_flag g = Some (2 ^ k).
Proof. intros H. cbn [In] in H. repeat (destruct H as [H|H]; [injection H as <- <-; reflexivity|]). destruct H. Qed.

Lemma emoji_names_unique (a b : str) k :
  let L := [(lit "Emoji", 0); (lit "Emoji_Presentation", 1); (lit "Emoji_Component", 2); (lit "Emoji_Modifier", 3);
             (lit "Emoji_Modifier_Base", 4); (lit "Extended_Pictographic", 5)] in In (a, k) L -> In (b, k) L -> a = b.
Proof.
  cbn [In]. intros H H'. destruct H as [H|[H|[H|[H|[H|[H|[]]]]]]]; injection H as <- <-;
    destruct H' as [H'|[H'|[H'|[H'|[H'|[H'|[]]]]]]]; first [discriminate H' | injection H' as <-; reflexivity].
Qed.

(** ** The loaded data *)
Section Db.
Variables (crlf : bool) (F : ucd_files) (d : pdata).
Hypothesis Hok : files_ok F.
Hypothesis Hp : parsed crlf F d.
Lemma ok_pva : pva_ok (f_pva F). Proof. apply Hok. Qed.
Lemma ok_file f : In f [f_scripts F; f_gc F; f_isc F; f_age F; f_gcb F; f_wb F; f_eaw F; f_hst F] -> value_file f.
Proof. destruct Hok as (_ & H & _). rewrite Forall_forall in H. apply H. Qed.
Lemma al_of (key : string) : lit key <> lit "Block" -> ssorted (find_pva (pd_pva d) key) /\ forall a v, In (a, v) (find_pva (pd_pva d) key) <-> alias (f_pva F) (lit key) a v.
Proof. intros H. destruct Hp as (E & _). rewrite E. apply (load_pva_in crlf (f_pre F) (f_pva F) (lit key) ok_pva H). Qed.
Lemma reads_generic rs f : Permutation rs (load_generic (file_text st_text crlf f)) -> value_file f -> reads rs f.
Proof. intros P [Hf _]. apply (reads_perm _ _ _ P). intros r. now apply load_generic_in. Qed.
Lemma reads_grouped m key f : reordered (load_grouped key (file_text st_text crlf f)) m -> value_file f -> reads (ungroup m) f.
Proof. intros P [Hf _] r. rewrite (reordered_ungroup _ _ r P). now apply load_grouped_in. Qed.
Ltac parts := destruct Hp as (Hpva & Hsc & Hgc & Hco & Hin & His & Hev & Hag & Hgb & Hwb & Hea & Hem & Hhs).
Lemma r_scripts : reads (pd_scripts d) (f_scripts F). Proof. parts. apply reads_generic; [exact Hsc|apply ok_file; cbn; tauto]. Qed.
Lemma r_isc : reads (pd_isc d) (f_isc F). Proof. parts. apply reads_generic; [exact His|apply ok_file; cbn; tauto]. Qed.
Lemma r_age : reads (pd_age d) (f_age F). Proof. parts. apply reads_generic; [exact Hag|apply ok_file; cbn; tauto]. Qed.
Lemma r_eaw : reads (pd_eaw d) (f_eaw F). Proof. parts. apply reads_generic; [exact Hea|apply ok_file; cbn; tauto]. Qed.
Lemma r_hst : reads (pd_hst d) (f_hst F). Proof. parts. apply reads_generic; [exact Hhs|apply ok_file; cbn; tauto]. Qed.
Lemma r_gcb : reads (ungroup (pd_gcb d)) (f_gcb F). Proof. parts. eapply reads_grouped; [exact Hgb|apply ok_file; cbn; tauto]. Qed.
Lemma r_wb : reads (ungroup (pd_wb d)) (f_wb F). Proof. parts. eapply reads_grouped; [exact Hwb|apply ok_file; cbn; tauto]. Qed.
Lemma single_of f : In f [f_scripts F; f_gc F; f_isc F; f_age F; f_gcb F; f_wb F; f_eaw F; f_hst F] -> single f.
Proof. intros H. apply (ok_file f H). Qed.

(** ** Script *)
Lemma few_of rs f : reads rs f -> lines_ok word_line f -> few_values_in f -> few_props 253 rs.
Proof.
  intros Hr Hf (l & Hl & Hw). exists l. split; [exact Hl|]. intros r H. destruct (reads_word rs f Hf Hr r H) as (c & Hg & _). exact (Hw c _ Hg).
Qed.
Lemma few_scripts : few_props 253 (pd_scripts d).
Proof. apply (few_of _ (f_scripts F)); [exact r_scripts|apply ok_file; cbn; tauto|apply Hok]. Qed.
Lemma script_field x dn : let v := name_at (script_names (pd_scripts d)) (rec_script d x) dn in
  gives (f_scripts F) x v \/ ((forall w, ~ gives (f_scripts F) x w) /\ v = lit "Unknown").
Proof.
  intros v. subst v. destruct (script_index_names _ few_scripts) as [Htot Hname]. unfold rec_script. cbv zeta.
  destruct (fill_spec (script_index (pd_scripts d)) (pd_scripts d) (fun _ => get_or (script_index (pd_scripts d)) "Unknown" 1) x) as [(r & i & Hr & Hi & Hs & ->)|[Hno ->]].
  - left. rewrite (Hname _ _ dn Hs). apply (reads_gives _ _ r_scripts). eauto.
  - right. split.
    + intros w Hw. apply (reads_gives _ _ r_scripts) in Hw as (r & Hr & Hi & <-). destruct (Htot (r_prop r)) as [i E]; [right; now apply in_map|].
      exact (Hno r i Hr Hi E).
    + destruct (Htot (lit "Unknown") (or_introl eq_refl)) as [i E]. unfold get_or. rewrite E. exact (Hname _ _ dn E).
Qed.

(** ** General_Category *)
Definition gcv (x : N) (v : str) : Prop := exists a, gives (f_gc F) x a /\ alias (f_pva F) GC a v.
Lemma alias_unique prop a v v' : prop <> lit "Block" -> alias (f_pva F) prop a v -> alias (f_pva F) prop a v' -> v = v'.
Proof. destruct ok_pva as (_ & _ & H). apply H. Qed.
Lemma gcv_unique x v v' : gcv x v -> gcv x v' -> v = v'.
Proof.
  intros (a & Ha & Av) (a' & Ha' & Av'). assert (E : a = a') by (apply (single_of (f_gc F)) with (c := x); [cbn; tauto|exact Ha|exact Ha']).
  subst a'. apply (alias_unique GC a); [discriminate|exact Av|exact Av'].
Qed.
Lemma al_get (key : string) a v : lit key <> lit "Block" -> (smap_get a (find_pva (pd_pva d) key) = Some v <-> alias (f_pva F) (lit key) a v).
Proof. intros H. destruct (al_of key H) as [Hs Hal]. rewrite <- Hal. symmetry. apply (smap_in _ a v Hs). Qed.
Lemma gc_ranges : True -> forall r, In r (pd_gc d) <-> exists l v, has (f_gc F) l /\ alias (f_pva F) GC (st_prop l) v /\ r = range_of l v.
Proof.
  intros _ r. pose proof (al_get "General_Category") as AG. parts. destruct Hgc as (m & l & E & P). unfold load_gc in E.
  unfold find_pva in AG. change (lit "General_Category") with GC in *. destruct (smap_get GC (pd_pva d)) as [al|]; [|discriminate].
  specialize (fun a v => AG a v ltac:(discriminate)).
  destruct (load_gc_lines crlf al (f_gc F) (proj1 (ok_file (f_gc F) ltac:(cbn; tauto))) (Some ([], [], []))) as (cat & m' & rl & E' & Hrl); [|discriminate|].
  { intros l' Hl. destruct Hok as (_ & _ & _ & _ & _ & _ & _ & Hg & _). destruct (ok_file (f_gc F)) as [Hf _]; [cbn; tauto|].
    destruct (Hg (span_first (st_span l')) (st_prop l')) as [v Hv].
    { exists l'. split; [exact Hl|]. split; [|reflexivity]. destruct (Hf _ Hl) as [[Hs _] _]. destruct (st_span l'); cbn in *; lia. }
    exists v. apply AG. exact Hv. }
  unfold gc_state in E'. rewrite E' in E. injection E as <- <-. split.
  - intros H. apply (Permutation_in _ P) in H. apply Hrl in H as [[]|(l' & v & A & B & C)]. exists l', v. split; [exact A|]. split; [now apply AG|exact C].
  - intros (l' & v & A & B & C). apply (Permutation_in _ (Permutation_sym P)). apply Hrl. right. exists l', v. split; [exact A|]. split; [now apply AG|exact C].
Qed.
Lemma gc_has x v : (exists r, In r (pd_gc d) /\ inside r x /\ r_prop r = v) <-> gcv x v.
Proof.
  split.
  - intros (r & Hr & Hi & <-). apply (gc_ranges I) in Hr as (l & u & Hl & Ha & ->). exists (st_prop l). split; [|exact Ha].
    exists l. split; [exact Hl|]. split; [now apply inside_covers in Hi|reflexivity].
  - intros (a & (l & Hl & Hc & <-) & Ha). exists (range_of l v). split; [apply (gc_ranges I); eauto|]. split; [now apply inside_covers|reflexivity].
Qed.
Lemma gc_prop r : In r (pd_gc d) -> exists c, gcv c (r_prop r).
Proof.
  intros Hr. pose proof Hr as Hr'. apply (gc_ranges I) in Hr as (l & v & Hl & Ha & ->). exists (span_first (st_span l)).
  apply gc_has. exists (range_of l v). split; [exact Hr'|]. split; [|reflexivity]. apply inside_covers.
  destruct (ok_file (f_gc F)) as [Hf _]; [cbn; tauto|]. destruct (Hf _ Hl) as [[Hs _] _]. destruct (st_span l); cbn in *; lia.
Qed.
Lemma few_gc : few_props 253 (pd_gc d).
Proof.
  assert (H : few_values_in (f_gc F)) by apply Hok. destruct H as (l & Hl & Hin).
  exists (map (fun a => match smap_get a (find_pva (pd_pva d) "General_Category") with Some v => v | None => [] end) l). split; [now rewrite map_length|].
  intros r Hr. destruct (gc_prop r Hr) as (c & a & Hg & Ha). apply in_map_iff. exists a. split; [|exact (Hin _ _ Hg)].
  apply (al_get "General_Category") in Ha; [|discriminate]. now rewrite Ha.
Qed.
Lemma gc_field x dn : gc_value F x (name_at (gc_names (pd_gc d)) (rec_gc d x) dn).
Proof.
  destruct (gc_index_names _ few_gc) as (Htot & Hwho & Hname). unfold rec_gc. cbv zeta.
  destruct (fill_spec (gc_index (pd_gc d)) (pd_gc d) (fun _ => get_or (gc_index (pd_gc d)) "Unassigned" 0) x) as [(r & i & Hr & Hi & Hs & ->)|[Hno ->]].
  - left. rewrite (Hname _ _ dn Hs). apply gc_has. eauto.
  - right. assert (Hn : forall a, ~ gives (f_gc F) x a).
    { intros a Ha. assert (He : exists v, alias (f_pva F) GC a v) by (destruct Hok as (_ & _ & _ & _ & _ & _ & _ & Hg & _); exact (Hg x a Ha)).
      destruct He as [v Hv]. assert (G : gcv x v) by (exists a; auto). apply gc_has in G as (r & Hr & Hi & <-).
      destruct (Htot (r_prop r)) as [i E]; [now apply in_map|]. exact (Hno r i Hr Hi E). }
    unfold get_or. destruct (smap_get (lit "Unassigned") (gc_index (pd_gc d))) as [i|] eqn:E.
    + left. split; [exact Hn|]. rewrite (Hname _ _ dn E). split; [reflexivity|]. destruct (Hwho _ _ E) as [H|H]; [discriminate H|].
      apply in_map_iff in H as (r & Er & Hr). destruct (gc_prop r Hr) as (c & a & G). rewrite Er in G. exists c, a. exact G.
    + right. split; [exact Hn|]. split; [reflexivity|]. intros (c & a & Hg & Ha). assert (G : gcv c (lit "Unassigned")) by (exists a; auto).
      apply gc_has in G as (r & Hr & _ & Er). destruct (Htot (lit "Unassigned")) as [i E']; [apply in_map_iff; eauto|congruence].
Qed.
Lemma gc_is x (n : string) j : smap_get (lit n) (gc_index (pd_gc d)) = Some j -> lit n <> lit "Unspecified" -> lit n <> lit "Unassigned" ->
  (rec_gc d x =? j) = true <-> gcv x (lit n).
Proof.
  intros Hj N1 N2. destruct (gc_index_names _ few_gc) as (Htot & Hwho & Hname). rewrite N.eqb_eq. split.
  - intros E. pose proof (gc_field x EmptyString) as G. rewrite E, (Hname _ _ EmptyString Hj) in G. destruct G as [G|[(_ & G & _)|(_ & G & _)]]; [exact G|contradiction|contradiction].
  - intros G. apply gc_has in G as (r & Hr & Hi & Er). unfold rec_gc. cbv zeta.
    destruct (fill_spec (gc_index (pd_gc d)) (pd_gc d) (fun _ => get_or (gc_index (pd_gc d)) "Unassigned" 0) x) as [(r' & i & Hr' & Hi' & Hs & ->)|[Hno _]].
    + assert (E : r_prop r' = lit n). { apply (gcv_unique x); apply gc_has; eauto. } rewrite E in Hs. congruence.
    + rewrite <- Er in Hj. destruct (Hno r j Hr Hi Hj).
Qed.
Lemma gc_none x (n : string) : smap_get (lit n) (gc_index (pd_gc d)) = None -> ~ gcv x (lit n).
Proof.
  intros H G. apply gc_has in G as (r & Hr & _ & Er). destruct (gc_index_names _ few_gc) as (Htot & _). destruct (Htot (lit n)) as [i E]; [apply in_map_iff; eauto|congruence].
Qed.
Lemma zero_ok x : existsb (N.eqb (rec_gc d x)) (zero_gcs (gc_index (pd_gc d))) = true <-> zero_width_category F x.
Proof.
  unfold zero_gcs, zero_width_category. set (names := ["Control"; _; _; _; _; _; _; _]%string).
  assert (Hn : forall n, In n names -> lit n <> lit "Unspecified" /\ lit n <> lit "Unassigned").
  { intros n H. subst names. cbn [In] in H. repeat (destruct H as [<-|H]; [split; discriminate|]). destruct H. }
  induction names as [|n names IH]; cbn [flat_map].
  - split; [discriminate|]. intros H. inversion H.
  - rewrite existsb_app, orb_true_iff, IH by (intros m Hm; apply Hn; right; exact Hm). destruct (Hn n (or_introl eq_refl)) as [N1 N2].
    rewrite Exists_cons. apply or_iff_compat_r. destruct (smap_get (lit n) (gc_index (pd_gc d))) as [j|] eqn:E; cbn [existsb].
    + rewrite orb_false_r. exact (gc_is x n j E N1 N2).
    + split; [discriminate|]. intros G. destruct (gc_none x n E G).
Qed.
(** ** The enumerations of PropertyValueAliases.txt *)
Lemma field_of (key : string) first (G : str -> Prop) (dflt : string) k i :
  lit key <> lit "Block" -> enum_ok (f_pva F) (lit key) first -> has_value (f_pva F) (lit key) (lit dflt) -> (first <> [] -> ~ G first) ->
  (exists w, G w /\ smap_get w (pva_index (find_pva (pd_pva d) key) first) = Some i) \/
  ((forall w j, G w -> smap_get w (pva_index (find_pva (pd_pva d) key) first) <> Some j) /\ i = get_or (pva_index (find_pva (pd_pva d) key) first) dflt k) ->
  exists v, valued F (lit key) G (lit dflt) v /\ (forall dn, reverse_lookup (pva_index (find_pva (pd_pva d) key) first) i dn = v) /\
    (forall (u : string) k', has_value (f_pva F) (lit key) (lit u) -> (i =? get_or (pva_index (find_pva (pd_pva d) key) first) u k') = true <-> v = lit u).
Proof.
  intros Hk He Hd Hf H. destruct (al_of key Hk) as [Hs Hal].
  destruct (enum_field F (lit key) first _ Hal He ok_pva Hk G dflt k i Hd Hf H) as (v & V & (n & Hn) & Hm).
  exists v. split; [exact V|]. split.
  - intros dn. exact (enum_reverse F (lit key) first _ Hal He ok_pva Hk n v i dn Hn Hm).
  - intros u k' Hu. exact (enum_is F (lit key) first _ Hal He ok_pva Hk v i u k' Hm Hu).
Qed.
Lemma fill_field ix rs f x t : reads rs f ->
  (exists w, gives f x w /\ smap_get w ix = Some (fill ix rs t x)) \/ ((forall w j, gives f x w -> smap_get w ix <> Some j) /\ fill ix rs t x = t x).
Proof.
  intros Hr. destruct (fill_spec ix rs t x) as [(r & i & Hin & Hi & Hs & ->)|[Hno E]].
  - left. exists (r_prop r). split; [apply (reads_gives _ _ Hr); eauto|exact Hs].
  - right. split; [|exact E]. intros w j Hw. apply (reads_gives _ _ Hr) in Hw as (r & Hin & Hi & <-). exact (Hno r j Hin Hi).
Qed.
Lemma gcb_field x : exists v, valued F GCB (gives (f_gcb F) x) (lit "Other") v /\ (forall dn, reverse_lookup (gcb_index d) (rec_gcb d x) dn = v) /\
  (forall (u : string) k', has_value (f_pva F) GCB (lit u) -> (rec_gcb d x =? get_or (gcb_index d) u k') = true <-> v = lit u).
Proof.
  apply (field_of "Grapheme_Cluster_Break" (lit "Undefined") _ "Other" 0); [discriminate|apply Hok|apply Hok|intros _; apply Hok|].
  unfold rec_gcb. exact (fill_field _ _ _ x _ r_gcb).
Qed.
Lemma wb_field x : exists v, valued F WB (gives (f_wb F) x) (lit "Other") v /\ (forall dn, reverse_lookup (wb_index d) (rec_wb d x) dn = v).
Proof.
  destruct (field_of "Word_Break" [] (gives (f_wb F) x) "Other" 18 (rec_wb d x)) as (v & A & B & _); [discriminate|apply Hok|apply Hok|contradiction| |eauto].
  unfold rec_wb. exact (fill_field _ _ _ x _ r_wb).
Qed.
Lemma eaw_field x : exists v, valued F EAW (gives (f_eaw F) x) (lit "Narrow") v /\ (forall dn, reverse_lookup (eaw_index d) (rec_eaw d x) dn = v) /\
  (forall (u : string) k', has_value (f_pva F) EAW (lit u) -> (rec_eaw d x =? get_or (eaw_index d) u k') = true <-> v = lit u).
Proof.
  apply (field_of "East_Asian_Width" [] _ "Narrow" 0); [discriminate|apply Hok|apply Hok|contradiction|].
  unfold rec_eaw. exact (fill_field _ _ _ x _ r_eaw).
Qed.
(** Indic_Conjunct_Break *)
Lemma core_ok : lines_ok core_line (f_core F). Proof. apply Hok. Qed.
Lemma incb_gin v r : gin v r (pd_incb d) <-> exists l, has (f_core F) l /\ is_incb l v /\ r = range_of l v.
Proof.
  parts. destruct (load_core_in crlf (f_core F) core_ok) as (_ & _ & _ & H). rewrite (reordered_gin _ _ v r Hin). apply H.
Qed.
Lemma core_gin v r : gin v r (pd_core d) <-> exists l, has (f_core F) l /\ word (st_prop l) /\ st_prop l = v /\ r = range_of l [].
Proof. parts. destruct (load_core_in crlf (f_core F) core_ok) as (_ & _ & H & _). rewrite (reordered_gin _ _ v r Hco). apply H. Qed.
Lemma incb_gives x v : (exists r, gin v r (pd_incb d) /\ inside r x) <-> gives (f_core F) x (incb v).
Proof.
  split.
  - intros (r & Hr & Hi). apply incb_gin in Hr as (l & Hl & [_ E] & ->). exists l. split; [exact Hl|]. split; [now apply inside_covers in Hi|exact E].
  - intros (l & Hl & Hc & E). exists (range_of l v). split; [|now apply inside_covers]. apply incb_gin. exists l. split; [exact Hl|]. split; [|reflexivity].
    split; [|exact E]. destruct (core_ok _ Hl) as [_ [W|(p & v' & Wp & Wv & E')]]; [rewrite E in W; destruct (word_not_incb _ v W eq_refl)|].
    assert (W : forall q u, word q -> word u -> q ++ lit "; " ++ u = incb v -> word v).
    { clear. intros q u Wq (Hu & Hw & Hs & Hh) E. unfold incb in E. change (lit "InCB; ") with (lit "InCB" ++ lit "; ") in E.
      (* the first semicolon is at the same place *)
      assert (A : forall a b c e, without ch_semi a -> without ch_semi b -> a ++ ch_semi :: c = b ++ ch_semi :: e -> c = e).
      { clear. induction a as [|x a IH]; intros [|y b] c e Ha Hb E.
        - now injection E. - injection E as <- _. destruct Hb. left. reflexivity. - injection E as -> _. destruct Ha. left. reflexivity.
        - injection E as _ E. apply (IH b c e); [intros H; apply Ha; right; exact H|intros H; apply Hb; right; exact H|exact E]. }
      assert (B : 32 :: u = 32 :: v).
      { apply (A q (lit "InCB")); [apply Wq|apply word_incb|]. rewrite <- app_assoc in E. exact E. }
      injection B as <-. repeat split; assumption. }
    apply (W p v' Wp Wv). rewrite <- E', E. reflexivity.
Qed.
Lemma incb_fold ix x : forall m (t : N -> N),
  let t' := fold_left (fun t (g : str * list prange) => match smap_get (fst g) ix with Some i => fold_left (fun t r => set_range r i t) (snd g) t | None => t end) m t in
  (exists (g : str) r, gin g r m /\ inside r x /\ smap_get g ix = Some (t' x)) \/
  ((forall (g : str) r j, gin g r m -> inside r x -> smap_get g ix <> Some j) /\ t' x = t x).
Proof.
  induction m as [|[g l] m IH]; intros t; cbn [fold_left fst snd].
  - right. split; [|reflexivity]. intros g r j (l & [] & _).
  - cbv zeta. match goal with |- context [fold_left _ m ?T x] => set (t1 := T) end.
    destruct (IH t1) as [(g' & r & (l' & Hl & Hr) & Hi & Hs)|[Hno E]].
    + left. exists g', r. split; [exists l'; split; [right; exact Hl|exact Hr]|auto].
    + rewrite E.
      assert (A : (exists r, In r l /\ inside r x /\ smap_get g ix = Some (t1 x)) \/ ((forall r j, In r l -> inside r x -> smap_get g ix <> Some j) /\ t1 x = t x)).
      { subst t1. destruct (smap_get g ix) as [i|].
        - destruct (fill_gen (fun _ => Some i) l t x) as [(r & j & Hr & Hi & Ej & Et)|[Hn Et]].
          + left. exists r. injection Ej as <-. rewrite Et. auto.
          + right. split; [intros r j Hr Hi _; exact (Hn r i Hr Hi eq_refl)|exact Et].
        - right. split; [discriminate|reflexivity]. }
      destruct A as [(r & Hr & Hi & Hs)|[Hn Et]].
      * left. exists g, r. split; [exists l; split; [left; reflexivity|exact Hr]|auto].
      * right. split; [|exact Et]. intros g' r j (l' & [Eg|Hl] & Hr) Hi; [injection Eg as -> ->; exact (Hn r j Hr Hi)|].
        apply (Hno g' r j); [exists l'; auto|exact Hi].
Qed.
Lemma incb_field x : exists v, valued F INCB (fun w => gives (f_core F) x (incb w)) (lit "None") v /\ (forall dn, reverse_lookup (incb_index d) (rec_incb d x) dn = v).
Proof.
  destruct (field_of "Indic_Conjunct_Break" [] (fun w => gives (f_core F) x (incb w)) "None" 3 (rec_incb d x)) as (v & A & B & _);
    [discriminate|apply Hok|apply Hok|contradiction| |eauto].
  unfold rec_incb. destruct (incb_fold (incb_index d) x (pd_incb d) (fun _ => get_or (incb_index d) "None" 3)) as [(g & r & Hg & Hi & Hs)|[Hno E]].
  - left. exists g. split; [apply incb_gives; eauto|exact Hs].
  - right. split; [|exact E]. intros w j Hw. apply incb_gives in Hw as (r & Hr & Hi). exact (Hno w r j Hr Hi).
Qed.

(** ** Age *)
Lemma age_al (a v : str) : In (a, v) (find_pva (pd_pva d) "Age") -> v = lit "Unassigned" \/ exists x y, v = version_name x y /\ x < 1000 /\ y < 1000.
Proof. intros H. destruct (al_of "Age") as [_ Hal]; [discriminate|]. apply Hal in H. apply Hok in H. exact H. Qed.
Lemma age_short : (length (find_pva (pd_pva d) "Age") <= 255)%nat.
Proof.
  destruct (al_of "Age") as [Hs Hal]; [discriminate|]. assert (H : enum_ok (f_pva F) AGE []) by apply Hok. destruct H as (_ & _ & l & Hl & Hin).
  apply Nat.le_trans with (2 := Hl). apply NoDup_incl_length.
  - clear -Hs. induction Hs as [|e m Hm IH Hf]; constructor; [|exact IH]. intros H. rewrite Forall_forall in Hf. specialize (Hf _ H).
    exact (slt_irrefl _ Hf).
  - intros [a v] H. apply Hin. apply Hal. exact H.
Qed.
Lemma age_members_ok : exists members, age_members (find_pva (pd_pva d) "Age") = Some members /\ (length members <= 256)%nat /\
  (forall s : str, In s members <-> s = lit "Unassigned" \/ has_value (f_pva F) AGE s) /\ nth_error members 0 = Some (lit "Unassigned").
Proof.
  destruct (versions_ok _ age_al) as (l & El & Hl). unfold age_members. rewrite El. eexists. split; [reflexivity|]. split; [|split; [|reflexivity]].
  - cbn [length]. rewrite map_length, (Permutation_length (vsort_perm l)). pose proof age_short as Hs.
    assert (K : forall al l, versions al = Some l -> (length l <= length al)%nat).
    { clear. induction al as [|[a s] al IH]; intros l; cbn [versions length]; [intros [= <-]; cbn; lia|]. destruct (versions al) as [l'|]; [|discriminate].
      specialize (IH _ eq_refl). destruct (str_eqb s (lit "Unassigned")); [intros [= <-]; lia|]. destruct (parse_version s); [|discriminate]. intros [= <-]. cbn [length]. lia. }
    specialize (K _ _ El). lia.
  - intros s. destruct (al_of "Age") as [_ Hal]; [discriminate|]. cbn [In]. rewrite in_map_iff. split.
    + intros [<-|([v s'] & <- & H)]; [auto|]. right. apply (Permutation_in _ (vsort_perm l)) in H. apply Hl in H as (_ & [a Ha] & _). exists a. apply Hal. exact Ha.
    + intros [->|[a Ha]]; [auto|]. destruct (str_eqb_spec s (lit "Unassigned")) as [->|N]; [auto|]. right.
      apply Hal in Ha. destruct (age_al _ _ Ha) as [E|(x & y & E & Hx & Hy)]; [contradiction|].
      exists ((x, y), s). split; [reflexivity|]. apply (Permutation_in _ (Permutation_sym (vsort_perm l))). apply Hl. split; [exact N|]. split; [eauto|].
      rewrite E. now apply parse_version_name.
Qed.
Lemma age_field members x dn : age_members (find_pva (pd_pva d) "Age") = Some members -> age_value F x (name_at members (rec_age members d x) dn).
Proof.
  intros Em. destruct age_members_ok as (members' & Em' & Hlen & Hmem & H0). rewrite Em in Em'. injection Em' as <-.
  destruct (al_of "Age") as [Hs Hal]; [discriminate|]. pose proof (al_get "Age") as AG. specialize (fun a v => AG a v ltac:(discriminate)).
  change (lit "Age") with AGE in Hal, AG. assert (Hen : enum_ok (f_pva F) AGE []) by apply Hok. destruct Hen as (_ & Hcr & _).
  unfold rec_age. cbv zeta. set (al := find_pva (pd_pva d) "Age") in *. set (ix := age_index members al).
  set (val := fun r : prange => match smap_get (r_prop r) al with Some ((_ :: _) as full) => smap_get full ix | _ => None end).
  assert (Hval : forall r (v : str) i, alias (f_pva F) AGE (r_prop r) v -> (val r = Some i <-> smap_get v ix = Some i)).
  { intros r v i Hv. unfold val. apply AG in Hv as E. rewrite E. destruct v as [|c v]; [|reflexivity]. exfalso.
    destruct (age_al (r_prop r) [] (proj2 (Hal _ _) Hv)) as [E'|(p & q & E' & _)]; discriminate. }
  assert (Hix : forall v : str, has_value (f_pva F) AGE v -> exists k, nth_error members k = Some v /\ smap_get v ix = Some (N.of_nat k)).
  { intros v [a Ha]. assert (Hv : In v members) by (apply Hmem; right; exists a; exact Ha).
    destruct (number_all_total members 0 [] v Hv) as [j Hj]. destruct (number_all_sound members 0 [] ltac:(lia) v j Hj) as [(k & Hk & ->)|[_ H]]; [|discriminate].
    exists k. split; [exact Hk|]. unfold ix. rewrite age_index_keep; [exact Hj| |exists a; now apply Hal].
    intros a1 v1 a2 v2 H1 H2. apply (Hcr a1 v1 a2 v2); now apply Hal. }
  replace (fold_left _ (pd_age d) (fun _ : N => 0)) with (fold_left (fun t r => match val r with Some i => set_range r i t | None => t end) (pd_age d) (fun _ : N => 0)).
  2:{ generalize (fun _ : N => 0). generalize (pd_age d). induction l as [|r l IH]; intros t; [reflexivity|]. cbn [fold_left]. rewrite IH. f_equal.
      unfold val. destruct (smap_get (r_prop r) al) as [[|c s]|]; reflexivity. }
  destruct (fill_gen val (pd_age d) (fun _ => 0) x) as [(r & i & Hr & Hi & Hv & ->)|[Hno ->]].
  - left. assert (Hg : gives (f_age F) x (r_prop r)) by (apply (reads_gives _ _ r_age); eauto). unfold val in Hv.
    destruct (smap_get (r_prop r) al) as [v|] eqn:E; [|discriminate]. apply AG in E. destruct (Hix v (ex_intro (fun a => alias (f_pva F) AGE a v) _ E)) as (k & Hk & Hv').
    exists (r_prop r). split; [exact Hg|]. assert (Ei : i = N.of_nat k). { destruct v; [discriminate|]. rewrite Hv' in Hv. congruence. }
    unfold name_at. rewrite Ei, Nat2N.id, (nth_error_nth _ _ _ Hk). exact E.
  - right. split.
    + intros a u Hg Ha. apply (reads_gives _ _ r_age) in Hg as (r & Hr & Hi & <-). destruct (Hix u (ex_intro (fun a => alias (f_pva F) AGE a u) _ Ha)) as (k & _ & Hk).
      exact (Hno r _ Hr Hi (proj2 (Hval r u _ Ha) Hk)).
    + unfold name_at. cbn [N.to_nat]. now rewrite (nth_error_nth _ _ _ H0).
Qed.

(** ** Flags *)
Lemma emoji_gives x g : (exists r, gin g r (pd_emoji d) /\ inside r x) <-> gives (f_emoji F) x g.
Proof.
  parts. assert (Hf : lines_ok word_line (f_emoji F)) by apply Hok. destruct (load_emoji_in crlf (f_emoji F) Hf) as [_ H]. split.
  - intros (r & Hr & Hi). rewrite (reordered_gin _ _ g r Hem) in Hr. apply H in Hr as (l & Hl & E & ->). exists l. split; [exact Hl|]. split; [now apply inside_covers in Hi|exact E].
  - intros (l & Hl & Hc & E). exists (range_of l g). split; [|now apply inside_covers]. rewrite (reordered_gin _ _ g _ Hem). apply H. eauto.
Qed.
Lemma core_cov x (g : string) : word (lit g) -> (covered (group (pd_core d) g) x = true <-> gives (f_core F) x (lit g)).
Proof.
  intros W. rewrite covered_in. unfold group.
  assert (Hs : ssorted (pd_core d)). { parts. apply (reordered_sorted _ _ Hco). apply (load_core_in crlf (f_core F) core_ok). }
  split.
  - intros (r & Hr & Hi). destruct (smap_get (lit g) (pd_core d)) as [l|] eqn:E; [|destruct Hr].
    assert (G : gin (lit g) r (pd_core d)) by (apply gin_get; eauto). apply core_gin in G as (l' & Hl & _ & E' & ->). exists l'. split; [exact Hl|]. split; [now apply inside_covers in Hi|exact E'].
  - intros (l & Hl & Hc & E). assert (G : gin (lit g) (range_of l []) (pd_core d)). { apply core_gin. exists l. split; [exact Hl|]. split; [rewrite E; exact W|auto]. }
    apply gin_get in G as (l' & G & Hr); [|exact Hs]. rewrite G. exists (range_of l []). split; [exact Hr|now apply inside_covers].
Qed.
Lemma isc_cov x : covered (filter (has_prop ["Virama"; "Invisible_Stacker"]%string) (pd_isc d)) x = true <->
  gives (f_isc F) x (lit "Virama") \/ gives (f_isc F) x (lit "Invisible_Stacker").
Proof.
  rewrite covered_in. rewrite <- !(reads_gives _ _ r_isc). split.
  - intros (r & Hr & Hi). apply filter_In in Hr as [Hr Hh]. unfold has_prop in Hh. cbn [existsb] in Hh. rewrite orb_false_r, orb_true_iff in Hh.
    destruct Hh as [Hh|Hh]; apply str_eqb_eq in Hh; [left|right]; exists r; auto.
  - intros [(r & Hr & Hi & E)|(r & Hr & Hi & E)]; exists r; (split; [|exact Hi]); apply filter_In; (split; [exact Hr|]); unfold has_prop; cbn [existsb];
      rewrite E, !str_eqb_refl, ?orb_true_r; reflexivity.
Qed.
Lemma flags_bit x k : N.testbit (rec_flags d x) k = true <->
  (k = 6 /\ gives (f_core F) x (lit "Grapheme_Extend")) \/ (k = 7 /\ (gives (f_isc F) x (lit "Virama") \/ gives (f_isc F) x (lit "Invisible_Stacker"))) \/
  exists g, gives (f_emoji F) x g /\ In (g, k) [(lit "Emoji", 0); (lit "Emoji_Presentation", 1); (lit "Emoji_Component", 2); (lit "Emoji_Modifier", 3);
             (lit "Emoji_Modifier_Base", 4); (lit "Extended_Pictographic", 5)].
Proof.
  unfold rec_flags. cbv zeta. rewrite emoji_bits, or_all_bit, or_all_bit, N.bits_0, !orb_true_iff, !andb_true_iff.
  assert (W : word (lit "Grapheme_Extend")).
  { split; [discriminate|]. split; [|split; intros H; unfold lit, ch_semi, ch_hash in H; cbn in H; repeat (destruct H as [H|H]; [discriminate H|]); exact H].
    unfold no_white, lit. cbn. repeat (constructor; [intros [H|[H|[H|H]]]; discriminate H|]). constructor. }
  rewrite (core_cov x "Grapheme_Extend" W), isc_cov.
  assert (B : forall n, N.testbit (2 ^ n) k = true <-> k = n).
  { intros n. split; [|intros ->; apply N.pow2_bits_true]. intros H. destruct (N.eq_dec n k) as [E|N]; [congruence|]. rewrite N.pow2_bits_false in H by exact N. discriminate. }
  change FlagCoreGraphemeExtend with (2 ^ 6). change FlagVirama with (2 ^ 7). rewrite !B.
  assert (E : (exists g r f, gin g r (pd_emoji d) /\ inside r x /\ emoji_flag g = Some f /\ N.testbit f k = true) <->
    exists g, gives (f_emoji F) x g /\ In (g, k) [(lit "Emoji", 0); (lit "Emoji_Presentation", 1); (lit "Emoji_Component", 2); (lit "Emoji_Modifier", 3);
             (lit "Emoji_Modifier_Base", 4); (lit "Extended_Pictographic", 5)]).
  { split.
    - intros (g & r & f & Hg & Hi & Hf & Hk). exists g. split; [apply emoji_gives; eauto|exact (emoji_flag_bit g f Hf k Hk)].
    - intros (g & Hg & Hk). apply emoji_gives in Hg as (r & Hr & Hi). exists g, r, (2 ^ k). split; [exact Hr|]. split; [exact Hi|].
      split; [exact (emoji_flag_of g k Hk)|apply N.pow2_bits_true]. }
  rewrite E. intuition discriminate.
Qed.
Lemma flags2_fold x : forall l (t : N -> N), fold_left (fun t cp => if cp <? 0x110000 then (fun x => if x =? cp then N.lor (t x) Flag2EmojiVariationBase else t x) else t) l t x =
  if existsb (fun cp => (cp <? 0x110000) && (x =? cp)) l then N.lor (t x) Flag2EmojiVariationBase else t x.
Proof.
  induction l as [|c l IH]; intros t; [reflexivity|]. cbn [fold_left existsb]. rewrite IH. destruct (c <? 0x110000); cbn [andb orb]; [|reflexivity].
  destruct (x =? c); cbn [orb]; [|reflexivity]. destruct (existsb _ l); [|reflexivity]. rewrite <- N.lor_assoc. reflexivity.
Qed.
Lemma flags2_ok x : rec_flags2 d x = 1 /\ (exists e, has (f_evs F) e /\ ev_base e = x) \/ rec_flags2 d x = 0 /\ ~ (exists e, has (f_evs F) e /\ ev_base e = x).
Proof.
  unfold rec_flags2. rewrite flags2_fold. parts. assert (Hf : lines_ok ev_ok (f_evs F)) by apply Hok. pose proof (load_evs_in crlf (f_evs F) Hf x) as H. rewrite <- Hev in H.
  destruct (existsb _ (pd_evs d)) eqn:E.
  - left. split; [reflexivity|]. apply existsb_exists in E as (c & Hc & E). apply andb_true_iff in E as [_ E]. apply N.eqb_eq in E. subst c. apply H. exact Hc.
  - right. split; [reflexivity|]. intros G. apply H in G as Hx. apply not_true_iff_false in E. apply E. apply existsb_exists. exists x. split; [exact Hx|].
    rewrite N.eqb_refl, andb_true_r. destruct G as (e & He & <-). apply N.ltb_lt. destruct (Hf _ He) as [Hb _]. lia.
Qed.
Lemma flag_emoji (g : string) k x : In (lit g, k) [(lit "Emoji", 0); (lit "Emoji_Presentation", 1); (lit "Emoji_Component", 2); (lit "Emoji_Modifier", 3);
             (lit "Emoji_Modifier_Base", 4); (lit "Extended_Pictographic", 5)] -> flag_set (rec_flags d x) (2 ^ k) = true <-> gives (f_emoji F) x (lit g).
Proof.
  intros H. rewrite flag_bit, flags_bit. split.
  - intros [[-> _]|[[-> _]|(g' & Hg & H')]].
    + cbn [In] in H. repeat (destruct H as [H|H]; [injection H as _ H; discriminate H|]). destruct H.
    + cbn [In] in H. repeat (destruct H as [H|H]; [injection H as _ H; discriminate H|]). destruct H.
    + assert (E : g' = lit g); [|now rewrite <- E]. apply (emoji_names_unique _ _ k H' H).
  - intros Hg. right. right. exists (lit g). auto.
Qed.

(** ** Width *)
Lemma hst_fold x (t : N -> N) : fold_left (fun t r => if has_prop ["V"; "T"]%string r then set_range r 0 t else t) (pd_hst d) t x =
  if covered (filter (has_prop ["V"; "T"]%string) (pd_hst d)) x then 0 else t x.
Proof.
  generalize (pd_hst d) as l. intros l. revert t. induction l as [|r l IH]; intros t; [reflexivity|]. cbn [fold_left filter]. rewrite IH.
  destruct (has_prop ["V"; "T"]%string r); [|reflexivity]. unfold covered. cbn [existsb]. unfold set_range. destruct (existsb _ (filter _ l)); [now rewrite orb_true_r|].
  rewrite orb_false_r. destruct ((r_first r <=? x) && (x <=? r_last r)); reflexivity.
Qed.
Lemma hst_cov x : covered (filter (has_prop ["V"; "T"]%string) (pd_hst d)) x = true <-> gives (f_hst F) x (lit "V") \/ gives (f_hst F) x (lit "T").
Proof.
  rewrite covered_in. rewrite <- !(reads_gives _ _ r_hst). split.
  - intros (r & Hr & Hi). apply filter_In in Hr as [Hr Hh]. unfold has_prop in Hh. cbn [existsb] in Hh. rewrite orb_false_r, orb_true_iff in Hh.
    destruct Hh as [Hh|Hh]; apply str_eqb_eq in Hh; [left|right]; exists r; auto.
  - intros [(r & Hr & Hi & E)|(r & Hr & Hi & E)]; exists r; (split; [|exact Hi]); apply filter_In; (split; [exact Hr|]); unfold has_prop; cbn [existsb];
      rewrite E, !str_eqb_refl, ?orb_true_r; reflexivity.
Qed.
Lemma prepend_cov x : covered (filter (has_prop ["Prepend"]%string) (ungroup (pd_gcb d))) x = true <-> gives (f_gcb F) x (lit "Prepend").
Proof.
  rewrite covered_in. rewrite <- !(reads_gives _ _ r_gcb). split.
  - intros (r & Hr & Hi). apply filter_In in Hr as [Hr Hh]. unfold has_prop in Hh. cbn [existsb] in Hh. rewrite orb_false_r in Hh. apply str_eqb_eq in Hh. eauto.
  - intros (r & Hr & Hi & E). exists r. split; [|exact Hi]. apply filter_In. split; [exact Hr|]. unfold has_prop. cbn [existsb]. rewrite E, str_eqb_refl. reflexivity.
Qed.
Lemma eaw_is x (u : string) k : has_value (f_pva F) EAW (lit u) -> lit u <> lit "Narrow" -> (rec_eaw d x =? get_or (eaw_index d) u k) = true <-> east_asian F x u.
Proof.
  intros Hu Hn. destruct (eaw_field x) as (v & V & _ & H). rewrite (H u k Hu). unfold east_asian. split.
  - intros ->. destruct V as [V|[_ V]]; [exact V|contradiction].
  - intros (a & Ha & Hv). destruct (al_of "East_Asian_Width") as [Hs Hal]; [discriminate|].
    apply (valued_unique F EAW [] _ Hal ltac:(apply Hok) ok_pva ltac:(discriminate) (gives (f_eaw F) x) (lit "Narrow")); [|exact V|left; eauto].
    intros w w'. apply single_of. cbn. tauto.
Qed.
Lemma width_ok x : first_match (width_rules F x) 1 (rec_width d x).
Proof.
  assert (A : forall (b : bool) (P : Prop), (b = true <-> P) -> forall (u v : N) rest, (b = false -> first_match rest 1 v) -> first_match ((P, u) :: rest) 1 (if b then u else v)).
  { intros b P H u v rest Hr. cbn [first_match]. destruct b; [left; split; [now apply H|reflexivity]|right; split; [intros HP; apply H in HP; discriminate|now apply Hr]]. }
  unfold rec_width. cbv zeta. rewrite hst_fold. unfold width_rules. apply A; [apply hst_cov|]. intros _. apply A; [apply N.eqb_eq|]. intros _.
  match goal with |- first_match ((category F x "Format" /\ _, 1) :: ?R) _ _ => set (rest := R) end.
  assert (T1 : first_match rest 1 (compute_width (rec_gc d x) (rec_flags d x) (rec_eaw d x) (zero_gcs (gc_index (pd_gc d))) (get_or (eaw_index d) "Wide" 0) (get_or (eaw_index d) "Fullwidth" 0))).
  { subst rest. unfold compute_width. apply A; [apply zero_ok|]. intros _. apply A; [apply (flag_emoji "Emoji_Presentation" 1); cbn [In]; tauto|]. intros _.
    apply A; [|reflexivity]. rewrite orb_true_iff, (eaw_is x "Wide" 0), (eaw_is x "Fullwidth" 0); try discriminate; try apply Hok. reflexivity. }
  destruct (smap_get (lit "Format") (gc_index (pd_gc d))) as [f|] eqn:E.
  - apply A; [|intros _; exact T1]. rewrite andb_true_iff, prepend_cov. apply and_iff_compat_r. apply (gc_is x "Format" f E); discriminate.
  - cbn [first_match]. right. split; [|exact T1]. intros [G _]. exact (gc_none x "Format" E G).
Qed.

(** ** Emoji segmentation category *)
Lemma gcb_ri x : (rec_gcb d x =? get_or (gcb_index d) "Regional_Indicator" 0) = true <-> exists w, gives (f_gcb F) x w /\ names_value (f_pva F) GCB w (lit "Regional_Indicator").
Proof.
  destruct (gcb_field x) as (v & V & _ & H). rewrite (H "Regional_Indicator"%string 0) by apply Hok. split.
  - intros ->. destruct V as [V|[_ V]]; [exact V|discriminate].
  - intros (a & Ha & Hv). destruct (al_of "Grapheme_Cluster_Break") as [Hs Hal]; [discriminate|].
    apply (valued_unique F GCB (lit "Undefined") _ Hal ltac:(apply Hok) ok_pva ltac:(discriminate) (gives (f_gcb F) x) (lit "Other")); [|exact V|left; eauto].
    intros w w'. apply single_of. cbn. tauto.
Qed.
Lemma esc_ok x : first_match (esc_rules F x) (lit "Invalid") (lit (esc_name (rec_esc d x))).
Proof.
  assert (A : forall (b : bool) (P : Prop), (b = true <-> P) -> forall (u : Z) (v : Z) rest, (b = false -> first_match rest (lit "Invalid") (lit (esc_name v))) ->
    first_match ((P, lit (esc_name u)) :: rest) (lit "Invalid") (lit (esc_name (if b then u else v)))).
  { intros b P H u v rest Hr. cbn [first_match]. destruct b; [left; split; [now apply H|reflexivity]|right; split; [intros HP; apply H in HP; discriminate|now apply Hr]]. }
  unfold rec_esc, compute_esc, esc_rules.
  do 6 (apply (A _ _ (N.eqb_eq _ _)); intros _).
  refine (A _ _ _ ESC_TagSequence _ _ _); [rewrite orb_true_iff, !andb_true_iff, !N.leb_le; reflexivity|intros _].
  apply (A _ _ (N.eqb_eq _ _)); intros _.
  refine (A _ _ _ ESC_EmojiModifierBase _ _ _); [apply (flag_emoji "Emoji_Modifier_Base" 4); cbn [In]; tauto|intros _].
  refine (A _ _ _ ESC_EmojiModifier _ _ _); [apply (flag_emoji "Emoji_Modifier" 3); cbn [In]; tauto|intros _].
  refine (A _ _ _ ESC_RegionalIndicator _ _ _); [apply gcb_ri|intros _].
  refine (A _ _ _ ESC_KeyCapBase _ _ _); [rewrite !orb_true_iff, !andb_true_iff, !N.leb_le, !N.eqb_eq; tauto|intros _].
  refine (A _ _ _ ESC_EmojiEmojiPresentation _ _ _); [apply (flag_emoji "Emoji_Presentation" 1); cbn [In]; tauto|intros Ep].
  rewrite Ep. cbn [negb]. rewrite andb_true_r.
  refine (A _ _ _ ESC_EmojiTextPresentation _ _ _); [apply (flag_emoji "Emoji" 0); cbn [In]; tauto|intros Ee]. rewrite Ee. reflexivity.
Qed.
(** ** Success *)
Lemma gc_loads pv : pv = load_pva (pva_text crlf (f_pre F) (f_pva F)) -> exists m l, load_gc pv (file_text st_text crlf (f_gc F)) = Some (m, l).
Proof.
  intros ->. destruct (load_pva_in crlf (f_pre F) (f_pva F) GC ok_pva ltac:(discriminate)) as [Hs Hal]. unfold load_gc. change (lit "General_Category") with GC.
  destruct (smap_get GC (load_pva (pva_text crlf (f_pre F) (f_pva F)))) as [al|].
  - destruct (load_gc_lines crlf al (f_gc F) (proj1 (ok_file (f_gc F) ltac:(cbn; tauto))) (Some ([], [], []))) as (cat & m & rl & E & _); [|discriminate|].
    + intros l Hl. destruct Hok as (_ & _ & _ & _ & _ & _ & _ & Hg & _). destruct (ok_file (f_gc F)) as [Hf _]; [cbn; tauto|].
      destruct (Hg (span_first (st_span l)) (st_prop l)) as [v Hv].
      { exists l. split; [exact Hl|]. split; [|reflexivity]. destruct (Hf _ Hl) as [[Hsp _] _]. destruct (st_span l); cbn in *; lia. }
      exists v. apply (smap_in al (st_prop l) v Hs). apply Hal. exact Hv.
    + unfold gc_state in E. rewrite E. eauto.
  - exfalso. assert (H : exists a v, alias (f_pva F) GC a v) by apply Hok. destruct H as (a & v & H). apply Hal in H. destruct H.
Qed.
End Db.
