(** Theorems about the query functions of ucd.h generated from the Unicode Character Database: C89 to C93. *)
From Coq Require Import Ascii String Permutation Sorted.
From Verif Require Import Base M_TableGen M_PropGen M_UcdApi M_Tables Spec_Tables Spec_TableGen Spec_PropGen Spec_UcdApi
  P_Tables P_TableGen P_TableGen2 P_TableGen8 P_PropGen P_PropGen2 P_PropGen3 P_PropGen4 P_PropGen5 P_PropGen6 P_PropGen7
  T_Tables P_UcdApi P_UcdApi2 P_UcdApi3 P_UcdApi4 P_UcdApi5 P_UcdApi6.
Open Scope N_scope.

(** C89.  block(): the block whose range contains the code point, Unspecified if there is none. *)
Theorem C89_block : forall crlf f c, lines_ok st_ok f -> ascending f -> (exists l, has f l /\ is_span (st_span l)) ->
  exists v, api_block (load_blocks (file_text st_text crlf f)) c = Ok v /\
    ((exists l, has f l /\ is_span (st_span l) /\ covers (st_span l) c /\ v = identifier (st_prop l)) \/
     (forall l, has f l -> is_span (st_span l) -> ~ covers (st_span l) c) /\ v = lit "Unspecified").
Proof.
  intros crlf f c Hf Ha (l0 & Hl0 & Hs0). rewrite load_blocks_data by exact Hf. unfold api_block. rewrite map_map.
  assert (Hin : forall l, In l (filter spanb (data f)) <-> has f l /\ is_span (st_span l)).
  { intros l. rewrite filter_In, <- data_in. unfold spanb, is_span. split; intros [H1 H2]; (split; [exact H1|]); destruct (st_span l); try reflexivity; try discriminate; try exact I; destruct H2. }
  assert (Hok : Forall st_ok (filter spanb (data f))). { apply Forall_forall. intros l Hl. apply Hin in Hl as [Hl _]. exact (Hf _ Hl). }
  assert (Hap : ForallOrdPairs apart (filter spanb (data f))).
  { apply pairs_filter. clear -Ha. unfold ascending in Ha. induction Ha as [|l ls Hs IH Hl]; constructor; [|exact IH]. eapply Forall_impl; [|exact Hl]. cbn beta. intros b H c Ca Cb.
    destruct (st_span l), (st_span b); cbn in *; lia. }
  assert (Hne : filter spanb (data f) <> []). { intros E. assert (H : In l0 (filter spanb (data f))) by (apply Hin; auto). rewrite E in H. destruct H. }
  assert (Hso : sorted_by_first (map (fun l => (fst (range_of l []), sanitize (st_prop l))) (filter spanb (data f))) (map (fun l => (fst (range_of l []), sanitize (st_prop l))) (filter spanb (data f)))).
  { split; [apply Permutation_refl|]. assert (Hd : Forall st_ok (data f)) by (apply Forall_forall; intros l Hl; apply data_in in Hl; exact (Hf _ Hl)). clear -Ha Hd. unfold ascending in Ha. induction Ha as [|l ls Hs IH Hl]; [constructor|].
    inversion_clear Hd as [|? ? H1 H2]. cbn [filter]. destruct (spanb l); [|auto]. cbn [map]. constructor; [auto|]. apply Forall_map. apply Forall_forall. intros b Hb. apply filter_In in Hb as [Hb _].
    rewrite Forall_forall in Hl. specialize (Hl b Hb). cbn [range_of fst snd]. apply N.ltb_ge. destruct H1 as [H1 _]. destruct (st_span l), (st_span b); cbn in *; lia. }
  destruct (search_lines (fun l => sanitize (st_prop l)) _ _ (lit "Unspecified") c Hok Hap Hne Hso) as (v & E & H). exists v. split; [exact E|].
  destruct H as [(l & Hl & Hc & <-)|[Hno ->]].
  - left. apply Hin in Hl as [Hl Hs]. exists l. auto.
  - right. split; [|reflexivity]. intros l Hl Hs. apply Hno, Hin. auto.
Qed.
Print Assumptions C89_block.

(** C90.  script_extensions(): the scripts the file lists for the code point, by their long names; nothing if it lists none.  The view is
    over an array whose order is that of the sorted abbreviations. *)
Theorem C90_script_extensions : forall crlf head aliases f sces, pva_ok aliases -> lines_ok (fun l => exists ws, sce_line l ws) f -> separate f -> nonempty f ->
  (forall c ws w, lists f c ws -> In w ws -> exists v, alias aliases SC w v) ->
  sorted_by_first (load_sce (file_text st_text crlf f)) sces ->
  exists g, api_script_extensions (load_pva (pva_text crlf head aliases)) sces = Some g /\
    forall c, exists r, g c = Ok r /\
      match r with
      | Some vs => exists ws vs', lists f c ws /\ Forall2 (alias aliases SC) ws vs' /\ Permutation vs' vs
      | None => forall ws, ~ lists f c ws
      end.
Proof.
  intros crlf head aliases f sces Hp Hf Hsep Hne Hal Hs.
  destruct (load_pva_in crlf head aliases SC Hp ltac:(discriminate)) as [Hso Hpva].
  assert (Hget : forall a v, smap_get a (match smap_get SC (load_pva (pva_text crlf head aliases)) with Some l => l | None => [] end) = Some v <-> alias aliases SC a v).
  { intros a v. rewrite <- Hpva. symmetry. apply (smap_in _ a v Hso). }
  clear Hso Hpva. unfold api_script_extensions. change (lit "Script") with SC.
  assert (Hst : Forall st_ok (data f)). { apply Forall_forall. intros l Hl. apply data_in in Hl. destruct (Hf _ Hl) as [ws H]. apply H. }
  assert (Hcov : forall l, has f l -> covers (st_span l) (span_first (st_span l))).
  { intros l Hl. destruct (Hf _ Hl) as [ws [[H _] _]]. destruct (st_span l); cbn in *; lia. }
  destruct (smap_get SC (load_pva (pva_text crlf head aliases))) as [al|].
  2:{ exfalso. destruct Hne as [l Hl]. destruct (Hf _ Hl) as [ws H]. pose proof H as (_ & Hws & _). destruct ws as [|w ws]; [contradiction|].
      destruct (Hal (span_first (st_span l)) (w :: ws) w) as [v Hv]; [exists l; auto|left; reflexivity|]. apply Hget in Hv. discriminate Hv. }
  eexists. split; [reflexivity|]. intros c. rewrite load_sce_data in Hs by exact Hf.
  assert (Hin : forall r, In r sces <-> exists l, has f l /\ r = (fst (range_of l []), ssort (tokens [] (st_prop l)))).
  { intros r. destruct Hs as [P _]. split.
    - intros H. apply (Permutation_in _ (Permutation_sym P)), in_map_iff in H as (l & <- & Hl). exists l. rewrite data_in. auto.
    - intros (l & Hl & ->). apply (Permutation_in _ P). apply (in_map (fun l => (fst (range_of l []), ssort (tokens [] (st_prop l))))). now apply data_in. }
  assert (Hwo : Forall (fun r : sce_range => Forall (without 95) (snd r)) sces).
  { apply Forall_forall. intros r Hr. apply Hin in Hr as (l & Hl & ->). cbn [snd]. destruct (Hf _ Hl) as [ws H]. rewrite (sce_tokens _ _ H).
    eapply Permutation_Forall; [symmetry; apply ssort_perm|]. destruct H as (_ & _ & _ & H). eapply Forall_impl; [|exact H]. cbn beta. tauto. }
  assert (Emap : map (fun r => (fst r, match smap_get (sce_key (snd r)) (sce_arrays al sces) with Some a => a | None => [] end)) sces = map (fun r : sce_range => (fst r, sce_names al (snd r))) sces).
  { apply map_ext_in. intros r Hr. now rewrite (sce_arrays_get al sces r Hwo Hr). }
  rewrite Emap. clear Emap.
  set (tbl := map (fun r : sce_range => (fst r, sce_names al (snd r))) sces).
  assert (Ht : sorted_by_first (map (fun l => (fst (range_of l []), sce_names al (ssort (tokens [] (st_prop l))))) (data f)) tbl).
  { destruct Hs as [P S1]. split.
    - unfold tbl. etransitivity; [|apply Permutation_map; exact P]. rewrite map_map. cbn [fst snd]. apply Permutation_refl.
    - unfold tbl. clear -S1. induction S1 as [|a l Hs IH Ha]; cbn [map]; constructor; [exact IH|]. apply Forall_map. exact Ha. }
  destruct (range_table (fun l => sce_names al (ssort (tokens [] (st_prop l)))) (data f) tbl Hst Hsep Ht) as (D & _ & Hin').
  assert (Htne : tbl <> []).
  { destruct Hne as [l Hl]. intros E. pose proof (proj2 (Hin' (fst (range_of l []), sce_names al (ssort (tokens [] (st_prop l)))))) as H. rewrite E in H. destruct H. exists l. split; [now apply data_in|reflexivity]. }
  destruct (C52_search_exact _ tbl c Htne D) as (r & E & H1 & H2). exists r. split; [exact E|]. destruct r as [vs|].
  - destruct (H1 vs eq_refl) as (a & b & Hr & Hc). clear H1 H2. apply Hin' in Hr as (l & Hl & El). injection El as -> -> ->. apply data_in in Hl. destruct (Hf _ Hl) as [ws Hws].
    assert (Hli : lists f c ws). { exists l. split; [exact Hl|]. split; [exact (proj1 (covers_range l [] c) Hc)|exact Hws]. }
    rewrite (sce_tokens _ _ Hws). exists ws, (sce_names al ws). split; [exact Hli|]. split.
    + unfold sce_names. assert (G : forall w, In w ws -> exists v, alias aliases SC w v) by (intros w Hw; exact (Hal c ws w Hli Hw)). clear -G Hget. induction ws as [|w ws IH]; cbn [map]; constructor.
      * destruct (G w (or_introl eq_refl)) as [v Hv]. apply Hget in Hv. rewrite Hv. now apply Hget.
      * apply IH. intros x Hx. apply G. right. exact Hx.
    + unfold sce_names. apply Permutation_map. symmetry. apply ssort_perm.
  - intros ws (l & Hl & Hc & _). apply (H2 eq_refl _ _ (sce_names al (ssort (tokens [] (st_prop l))))) with (1 := proj2 (Hin' _) (ex_intro _ l (conj (proj1 (data_in f l) Hl) eq_refl))).
    exact (proj2 (covers_range l [] c) Hc).
Qed.
Print Assumptions C90_script_extensions.

(** C91.  is_mirrored(): exactly the code points whose line in UnicodeData.txt has Bidi_Mirrored Y. *)
Theorem C91_is_mirrored : forall crlf f c, lines_ok flag_line f -> one_line_each f -> (exists x, mirrored f x) ->
  exists b, api_is_mirrored (load_mirrored (file_text ud_text crlf f)) c = Ok b /\ (b = true <-> mirrored f c).
Proof.
  intros crlf f c Hf Hn Hex. rewrite load_mirrored_data by exact Hf.
  assert (Hin : forall x, In x (mirrored_cps f) <-> mirrored f x).
  { intros x. unfold mirrored_cps. rewrite in_flat_map. split.
    - intros (u & Hu & Hx). destruct (str_eqb_spec (ul_f9 u) (lit "Y")) as [E|_]; [|destruct Hx]. destruct Hx as [<-|[]]. exists u. rewrite data_in. auto.
    - intros (u & Hu & <- & E). exists u. split; [now apply data_in|]. rewrite E, str_eqb_refl. left. reflexivity. }
  assert (Hnd : NoDup (mirrored_cps f)).
  { unfold one_line_each in Hn. unfold mirrored_cps. induction (data f) as [|u ls IH]; cbn [flat_map map] in *; [constructor|]. inversion_clear Hn as [|? ? N1 N2].
    destruct (str_eqb (ul_f9 u) (lit "Y")); cbn [app]; [|apply IH; exact N2]. constructor; [|apply IH; exact N2].
    intros H. apply N1. apply in_flat_map in H as (w & Hw & Hx). destruct (str_eqb (ul_f9 w) (lit "Y")); [|destruct Hx]. destruct Hx as [<-|[]]. now apply in_map. }
  assert (Hb : Forall (fun x => x <= 0x10FFFF) (nsort (mirrored_cps f))).
  { eapply Permutation_Forall; [symmetry; apply nsort_perm|]. apply Forall_forall. intros x Hx. apply Hin in Hx as (u & Hu & <- & _). apply (Hf _ Hu). }
  assert (Hss : StronglySorted N.lt (nsort (mirrored_cps f))).
  { apply sorted_nodup; [apply nsort_sorted|]. eapply Permutation_NoDup; [symmetry; apply nsort_perm|exact Hnd]. }
  assert (Hne : nsort (mirrored_cps f) <> []).
  { destruct Hex as [x Hx]. apply Hin in Hx. intros E. pose proof (Permutation_in _ (Permutation_sym (nsort_perm (mirrored_cps f))) Hx) as G. rewrite E in G. destruct G. }
  destruct (compress_none _ Hne Hss Hb) as (M1 & M2 & M3 & M4).
  destruct (contains_table _ c M1 M2 M3) as (b & E & H). exists b. split; [exact E|]. rewrite H, M4, <- Hin. split; intros G.
  - exact (Permutation_in _ (nsort_perm _) G).
  - exact (Permutation_in _ (Permutation_sym (nsort_perm _)) G).
Qed.
Print Assumptions C91_is_mirrored.

(** C92.  bidi_mirroring_glyph(): the mirror image the file gives, the code point itself if it gives none. *)
Theorem C92_mirroring_glyph : forall crlf f c, mirror_file f -> one_mirror_each f ->
  (forall t, mirrors f c t -> api_mirroring_glyph (load_mirroring (file_text st_text crlf f)) c = t) /\
  ((forall t, ~ mirrors f c t) -> api_mirroring_glyph (load_mirroring (file_text st_text crlf f)) c = c).
Proof.
  intros crlf f c Hf Hn. rewrite load_mirroring_data by exact Hf. set (ls := map (fun l => (span_first (st_span l), parse_codepoint (st_prop l))) (data f)).
  assert (Hs : strictly_sorted fst (psort ls)). { apply psort_sorted. unfold ls. rewrite map_map. exact Hn. }
  assert (Hin : forall a t, In (a, t) (psort ls) <-> mirrors f a t).
  { intros a t. split.
    - intros H. apply (Permutation_in _ (psort_perm ls)), in_map_iff in H as (l & E & Hl). injection E as <- <-. apply data_in in Hl. destruct (Hf _ Hl) as (x & y & Hm).
      exists l. split; [exact Hl|]. pose proof Hm as (_ & E1 & Hy & E2). rewrite E1, E2. cbn [span_first]. rewrite parse_hexs0 by exact Hy. exact Hm.
    - intros (l & Hl & _ & E1 & Ht & E2). apply (Permutation_in _ (Permutation_sym (psort_perm ls))). apply in_map_iff. exists l. rewrite E1, E2. cbn [span_first]. rewrite parse_hexs0 by exact Ht. split; [reflexivity|now apply data_in]. }
  unfold api_mirroring_glyph. split.
  - intros t Ht. apply Hin in Ht. rewrite (proj2 (find_entry_exact fst (psort ls) c (c, t) Hs)); [reflexivity|]. auto.
  - intros Hno. destruct (find_entry fst (psort ls) c) as [[a t]|] eqn:E; [|reflexivity]. apply (find_entry_exact fst (psort ls) c (a, t) Hs) in E as [H1 H2]. cbn [fst] in H2. subst a. apply Hin in H1. destruct (Hno t H1).
Qed.
Print Assumptions C92_mirroring_glyph.
(** C92.  If the file pairs the mirror images (as BidiMirroring.txt does), mirroring twice gives the code point back. *)
Theorem C92_involution : forall crlf f c, mirror_file f -> one_mirror_each f -> (forall a t, mirrors f a t -> mirrors f t a) ->
  let mirror := api_mirroring_glyph (load_mirroring (file_text st_text crlf f)) in mirror (mirror c) = c.
Proof.
  intros crlf f c Hf Hn Hsym. cbv zeta. destruct (C92_mirroring_glyph crlf f c Hf Hn) as [H1 H2].
  destruct (find_entry fst (load_mirroring (file_text st_text crlf f)) c) as [[a t]|] eqn:E.
  - assert (Hm : mirrors f c t).
    { apply find_entry_sound in E as [Hin E]. cbn [fst] in E. subst a. rewrite load_mirroring_data in Hin by exact Hf. apply (Permutation_in _ (psort_perm _)), in_map_iff in Hin as (l & El & Hl).
      injection El as <- <-. apply data_in in Hl. destruct (Hf _ Hl) as (x & y & Hm). exists l. split; [exact Hl|]. pose proof Hm as (_ & E1 & Hy & E2). rewrite E1, E2. cbn [span_first]. rewrite parse_hexs0 by exact Hy. exact Hm. }
    rewrite (H1 t Hm). apply (proj1 (C92_mirroring_glyph crlf f t Hf Hn)), Hsym, Hm.
  - assert (Ec : api_mirroring_glyph (load_mirroring (file_text st_text crlf f)) c = c) by (unfold api_mirroring_glyph; now rewrite E). rewrite Ec. exact Ec.
Qed.
Print Assumptions C92_involution.

(** C93.  make_age(): parses exactly the version names of the Age values of PropertyValueAliases.txt, except Unassigned. *)
Theorem C93_make_age : forall crlf head aliases, pva_ok aliases -> (exists a v, alias aliases (lit "Age") a v) ->
  exists g, api_make_age (load_pva (pva_text crlf head aliases)) = Some g /\
    forall s v, g s = Some v <-> alias aliases (lit "Age") s v /\ v <> lit "Unassigned".
Proof.
  intros crlf head aliases Hp (a0 & v0 & H0). destruct (load_pva_in crlf head aliases (lit "Age") Hp ltac:(discriminate)) as [Hso Hpva]. unfold api_make_age.
  destruct (smap_get (lit "Age") (load_pva (pva_text crlf head aliases))) as [al|]; [|apply Hpva in H0; destruct H0].
  eexists. split; [reflexivity|]. intros s v.
  assert (Hu : forall k u u', In (k, u) al -> In (k, u') al -> u = u'). { intros k u u' A B. apply Hpva in A, B. destruct Hp as (_ & _ & Hu). exact (Hu (lit "Age") k u u' ltac:(discriminate) A B). }
  set (l := filter (fun e : str * str => negb (str_eqb (snd e) (lit "Unassigned"))) al).
  assert (Hl : forall k u, In (k, u) l <-> alias aliases (lit "Age") k u /\ u <> lit "Unassigned").
  { intros k u. unfold l. rewrite filter_In, Hpva. cbn [snd]. destruct (str_eqb_spec u (lit "Unassigned")); cbn [negb]; intuition congruence. }
  rewrite <- Hl. assert (Hul : forall k u u', In (k, u) l -> In (k, u') l -> u = u'). { intros k u u' A B. apply (Hu k); [now apply filter_In in A|now apply filter_In in B]. }
  clear Hl. generalize dependent l. intros l. clear Hso Hpva Hu. induction l as [|[k u] l IH]; intros Hul; cbn [first_pair]; [split; [discriminate|intros []]|].
  destruct (str_eqb_spec k s) as [->|Hk].
  - split; [intros E; injection E as ->; left; reflexivity|]. intros H. f_equal. apply (Hul s); [left; reflexivity|exact H].
  - rewrite IH by (intros x y z A B; apply (Hul x); right; assumption). cbn [In]. split; [auto|]. intros [E|H]; [injection E as -> _; contradiction|exact H].
Qed.
Print Assumptions C93_make_age.
