(** Proofs about the property table generator, part 7: the fields of the generated records. *)
From Coq Require Import Ascii String Permutation Sorted.
From Verif Require Import Base M_TableGen M_PropGen Spec_TableGen Spec_PropGen P_TableGen P_TableGen2 P_TableGen3 P_TableGen8
  P_PropGen P_PropGen2 P_PropGen3 P_PropGen4 P_PropGen5 P_PropGen6.
Open Scope N_scope.

(** a list of ranges is what a file says *)
Definition reads (rs : list prange) (f : list (fline stline)) : Prop := forall r, In r rs <-> exists l, has f l /\ r = range_of l (st_prop l).
Lemma reads_gives rs f : reads rs f -> forall c w, (exists r, In r rs /\ inside r c /\ r_prop r = w) <-> gives f c w.
Proof.
  intros H c w. split.
  - intros [r [Hr [Hi <-]]]. apply H in Hr as [l [Hl ->]]. exists l. split; [exact Hl|]. split; [apply inside_covers in Hi; exact Hi|reflexivity].
  - intros [l [Hl [Hc <-]]]. exists (range_of l (st_prop l)). split; [apply H; eauto|]. split; [now apply inside_covers|reflexivity].
Qed.
Lemma reads_perm rs rs' f : Permutation rs rs' -> reads rs' f -> reads rs f.
Proof. intros P H r. rewrite <- (H r). split; apply Permutation_in; [exact P|exact (Permutation_sym P)]. Qed.
Lemma reads_word rs f : lines_ok word_line f -> reads rs f -> forall r, In r rs -> exists c, gives f c (r_prop r) /\ inside r c.
Proof.
  intros Hf H r Hr. apply H in Hr as [l [Hl ->]]. exists (span_first (st_span l)).
  assert (Hc : covers (st_span l) (span_first (st_span l))).
  { destruct (Hf _ Hl) as [[Hs _] _]. destruct (st_span l); cbn in *; lia. }
  split; [exists l; auto|now apply inside_covers].
Qed.

(** ** A field of a PVA-based enumeration *)
Section Enum.
Variables (F : ucd_files) (prop first : str) (al : list (str * str)).
Hypothesis Hsort : ssorted al.
Hypothesis Hal : forall a v, In (a, v) al <-> alias (f_pva F) prop a v.
Hypothesis Hok : enum_ok (f_pva F) prop first.
Hypothesis Hpva : pva_ok (f_pva F).
Hypothesis Hprop : prop <> lit "Block".
Lemma al_unique a v v' : In (a, v) al -> In (a, v') al -> v = v'.
Proof. rewrite !Hal. destruct Hpva as (_ & _ & H). now apply H. Qed.
Lemma al_enum (a v : str) : In (a, v) al -> (a = v \/ (length a < length v)%nat) /\ a <> first /\ v <> first.
Proof. rewrite Hal. apply Hok. Qed.
Lemma al_ne (a v : str) : In (a, v) al -> v <> [].
Proof.
  rewrite Hal. intros (s & l & Hs & _ & Hl & _ & <-). destruct Hpva as (_ & H & _). destruct (H s Hs) as (_ & Hb & _).
  destruct (Hb _ Hl) as (_ & _ & Hf & _). apply Hf.
Qed.
Lemma al_cross a v a' v' : In (a, v) al -> In (a', v') al -> a = v' -> v = v'.
Proof. rewrite !Hal. apply Hok. Qed.
Lemma al_few : exists w : list str, (length w <= 255)%nat /\ forall a v, In (a, v) al -> In v w.
Proof.
  destruct Hok as (_ & _ & l & Hl & Hin). exists (map snd l). split; [now rewrite map_length|]. intros a v H. apply Hal in H. apply in_map_iff. exists (a, v). auto.
Qed.
Definition ix := pva_index al first.
Definition mem := members al first.
Lemma named_alias n v : named al n v <-> names_value (f_pva F) prop n v.
Proof. unfold named, names_value. rewrite Hal. split; (intros [H|[E [a H]]]; [auto|right; split; [exact E|exists a; now apply Hal]]). Qed.
Lemma enum_named n v : names_value (f_pva F) prop n v -> exists j, smap_get n ix = Some j /\ smap_get v mem = Some j.
Proof.
  intros H. apply named_alias in H. destruct al_few as (w & Hw & Hin).
  exact (pva_index_named al first w al_unique al_enum al_ne al_cross Hw Hin n v H).
Qed.
Lemma enum_inv n j : smap_get n ix = Some j -> (exists v, names_value (f_pva F) prop n v /\ smap_get v mem = Some j) \/ (first <> [] /\ n = first).
Proof.
  intros H. destruct al_few as (w & Hw & Hin).
  destruct (pva_index_inv al first w al_unique al_enum al_ne al_cross Hw Hin n j H) as [[v [A B]]|[A [B _]]]; [left; exists v; split; [now apply named_alias|exact B]|auto].
Qed.
Lemma enum_inj v v' j : smap_get v mem = Some j -> smap_get v' mem = Some j -> v = v'.
Proof. destruct al_few as (w & Hw & Hin). exact (pva_inj al first w al_unique al_enum al_ne al_cross Hw Hin v v' j). Qed.
Lemma names_unique n v v' : names_value (f_pva F) prop n v -> names_value (f_pva F) prop n v' -> v = v'.
Proof. rewrite <- !named_alias. apply (named_unique al al_unique al_cross). Qed.
Lemma names_has n v : names_value (f_pva F) prop n v -> exists a, In (a, v) al.
Proof. intros [H|[_ [a H]]]; [exists n|exists a]; now apply Hal. Qed.
Lemma enum_reverse n v j d : names_value (f_pva F) prop n v -> smap_get v mem = Some j -> reverse_lookup ix j d = v.
Proof.
  intros Hn Hj. destruct al_few as (w & Hw & Hin).
  exact (pva_reverse al first w al_unique al_enum al_ne al_cross Hw Hin v j d (names_has n v Hn) Hj).
Qed.
(** any loop storing indexes: [G w] says that the file gives the name [w] at this code point *)
Lemma enum_field (G : str -> Prop) (dflt : string) k i :
  has_value (f_pva F) prop (lit dflt) -> (first <> [] -> ~ G first) ->
  (exists w, G w /\ smap_get w ix = Some i) \/ ((forall w j, G w -> smap_get w ix <> Some j) /\ i = get_or ix dflt k) ->
  exists v, valued F prop G (lit dflt) v /\ (exists n, names_value (f_pva F) prop n v) /\ smap_get v mem = Some i.
Proof.
  intros [a Ha] Hf [[w [Hw Hi]]|[Hno ->]].
  - destruct (enum_inv w i Hi) as [[v [A B]]|[A ->]]; [|destruct (Hf A Hw)]. exists v. split; [left; eauto|]. split; [eauto|exact B].
  - assert (Hd : names_value (f_pva F) prop (lit dflt) (lit dflt)) by (right; split; [reflexivity|eauto]).
    destruct (enum_named _ _ Hd) as (j & J1 & J2). exists (lit dflt). split; [right; split; [|reflexivity]|split; [eauto|]].
    + intros w u Hw Hn. destruct (enum_named w u Hn) as (j' & J1' & _). exact (Hno w j' Hw J1').
    + unfold get_or. rewrite J1. exact J2.
Qed.
Lemma valued_unique (G : str -> Prop) dflt v v' : (forall w w', G w -> G w' -> w = w') -> valued F prop G dflt v -> valued F prop G dflt v' -> v = v'.
Proof.
  intros HG [[w [A B]]|[A B]] [[w' [A' B']]|[A' B']].
  - rewrite (HG _ _ A A') in B. exact (names_unique _ _ _ B B').
  - destruct (A' _ _ A B). - destruct (A _ _ A' B'). - congruence.
Qed.
(** comparing a stored index with that of the value [u] *)
Lemma enum_is (v : str) i (u : string) k : smap_get v mem = Some i -> has_value (f_pva F) prop (lit u) -> (i =? get_or ix u k) = true <-> v = lit u.
Proof.
  intros Hv [a Ha]. assert (Hd : names_value (f_pva F) prop (lit u) (lit u)) by (right; split; [reflexivity|eauto]).
  destruct (enum_named _ _ Hd) as (j & J1 & J2). unfold get_or. rewrite J1, N.eqb_eq. split.
  - intros ->. exact (enum_inj _ _ _ Hv J2). - intros ->. congruence.
Qed.
End Enum.

(** ** Numbering without distinctness (Age) *)
Lemma number_all_sound : forall l i m, i + N.of_nat (length l) <= 256 -> forall s j, smap_get s (snd (number_all l (i, m))) = Some j ->
  (exists k, nth_error l k = Some s /\ j = i + N.of_nat k) \/ (~ In s l /\ smap_get s m = Some j).
Proof.
  unfold number_all. induction l as [|x l IH]; intros i m Hl s j H; [right; split; [intros []|exact H]|].
  cbn [fold_left length] in *. destruct l as [|y l].
  { cbn [fold_left snd] in H. rewrite smap_get_set in H. destruct (str_eqb_spec s x) as [->|N].
    - injection H as <-. left. exists 0%nat. split; [reflexivity|lia].
    - right. split; [intros [E|[]]; congruence|exact H]. }
  assert (Ei : next8 i = i + 1). { unfold next8. apply N.mod_small. cbn [length] in Hl. lia. }
  rewrite Ei in H. destruct (IH (i + 1) (smap_set x i m) ltac:(cbn [length] in *; lia) s j H) as [[k [A B]]|[A B]].
  - left. exists (S k). split; [exact A|lia].
  - rewrite smap_get_set in B. destruct (str_eqb_spec s x) as [->|N].
    + injection B as <-. left. exists 0%nat. split; [reflexivity|lia].
    + right. split; [intros [E|E]; [congruence|contradiction]|exact B].
Qed.
Lemma number_all_total : forall l i m s, In s l -> exists j, smap_get s (snd (number_all l (i, m))) = Some j.
Proof.
  unfold number_all. assert (K : forall l i m s, (exists j, smap_get s m = Some j) ->
    exists j, smap_get s (snd (fold_left (fun '(i, m) s => (next8 i, smap_set s i m)) l (i, m))) = Some j).
  { induction l as [|x l IH]; intros i m s Hm; [exact Hm|]. cbn [fold_left]. apply IH. rewrite smap_get_set. destruct (str_eqb s x); eauto. }
  induction l as [|x l IH]; intros i m s H; [destruct H|]. cbn [fold_left]. destruct H as [->|H]; [|apply IH; exact H].
  apply K. rewrite smap_get_set, str_eqb_refl. eauto.
Qed.
Lemma age_index_keep mems al : (forall a v a' v', In (a, v) al -> In (a', v') al -> a = v' -> v = v') -> forall v, (exists a, In (a, v) al) ->
  smap_get v (age_index mems al) = smap_get v (enum_index mems).
Proof.
  intros Hc. unfold age_index. set (M := enum_index mems).
  assert (G : forall rest m, (forall e, In e rest -> In e al) -> (forall v, (exists a, In (a, v) al) -> smap_get v m = smap_get v M) ->
    forall v, (exists a, In (a, v) al) -> smap_get v (fold_left add_abbrev rest m) = smap_get v M).
  { induction rest as [|[a u] rest IH]; intros m Hr Hm v Hv; [exact (Hm v Hv)|]. cbn [fold_left]. apply IH; [intros e He; apply Hr; right; exact He| |exact Hv].
    clear v Hv. intros v Hv. unfold add_abbrev. cbn [fst snd]. assert (Hau : In (a, u) al) by (apply Hr; left; reflexivity).
    destruct (smap_get u m) as [i|] eqn:E; [|exact (Hm v Hv)]. rewrite smap_get_set. destruct (str_eqb_spec v a) as [->|]; [|exact (Hm v Hv)].
    destruct Hv as [b Hb]. rewrite <- (Hm a (ex_intro _ b Hb)). rewrite (Hc _ _ _ _ Hau Hb eq_refl) in E. symmetry. exact E. }
  apply G; auto.
Qed.
