(** C36-C44: Hangul, canonical ordering, decomposition, normalization forms. *)
From Verif Require Import Base M_Tables M_Normalize Spec_Tables P_Tables Spec_Normalize P_Order P_Normalize P_Hangul
  P_Compose P_Stream Norm_Demo Spec_StreamSeg P_StreamSeg.
From Coq Require Import Permutation.
Open Scope N_scope.

(** * C36 Hangul *)
(** Decomposing any of the 11172 syllables and recomposing gives the syllable back. *)
Theorem C36_compose_after_decompose : forall s, is_hangul_syllable s = true ->
  exists l v, (hangul_decompose s = [l; v] /\ hangul_compose l v 0 = s) \/
    exists t, hangul_decompose s = [l; v; t] /\ t <> 0 /\ hangul_compose l v t = s.
Proof. exact compose_decompose. Qed.
Print Assumptions C36_compose_after_decompose.
(** Composing L, V and an optional T gives a syllable that decomposes into them. *)
Theorem C36_decompose_after_compose : forall l v t, is_hangul_l_jamo l = true -> is_hangul_v_jamo v = true ->
  t = 0 \/ is_hangul_t_jamo t = true ->
  is_hangul_syllable (hangul_compose l v t) = true /\
  hangul_decompose (hangul_compose l v t) = l :: v :: (if t =? 0 then [] else [t]).
Proof. exact decompose_compose. Qed.
Print Assumptions C36_decompose_after_compose.
(** Everything else is rejected: by hangul_compose with 0, by hangul_decompose with an empty result. *)
Theorem C36_compose_rejects : forall l v t,
  is_hangul_l_jamo l = false \/ is_hangul_v_jamo v = false \/ (t <> 0 /\ is_hangul_t_jamo t = false) ->
  hangul_compose l v t = 0.
Proof. exact compose_rejects. Qed.
Print Assumptions C36_compose_rejects.
Theorem C36_decompose_rejects : forall s, is_hangul_syllable s = false -> hangul_decompose s = [].
Proof. intros s H. unfold hangul_decompose. rewrite H. reflexivity. Qed.
(** The jamo predicates are the ranges of the Unicode Standard: 19 leading, 21 vowel, 27 trailing, 11172 syllables. *)
Theorem C36_ranges : forall c,
  (is_hangul_syllable c = true <-> 0xAC00 <= c <= 0xD7A3) /\ (is_hangul_l_jamo c = true <-> 0x1100 <= c <= 0x1112) /\
  (is_hangul_v_jamo c = true <-> 0x1161 <= c <= 0x1175) /\ (is_hangul_t_jamo c = true <-> 0x11A8 <= c <= 0x11C2).
Proof.
  intros c. unfold is_hangul_syllable, is_hangul_l_jamo, is_hangul_v_jamo, is_hangul_t_jamo, SBase, SCount, LBase, LCount,
    VBase, VCount, TBase, TCount. lia.
Qed.
Print Assumptions C36_ranges.
Example C36_demo : hangul_decompose 0xD55C = [0x1112; 0x1161; 0x11AB] /\ hangul_compose 0x1112 0x1161 0x11AB = 0xD55C /\
  hangul_decompose 0xAC00 = [0x1100; 0x1161] /\ hangul_compose 0x1100 0x1161 0x11A7 = 0.
Proof. vm_compute. auto. Qed.

(** * C37 canonical ordering *)
(** The result is reached by exchanging adjacent pairs of marks in the wrong order and no such pair is left ... *)
Theorem C37_canonical_order : forall tb t,
  reorders (canonical_combining_class tb) t (canonical_order tb t) /\
  ordered (canonical_combining_class tb) (canonical_order tb t).
Proof. intros. split; [apply canonical_order_reorders|apply canonical_order_ordered]. Qed.
Print Assumptions C37_canonical_order.
(** ... it is the only text with those two properties ... *)
Theorem C37_unique : forall tb t r, reorders (canonical_combining_class tb) t r -> ordered (canonical_combining_class tb) r ->
  r = canonical_order tb t.
Proof. intros. apply reorders_unique; assumption. Qed.
Print Assumptions C37_unique.
(** ... it is a permutation, starters keep their position, and marks of one class keep their order. *)
Theorem C37_permutation : forall tb t, Permutation (canonical_order tb t) t.
Proof. intros. apply order_perm. Qed.
Theorem C37_starters_stay : forall tb t i c, canonical_combining_class tb c = 0 ->
  (nth_error t i = Some c <-> nth_error (canonical_order tb t) i = Some c).
Proof. intros tb t i c H. apply (reorders_starters tb); [apply canonical_order_reorders|exact H]. Qed.
Theorem C37_stable : forall tb t k, filter (fun c => canonical_combining_class tb c =? k) (canonical_order tb t) =
  filter (fun c => canonical_combining_class tb c =? k) t.
Proof. intros tb t k. symmetry. apply (reorders_class tb), canonical_order_reorders. Qed.
Print Assumptions C37_stable.
Example C37_demo : canonical_order ndemo [0x71; 0x307; 0x323; 0x327; 0x301; 0x61; 0x323] =
  [0x71; 0x327; 0x323; 0x307; 0x301; 0x61; 0x323].
Proof. vm_compute. reflexivity. Qed.

(** * C39 full decomposition *)
Theorem C39_terminates : forall tb, acyclic tb -> forall compat c, exists fuel l, decompose_recursive tb fuel compat c = Ok l.
Proof.
  intros tb [rank Hr] k c. exists (S (rank c)). apply (dec_total tb rank Hr). lia.
Qed.
Print Assumptions C39_terminates.
(** Whatever depth suffices, the result is the same: the transitive closure of the one-step mappings. *)
Theorem C39_closure : forall tb, acyclic tb -> jamos_plain tb -> forall compat c fuel l,
  decompose_recursive tb fuel compat c = Ok l -> full_decomposition (step_of tb compat) c l.
Proof.
  intros tb [rank Hr] Hj k c fuel l H.
  pose proof (dec_D tb rank Hr (S (rank c)) k c ltac:(lia)) as HD.
  rewrite (dec_det tb _ _ _ _ _ _ H HD). apply D_full; assumption.
Qed.
Print Assumptions C39_closure.
(** The closure is unique and consists of undecomposable code points only. *)
Theorem C39_closure_unique : forall tb, acyclic tb -> jamos_plain tb -> forall compat c l l',
  full_decomposition (step_of tb compat) c l -> full_decomposition (step_of tb compat) c l' -> l = l'.
Proof.
  intros tb [rank Hr] Hj k c l l' H H'.
  rewrite (full_D tb rank Hr Hj k c l H), (full_D tb rank Hr Hj k c l' H'). reflexivity.
Qed.
Theorem C39_closure_undecomposable : forall tb, acyclic tb -> jamos_plain tb -> forall compat c l x,
  full_decomposition (step_of tb compat) c l -> In x l -> step_of tb compat x = [].
Proof.
  intros tb [rank Hr] Hj k c l x H Hx. rewrite (full_D tb rank Hr Hj k c l H) in Hx.
  apply (D_elem_fixed tb rank Hr Hj k c x Hx).
Qed.
Print Assumptions C39_closure_undecomposable.
Theorem C39_normalize_terminates : forall tb, acyclic tb -> forall form s, exists! r, normalizes tb form s r.
Proof.
  intros tb [rank Hr] form s. exists (NF tb rank form s). split.
  - apply (normalizes_NF tb rank Hr). reflexivity.
  - intros r H. symmetry. apply (normalizes_NF tb rank Hr), H.
Qed.
Print Assumptions C39_normalize_terminates.
(** Acyclicity is needed: with a self-referring entry no recursion depth suffices. *)
Theorem C39_cyclic_diverges : exists tb c, forall fuel, decompose_recursive tb fuel false c = NoFuel.
Proof.
  exists {| t_ccc := []; t_canon := [(5, [5])]; t_compat := []; t_comp := []; t_excl := []; t_nfc_no := []; t_nfc_maybe := [];
     t_nfkc_no := []; t_nfkc_maybe := []; t_nfd_no := []; t_nfkd_no := [] |}, 5.
  induction fuel as [|f IH]; [reflexivity|]. rewrite dec_unfold.
  match goal with |- context [step_of ?t false 5] => change (step_of t false 5) with [5] end.
  change (is_hangul_syllable 5) with false. cbv iota. cbn [decompose_all]. rewrite IH. reflexivity.
Qed.
Example C39_demo : acyclic ndemo /\ jamos_plain ndemo /\ decompose_recursive ndemo 3 true 0x1E9B = Ok [0x73; 0x307] /\
  decompose_recursive ndemo 3 false 0x212B = Ok [0x41; 0x30A].
Proof. split; [exact ndemo_acyclic|]. split; [exact ndemo_jamos|]. vm_compute. auto. Qed.

(** * C38 NFD / NFKD *)
Theorem C38_idempotent : forall tb, acyclic tb -> jamos_plain tb -> forall form, decomposing form -> forall s r,
  normalizes tb form s r -> normalizes tb form r r.
Proof.
  intros tb [rank Hr] Hj form Hf s r H. apply (normalizes_NF tb rank Hr) in H. subst r.
  apply (normalizes_NF tb rank Hr). assert (Hc : composes form = false) by (destruct Hf as [->| ->]; reflexivity).
  unfold NF. rewrite Hc. symmetry. rewrite (flat_D_order tb rank Hr Hj). apply canonical_order_idem.
Qed.
Print Assumptions C38_idempotent.
Theorem C38_fully_decomposed : forall tb, acyclic tb -> jamos_plain tb -> forall form, decomposing form -> forall s r x,
  normalizes tb form s r -> In x r -> step_of tb (use_compat form) x = [].
Proof.
  intros tb [rank Hr] Hj form Hf s r x H Hx. apply (normalizes_NF tb rank Hr) in H. subst r.
  assert (Hc : composes form = false) by (destruct Hf as [->| ->]; reflexivity).
  unfold NF in Hx. rewrite Hc in Hx. apply (proj1 (order_in tb _ _)) in Hx. apply (flat_D_elem tb rank Hr Hj _ s x Hx).
Qed.
Print Assumptions C38_fully_decomposed.
Theorem C38_ordered : forall tb, acyclic tb -> forall form, decomposing form -> forall s r,
  normalizes tb form s r -> ordered (canonical_combining_class tb) r.
Proof.
  intros tb [rank Hr] form Hf s r H. apply (normalizes_NF tb rank Hr) in H. subst r.
  assert (Hc : composes form = false) by (destruct Hf as [->| ->]; reflexivity).
  unfold NF. rewrite Hc. apply canonical_order_ordered.
Qed.
(** NFD/NFKD is exactly: replace every code point by its full decomposition, then reorder canonically. *)
Theorem C38_meaning : forall tb, acyclic tb -> jamos_plain tb -> forall form, decomposing form -> forall s d r,
  full_decompositions (step_of tb (use_compat form)) s d -> reorders (canonical_combining_class tb) d r ->
  ordered (canonical_combining_class tb) r -> normalizes tb form s r.
Proof.
  intros tb [rank Hr] Hj form Hf s d r Hd Hre Ho. apply (normalizes_NF tb rank Hr).
  assert (Hc : composes form = false) by (destruct Hf as [->| ->]; reflexivity).
  unfold NF. rewrite Hc. rewrite (reorders_unique tb d r Hre Ho). f_equal.
  clear Hre Ho. induction Hd as [|c t x y Hx Hy IH]; [reflexivity|]. cbn [flat_map].
  rewrite <- IH, (full_D tb rank Hr Hj _ c x Hx). reflexivity.
Qed.
Print Assumptions C38_meaning.
Example C38_demo : normalizes ndemo NFD [0x212B; 0x323; 0xD55C; 0xFB01] [0x41; 0x323; 0x30A; 0x1112; 0x1161; 0x11AB; 0xFB01] /\
  normalizes ndemo NFKD [0x1E9B; 0x323; 0xFB01] [0x73; 0x323; 0x307; 0x66; 0x69].
Proof. split; exists 5%nat; vm_compute; reflexivity. Qed.

(** * C41 equivalence *)
Lemma canon_equiv_iff tb rank (Hr : forall c x, In x (compatibility_decomposition tb c) -> (rank x < rank c)%nat) a b r :
  canon_equiv tb a b r <-> r = list_eqb (NF tb rank NFD a) (NF tb rank NFD b).
Proof.
  destruct (normalize_NF tb rank Hr NFD a) as [f1 H1]. destruct (normalize_NF tb rank Hr NFD b) as [f2 H2]. split.
  - intros [f H]. unfold is_canonically_equivalent in H.
    destruct (normalize tb f a NFD) as [x| |] eqn:Ea; try discriminate.
    destruct (normalize tb f b NFD) as [y| |] eqn:Eb; try discriminate. cbn in H. inversion H; subst.
    rewrite (normalizes_det tb NFD a x (NF tb rank NFD a)), (normalizes_det tb NFD b y (NF tb rank NFD b)); try reflexivity;
      try (eexists; eassumption); eexists; [apply H2|apply H1]; apply le_n.
  - intros ->. exists (Nat.max f1 f2). unfold is_canonically_equivalent. rewrite H1, H2 by lia. reflexivity.
Qed.
Lemma compat_equiv_iff tb rank (Hr : forall c x, In x (compatibility_decomposition tb c) -> (rank x < rank c)%nat) a b r :
  compat_equiv tb a b r <-> r = list_eqb (NF tb rank NFKD a) (NF tb rank NFKD b).
Proof.
  destruct (normalize_NF tb rank Hr NFKD a) as [f1 H1]. destruct (normalize_NF tb rank Hr NFKD b) as [f2 H2]. split.
  - intros [f H]. unfold is_compatibility_equivalent in H.
    destruct (normalize tb f a NFKD) as [x| |] eqn:Ea; try discriminate.
    destruct (normalize tb f b NFKD) as [y| |] eqn:Eb; try discriminate. cbn in H. inversion H; subst.
    rewrite (normalizes_det tb NFKD a x (NF tb rank NFKD a)), (normalizes_det tb NFKD b y (NF tb rank NFKD b)); try reflexivity;
      try (eexists; eassumption); eexists; [apply H2|apply H1]; apply le_n.
  - intros ->. exists (Nat.max f1 f2). unfold is_compatibility_equivalent. rewrite H1, H2 by lia. reflexivity.
Qed.
(** [eqv compat a b]: the library reports a and b equivalent. *)
Definition eqv (tb : norm_tables) (compat : bool) (a b : list N) : Prop :=
  if compat then compat_equiv tb a b true else canon_equiv tb a b true.
Definition form_of (compat : bool) : nform := if compat then NFKD else NFD.
Lemma eqv_iff tb rank (Hr : forall c x, In x (compatibility_decomposition tb c) -> (rank x < rank c)%nat) k a b :
  eqv tb k a b <-> NF tb rank (form_of k) a = NF tb rank (form_of k) b.
Proof.
  rewrite <- list_eqb_spec. destruct k; cbn [eqv form_of];
    [rewrite (compat_equiv_iff tb rank Hr)|rewrite (canon_equiv_iff tb rank Hr)]; split; congruence.
Qed.

Theorem C41_decided : forall tb, acyclic tb -> forall a b, (exists! r, canon_equiv tb a b r) /\ (exists! r, compat_equiv tb a b r).
Proof.
  intros tb [rank Hr] a b. split; eexists; split.
  - apply (canon_equiv_iff tb rank Hr). reflexivity.
  - intros r H. symmetry. apply (canon_equiv_iff tb rank Hr), H.
  - apply (compat_equiv_iff tb rank Hr). reflexivity.
  - intros r H. symmetry. apply (compat_equiv_iff tb rank Hr), H.
Qed.
Theorem C41_equivalence : forall tb, acyclic tb -> forall k,
  (forall a, eqv tb k a a) /\ (forall a b, eqv tb k a b -> eqv tb k b a) /\
  (forall a b c, eqv tb k a b -> eqv tb k b c -> eqv tb k a c).
Proof.
  intros tb [rank Hr] k. split; [|split].
  - intros a. apply (eqv_iff tb rank Hr). reflexivity.
  - intros a b. rewrite !(eqv_iff tb rank Hr). congruence.
  - intros a b c. rewrite !(eqv_iff tb rank Hr). congruence.
Qed.
Print Assumptions C41_equivalence.
(** A text is equivalent to its NFD / NFKD. *)
Theorem C41_normal_form : forall tb, acyclic tb -> jamos_plain tb -> forall k s r, normalizes tb (form_of k) s r -> eqv tb k s r.
Proof.
  intros tb [rank Hr] Hj k s r H. apply (normalizes_NF tb rank Hr) in H. subst r. apply (eqv_iff tb rank Hr).
  unfold NF. destruct k; cbn [form_of use_compat composes]; rewrite (flat_D_order tb rank Hr Hj); symmetry; apply canonical_order_idem.
Qed.
Print Assumptions C41_normal_form.
(** Concatenation respects equivalence. *)
Theorem C41_congruence : forall tb, acyclic tb -> forall k a a' b b',
  eqv tb k a a' -> eqv tb k b b' -> eqv tb k (a ++ b) (a' ++ b').
Proof.
  intros tb [rank Hr] k a a' b b'. rewrite !(eqv_iff tb rank Hr). unfold NF.
  assert (Hc : composes (form_of k) = false) by (destruct k; reflexivity). rewrite Hc. intros H1 H2.
  rewrite !flat_map_app. rewrite <- (order_app tb (flat_map _ a)), <- (order_app tb (flat_map _ a')). rewrite H1, H2. reflexivity.
Qed.
Print Assumptions C41_congruence.
(** Canonical equivalence implies compatibility equivalence, for tables in which a mark only decomposes into marks of its
    own class (true in the UCD). *)
Theorem C41_canonical_implies_compatibility : forall tb, acyclic tb -> jamos_plain tb ->
  (forall c x, canonical_combining_class tb c <> 0 -> In x (compatibility_decomposition tb c) ->
     canonical_combining_class tb x = canonical_combining_class tb c) ->
  forall a b, canon_equiv tb a b true -> compat_equiv tb a b true.
Proof.
  intros tb [rank Hr] Hj Hu a b H. apply (eqv_iff tb rank Hr false) in H. apply (eqv_iff tb rank Hr true).
  cbn [form_of] in *. rewrite (NFKD_factor tb rank Hr Hj Hu a), (NFKD_factor tb rank Hr Hj Hu b), H. reflexivity.
Qed.
Print Assumptions C41_canonical_implies_compatibility.
Example C41_demo : eqv ndemo false [0x212B; 0x323] [0x41; 0x323; 0x30A] /\ eqv ndemo true [0xFB01] [0x66; 0x69] /\
  canon_equiv ndemo [0xFB01] [0x66; 0x69] false.
Proof. split; [|split]; exists 5%nat; vm_compute; reflexivity. Qed.
Example C41_demo_hyp : forall c x, canonical_combining_class ndemo c <> 0 -> In x (compatibility_decomposition ndemo c) ->
     canonical_combining_class ndemo x = canonical_combining_class ndemo c.
Proof. exact ndemo_uniform. Qed.

(** * C40 NFC and canonical equivalence *)
(** Full statement. *)
Definition C40_statement : Prop := forall tb, acyclic tb -> jamos_plain tb -> comp_consistent tb -> comp_starters tb ->
  forall s n c, normalizes tb NFD s n -> normalizes tb NFC s c -> normalizes tb NFD c n.
(** It fails: a mark that does not compose is written before its starter (q + U+0307 becomes U+0307 + q). *)
Theorem C40_marks_before_starter_refuted : ~ C40_statement.
Proof.
  intros H.
  pose proof (H ndemo ndemo_acyclic ndemo_jamos ndemo_consistent ndemo_starters [0x71; 0x307] [0x71; 0x307] [0x307; 0x71]) as G.
  assert (G1 : normalizes ndemo NFD [0x71; 0x307] [0x71; 0x307]) by (exists 5%nat; vm_compute; reflexivity).
  assert (G2 : normalizes ndemo NFC [0x71; 0x307] [0x307; 0x71]) by (exists 5%nat; vm_compute; reflexivity).
  specialize (G G1 G2).
  assert (G3 : normalizes ndemo NFD [0x307; 0x71] [0x307; 0x71]) by (exists 5%nat; vm_compute; reflexivity).
  pose proof (normalizes_det ndemo _ _ _ _ G G3). discriminate.
Qed.
Print Assumptions C40_marks_before_starter_refuted.
(** It fails a second way: U+11A7 (TBase, not a trailing jamo) after an LV syllable disappears. *)
Theorem C40_swallows_11A7_refuted : ~ C40_statement.
Proof.
  intros H.
  pose proof (H ndemo ndemo_acyclic ndemo_jamos ndemo_consistent ndemo_starters [0xAC00; 0x11A7] [0x1100; 0x1161; 0x11A7] [0xAC00]) as G.
  assert (G1 : normalizes ndemo NFD [0xAC00; 0x11A7] [0x1100; 0x1161; 0x11A7]) by (exists 5%nat; vm_compute; reflexivity).
  assert (G2 : normalizes ndemo NFC [0xAC00; 0x11A7] [0xAC00]) by (exists 5%nat; vm_compute; reflexivity).
  specialize (G G1 G2).
  assert (G3 : normalizes ndemo NFD [0xAC00] [0x1100; 0x1161]) by (exists 5%nat; vm_compute; reflexivity).
  pose proof (normalizes_det ndemo _ _ _ _ G G3). discriminate.
Qed.
Print Assumptions C40_swallows_11A7_refuted.

Lemma nf_fixed tb rank (Hr : forall c x, In x (compatibility_decomposition tb c) -> (rank x < rank c)%nat) (Hj : jamos_plain tb) k s :
  ~ In TBase (canonical_order tb (flat_map (D tb rank k) s)) ->
  forall x, In x (canonical_order tb (flat_map (D tb rank k) s)) -> step_of tb k x = [] /\ x <> TBase.
Proof.
  intros Hb x Hx. split; [|congruence]. apply (proj1 (order_in tb _ _)) in Hx. apply (flat_D_elem tb rank Hr Hj _ s x Hx).
Qed.

(** What does hold (1): nothing is lost or invented.  Decomposing the composed form gives a permutation of the decomposed
    form (both for NFC/NFD and NFKC/NFKD), if U+11A7 does not occur. *)
Theorem C40_content_partial : forall tb, acyclic tb -> jamos_plain tb -> comp_consistent tb ->
  forall formC formD, (formC = NFC /\ formD = NFD) \/ (formC = NFKC /\ formD = NFKD) ->
  forall s n c m, normalizes tb formD s n -> ~ In TBase n -> normalizes tb formC s c -> normalizes tb formD c m ->
  Permutation m n.
Proof.
  intros tb [rank Hr] Hj Hc fc fd Hf s n c m Hn Hb Hcc Hm.
  apply (normalizes_NF tb rank Hr) in Hn, Hcc, Hm. subst n c m.
  assert (E : exists k, use_compat fc = k /\ use_compat fd = k /\ composes fc = true /\ composes fd = false).
  { destruct Hf as [[-> ->]|[-> ->]]; eexists; repeat split; reflexivity. }
  destruct E as [k [E1 [E2 [E3 E4]]]]. unfold NF in *. rewrite E1, E2, E3, E4 in *.
  eapply perm_trans; [apply order_perm|]. apply (compose_content tb rank Hr Hj Hc k), (nf_fixed tb rank Hr Hj k s Hb).
Qed.
Print Assumptions C40_content_partial.

(** (2): the claim itself, for every text in which each mark after a starter composes, i.e. whose NFC consists of the
    leading marks of its NFD followed by starters only. *)
Theorem C40_equivalent_partial : forall tb, acyclic tb -> jamos_plain tb -> comp_consistent tb ->
  forall s lead st rest c, normalizes tb NFD s (lead ++ st :: rest) -> ~ In TBase (lead ++ st :: rest) ->
  Forall (fun x => canonical_combining_class tb x <> 0) lead -> canonical_combining_class tb st = 0 ->
  normalizes tb NFC s (lead ++ c) -> Forall (fun x => canonical_combining_class tb x = 0) c ->
  normalizes tb NFD (lead ++ c) (lead ++ st :: rest).
Proof.
  intros tb [rank Hr] Hj Hc s lead st rest c Hn Hb Hl Hst Hcc Hall.
  apply (normalizes_NF tb rank Hr) in Hn. apply (normalizes_NF tb rank Hr) in Hcc. apply (normalizes_NF tb rank Hr).
  rewrite Hcc. unfold NF in *. cbn [use_compat composes] in *.
  pose proof (nf_fixed tb rank Hr Hj false s) as Hf. rewrite <- Hn in *. specialize (Hf Hb).
  rewrite (compose_exact tb rank Hr Hj Hc false lead st rest c Hf Hl Hst (eq_sym Hcc) Hall).
  rewrite Hn. symmetry. apply canonical_order_idem.
Qed.
Print Assumptions C40_equivalent_partial.
(** (3): the same for texts without any mark in their NFD (Hangul, CJK, plain Latin, ...) — no condition on the result. *)
Lemma all_starters_loop tb text : comp_starters tb -> forall st last, canonical_combining_class tb st = 0 ->
  Forall (fun x => canonical_combining_class tb x = 0) text -> Forall (fun x => canonical_combining_class tb x = 0) (compose_loop tb text [] st last).
Proof.
  intros Hs. induction text as [|cp rest IH]; intros st last Hst Hall; [cbn; auto|].
  inversion Hall; subst. rewrite loop_cons. cbn zeta. rewrite H1. change (0 =? 0) with true. cbv iota.
  match goal with |- context [negb (?x =? 0) && negb (is_composition_exclusion tb ?x)] => set (composed := x) end.
  destruct (negb (composed =? 0) && negb (is_composition_exclusion tb composed)) eqn:E.
  - apply andb_true_iff in E. destruct E as [E1 _]. apply negb_true_iff, N.eqb_neq in E1.
    apply IH; [|assumption]. apply (try_compose_starter tb Hs st cp); [|exact E1|exact Hst].
    subst composed. destruct ((last <? 0) || (last =? 0)); [reflexivity|congruence].
  - constructor; [exact Hst|]. apply IH; assumption.
Qed.
Theorem C40_starters_partial : forall tb, acyclic tb -> jamos_plain tb -> comp_consistent tb -> comp_starters tb ->
  forall s n c, normalizes tb NFD s n -> ~ In TBase n -> Forall (fun x => canonical_combining_class tb x = 0) n ->
  normalizes tb NFC s c -> normalizes tb NFD c n.
Proof.
  intros tb Ha Hj Hc Hs s n c Hn Hb Hall Hcc. destruct n as [|st rest].
  - destruct Ha as [rank Hr]. apply (normalizes_NF tb rank Hr) in Hn, Hcc. subst c. apply (normalizes_NF tb rank Hr).
    unfold NF in *. cbn [use_compat composes] in *. rewrite <- Hn. reflexivity.
  - apply (C40_equivalent_partial tb Ha Hj Hc s [] st rest c); auto; [inversion Hall; assumption|].
    destruct Ha as [rank Hr]. apply (normalizes_NF tb rank Hr) in Hn, Hcc. unfold NF in *. cbn [use_compat composes] in *.
    rewrite <- Hn in Hcc. subst c. unfold compose. inversion Hall; subst. rewrite lead_cons, H1. change (0 =? 0) with true.
    apply all_starters_loop; assumption.
Qed.
Print Assumptions C40_starters_partial.
Example C40_demo : normalizes ndemo NFD [0x212B; 0x304C; 0xD55C] [0x41; 0x30A; 0x304B; 0x3099; 0x1112; 0x1161; 0x11AB] /\
  normalizes ndemo NFC [0x212B; 0x304C; 0xD55C] [0xC5; 0x304C; 0xD55C] /\
  Forall (fun x => canonical_combining_class ndemo x = 0) [0xC5; 0x304C; 0xD55C].
Proof. split; [exists 5%nat; vm_compute; reflexivity|]. split; [exists 5%nat; vm_compute; reflexivity|]. repeat constructor. Qed.
Example C40_demo_hyp : comp_consistent ndemo /\ comp_starters ndemo.
Proof. split; [exact ndemo_consistent|exact ndemo_starters]. Qed.

(** * C42 quick_check *)
Definition C42_statement : Prop := forall tb, acyclic tb -> jamos_plain tb -> comp_consistent tb -> comp_starters tb ->
  qc_decomp_exact tb -> qc_no_exact tb NFC -> qc_no_exact tb NFKC -> forall form s r, normalizes tb form s r ->
  (quick_check tb s form = Yes -> r = s) /\ (quick_check tb s form = No -> r <> s).
(** It fails for NFC (and NFKC): q + U+0332 is all Yes and in order, but to_nfc writes the mark before the q. *)
Theorem C42_nfc_yes_refuted : ~ C42_statement.
Proof.
  intros H. pose proof (H ndemo ndemo_acyclic ndemo_jamos ndemo_consistent ndemo_starters ndemo_qc_decomp
    (ndemo_qc_no NFC eq_refl) (ndemo_qc_no NFKC eq_refl) NFC [0x71; 0x332] [0x332; 0x71]) as G.
  assert (G1 : normalizes ndemo NFC [0x71; 0x332] [0x332; 0x71]) by (exists 5%nat; vm_compute; reflexivity).
  destruct (G G1) as [G2 _]. discriminate G2. vm_compute. reflexivity.
Qed.
Print Assumptions C42_nfc_yes_refuted.
(** Both answers are definite, and decided, for NFD and NFKD. *)
Theorem C42_decomposed_partial : forall tb, acyclic tb -> jamos_plain tb -> qc_decomp_exact tb -> forall form, decomposing form ->
  forall s r, normalizes tb form s r -> (quick_check tb s form = Yes <-> r = s) /\ (quick_check tb s form = No <-> r <> s).
Proof.
  intros tb [rank Hr] Hj Hq form Hf s r H. apply (normalizes_NF tb rank Hr) in H. subst r.
  apply (qc_decomp tb rank Hr Hj form s); [destruct Hf as [->| ->]; reflexivity|exact Hq].
Qed.
Print Assumptions C42_decomposed_partial.
(** "No" is definite for NFC and NFKC too. *)
Theorem C42_composed_no_partial : forall tb, acyclic tb -> jamos_plain tb -> comp_starters tb -> forall form, composing form ->
  qc_no_exact tb form -> forall s r, normalizes tb form s r -> quick_check tb s form = No -> r <> s.
Proof.
  intros tb [rank Hr] Hj Hs form Hf Hq s r H Hno. apply (normalizes_NF tb rank Hr) in H. subst r.
  apply (qc_comp_no tb rank Hr Hj form s); auto. destruct Hf as [->| ->]; reflexivity.
Qed.
Print Assumptions C42_composed_no_partial.
(** "Yes" is definite for NFC and NFKC on texts of starters, when each Yes starter is its own normalization and its
    decomposition starts with a starter that never composes backwards. *)
Theorem C42_composed_yes_partial : forall tb, acyclic tb -> jamos_plain tb -> forall form, composing form ->
  forall s r, (forall c, In c s -> canonical_combining_class tb c = 0) ->
  (forall c, In c s -> cp_quick_check tb form c = Yes -> clean_start tb form c /\ normalizes tb form [c] [c]) ->
  normalizes tb form s r -> quick_check tb s form = Yes -> r = s.
Proof.
  intros tb [rank Hr] Hj form Hf s r Hs Hq H Hy. apply (normalizes_NF tb rank Hr) in H. subst r.
  apply qc_loop_yes in Hy. rewrite Forall_forall in Hy. apply (NF_clean_concat tb rank Hr Hj form s).
  intros c Hc. destruct (Hq c Hc (Hy c Hc)) as [H1 H2]. split; [exact H1|]. symmetry. apply (normalizes_NF tb rank Hr), H2.
Qed.
Print Assumptions C42_composed_yes_partial.
Example C42_demo : quick_check ndemo [0x41; 0x323; 0x30A] NFD = Yes /\ quick_check ndemo [0x41; 0x30A; 0x323] NFD = No /\
  quick_check ndemo [0x212B] NFC = No /\ quick_check ndemo [0xC5; 0x304B] NFC = Yes /\ quick_check ndemo [0x41; 0x300] NFC = Maybe.
Proof. vm_compute. auto. Qed.
Example C42_demo_hyp : qc_decomp_exact ndemo /\ qc_no_exact ndemo NFC /\ qc_no_exact ndemo NFKC.
Proof. split; [exact ndemo_qc_decomp|]. split; apply ndemo_qc_no; reflexivity. Qed.
Lemma ndemo_clean form c : canonical_combining_class ndemo c = 0 -> c <> 0xF73 -> c <> 0xFF9E ->
  match D ndemo rank_demo (use_compat form) c with
  | h :: _ => negb (existsb (N.eqb h) (map (fun e => snd (fst e)) d_comp)) && negb (is_hangul_v_jamo h) && negb (is_hangul_t_jamo h) && negb (h =? TBase)
  | [] => false end = true -> clean_start ndemo form c.
Proof.
  intros H0 H1 H2 H. destruct (ndemo_first (use_compat form) c H0 H1 H2) as [h [l [Hd Hh]]].
  exists h, l. split; [exact Hd|]. split; [exact Hh|]. intros _.
  apply (full_D ndemo rank_demo ndemo_rank ndemo_jamos) in Hd. rewrite <- Hd in H.
  apply andb_true_iff in H. destruct H as [H H6]. apply andb_true_iff in H. destruct H as [H H5].
  apply andb_true_iff in H. destruct H as [H3 H4]. apply negb_true_iff in H3, H4, H5, H6. apply N.eqb_neq in H6.
  apply ndemo_never_second; auto. intros Hin. apply existsb_in in Hin. congruence.
Qed.
Example C42_demo_yes : forall c, In c [0xC5; 0x304B; 0xAC00] -> canonical_combining_class ndemo c = 0 /\
  clean_start ndemo NFC c /\ normalizes ndemo NFC [c] [c].
Proof.
  intros c Hc. cbn in Hc. destruct Hc as [<-|[<-|[<-|[]]]]; (split; [reflexivity|split;
    [apply ndemo_clean; [reflexivity|discriminate|discriminate|vm_compute; reflexivity]|exists 5%nat; vm_compute; reflexivity]]).
Qed.

(** * C43 is_normalized *)
Definition C43_statement : Prop := forall tb, acyclic tb -> jamos_plain tb -> comp_consistent tb -> comp_starters tb ->
  qc_decomp_exact tb -> qc_no_exact tb NFC -> qc_no_exact tb NFKC -> forall form s r b, normalizes tb form s r ->
  normalized_check tb form s b -> (b = true <-> r = s).
Theorem C43_nfc_refuted : ~ C43_statement.
Proof.
  intros H. pose proof (H ndemo ndemo_acyclic ndemo_jamos ndemo_consistent ndemo_starters ndemo_qc_decomp
    (ndemo_qc_no NFC eq_refl) (ndemo_qc_no NFKC eq_refl) NFC [0x71; 0x332] [0x332; 0x71] true) as G.
  assert (G1 : normalizes ndemo NFC [0x71; 0x332] [0x332; 0x71]) by (exists 5%nat; vm_compute; reflexivity).
  assert (G2 : normalized_check ndemo NFC [0x71; 0x332] true) by (exists 5%nat; vm_compute; reflexivity).
  destruct (G G1 G2) as [G3 _]. discriminate (G3 eq_refl).
Qed.
Print Assumptions C43_nfc_refuted.
Theorem C43_decomposed_partial : forall tb, acyclic tb -> jamos_plain tb -> qc_decomp_exact tb -> forall form, decomposing form ->
  forall s r b, normalizes tb form s r -> normalized_check tb form s b -> (b = true <-> r = s).
Proof.
  intros tb Ha Hj Hq form Hf s r b H [fuel Hb].
  destruct (C42_decomposed_partial tb Ha Hj Hq form Hf s r H) as [HY HN]. unfold is_normalized in Hb.
  destruct (quick_check tb s form) eqn:E; [inversion Hb; subst; tauto| |].
  - inversion Hb; subst. split; [discriminate|]. intros Er. exfalso. exact (proj1 HN eq_refl Er).
  - destruct (normalize tb fuel s form) as [x| |] eqn:En; try discriminate. cbn in Hb. inversion Hb; subst.
    rewrite list_eqb_spec. rewrite (normalizes_det tb form s r x H) by (exists fuel; exact En). reflexivity.
Qed.
Print Assumptions C43_decomposed_partial.
(** NFC/NFKC: "false" is always right, and "true" is right whenever quick_check could not already say Yes. *)
Theorem C43_composed_partial : forall tb, acyclic tb -> jamos_plain tb -> comp_starters tb -> forall form, composing form ->
  qc_no_exact tb form -> forall s r b, normalizes tb form s r -> normalized_check tb form s b ->
  (b = false -> r <> s) /\ (quick_check tb s form <> Yes -> b = true -> r = s).
Proof.
  intros tb Ha Hj Hs form Hf Hq s r b H [fuel Hb]. unfold is_normalized in Hb.
  destruct (quick_check tb s form) eqn:E.
  - inversion Hb; subst. split; [discriminate|congruence].
  - inversion Hb; subst. split; [|discriminate]. intros _. eapply C42_composed_no_partial; eauto.
  - destruct (normalize tb fuel s form) as [x| |] eqn:En; try discriminate. cbn in Hb. inversion Hb; subst.
    assert (r = x) as -> by (apply (normalizes_det tb form s); [exact H|exists fuel; exact En]). split.
    + intros Hl ->. assert (list_eqb s s = true) by (apply list_eqb_spec; reflexivity). congruence.
    + intros _ Hl. apply list_eqb_spec, Hl.
Qed.
Print Assumptions C43_composed_partial.
Theorem C43_decided : forall tb, acyclic tb -> forall form s, exists b, normalized_check tb form s b.
Proof.
  intros tb [rank Hr] form s. destruct (normalize_NF tb rank Hr form s) as [f0 H]. unfold normalized_check, is_normalized.
  destruct (quick_check tb s form); [exists true, 0%nat; reflexivity|exists false, 0%nat; reflexivity|].
  exists (list_eqb (NF tb rank form s) s), f0. rewrite H by lia. reflexivity.
Qed.
Example C43_demo : normalized_check ndemo NFC [0x41; 0x300] false /\ normalized_check ndemo NFC [0xC0; 0x304B] true /\
  normalized_check ndemo NFD [0x41; 0x300] true.
Proof. split; [|split]; exists 5%nat; vm_compute; reflexivity. Qed.

(** * C44 streaming *)
Definition C44_statement : Prop := forall tb, acyclic tb -> jamos_plain tb -> comp_consistent tb -> comp_starters tb ->
  qc_decomp_exact tb -> forall form s r b, normalizes tb form s r -> streams tb form s b -> b = r.
(** It fails for NFD: U+0F73 has combining class 0 but decomposes into marks, which would have to be reordered with the
    pending U+0F74. *)
Theorem C44_nfd_refuted : ~ C44_statement.
Proof.
  intros H. pose proof (H ndemo ndemo_acyclic ndemo_jamos ndemo_consistent ndemo_starters ndemo_qc_decomp
    NFD [0xF40; 0xF74; 0xF73] [0xF40; 0xF71; 0xF72; 0xF74] [0xF40; 0xF74; 0xF71; 0xF72]) as G.
  assert (G1 : normalizes ndemo NFD [0xF40; 0xF74; 0xF73] [0xF40; 0xF71; 0xF72; 0xF74]) by (exists 5%nat; vm_compute; reflexivity).
  assert (G2 : streams ndemo NFD [0xF40; 0xF74; 0xF73] [0xF40; 0xF74; 0xF71; 0xF72]) by (exists 5%nat; vm_compute; reflexivity).
  discriminate (G G1 G2).
Qed.
Print Assumptions C44_nfd_refuted.
(** Streaming equals batch for every text in which each code point the normalizer treats as a boundary really is one: its
    full decomposition starts with a starter that (NFC/NFKC) never composes with what precedes it.  In the UCD this
    excludes only U+0F73, U+0F75, U+0F81 (NFD, NFKD) and the half-width voicing marks U+FF9E, U+FF9F (NFKD). *)
Theorem C44_stream_partial : forall tb, acyclic tb -> jamos_plain tb -> forall form s,
  (forall c, In c (tl s) -> flush_point tb form c -> clean_start tb form c) ->
  (exists b, streams tb form s b) /\ forall b, streams tb form s b -> normalizes tb form s b.
Proof.
  intros tb [rank Hr] Hj form s Hc0.
  assert (Hc : forall c, In c (tl s) -> is_boundary tb form c = true -> clean_start tb form c) by (intros c Hi Hb; apply Hc0; [exact Hi|apply is_boundary_spec, Hb]).
  destruct (stream_ok tb rank Hr Hj form s Hc) as [f0 H].
  assert (Hs : streams tb form s (NF tb rank form s)) by (exists f0; apply H; lia). split; [eauto|].
  intros b Hb. apply (normalizes_NF tb rank Hr). apply (streams_det tb form s _ _ Hb Hs).
Qed.
Print Assumptions C44_stream_partial.
Example C44_demo : (forall c, In c (tl [0x41; 0x30A; 0x323; 0x304B; 0x3099; 0xD55C; 0x212B; 0xFB01]) -> flush_point ndemo NFC c -> clean_start ndemo NFC c) /\
  streams ndemo NFC [0x41; 0x30A; 0x304B; 0x3099; 0xD55C; 0x212B; 0xFB01] [0xC5; 0x304C; 0xD55C; 0xC5; 0xFB01].
Proof.
  split; [|exists 5%nat; vm_compute; reflexivity].
  intros c Hc. cbn in Hc.
  repeat (destruct Hc as [<-|Hc]; [intros Hb; apply is_boundary_spec in Hb; first [vm_compute in Hb; discriminate|
    apply ndemo_clean; [reflexivity|discriminate|discriminate|vm_compute; reflexivity]]|]). destruct Hc.
Qed.
(** flush() and reset() leave the normalizer empty: feeding after them is like feeding a fresh one. *)
Theorem C44_chunks : forall tb fuel form pending t1 t2,
  nfeed_all tb fuel form pending (t1 ++ t2) =
  (do (o1, p1) <- nfeed_all tb fuel form pending t1 ; do (o2, p2) <- nfeed_all tb fuel form p1 t2 ; Ok (o1 ++ o2, p2)).
Proof.
  intros tb fuel form pending t1. revert pending. induction t1 as [|c t1 IH]; intros pending t2; cbn [app nfeed_all].
  - cbn [bindR]. destruct (nfeed_all tb fuel form pending t2) as [[o p]| |]; reflexivity.
  - destruct (nfeed tb fuel form pending c) as [[o p]| |]; cbn [bindR]; try reflexivity. rewrite IH.
    destruct (nfeed_all tb fuel form p t1) as [[o1 p1]| |]; cbn [bindR]; try reflexivity.
    destruct (nfeed_all tb fuel form p1 t2) as [[o2 p2]| |]; cbn [bindR]; try reflexivity. rewrite app_assoc. reflexivity.
Qed.
Print Assumptions C44_chunks.
