(** The streaming normalizer on every text. *)
From Verif Require Import Base M_Tables M_Normalize Spec_Tables P_Tables Spec_Normalize P_Order P_Normalize P_Hangul P_Compose P_Compose2 P_Stream
  Spec_Grapheme P_Grapheme Spec_StreamSeg.
From Coq Require Import Relations Sorted Permutation.
Open Scope N_scope.

Lemma is_boundary_spec tb form c : is_boundary tb form c = true <-> flush_point tb form c.
Proof.
  unfold is_boundary, flush_point. destruct (N.eqb_spec (canonical_combining_class tb c) 0) as [E|E]; cbn [negb].
  2:{ split; [discriminate|]. intros [H _]. contradiction. }
  destruct form.
  - unfold nfc_quick_check. destruct (binary_search (t_nfc_no tb) c), (binary_search (t_nfc_maybe tb) c); split; try discriminate; try reflexivity;
      try (intros (_ & H & _); destruct (H eq_refl); discriminate). intros _. split; [exact E|]. split; [auto|discriminate].
  - split; [|reflexivity]. intros _. split; [exact E|]. split; discriminate.
  - unfold nfkc_quick_check. destruct (binary_search (t_nfkc_no tb) c), (binary_search (t_nfkc_maybe tb) c); split; try discriminate; try reflexivity;
      try (intros (_ & _ & H); destruct (H eq_refl); discriminate). intros _. split; [exact E|]. split; [discriminate|auto].
  - split; [|reflexivity]. intros _. split; [exact E|]. split; discriminate.
Qed.
Lemma flush_yes tb form c : composing form -> flush_point tb form c -> cp_quick_check tb form c = Yes /\ canonical_combining_class tb c = 0.
Proof.
  intros Hf (H0 & H1 & H2). split; [|exact H0]. destruct Hf as [-> | ->]; cbn [cp_quick_check]; unfold nfc_quick_check, nfkc_quick_check.
  - destruct (H1 eq_refl) as [-> ->]. reflexivity.
  - destruct (H2 eq_refl) as [-> ->]. reflexivity.
Qed.

Definition segments (tb : norm_tables) (form : nform) (t : list N) : list (list N) :=
  match t with [] => [] | c :: r => group [c] r (map (is_boundary tb form) r) end.

Section Seg.
Variable tb : norm_tables.
Variable rank : N -> nat.
Hypothesis Hrank : forall c x, In x (compatibility_decomposition tb c) -> (rank x < rank c)%nat.
Notation D := (D tb rank).
Notation NF := (NF tb rank).

Lemma nfeed_groups form t : forall cur, cur <> [] ->
  exists init p f0, group cur t (map (is_boundary tb form) t) = init ++ [p] /\ p <> [] /\
    forall f, (f0 <= f)%nat -> nfeed_all tb f form (rev cur) t = Ok (concat (map (NF form) init), p).
Proof.
  induction t as [|c t IH]; intros cur Hc.
  - exists [], (rev cur), O. cbn [map group]. split; [reflexivity|]. split; [|reflexivity].
    intros E. apply (f_equal (@rev N)) in E. rewrite rev_involutive in E. contradiction.
  - assert (Hp : exists q pd, rev cur = q :: pd).
    { destruct (rev cur) as [|q pd] eqn:E; [|eauto]. apply (f_equal (@rev N)) in E. rewrite rev_involutive in E. contradiction. }
    destruct Hp as (q & pd & Hp). cbn [map group]. destruct (is_boundary tb form c) eqn:Eb.
    + destruct (IH [c] ltac:(discriminate)) as (init & p & f1 & E & Hp' & H1). destruct (normalize_NF tb rank Hrank form (rev cur)) as [f2 H2].
      exists (rev cur :: init), p, (Nat.max f1 f2). split; [rewrite E; reflexivity|]. split; [exact Hp'|]. intros f Hf.
      cbn [nfeed_all]. unfold nfeed. rewrite Hp, Eb, emit_eq, <- Hp, H2 by lia. cbn [bindR]. change [c] with (rev [c]). rewrite H1 by lia. reflexivity.
    + destruct (IH (c :: cur) ltac:(discriminate)) as (init & p & f1 & E & Hp' & H1). exists init, p, f1. split; [exact E|]. split; [exact Hp'|].
      intros f Hf. cbn [nfeed_all]. unfold nfeed. rewrite Hp, Eb. cbn [bindR]. rewrite <- Hp. change (rev cur ++ [c]) with (rev (c :: cur)). rewrite H1 by lia. reflexivity.
Qed.
Lemma stream_segments form s : streams tb form s (concat (map (NF form) (segments tb form s))).
Proof.
  destruct s as [|c s]; [exists O; reflexivity|]. destruct (nfeed_groups form s [c] ltac:(discriminate)) as (init & p & f1 & E & Hp & H1).
  destruct (normalize_NF tb rank Hrank form p) as [f2 H2]. exists (Nat.max f1 f2). unfold stream_normalize. cbn [nfeed_all nfeed bindR].
  change [c] with (rev [c]). rewrite H1 by lia. cbn [bindR app]. rewrite emit_eq, H2 by lia. cbn [bindR segments]. rewrite E.
  rewrite map_app, concat_app. cbn [map concat]. rewrite app_nil_r. reflexivity.
Qed.
Lemma segments_partition form s : partition_of s (segments tb form s).
Proof.
  destruct s as [|c s]; [split; [reflexivity|constructor]|]. cbn [segments]. split.
  - rewrite group_concat by apply map_length. reflexivity.
  - apply group_nonempty. discriminate.
Qed.
Lemma segments_cuts form s k : cut_at (segments tb form s) k <->
  k = O \/ k = length s \/ exists l a c r, s = l ++ a :: c :: r /\ k = S (length l) /\ flush_point tb form c.
Proof.
  destruct s as [|c0 s].
  { cbn [segments]. rewrite cut_at_nil. cbn [length]. split; [auto|]. intros [H|[H|(l & a & c & r & E & _)]]; [exact H|exact H|destruct l; discriminate]. }
  cbn [segments]. rewrite group_cuts by (rewrite ?map_length; try reflexivity; discriminate). cbn [length].
  destruct k as [|k]; [split; auto|]. replace (S k - 1)%nat with k by lia. replace (1 + length s)%nat with (S (length s)) by lia.
  assert (Q : nth_error (map (is_boundary tb form) s) k = Some true <-> exists l a c r, c0 :: s = l ++ a :: c :: r /\ S k = S (length l) /\ flush_point tb form c).
  { split.
    - intros H. rewrite nth_error_map in H. destruct (nth_error s k) as [c|] eqn:E; [|discriminate]. cbn [option_map] in H.
      assert (B : is_boundary tb form c = true) by congruence. apply is_boundary_spec in B.
      apply nth_error_split in E as (l & r & E & Hl).
      destruct (exists_last (l := c0 :: l) ltac:(discriminate)) as (l' & a & El). exists l', a, c, r. split; [rewrite E; change (c0 :: l ++ c :: r) with ((c0 :: l) ++ c :: r); rewrite El, <- app_assoc; reflexivity|].
      split; [|exact B]. apply (f_equal (@length N)) in El. rewrite app_length in El. cbn [length] in El. lia.
    - intros (l & a & c & r & E & Hl & B). apply is_boundary_spec in B.
      assert (N1 : nth_error (c0 :: s) (S k) = Some c).
      { rewrite E. replace (S k) with (length l + 1)%nat by lia. rewrite nth_error_app2 by lia. replace (length l + 1 - length l)%nat with 1%nat by lia. reflexivity. }
      cbn [nth_error] in N1. rewrite nth_error_map, N1. cbn [option_map]. rewrite B. reflexivity. }
  split.
  - intros [H|[H|[_ H]]]; [auto|auto|]. right. right. apply Q, H.
  - intros [H|[H|H]]; [auto|auto|]. right. right. split; [lia|]. apply Q, H.
Qed.

(** ** Decomposing forms: the concatenation is a reordering *)
Lemma concat_reorders form segs : composes form = false ->
  reorders (canonical_combining_class tb) (flat_map (D (use_compat form)) (concat segs)) (concat (map (NF form) segs)).
Proof.
  intros Hf. induction segs as [|a segs IH]; [apply (reorders_refl tb)|]. cbn [concat map]. rewrite flat_map_app.
  apply (reorders_app tb); [|exact IH]. unfold P_Normalize.NF. rewrite Hf. apply canonical_order_reorders.
Qed.

(** ** Composing forms *)
Hypothesis Hst : comp_starters tb.
Lemma loop_split_j X s Y : canonical_combining_class tb s = 0 -> never_joins tb s -> forall st last, canonical_combining_class tb st = 0 ->
  compose_loop tb (X ++ s :: Y) [] st last = compose_loop tb X [] st last ++ compose_loop tb Y [] s 0.
Proof.
  intros Hs Hn. induction X as [|x X IH]; intros st last Hstt.
  - cbn [app]. rewrite loop_cons. cbn zeta.
    assert (E : negb ((if (last <? canonical_combining_class tb s) || (last =? 0) then try_compose tb st s else 0) =? 0) &&
                negb (is_composition_exclusion tb (if (last <? canonical_combining_class tb s) || (last =? 0) then try_compose tb st s else 0)) = false).
    { destruct ((last <? canonical_combining_class tb s) || (last =? 0)); [|reflexivity]. destruct (Hn st Hstt) as [->| ->]; [reflexivity|].
      destruct (negb _); reflexivity. }
    rewrite E, Hs. reflexivity.
  - cbn [app]. rewrite !loop_cons. cbn zeta. set (composed := if (last <? canonical_combining_class tb x) || (last =? 0) then try_compose tb st x else 0).
    destruct (negb (composed =? 0) && negb _) eqn:C.
    + apply IH. apply andb_true_iff in C as [C _]. apply negb_true_iff, N.eqb_neq in C. unfold composed in *. destruct (_ || _); [|contradiction].
      eapply try_compose_starter; eauto.
    + destruct (N.eqb_spec (canonical_combining_class tb x) 0) as [Zx|Zx]; [rewrite IH by exact Zx; reflexivity|rewrite IH by exact Hstt; reflexivity].
Qed.
Lemma compose_split_j X s Y : canonical_combining_class tb s = 0 -> never_joins tb s -> compose tb (X ++ s :: Y) = compose tb X ++ compose tb (s :: Y).
Proof.
  intros Hs Hn. unfold compose. induction X as [|x X IH]; [reflexivity|]. cbn [app]. rewrite lead_cons, (lead_cons tb x X).
  destruct (N.eqb_spec (canonical_combining_class tb x) 0) as [Zx|Zx].
  - rewrite (loop_split_j X s Y Hs Hn) by exact Zx. rewrite (lead_cons tb s Y), Hs. reflexivity.
  - rewrite IH. reflexivity.
Qed.
Hypothesis Hjamo : jamos_plain tb.
Definition starts_clean (form : nform) (c : N) : Prop :=
  exists h l, full_decomposition (step_of tb (use_compat form)) c (h :: l) /\ canonical_combining_class tb h = 0 /\ never_joins tb h.
Lemma NF_split_j form X c Y : starts_clean form c -> NF form (X ++ c :: Y) = NF form X ++ NF form (c :: Y).
Proof.
  intros [h [l [Hd [Hh Hn]]]]. apply (full_D tb rank Hrank Hjamo) in Hd. unfold P_Normalize.NF. set (k := use_compat form) in *.
  rewrite flat_map_app. cbn [flat_map]. rewrite <- Hd. cbn [app]. rewrite order_split by exact Hh.
  destruct (composes form); [|reflexivity].
  destruct (order_cons_starter tb h (l ++ flat_map (D k) Y) Hh) as [w [-> _]].
  apply compose_split_j; auto.
Qed.
Lemma groups_NF form t : forall cur, cur <> [] -> (forall c, In c t -> is_boundary tb form c = true -> starts_clean form c) ->
  concat (map (NF form) (group cur t (map (is_boundary tb form) t))) = NF form (rev cur ++ t).
Proof.
  induction t as [|c t IH]; intros cur Hc H; cbn [map group].
  - cbn [map concat]. rewrite !app_nil_r. reflexivity.
  - assert (H' : forall x, In x t -> is_boundary tb form x = true -> starts_clean form x) by (intros x Hx; apply H; right; exact Hx).
    destruct (is_boundary tb form c) eqn:Eb.
    + cbn [map concat]. rewrite (IH [c] ltac:(discriminate) H'). cbn [rev app]. symmetry. apply NF_split_j. apply H; [left; reflexivity|exact Eb].
    + rewrite (IH (c :: cur) ltac:(discriminate) H'). cbn [rev]. rewrite <- app_assoc. reflexivity.
Qed.
Lemma segments_NF form s : (forall c, In c (tl s) -> is_boundary tb form c = true -> starts_clean form c) ->
  concat (map (NF form) (segments tb form s)) = NF form s.
Proof.
  intros H. destruct s as [|c s]; [cbn; symmetry; apply (NF_nil tb rank)|]. cbn [segments tl] in *. rewrite groups_NF by (discriminate || exact H). reflexivity.
Qed.
End Seg.
