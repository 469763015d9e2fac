(** C115: looping over a segmenter with its operator bool or with == against a default-constructed one. *)
From Verif Require Import Base M_Ucd M_Grapheme M_Word M_SegIter P_Grapheme P_Word P_SegIter Ucd_Demo.
From Coq Require Import List Lia.
Import ListNotations.

(** C115, the property: "for (auto seg = grapheme_segmenter(t); seg; ++seg) use( *seg)" uses every cluster of a non-empty text. *)
Definition C115_statement : Prop :=
  forall (u : ucd) (t : list N) (l : list (list N)), t <> [] -> grapheme_clusters u t = Ok l ->
    exists fuel, seg_while u fuel (seg_make u t) = Ok l.
(** The converse of the conversion: two segmenters that compare equal denote the same cluster. *)
Definition C115_equal_statement : Prop :=
  forall (u : ucd) (b b' : nat) (t t' : list N) (n n' : nat),
    seg_equal b (seg_advance u n (seg_make u t)) b' (seg_advance u n' (seg_make u t')) = true ->
    seg_value (seg_advance u n (seg_make u t)) = seg_value (seg_advance u n' (seg_make u t')).

Lemma fuel_det u : forall f g s l l', seg_while u f s = Ok l -> seg_while u g s = Ok l' -> l = l'.
Proof.
  induction f as [|f IH]; intros [|g] s l l' H H'; cbn in H, H'; destruct (seg_available s); try discriminate; try congruence.
  destruct (seg_while u f (seg_next u s)) eqn:E, (seg_while u g (seg_next u s)) eqn:E'; try discriminate.
  cbn in *. injection H as <-. injection H' as <-. f_equal. eapply IH; eassumption.
Qed.

(** C115. The loop leaves out the last cluster: one-cluster texts are not visited at all. *)
Theorem C115_bool_loop_refuted : ~ C115_statement.
Proof.
  intros H. specialize (H demo [97; 98] [[97]; [98]]).
  destruct H as [f H]; [discriminate|vm_compute; reflexivity|].
  assert (X : seg_while demo 2 (seg_make demo [97; 98]) = Ok [[97]]) by (vm_compute; reflexivity).
  pose proof (fuel_det _ _ _ _ _ _ H X). discriminate.
Qed.
Print Assumptions C115_bool_loop_refuted.
Theorem C115_equal_refuted : ~ C115_equal_statement.
Proof.
  intros H. specialize (H demo 1%nat 9%nat [97] [98] 0%nat 0%nat eq_refl). discriminate H.
Qed.
Print Assumptions C115_equal_refuted.

(** C115. What the loop does, for every text and table: all clusters but the last, in order. *)
Theorem C115_bool_loop_partial : forall u t l, grapheme_clusters u t = Ok l ->
  seg_while u (length t) (seg_make u t) = Ok (removelast l).
Proof. intros u t l H. apply seg_while_collect, H. Qed.
Print Assumptions C115_bool_loop_partial.
Theorem C115_word_bool_loop_partial : forall u t l, word_segments u t = Ok l ->
  wseg_while u (length t) (wseg_make u t) = Ok (removelast l).
Proof. intros u t l H. apply wseg_while_collect, H. Qed.
Print Assumptions C115_word_bool_loop_partial.
(** "it != grapheme_segmenter {}" as the loop condition leaves out the last cluster too. *)
Theorem C115_end_loop_partial : forall u b t l, (b <> 0)%nat -> grapheme_clusters u t = Ok l ->
  seg_until_end u b (length t) (seg_make u t) = Ok (removelast l).
Proof. intros u b t l Hb H. rewrite seg_until_while by exact Hb. apply seg_while_collect, H. Qed.
Print Assumptions C115_end_loop_partial.
Theorem C115_word_end_loop_partial : forall u b t l, (b <> 0)%nat -> word_segments u t = Ok l ->
  wseg_until_end u b (length t) (wseg_make u t) = Ok (removelast l).
Proof. intros u b t l Hb H. rewrite wseg_until_while by exact Hb. apply wseg_while_collect, H. Qed.
Print Assumptions C115_word_end_loop_partial.

(** C115. After n increments operator* is the n-th cluster, the empty one behind the last for ever; codepointsAvailable says there are more. *)
Theorem C115_increments : forall u t l n, grapheme_clusters u t = Ok l ->
  seg_value (seg_advance u n (seg_make u t)) = nth n l [] /\
  (seg_available (seg_advance u n (seg_make u t)) = true <-> (n + 1 < length l)%nat).
Proof. intros u t l n H. rewrite Nat.add_comm. apply (seg_advance_spec u n _ _ _ H). Qed.
Print Assumptions C115_increments.
Theorem C115_word_increments : forall u t l n, word_segments u t = Ok l ->
  wseg_value (wseg_advance u n (wseg_make u t)) = nth n l [] /\
  (wseg_available (wseg_advance u n (wseg_make u t)) = true <-> (n + 1 < length l)%nat).
Proof. intros u t l n H. rewrite Nat.add_comm. apply (wseg_advance_spec u n _ _ _ H). Qed.
Print Assumptions C115_word_increments.
(** size() and empty() of the word segmenter are those of the word it is at. *)
Theorem C115_word_size : forall u t l n, word_segments u t = Ok l ->
  wseg_size (wseg_advance u n (wseg_make u t)) = length (nth n l []) /\
  (wseg_empty (wseg_advance u n (wseg_make u t)) = true <-> nth n l [] = []).
Proof.
  intros u t l n H. destruct (wseg_advance_spec u n _ _ _ H) as [V _]. rewrite <- V.
  assert (E : wseg_size (wseg_advance u n (wseg_make u t)) = length (wseg_value (wseg_advance u n (wseg_make u t)))).
  { unfold wseg_size, wseg_value. destruct (wseg_advance_mono u _ (wseg_make_bound u t) n) as [T R].
    rewrite T, firstn_length, skipn_length. lia. }
  split; [exact E|]. unfold wseg_empty. rewrite E, Nat.eqb_eq. split; [apply length_zero_iff_nil|intros ->; reflexivity].
Qed.
Print Assumptions C115_word_size.
(** C115. operator== on the segmenters of one text: the same number of increments, or both at or behind the last cluster. *)
Theorem C115_equal_partial : forall u b t l n m, grapheme_clusters u t = Ok l ->
  seg_equal b (seg_advance u n (seg_make u t)) b (seg_advance u m (seg_make u t)) = true <->
  n = m \/ (length l <= n + 1 /\ length l <= m + 1)%nat.
Proof.
  intros u b t l n m H. rewrite (seg_equal_spec u b _ n m (seg_make_bound u t)).
  destruct (seg_advance_spec u n _ _ _ H) as [_ An], (seg_advance_spec u m _ _ _ H) as [_ Am].
  destruct (seg_available (seg_advance u n (seg_make u t))), (seg_available (seg_advance u m (seg_make u t))); intuition (try discriminate; try lia).
Qed.
Print Assumptions C115_equal_partial.
Theorem C115_word_equal_partial : forall u b t l n m, word_segments u t = Ok l ->
  wseg_equal b (wseg_advance u n (wseg_make u t)) b (wseg_advance u m (wseg_make u t)) = true <->
  n = m \/ (length l <= n + 1 /\ length l <= m + 1)%nat.
Proof.
  intros u b t l n m H. rewrite (wseg_equal_spec u b _ n m (wseg_make_bound u t)).
  destruct (wseg_advance_spec u n _ _ _ H) as [_ An], (wseg_advance_spec u m _ _ _ H) as [_ Am].
  destruct (wseg_available (wseg_advance u n (wseg_make u t))), (wseg_available (wseg_advance u m (wseg_make u t))); intuition (try discriminate; try lia).
Qed.
Print Assumptions C115_word_equal_partial.
(** C115. A default-constructed segmenter denotes the empty text, for ever, and never has code points available; it equals
    exactly the segmenters (of any text at a non-null address) that are at or behind their last cluster. *)
Theorem C115_default : forall u n,
  seg_value (seg_advance u n (seg_default u)) = [] /\ seg_available (seg_advance u n (seg_default u)) = false /\
  wseg_value (wseg_advance u n (wseg_default u)) = [] /\ wseg_available (wseg_advance u n (wseg_default u)) = false.
Proof.
  intros u n. induction n as [|n IH]; [repeat split|].
  change (seg_advance u (S n) (seg_default u)) with (seg_advance u n (seg_default u)).
  change (wseg_advance u (S n) (wseg_default u)) with (wseg_advance u n (wseg_default u)). exact IH.
Qed.
Print Assumptions C115_default.
Theorem C115_default_equal_partial : forall u b t l n, (b <> 0)%nat -> grapheme_clusters u t = Ok l ->
  seg_equal b (seg_advance u n (seg_make u t)) 0 (seg_default u) = true <-> (length l <= n + 1)%nat.
Proof.
  intros u b t l n Hb H. rewrite seg_equal_default by exact Hb.
  destruct (seg_advance_spec u n _ _ _ H) as [_ An].
  destruct (seg_available (seg_advance u n (seg_make u t))); cbn; intuition (try discriminate; try lia).
Qed.
Print Assumptions C115_default_equal_partial.
Theorem C115_word_default_equal_partial : forall u b t l n, (b <> 0)%nat -> word_segments u t = Ok l ->
  wseg_equal b (wseg_advance u n (wseg_make u t)) 0 (wseg_default u) = true <-> (length l <= n + 1)%nat.
Proof.
  intros u b t l n Hb H. rewrite wseg_equal_default by exact Hb.
  destruct (wseg_advance_spec u n _ _ _ H) as [_ An].
  destruct (wseg_available (wseg_advance u n (wseg_make u t))); cbn; intuition (try discriminate; try lia).
Qed.
Print Assumptions C115_word_default_equal_partial.

Example C115_clusters : grapheme_clusters demo [97; 98; 0x300; 99] = Ok [[97]; [98; 0x300]; [99]].
Proof. vm_compute. reflexivity. Qed.
Example C115_loop : seg_while demo 4 (seg_make demo [97; 98; 0x300; 99]) = Ok [[97]; [98; 0x300]].
Proof. apply (C115_bool_loop_partial _ _ _ C115_clusters). Qed.
Example C115_end_loop : seg_until_end demo 4096 4 (seg_make demo [97; 98; 0x300; 99]) = Ok [[97]; [98; 0x300]].
Proof. apply (C115_end_loop_partial demo 4096 _ _ ltac:(discriminate) C115_clusters). Qed.
Example C115_words : word_segments demo [97; 98; 32; 99] = Ok [[97; 98]; [32]; [99]].
Proof. vm_compute. reflexivity. Qed.
Example C115_word_loop : wseg_while demo 4 (wseg_make demo [97; 98; 32; 99]) = Ok [[97; 98]; [32]].
Proof. apply (C115_word_bool_loop_partial _ _ _ C115_words). Qed.
