(** Lemmas for the iterator interface of the two segmenters. *)
From Verif Require Import Base M_Ucd M_Grapheme M_Word M_SegIter P_Grapheme P_Word.
From Coq Require Import List Lia PeanoNat.
Import ListNotations.

Lemma seg_collect_nonempty u : forall f s l, seg_collect u f s = Ok l -> l <> [].
Proof.
  intros [|f] s l H; cbn in H; destruct (seg_available s); try discriminate.
  - injection H as <-; discriminate.
  - destruct (seg_collect u f (seg_next u s)); try discriminate. injection H as <-; discriminate.
  - injection H as <-; discriminate.
Qed.
Lemma wseg_collect_nonempty u : forall f s l, wseg_collect u f s = Ok l -> l <> [].
Proof.
  intros [|f] s l H; cbn in H; destruct (wseg_available s); try discriminate.
  - injection H as <-; discriminate.
  - destruct (wseg_collect u f (wseg_next u s)); try discriminate. injection H as <-; discriminate.
  - injection H as <-; discriminate.
Qed.

Lemma seg_while_collect u : forall f s l, seg_collect u f s = Ok l -> seg_while u f s = Ok (removelast l).
Proof.
  induction f as [|f IH]; intros s l H; cbn in H |- *; destruct (seg_available s); try discriminate.
  - injection H as <-; reflexivity.
  - destruct (seg_collect u f (seg_next u s)) as [l'| |] eqn:E; try discriminate. cbn in H. injection H as <-.
    rewrite (IH _ _ E). cbn. apply seg_collect_nonempty in E. destruct l'; [contradiction|reflexivity].
  - injection H as <-; reflexivity.
Qed.
Lemma wseg_while_collect u : forall f s l, wseg_collect u f s = Ok l -> wseg_while u f s = Ok (removelast l).
Proof.
  induction f as [|f IH]; intros s l H; cbn in H |- *; destruct (wseg_available s); try discriminate.
  - injection H as <-; reflexivity.
  - destruct (wseg_collect u f (wseg_next u s)) as [l'| |] eqn:E; try discriminate. cbn in H. injection H as <-.
    rewrite (IH _ _ E). cbn. apply wseg_collect_nonempty in E. destruct l'; [contradiction|reflexivity].
  - injection H as <-; reflexivity.
Qed.

Lemma seg_default_avail u : seg_available (seg_default u) = false. Proof. reflexivity. Qed.
Lemma seg_equal_default u b s : (b <> 0)%nat -> seg_equal b s 0 (seg_default u) = negb (seg_available s).
Proof.
  intros Hb. unfold seg_equal. rewrite seg_default_avail. cbn. rewrite Bool.andb_true_r.
  destruct (negb (seg_available s)); [reflexivity|]. cbn.
  destruct (Nat.eqb_spec (b + sg_left s) 0) as [E|E]; [lia|reflexivity].
Qed.
Lemma wseg_equal_default u b s : (b <> 0)%nat -> wseg_equal b s 0 (wseg_default u) = negb (wseg_available s).
Proof.
  intros Hb. unfold wseg_equal. change (wseg_available (wseg_default u)) with false. cbn. rewrite Bool.andb_true_r.
  destruct (negb (wseg_available s)); [reflexivity|]. cbn.
  destruct (Nat.eqb_spec (b + ws_left s) 0) as [E|E]; [lia|reflexivity].
Qed.
Lemma seg_until_while u b : (b <> 0)%nat -> forall f s, seg_until_end u b f s = seg_while u f s.
Proof.
  intros Hb. induction f as [|f IH]; intros s; cbn [seg_until_end seg_while]; rewrite seg_equal_default by exact Hb;
    destruct (seg_available s); cbn [negb]; try reflexivity. now rewrite IH.
Qed.
Lemma wseg_until_while u b : (b <> 0)%nat -> forall f s, wseg_until_end u b f s = wseg_while u f s.
Proof.
  intros Hb. induction f as [|f IH]; intros s; cbn [wseg_until_end wseg_while]; rewrite wseg_equal_default by exact Hb;
    destruct (wseg_available s); cbn [negb]; try reflexivity. now rewrite IH.
Qed.


(** ** Increments: grapheme_segmenter *)
Lemma seg_next_end u s : seg_available s = false -> seg_available (seg_next u s) = false /\ seg_value (seg_next u s) = [].
Proof.
  unfold seg_available. intros A. apply Bool.negb_false_iff, Nat.eqb_eq in A. unfold seg_next.
  rewrite A, skipn_all. cbn. rewrite Nat.eqb_refl. split; [reflexivity|]. unfold seg_value. cbn. now rewrite Nat.sub_diag.
Qed.
Lemma seg_advance_end u : forall n s, seg_available s = false -> seg_value s = [] ->
  seg_available (seg_advance u n s) = false /\ seg_value (seg_advance u n s) = [].
Proof.
  induction n as [|n IH]; intros s A V; cbn; [split; assumption|]. apply IH; apply (seg_next_end u s A).
Qed.
Lemma seg_advance_one u n s l : Ok [seg_value s] = Ok l -> seg_available s = false ->
  seg_value (seg_advance u (S n) s) = nth (S n) l [] /\ (seg_available (seg_advance u (S n) s) = true <-> (S (S n) < length l)%nat).
Proof.
  intros H A. injection H as <-. cbn. destruct (seg_next_end u s A) as [A' V'].
  destruct (seg_advance_end u n _ A' V') as [A'' V'']. rewrite V'', A''. destruct n; (split; [reflexivity|split; intros X; [discriminate|lia]]).
Qed.
Lemma seg_advance_spec u : forall n f s l, seg_collect u f s = Ok l ->
  seg_value (seg_advance u n s) = nth n l [] /\ (seg_available (seg_advance u n s) = true <-> (S n < length l)%nat).
Proof.
  induction n as [|n IH]; intros f s l H.
  - destruct f as [|f]; cbn in H; destruct (seg_available s) eqn:A; try discriminate.
    + injection H as <-; cbn. rewrite A. split; [reflexivity|split; intros X; [discriminate|lia]].
    + destruct (seg_collect u f (seg_next u s)) as [l'| |] eqn:E; try discriminate. injection H as <-; cbn. rewrite A.
      split; [reflexivity|]. apply seg_collect_nonempty in E. destruct l'; [contradiction|]. cbn. split; intros _; [lia|reflexivity].
    + injection H as <-; cbn. rewrite A. split; [reflexivity|split; intros X; [discriminate|lia]].
  - destruct f as [|f]; cbn in H; destruct (seg_available s) eqn:A; try discriminate; try (apply (seg_advance_one u n s l H A)).
    destruct (seg_collect u f (seg_next u s)) as [l'| |] eqn:E; try discriminate. injection H as <-. cbn.
    destruct (IH _ _ _ E) as [V' A']. rewrite V'. split; [reflexivity|]. rewrite A'. lia.
Qed.
Lemma seg_extend_bound u : forall r st, (fst (extend_cluster u st r) <= length r)%nat.
Proof.
  induction r as [|c r IH]; intros st; cbn; [lia|].
  destruct (process_breakable u c st) as [[|] st']; cbn; [lia|].
  specialize (IH st'). destruct (extend_cluster u st' r) as [n st'']. cbn in *. lia.
Qed.
Lemma seg_next_text u s : sg_text (seg_next u s) = sg_text s.
Proof.
  unfold seg_next. destruct (skipn (sg_right s) (sg_text s)) as [|c r]; [reflexivity|].
  destruct (extend_cluster u (process_init u c) r); reflexivity.
Qed.
Lemma seg_next_right u s : (sg_right s <= sg_right (seg_next u s))%nat /\
  ((sg_right s <= length (sg_text s))%nat ->
   (sg_right (seg_next u s) <= length (sg_text s))%nat /\ (seg_available s = true -> (sg_right s < sg_right (seg_next u s))%nat)).
Proof.
  unfold seg_next, seg_available. destruct (skipn (sg_right s) (sg_text s)) as [|c r] eqn:K; cbn.
  - split; [lia|]. intros B. split; [lia|]. apply skipn_nil_iff in K. intros A. apply Bool.negb_true_iff, Nat.eqb_neq in A. lia.
  - pose proof (seg_extend_bound u r (process_init u c)) as Q. destruct (extend_cluster u (process_init u c) r) as [n st']. cbn in *.
    assert (L : (length (skipn (sg_right s) (sg_text s)) = S (length r))%nat) by (rewrite K; reflexivity).
    rewrite skipn_length in L. split; [lia|]. intros B. split; [lia|]. intros _. lia.
Qed.
Lemma seg_advance_S u : forall n s, seg_advance u (S n) s = seg_next u (seg_advance u n s).
Proof. induction n as [|n IH]; intros s; [reflexivity|]. change (seg_advance u (S (S n)) s) with (seg_advance u (S n) (seg_next u s)). now rewrite IH. Qed.
Lemma seg_advance_mono u s : (sg_right s <= length (sg_text s))%nat -> forall n,
  sg_text (seg_advance u n s) = sg_text s /\ (sg_right (seg_advance u n s) <= length (sg_text s))%nat.
Proof.
  intros B. induction n as [|n IH]; [split; [reflexivity|exact B]|]. rewrite seg_advance_S. destruct IH as [T R].
  rewrite seg_next_text. split; [exact T|]. destruct (seg_next_right u (seg_advance u n s)) as [_ H]. rewrite T in H. apply H, R.
Qed.
Lemma seg_advance_le u s : forall n m, (n <= m)%nat -> (sg_right (seg_advance u n s) <= sg_right (seg_advance u m s))%nat.
Proof.
  intros n m H. induction H as [|m H IH]; [lia|]. rewrite seg_advance_S. pose proof (seg_next_right u (seg_advance u m s)). lia.
Qed.
Lemma seg_advance_lt u s n m : (sg_right s <= length (sg_text s))%nat -> (n < m)%nat -> seg_available (seg_advance u n s) = true ->
  (sg_right (seg_advance u n s) < sg_right (seg_advance u m s))%nat.
Proof.
  intros B H A. pose proof (seg_advance_le u s (S n) m H) as Q. rewrite seg_advance_S in Q.
  destruct (seg_advance_mono u s B n) as [T R]. destruct (seg_next_right u (seg_advance u n s)) as [_ K]. rewrite T in K.
  destruct (K R) as [_ K2]. specialize (K2 A). lia.
Qed.
Lemma seg_equal_spec u b s n m : (sg_right s <= length (sg_text s))%nat ->
  seg_equal b (seg_advance u n s) b (seg_advance u m s) = true <->
  n = m \/ (seg_available (seg_advance u n s) = false /\ seg_available (seg_advance u m s) = false).
Proof.
  intros B. unfold seg_equal. destruct (seg_available (seg_advance u n s)) eqn:An, (seg_available (seg_advance u m s)) eqn:Am; cbn;
    rewrite ?Bool.andb_true_iff, ?Nat.eqb_eq.
  4: { split; intros _; [right; split; reflexivity|reflexivity]. }
  all: (split; [|intros [->|[X Y]]; try discriminate; try (split; reflexivity); congruence]); intros [_ R]; left;
    destruct (Nat.lt_trichotomy n m) as [L|[E|L]]; try exact E; exfalso.
  - pose proof (seg_advance_lt u s n m B L An). lia.
  - pose proof (seg_advance_lt u s m n B L Am). lia.
  - pose proof (seg_advance_lt u s n m B L An). lia.
  - destruct (seg_advance_mono u s B n) as [Tn Rn], (seg_advance_mono u s B m) as [Tm Rm]. unfold seg_available in An, Am.
    rewrite Tn in An. rewrite Tm in Am. apply Bool.negb_true_iff, Nat.eqb_neq in An. apply Bool.negb_false_iff, Nat.eqb_eq in Am.
    lia.
  - destruct (seg_advance_mono u s B n) as [Tn Rn], (seg_advance_mono u s B m) as [Tm Rm]. unfold seg_available in An, Am.
    rewrite Tn in An. rewrite Tm in Am. apply Bool.negb_true_iff, Nat.eqb_neq in Am. apply Bool.negb_false_iff, Nat.eqb_eq in An.
    lia.
  - pose proof (seg_advance_lt u s m n B L Am). lia.
Qed.
Lemma seg_make_bound u t : (sg_right (seg_make u t) <= length (sg_text (seg_make u t)))%nat.
Proof.
  unfold seg_make. rewrite seg_next_text. apply (proj2 (seg_next_right u (mkSeg t 0 0 (gstate0 u)))). cbn. lia.
Qed.

(** ** Increments: word_segmenter *)
Lemma wseg_next_end u s : wseg_available s = false -> wseg_available (wseg_next u s) = false /\ wseg_value (wseg_next u s) = [].
Proof.
  unfold wseg_available. intros A. apply Bool.negb_false_iff, Nat.eqb_eq in A. unfold wseg_next.
  rewrite A, skipn_all. cbn. rewrite Nat.eqb_refl. split; [reflexivity|]. unfold wseg_value. cbn. now rewrite Nat.sub_diag.
Qed.
Lemma wseg_advance_end u : forall n s, wseg_available s = false -> wseg_value s = [] ->
  wseg_available (wseg_advance u n s) = false /\ wseg_value (wseg_advance u n s) = [].
Proof.
  induction n as [|n IH]; intros s A V; cbn; [split; assumption|]. apply IH; apply (wseg_next_end u s A).
Qed.
Lemma wseg_advance_one u n s l : Ok [wseg_value s] = Ok l -> wseg_available s = false ->
  wseg_value (wseg_advance u (S n) s) = nth (S n) l [] /\ (wseg_available (wseg_advance u (S n) s) = true <-> (S (S n) < length l)%nat).
Proof.
  intros H A. injection H as <-. cbn. destruct (wseg_next_end u s A) as [A' V'].
  destruct (wseg_advance_end u n _ A' V') as [A'' V'']. rewrite V'', A''. destruct n; (split; [reflexivity|split; intros X; [discriminate|lia]]).
Qed.
Lemma wseg_advance_spec u : forall n f s l, wseg_collect u f s = Ok l ->
  wseg_value (wseg_advance u n s) = nth n l [] /\ (wseg_available (wseg_advance u n s) = true <-> (S n < length l)%nat).
Proof.
  induction n as [|n IH]; intros f s l H.
  - destruct f as [|f]; cbn in H; destruct (wseg_available s) eqn:A; try discriminate.
    + injection H as <-; cbn. rewrite A. split; [reflexivity|split; intros X; [discriminate|lia]].
    + destruct (wseg_collect u f (wseg_next u s)) as [l'| |] eqn:E; try discriminate. injection H as <-; cbn. rewrite A.
      split; [reflexivity|]. apply wseg_collect_nonempty in E. destruct l'; [contradiction|]. cbn. split; intros _; [lia|reflexivity].
    + injection H as <-; cbn. rewrite A. split; [reflexivity|split; intros X; [discriminate|lia]].
  - destruct f as [|f]; cbn in H; destruct (wseg_available s) eqn:A; try discriminate; try (apply (wseg_advance_one u n s l H A)).
    destruct (wseg_collect u f (wseg_next u s)) as [l'| |] eqn:E; try discriminate. injection H as <-. cbn.
    destruct (IH _ _ _ E) as [V' A']. rewrite V'. split; [reflexivity|]. rewrite A'. lia.
Qed.
Lemma wseg_extend_bound u : forall r st, (fst (extend_word u st r) <= length r)%nat.
Proof.
  induction r as [|c r IH]; intros st; cbn; [lia|].
  destruct (word_breakable u c r st) as [[|] st']; cbn; [lia|].
  specialize (IH st'). destruct (extend_word u st' r) as [n st'']. cbn in *. lia.
Qed.
Lemma wseg_next_text u s : ws_text (wseg_next u s) = ws_text s.
Proof.
  unfold wseg_next. destruct (skipn (ws_right s) (ws_text s)) as [|c r]; [reflexivity|].
  destruct (extend_word u (word_init u c (ws_state s)) r); reflexivity.
Qed.
Lemma wseg_next_right u s : (ws_right s <= ws_right (wseg_next u s))%nat /\
  ((ws_right s <= length (ws_text s))%nat ->
   (ws_right (wseg_next u s) <= length (ws_text s))%nat /\ (wseg_available s = true -> (ws_right s < ws_right (wseg_next u s))%nat)).
Proof.
  unfold wseg_next, wseg_available. destruct (skipn (ws_right s) (ws_text s)) as [|c r] eqn:K; cbn.
  - split; [lia|]. intros B. split; [lia|]. apply skipn_nil_iff in K. intros A. apply Bool.negb_true_iff, Nat.eqb_neq in A. lia.
  - pose proof (wseg_extend_bound u r (word_init u c (ws_state s))) as Q. destruct (extend_word u (word_init u c (ws_state s)) r) as [n st']. cbn in *.
    assert (L : (length (skipn (ws_right s) (ws_text s)) = S (length r))%nat) by (rewrite K; reflexivity).
    rewrite skipn_length in L. split; [lia|]. intros B. split; [lia|]. intros _. lia.
Qed.
Lemma wseg_advance_S u : forall n s, wseg_advance u (S n) s = wseg_next u (wseg_advance u n s).
Proof. induction n as [|n IH]; intros s; [reflexivity|]. change (wseg_advance u (S (S n)) s) with (wseg_advance u (S n) (wseg_next u s)). now rewrite IH. Qed.
Lemma wseg_advance_mono u s : (ws_right s <= length (ws_text s))%nat -> forall n,
  ws_text (wseg_advance u n s) = ws_text s /\ (ws_right (wseg_advance u n s) <= length (ws_text s))%nat.
Proof.
  intros B. induction n as [|n IH]; [split; [reflexivity|exact B]|]. rewrite wseg_advance_S. destruct IH as [T R].
  rewrite wseg_next_text. split; [exact T|]. destruct (wseg_next_right u (wseg_advance u n s)) as [_ H]. rewrite T in H. apply H, R.
Qed.
Lemma wseg_advance_le u s : forall n m, (n <= m)%nat -> (ws_right (wseg_advance u n s) <= ws_right (wseg_advance u m s))%nat.
Proof.
  intros n m H. induction H as [|m H IH]; [lia|]. rewrite wseg_advance_S. pose proof (wseg_next_right u (wseg_advance u m s)). lia.
Qed.
Lemma wseg_advance_lt u s n m : (ws_right s <= length (ws_text s))%nat -> (n < m)%nat -> wseg_available (wseg_advance u n s) = true ->
  (ws_right (wseg_advance u n s) < ws_right (wseg_advance u m s))%nat.
Proof.
  intros B H A. pose proof (wseg_advance_le u s (S n) m H) as Q. rewrite wseg_advance_S in Q.
  destruct (wseg_advance_mono u s B n) as [T R]. destruct (wseg_next_right u (wseg_advance u n s)) as [_ K]. rewrite T in K.
  destruct (K R) as [_ K2]. specialize (K2 A). lia.
Qed.
Lemma wseg_equal_spec u b s n m : (ws_right s <= length (ws_text s))%nat ->
  wseg_equal b (wseg_advance u n s) b (wseg_advance u m s) = true <->
  n = m \/ (wseg_available (wseg_advance u n s) = false /\ wseg_available (wseg_advance u m s) = false).
Proof.
  intros B. unfold wseg_equal. destruct (wseg_available (wseg_advance u n s)) eqn:An, (wseg_available (wseg_advance u m s)) eqn:Am; cbn;
    rewrite ?Bool.andb_true_iff, ?Nat.eqb_eq.
  4: { split; intros _; [right; split; reflexivity|reflexivity]. }
  all: (split; [|intros [->|[X Y]]; try discriminate; try (split; reflexivity); congruence]); intros [_ R]; left;
    destruct (Nat.lt_trichotomy n m) as [L|[E|L]]; try exact E; exfalso.
  - pose proof (wseg_advance_lt u s n m B L An). lia.
  - pose proof (wseg_advance_lt u s m n B L Am). lia.
  - pose proof (wseg_advance_lt u s n m B L An). lia.
  - destruct (wseg_advance_mono u s B n) as [Tn Rn], (wseg_advance_mono u s B m) as [Tm Rm]. unfold wseg_available in An, Am.
    rewrite Tn in An. rewrite Tm in Am. apply Bool.negb_true_iff, Nat.eqb_neq in An. apply Bool.negb_false_iff, Nat.eqb_eq in Am.
    lia.
  - destruct (wseg_advance_mono u s B n) as [Tn Rn], (wseg_advance_mono u s B m) as [Tm Rm]. unfold wseg_available in An, Am.
    rewrite Tn in An. rewrite Tm in Am. apply Bool.negb_true_iff, Nat.eqb_neq in Am. apply Bool.negb_false_iff, Nat.eqb_eq in An.
    lia.
  - pose proof (wseg_advance_lt u s m n B L Am). lia.
Qed.
Lemma wseg_make_bound u t : (ws_right (wseg_make u t) <= length (ws_text (wseg_make u t)))%nat.
Proof.
  unfold wseg_make. rewrite wseg_next_text. apply (proj2 (wseg_next_right u (mkWSeg t 0 0 wstate0))). cbn. lia.
Qed.
