From Verif Require Import Base Spec_Utf M_Utf8 P_Utf8 M_Convert P_Convert M_AsciiScan.
Open Scope N_scope.

Lemma is_ascii_spec b : b < 256 -> is_ascii b = true <-> printable b.
Proof. intros H. unfold is_ascii, printable. rewrite lead_80 by exact H. lia. Qed.

Lemma hi_spec b : b < 256 -> (N.land b 0x80 =? 0x80) = (128 <=? b).
Proof. intros H. apply Bool.eqb_prop. revert b H. apply sweep256. vm_compute. reflexivity. Qed.

Lemma schar_printable b : b < 256 -> (schar b <? 32)%Z = false -> printable b.
Proof. unfold schar, printable. intros H. destruct (N.ltb_spec b 128); lia. Qed.

Lemma first_set_none m : first_set m = None -> Forall (fun b => b = false) m.
Proof.
  induction m as [|[|] m IH]; cbn [first_set]; intros H; [constructor|discriminate|].
  destruct (first_set m); [discriminate|]. constructor; [reflexivity|apply IH; reflexivity].
Qed.
Lemma first_set_some m n : first_set m = Some n -> Forall (fun b => b = false) (firstn n m) /\ (n < length m)%nat.
Proof.
  revert n. induction m as [|[|] m IH]; cbn [first_set]; intros n H; [discriminate| |].
  - injection H as <-. split; [constructor|cbn; lia].
  - destruct (first_set m) as [k|] eqn:E; [|discriminate]. injection H as <-. destruct (IH k eq_refl) as [A B].
    split; [cbn; constructor; auto|cbn; lia].
Qed.

Lemma mask_length uchar i v : length (ctrl_or_complex uchar i v) = length v.
Proof.
  assert (L : length (or_bit0 (less20 v) (equal_hi i v)) = length v).
  { unfold less20. destruct v; cbn [map or_bit0 length]; rewrite ?map_length; reflexivity. }
  destruct i; cbn [ctrl_or_complex]; rewrite ?map_length; try reflexivity; exact L.
Qed.

(** Where the mask has no bit, the byte is printable. *)
Lemma mask_firstn uchar i v n : Forall byte v -> Forall (fun b => b = false) (firstn n (ctrl_or_complex uchar i v)) ->
  Forall printable (firstn n v).
Proof.
  intros Hb.
  assert (L : Forall (fun b => b = false) (firstn n (or_bit0 (less20 v) (equal_hi i v))) -> Forall printable (firstn n v)).
  { intros H.
    assert (H2 : Forall (fun b => b = false) (firstn n (less20 v))).
    { destruct v as [|b v]; [exact H|]. destruct n as [|n]; [constructor|].
      cbn [less20 map or_bit0 firstn] in *. inversion H as [|? ? H1 H2]; subst. constructor; [|exact H2].
      apply orb_false_iff in H1. apply H1. }
    clear H. revert n H2. induction Hb as [|b v Hb Hv IH]; intros n H2; [rewrite firstn_nil; constructor|].
    destruct n as [|n]; [constructor|]. cbn [less20 map firstn] in *. inversion H2; subst. constructor.
    - apply schar_printable; assumption.
    - apply IH. assumption. }
  destruct i; cbn [ctrl_or_complex]; try exact L. clear L. intros H.
  revert n H. induction Hb as [|b v Hb Hv IH]; intros n H2; [rewrite firstn_nil; constructor|].
  destruct n as [|n]; [constructor|]. cbn [map firstn] in *. inversion H2 as [|? ? H3 H4]; subst. constructor; [|apply IH; assumption].
  unfold byte in Hb. rewrite hi_spec in H3 by exact Hb. apply orb_false_iff in H3. unfold printable, schar in *.
  destruct uchar; destruct (N.ltb_spec b 128); lia.
Qed.

Lemma firstn_add {A} a b (l : list A) : firstn (a + b) l = firstn a l ++ firstn b (skipn a l).
Proof. revert l. induction a as [|a IH]; intros l; [reflexivity|]. destruct l; [cbn; rewrite firstn_nil; reflexivity|]. cbn. f_equal. apply IH. Qed.

Lemma firstn_firstn' {A} a b (l : list A) : (a <= b)%nat -> firstn a (firstn b l) = firstn a l.
Proof. intros H. rewrite firstn_firstn. f_equal. lia. Qed.

Lemma batch_step_le i : i <> NoSimd -> (0 < batch_step i <= impl_lanes i)%nat.
Proof. destruct i as [|[| |]|[| |]|]; intros; cbn; try lia; contradiction. Qed.

Lemma scan_ascii_simd_spec uchar i text n : i <> NoSimd -> Forall byte text -> (n <= length text)%nat -> forall fuel src,
  (n <= src + fuel)%nat -> (src <= n)%nat -> Forall printable (firstn src text) ->
  exists src', scan_ascii_simd false uchar i fuel text n src = Ok src' /\ (src' <= n)%nat /\ Forall printable (firstn src' text).
Proof.
  intros Hi Hb Hn fuel. induction fuel as [|fuel IH]; intros src Hf Hs Hp.
  - cbn [scan_ascii_simd andb]. replace (src + impl_lanes i <? n)%nat with false by lia. eauto.
  - cbn [scan_ascii_simd andb]. destruct (Nat.ltb_spec (src + impl_lanes i) n) as [Hlt|Hge]; [|eauto].
    set (batch := firstn (impl_lanes i) (skipn src text)).
    assert (Hl : length batch = impl_lanes i) by (subst batch; rewrite firstn_length, skipn_length; lia).
    rewrite Hl, Nat.eqb_refl. cbn [negb].
    assert (Hbb : Forall byte batch) by (subst batch; apply Forall_firstn', Forall_skipn', Hb).
    pose proof (mask_length uchar i batch) as Hml.
    destruct (first_set (ctrl_or_complex uchar i batch)) as [a|] eqn:E.
    + apply first_set_some in E. destruct E as [E1 E2]. exists (src + a)%nat. split; [reflexivity|]. split; [lia|].
      rewrite firstn_add. apply Forall_app. split; [exact Hp|].
      apply (mask_firstn uchar i) in E1; [|exact Hbb]. subst batch. rewrite firstn_firstn' in E1 by lia. exact E1.
    + apply first_set_none in E. pose proof (batch_step_le i Hi).
      apply IH; [lia|lia|].
      rewrite firstn_add. apply Forall_app. split; [exact Hp|].
      assert (E1 : Forall (fun b => b = false) (firstn (batch_step i) (ctrl_or_complex uchar i batch))) by (apply Forall_firstn', E).
      apply (mask_firstn uchar i) in E1; [|exact Hbb]. subst batch. rewrite firstn_firstn' in E1 by lia. exact E1.
Qed.

Lemma firstn_snoc {A} (l : list A) k x : nth_error l k = Some x -> firstn (S k) l = firstn k l ++ [x].
Proof. revert l. induction k as [|k IH]; intros [|y l] H; try discriminate; cbn in *; [injection H as ->; reflexivity|]. f_equal. apply IH, H. Qed.

Lemma scan_ascii_scalar_spec text n : Forall byte text -> (n <= length text)%nat -> forall fuel src,
  (n <= src + fuel)%nat -> (src <= n)%nat -> Forall printable (firstn src text) ->
  exists m, scan_ascii_scalar fuel text n src = Ok m /\ (m <= n)%nat /\ Forall printable (firstn m text) /\
    (m = n \/ exists b, nth_error text m = Some b /\ ~ printable b).
Proof.
  intros Hb Hn fuel. induction fuel as [|fuel IH]; intros src Hf Hs Hp; cbn [scan_ascii_scalar].
  - replace (src =? n)%nat with true by lia. exists src. repeat split; auto; lia.
  - destruct (Nat.eqb_spec src n) as [E|E]; [exists src; auto|].
    destruct (nth_error text src) as [b|] eqn:Eb; [|apply nth_error_None in Eb; lia].
    assert (Hbb : b < 256) by (rewrite Forall_forall in Hb; apply Hb; apply nth_error_In in Eb; exact Eb).
    destruct (is_ascii b) eqn:Ea.
    + apply IH; [lia|lia|]. rewrite (firstn_snoc _ _ _ Eb). apply Forall_app. split; [exact Hp|]. constructor; [|constructor].
      apply is_ascii_spec; assumption.
    + exists src. repeat split; auto. right. exists b. split; [exact Eb|]. intros H. apply is_ascii_spec in H; [congruence|exact Hbb].
Qed.

Lemma scan_for_text_ascii_spec uchar i text max : Forall byte text ->
  exists n, scan_for_text_ascii false uchar i text max = Ok n /\ exact_prefix text max n.
Proof.
  intros Hb. unfold scan_for_text_ascii, exact_prefix.
  assert (H0 : exists src, match i with NoSimd => Ok O
      | _ => scan_ascii_simd false uchar i (Nat.min (length text) max) text (Nat.min (length text) max) 0 end = Ok src
      /\ (src <= Nat.min (length text) max)%nat /\ Forall printable (firstn src text)).
  { destruct i as [|w|w|]; [exists O; repeat split; [lia|constructor]|..];
      (apply scan_ascii_simd_spec; [discriminate|exact Hb|lia|lia|lia|constructor]). }
  destruct H0 as (src & E & A & B). rewrite E. cbn [bindR].
  destruct (scan_ascii_scalar_spec text (Nat.min (length text) max) Hb ltac:(lia) (Nat.min (length text) max) src ltac:(lia) A B)
    as (m & Em & C & D & F).
  exists m. rewrite Em. repeat split; auto.
Qed.

Lemma nth_error_firstn_lt {A} (l : list A) a b : (b < a)%nat -> nth_error (firstn a l) b = nth_error l b.
Proof. revert l b. induction a as [|a IH]; intros l b H; [lia|]. destruct l; [destruct b; reflexivity|]. destruct b; [reflexivity|]. cbn. apply IH. lia. Qed.

Lemma exact_prefix_unique text limit n m : exact_prefix text limit n -> exact_prefix text limit m -> n = m.
Proof.
  assert (H : forall a b, exact_prefix text limit a -> exact_prefix text limit b -> (a <= b)%nat).
  { intros a b (A1 & A2 & A3) (B1 & B2 & B3). destruct (Nat.le_gt_cases a b) as [L|G]; [exact L|exfalso].
    destruct B3 as [B3|(x & X1 & X2)]; [lia|].
    apply X2. rewrite Forall_forall in A2. apply A2. apply (nth_error_In (firstn a text) b).
    rewrite nth_error_firstn_lt by exact G. exact X1. }
  intros A B. apply Nat.le_antisymm; apply H; assumption.
Qed.
