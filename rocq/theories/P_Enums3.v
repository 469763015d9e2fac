(** Proofs about the generated enumerations, part 3: the order of the Age enumerators. *)
From Coq Require Import Ascii String Permutation Sorted.
From Verif Require Import Base M_TableGen M_PropGen M_UcdApi M_Enums Spec_TableGen Spec_PropGen Spec_UcdApi Spec_Enums
  P_TableGen P_PropGen P_PropGen6 P_PropGen8 P_Enums P_Enums2.
Open Scope N_scope.

Definition not_later (a b : (N * N) * str) : Prop := fst (fst a) < fst (fst b) \/ (fst (fst a) = fst (fst b) /\ snd (fst a) <= snd (fst b)).
Lemma not_later_trans a b c : not_later a b -> not_later b c -> not_later a c.
Proof. unfold not_later. lia. Qed.
Lemma less_not_later a b : version_less a b = true -> not_later a b.
Proof.
  destruct a as [[x y] s], b as [[x' y'] s']. unfold version_less, not_later. cbn [fst snd].
  destruct (N.ltb_spec x x'), (N.eqb_spec x x'), (N.ltb_spec y y'), (N.eqb_spec y y'); cbn [orb andb]; intros H'; try discriminate; lia.
Qed.
Lemma nless_not_later a b : version_less a b = false -> not_later b a.
Proof.
  destruct a as [[x y] s], b as [[x' y'] s']. unfold version_less, not_later. cbn [fst snd].
  destruct (N.ltb_spec x x'), (N.eqb_spec x x'), (N.ltb_spec y y'), (N.eqb_spec y y'); cbn [orb andb]; intros H'; try discriminate; lia.
Qed.
Lemma vinsert_sorted k l : StronglySorted not_later l -> StronglySorted not_later (vinsert k l).
Proof.
  induction 1 as [|x l Hs IH Hf]; cbn [vinsert]; [repeat constructor|]. destruct (version_less x k) eqn:E.
  - constructor; [exact IH|]. apply (Permutation_Forall (Permutation_sym (vinsert_perm k l))). constructor; [now apply less_not_later|exact Hf].
  - constructor; [now constructor|]. pose proof (nless_not_later _ _ E) as Hk. constructor; [exact Hk|]. apply Forall_forall. intros y Hy. rewrite Forall_forall in Hf.
    exact (not_later_trans _ _ _ Hk (Hf y Hy)).
Qed.
Lemma vsort_sorted l : StronglySorted not_later (fold_right vinsert [] l).
Proof. induction l as [|x l IH]; cbn [fold_right]; [constructor|exact (vinsert_sorted x _ IH)]. Qed.
Lemma sorted_nth {A} (R : A -> A -> Prop) l : StronglySorted R l -> forall i j a b, nth_error l i = Some a -> nth_error l j = Some b -> (i < j)%nat -> R a b.
Proof.
  induction 1 as [|x l Hs IH Hf]; intros [|i] [|j] a b Ha Hb Hij; try discriminate; try lia.
  - injection Ha as <-. rewrite Forall_forall in Hf. apply Hf. exact (nth_error_In l j Hb).
  - apply (IH i j a b Ha Hb). lia.
Qed.
Lemma nth_map_inv {A B} (f : A -> B) l i b : nth_error (map f l) i = Some b -> exists a, nth_error l i = Some a /\ f a = b.
Proof. revert i. induction l as [|x l IH]; intros [|i] H; cbn in *; try discriminate; [injection H as <-; eauto|now apply IH]. Qed.

(** the versions of [al], in order *)
Lemma members_order al members : (forall a v, In (a, v) al -> v = lit "Unassigned" \/ exists x y, v = version_name x y /\ x < 1000 /\ y < 1000) ->
  age_members al = Some members -> NoDup members ->
  nth_error members 0 = Some (lit "Unassigned") /\
  forall x y x' y' i j, x < 1000 -> y < 1000 -> x' < 1000 -> y' < 1000 ->
    nth_error members i = Some (version_name x y) -> nth_error members j = Some (version_name x' y') -> ((i < j)%nat <-> earlier x y x' y').
Proof.
  intros Hal E Hnd. unfold age_members in E. destruct (versions_ok al Hal) as (l & El & Hl). rewrite El in E. injection E as <-.
  split; [reflexivity|].
  assert (Hone : forall x y x' y' i j, x < 1000 -> y < 1000 -> x' < 1000 -> y' < 1000 ->
    nth_error (lit "Unassigned" :: map snd (fold_right vinsert [] l)) i = Some (version_name x y) ->
    nth_error (lit "Unassigned" :: map snd (fold_right vinsert [] l)) j = Some (version_name x' y') -> (i < j)%nat -> earlier x y x' y').
  { intros x y x' y' [|i] [|j] Hx Hy Hx' Hy' Hi Hj Hij; try lia; [cbn [nth_error] in Hi; discriminate|]. cbn [nth_error] in Hi, Hj.
    assert (Hne : version_name x y <> version_name x' y').
    { intros E. inversion_clear Hnd as [|? ? _ Hn]. rewrite NoDup_nth_error in Hn. assert (i = j); [|lia].
      apply Hn; [apply nth_error_Some; congruence|]. congruence. }
    apply nth_map_inv in Hi as (a & Ha & Ea). apply nth_map_inv in Hj as (b & Hb & Eb).
    pose proof (sorted_nth _ _ (vsort_sorted l) i j a b Ha Hb ltac:(lia)) as R.
    assert (Ka : fst a = (x, y)).
    { apply nth_error_In in Ha. apply (Permutation_in _ (vsort_perm l)) in Ha. destruct a as [v s]. cbn [snd] in Ea. subst s. apply Hl in Ha as (_ & _ & P).
      rewrite parse_version_name in P by assumption. injection P as <-. reflexivity. }
    assert (Kb : fst b = (x', y')).
    { apply nth_error_In in Hb. apply (Permutation_in _ (vsort_perm l)) in Hb. destruct b as [v s]. cbn [snd] in Eb. subst s. apply Hl in Hb as (_ & _ & P).
      rewrite parse_version_name in P by assumption. injection P as <-. reflexivity. }
    unfold not_later in R. rewrite Ka, Kb in R. cbn [fst snd] in R. unfold earlier.
    destruct R as [R|[R1 R2]]; [left; exact R|right]. split; [exact R1|]. destruct (N.eq_dec y y') as [->|]; [|lia]. subst x'. destruct (Hne eq_refl). }
  intros x y x' y' i j Hx Hy Hx' Hy' Hi Hj. split; [now apply Hone|]. intros He. destruct (Nat.lt_trichotomy i j) as [H|[<-|H]]; [exact H| |].
  - assert (E : parse_version (version_name x y) = parse_version (version_name x' y')) by congruence. rewrite !parse_version_name in E by assumption.
    injection E as <- <-. unfold earlier in He. lia.
  - pose proof (Hone x' y' x y j i Hx' Hy' Hx Hy Hj Hi H) as G. unfold earlier in *. lia.
Qed.
