(** Proofs about the generated enumerations. *)
From Coq Require Import Ascii String Permutation Sorted.
From Verif Require Import Base M_TableGen M_PropGen M_UcdApi M_Enums Spec_TableGen Spec_PropGen Spec_UcdApi Spec_Enums P_TableGen P_TableGen2 P_TableGen3 P_TableGen8
  P_PropGen P_PropGen2 P_PropGen3 P_PropGen4 P_PropGen5 P_PropGen6 P_PropGen7 P_PropGen8 P_UcdApi P_UcdApi5.
Open Scope N_scope.

(** ** One enumeration *)
Lemma combine_fst {A B} : forall (l : list A) (m : list B), length l = length m -> map fst (combine l m) = l.
Proof. induction l as [|x l IH]; intros [|y m] H; try discriminate; [reflexivity|]. cbn [combine map fst]. f_equal. apply IH. cbn in H. lia. Qed.
Lemma declared_fst e : map fst (declared e) = map sanitize (e_members e).
Proof. unfold declared. apply combine_fst. rewrite !map_length, seq_length. reflexivity. Qed.
Lemma combine_nth {A B} : forall (l : list A) (m : list B) i, nth_error (combine l m) i = match nth_error l i, nth_error m i with Some a, Some b => Some (a, b) | _, _ => None end.
Proof.
  induction l as [|x l IH]; intros [|y m] [|i]; cbn [combine nth_error]; try reflexivity; [destruct (nth_error l i); reflexivity|apply IH].
Qed.
Lemma nth_seq n i : (i < n)%nat -> nth_error (seq 0 n) i = Some i.
Proof.
  intros H. rewrite (nth_error_nth' (seq 0 n) O) by (rewrite seq_length; exact H). f_equal. rewrite seq_nth by exact H. reflexivity.
Qed.
Lemma declared_nth e i m : nth_error (e_members e) i = Some m -> nth_error (declared e) i = Some (sanitize m, N.of_nat i).
Proof.
  intros H. unfold declared. rewrite combine_nth, !nth_error_map, H. cbn [option_map]. rewrite nth_seq; [reflexivity|].
  apply nth_error_Some. congruence.
Qed.
Lemma declared_in e id v : In (id, v) (declared e) <-> exists i m, nth_error (e_members e) i = Some m /\ id = sanitize m /\ v = N.of_nat i.
Proof.
  split.
  - intros H. apply In_nth_error in H as [i H]. destruct (nth_error (e_members e) i) as [m|] eqn:E.
    + rewrite (declared_nth e i m E) in H. injection H as <- <-. eauto.
    + unfold declared in H. rewrite combine_nth, nth_error_map, E in H. discriminate.
  - intros (i & m & H & -> & ->). exact (nth_error_In _ _ (declared_nth e i m H)).
Qed.
Lemma get_first {V} (l : list (str * V)) k v : NoDup (map fst l) -> In (k, v) l -> smap_get k l = Some v.
Proof.
  induction l as [|[x u] l IH]; intros Hn H; [destruct H|]. cbn [map fst] in Hn. inversion_clear Hn as [|? ? Hx Hn']. cbn [smap_get].
  destruct (str_eqb_spec k x) as [->|N].
  - destruct H as [E|H]; [congruence|]. destruct Hx. apply in_map_iff. exists (x, v). auto.
  - destruct H as [E|H]; [congruence|auto].
Qed.
Lemma value_nth e i m : compiles e -> nth_error (e_members e) i = Some m -> enum_value e (sanitize m) = Some (N.of_nat i).
Proof. intros Hc H. apply get_first; [exact Hc|]. apply declared_in. eauto. Qed.
Lemma switch_nth e v : compiles e -> forall ms k, (forall j, nth_error ms j = nth_error (e_members e) (k + j)) -> N.of_nat k <= v ->
  switch e (map (fun m => (sanitize m, m)) ms) v = nth_error ms (N.to_nat v - k).
Proof.
  intros Hc. induction ms as [|m ms IH]; intros k Hk Hv; cbn [map switch]; [destruct (N.to_nat v - k)%nat; reflexivity|].
  rewrite (value_nth e k m Hc) by (rewrite <- (Nat.add_0_r k), <- Hk; reflexivity). destruct (N.eqb_spec (N.of_nat k) v) as [<-|N].
  - rewrite Nat2N.id, Nat.sub_diag. reflexivity.
  - rewrite (IH (S k)) by (try lia; intros j; rewrite (Nat.add_succ_comm k j), <- Hk; reflexivity).
    replace (N.to_nat v - k)%nat with (S (N.to_nat v - S k)) by lia. reflexivity.
Qed.
Lemma switch_all e v : compiles e -> switch e (switch_cases e) v = nth_error (e_members e) (N.to_nat v).
Proof. intros Hc. unfold switch_cases. rewrite (switch_nth e v Hc _ O) by (try lia; reflexivity). now rewrite Nat.sub_0_r. Qed.
Lemma bits_hold e : N.of_nat (length (e_members e)) < 2 ^ 64 -> N.of_nat (length (e_members e)) < 2 ^ e_bits e.
Proof. unfold e_bits, minimal_uint. intros H. destruct (N.ltb_spec (N.of_nat (length (e_members e))) (2 ^ 8)), (N.ltb_spec (N.of_nat (length (e_members e))) (2 ^ 16)), (N.ltb_spec (N.of_nat (length (e_members e))) (2 ^ 32)); lia. Qed.
(** decimal digits *)
Lemma put_digits : forall f v, put_unsigned f v = map (fun d => 48 + d) (digits f 10 v).
Proof. induction f as [|f IH]; intros v; [reflexivity|]. cbn [put_unsigned digits]. destruct (v <? 10); [reflexivity|]. rewrite IH, map_app. reflexivity. Qed.
Lemma digits_fuel : forall f g v, v < 10 ^ N.of_nat f -> (0 < f)%nat -> (f <= g)%nat -> digits g 10 v = digits f 10 v.
Proof.
  induction f as [|f IH]; intros [|g] v H H0 H1; try lia. cbn [digits]. destruct (N.ltb_spec v 10) as [|G]; [reflexivity|]. f_equal.
  destruct f as [|f].
  - cbn in H. lia.
  - apply IH; [|lia|lia]. rewrite (Nat2N.inj_succ (S f)), N.pow_succ_r in H by lia. apply N.div_lt_upper_bound; [lia|exact H].
Qed.
Lemma put_decs v : v < 2 ^ 32 -> put_unsigned 20 v = decs v.
Proof. intros H. rewrite put_digits. unfold decs. f_equal. apply (digits_fuel 10 20 v); [|lia|lia]. change (10 ^ N.of_nat 10) with 10000000000. lia. Qed.

(** ** No enumerator twice *)
Lemma nodup_map {A B} (f : A -> B) l : NoDup l -> (forall x y, In x l -> In y l -> f x = f y -> x = y) -> NoDup (map f l).
Proof.
  induction 1 as [|x l Hx Hn IH]; intros Hf; cbn [map]; constructor.
  - intros H. apply in_map_iff in H as (y & E & Hy). assert (y = x) as ->; [|contradiction]. apply Hf; [right; exact Hy|left; reflexivity|exact E].
  - apply IH. intros a b Ha Hb. apply Hf; right; assumption.
Qed.
Lemma nodup_app {A} (l m : list A) : NoDup l -> NoDup m -> (forall x, In x l -> ~ In x m) -> NoDup (l ++ m).
Proof.
  induction 1 as [|x l Hx Hn IH]; intros Hm Hd; [exact Hm|]. cbn [app]. constructor.
  - intros H. apply in_app_or in H as [H|H]; [contradiction|]. exact (Hd x (or_introl eq_refl) H).
  - apply IH; [exact Hm|]. intros y Hy. apply Hd. right. exact Hy.
Qed.
Lemma sanitize_idem s : sanitize (sanitize s) = sanitize s.
Proof.
  unfold sanitize. rewrite map_map. apply map_ext. intros c. destruct ((c =? 32) || (c =? 45)) eqn:E; [reflexivity|]. rewrite E. reflexivity.
Qed.
Lemma sanitize_plain s : no_white s -> without 45 s -> sanitize s = s.
Proof.
  intros Hw Hh. unfold sanitize. rewrite <- (map_id s) at 2. apply map_ext_in. intros c Hc. unfold no_white in Hw. rewrite Forall_forall in Hw.
  destruct (N.eqb_spec c 32) as [->|]; [destruct (Hw 32 Hc); left; reflexivity|]. destruct (N.eqb_spec c 45) as [->|]; [contradiction|reflexivity].
Qed.
Lemma ssort_nodup l : NoDup l -> NoDup (ssort l).
Proof. intros H. apply (Permutation_NoDup (Permutation_sym (ssort_perm l)) H). Qed.
