(** Shared vocabulary of the model: bytes, words, outcomes, and bit arithmetic. *)
From Coq Require Export List Arith NArith ZArith Bool Lia.
From Coq Require Export ZifyBool ZifyNat ZifyN.
Export ListNotations.
Ltac Zify.zify_post_hook ::= Z.div_mod_to_equations.
Arguments N.add : simpl never.
Arguments N.sub : simpl never.
Arguments N.mul : simpl never.
Arguments N.div : simpl never.
Arguments N.modulo : simpl never.
Arguments N.eqb : simpl never.
Arguments N.ltb : simpl never.
Arguments N.leb : simpl never.
Arguments N.land : simpl never.
Arguments N.lor : simpl never.
Arguments N.shiftl : simpl never.
Arguments N.shiftr : simpl never.

(** Outcome of code that may have undefined behaviour.  [Ok v]: the C++ computes [v].  [UB]: the C++ has undefined
    behaviour (out-of-range read, out-of-range pointer, ...).  [NoFuel]: the model's fuel ran out (the C++ did not
    terminate within the fuel); theorems exclude it explicitly. *)
Inductive Res (A : Type) : Type := Ok (a : A) | UB | NoFuel.
Arguments Ok {A} a.
Arguments UB {A}.
Arguments NoFuel {A}.

Definition bindR {A B} (r : Res A) (f : A -> Res B) : Res B :=
  match r with Ok a => f a | UB => UB | NoFuel => NoFuel end.
Notation "'do' x <- r ; k" := (bindR r (fun x => k)) (at level 200, x pattern, r at level 100, k at level 200).

(** Bytes, code points, UTF-16 units are [N]; the C++ type's range is a side condition. *)
Definition byte (b : N) : Prop := (b < 256)%N.
Definition byteb (b : N) : bool := (b <? 256)%N.
Definition u32 (c : N) : Prop := (c < 2 ^ 32)%N.

(** static_cast<uint8_t>(x), static_cast<char16_t>(x), char32_t arithmetic *)
Definition to_u8 (x : N) : N := (x mod 256)%N.
Definition to_u16 (x : N) : N := (x mod 65536)%N.
Definition to_u32 (x : N) : N := (x mod 4294967296)%N.

(** ** Bit arithmetic *)
Open Scope N_scope.

Lemma land_mask c k : N.land c (N.ones k) = c mod 2 ^ k.
Proof. apply N.land_ones. Qed.

Lemma lor_shift_add a b k : b < 2 ^ k -> N.lor (N.shiftl a k) b = a * 2 ^ k + b.
Proof.
  intros Hb. rewrite N.shiftl_mul_pow2.
  assert (Hd : N.land (a * 2 ^ k) b = 0).
  { apply N.bits_inj_0. intros n. rewrite N.land_spec.
    destruct (N.ltb_spec n k) as [Hn | Hn].
    - rewrite N.mul_pow2_bits_low by exact Hn. reflexivity.
    - rewrite andb_comm.
      destruct (N.eq_dec b 0) as [-> | Hb0]; [rewrite N.bits_0; reflexivity|].
      rewrite (N.bits_above_log2 b n); [reflexivity|].
      assert (N.log2 b < k) by (apply N.log2_lt_pow2; lia). lia. }
  rewrite N.add_nocarry_lxor by exact Hd.
  symmetry. apply N.lxor_lor. exact Hd.
Qed.

Lemma shiftr_div c k : N.shiftr c k = c / 2 ^ k.
Proof. apply N.shiftr_div_pow2. Qed.

(** [below k] enumerates the numbers below [k]; used to lift finite sweeps. *)
Definition below (k : nat) : list N := map N.of_nat (seq 0 k).
Lemma below_in k n : n < N.of_nat k -> In n (below k).
Proof.
  intros H. unfold below. apply in_map_iff. exists (N.to_nat n). split; [lia|]. apply in_seq. lia.
Qed.
Lemma sweep (P : N -> bool) k : forallb P (below k) = true -> forall n, n < N.of_nat k -> P n = true.
Proof. intros H n Hn. rewrite forallb_forall in H. apply H, below_in, Hn. Qed.
Lemma sweep256 (P : N -> bool) : forallb P (below 256) = true -> forall n, n < 256 -> P n = true.
Proof. intros H n Hn. apply (sweep P 256 H). lia. Qed.

Lemma Forall_app_iff {A} (P : A -> Prop) l1 l2 : Forall P (l1 ++ l2) <-> Forall P l1 /\ Forall P l2.
Proof. apply Forall_app. Qed.
