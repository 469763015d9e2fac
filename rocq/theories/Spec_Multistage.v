(** Vocabulary for the multistage table properties (C53, C68). *)
From Verif Require Import Base M_Multistage.
Open Scope N_scope.

Section S.
Variable T : Type.
(** All objects have the same size, and equal bytes mean equal values. *)
Definition objects (sz : nat) (input : list (cell T)) : Prop :=
  Forall (fun c => length (snd c) = sz) input /\
  (forall a b, In a input -> In b input -> snd a = snd b -> fst a = fst b).
(** operator== is equality *)
Definition eq_ok (eqb : T -> T -> bool) : Prop := forall a b, eqb a b = true <-> a = b.
(** at most [n] different values / at most [n] blocks that differ in some byte *)
Definition few_values (n : N) (input : list (cell T)) : Prop :=
  exists vs : list T, (N.of_nat (length vs) <= n) /\ forall c, In c input -> In (fst c) vs.
(** the object bytes of block number [b] *)
Definition block_reps (BS : nat) (input : list (cell T)) (b : nat) : list (list N) := map snd (firstn BS (skipn (b * BS) input)).
Definition few_blocks (BS : nat) (n : N) (input : list (cell T)) : Prop :=
  exists bs : list (list (list N)), (N.of_nat (length bs) <= n) /\
    forall b, ((b + 1) * BS <= length input)%nat -> In (block_reps BS input b) bs.
(** no two different blocks have the same bytes *)
Definition blocks_differ (BS : nat) (input : list (cell T)) : Prop :=
  forall a b, ((a + 1) * BS <= length input)%nat -> ((b + 1) * BS <= length input)%nat ->
    block_reps BS input a = block_reps BS input b -> a = b.
End S.
Arguments objects {T}. Arguments eq_ok {T}. Arguments few_values {T}. Arguments few_blocks {T}. Arguments blocks_differ {T}.

(** The names table of the library (codepoint_properties_loader.h:32-38, tablegen/multistage_generator.cpp:645-647): one std::string
    per code point U+0000..U+10FFFF, block size 256, uint8_t stage 1 (256 values), uint16_t stage 2 (65536 values).
    [value c] is the name of code point c, [rep c] the bytes of the std::string object that holds it. *)
Definition name_cells (value : N -> list N) (rep : N -> list N) : list (cell (list N)) :=
  map (fun i => (value (N.of_nat i), rep (N.of_nat i))) (seq 0 (N.to_nat 0x110000)).
(** std::string objects of [sz] bytes whose bytes contain the address of their characters: no two of them are equal byte for byte
    (libstdc++ always; any implementation for names longer than its small-string buffer). *)
Definition string_objects (sz : nat) (rep : N -> list N) : Prop :=
  (forall c, length (rep c) = sz) /\ (forall c d, rep c = rep d -> c = d).
