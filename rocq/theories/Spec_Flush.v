(** Sequences cut short (C65): a lead byte, followed by fewer bytes than it announces, none of which is a lead byte. *)
From Verif Require Import Base.
Open Scope N_scope.
Definition announces (b : N) (n : nat) : Prop :=
  (0xC0 <= b < 0xE0 /\ n = 2%nat) \/ (0xE0 <= b < 0xF0 /\ n = 3%nat) \/ (0xF0 <= b < 0xF8 /\ n = 4%nat).
Definition unfinished (p : list N) : Prop :=
  exists b r n, p = b :: r /\ announces b n /\ (length p < n)%nat /\ Forall (fun x => forall m, ~ announces x m) r.
