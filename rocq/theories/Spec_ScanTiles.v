(** Vocabulary: which bytes of an arbitrary byte string the receiver is given. *)
From Verif Require Import Base M_Utf8 M_Scan Spec_Scan.
Open Scope Z_scope.
(** position [z] of [buf] is not inside a sequence, whether that is accepted or rejected *)
Definition char_start (buf : list N) (z : Z) : Prop :=
  at_boundary (firstn (Z.to_nat z) buf) \/ (nth (Z.to_nat z) buf 255 < 0x80)%N.
(** the ranges given to the receiver are non-empty, begin at positions with [P], and follow each other without gap or
    overlap from [a] to [b] *)
Fixpoint tiles (P : Z -> Prop) (ev : list event) (a b : Z) : Prop :=
  match ev with
  | [] => a = b
  | EAscii x y :: ev' => x = a /\ x < y /\ P x /\ tiles P ev' y b
  | ECluster x y _ :: ev' => x = a /\ x < y /\ P x /\ tiles P ev' y b
  | EInvalid :: ev' => tiles P ev' a b
  end.
