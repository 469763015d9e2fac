(** What the second of two buffers cannot take back. *)
From Verif Require Import Base M_Ucd M_Width Spec_Width.
Open Scope Z_scope.

(** The piece [a] was open, and measured, when the buffer ended; [b] is the rest of it.  [x] is the largest number of columns by
    which the growing piece falls below the width it had at the cut. *)
Definition falls_back (u : ucd) (a b : list N) (x : Z) : Prop :=
  (exists k, x = cluster_width u a - cluster_width u (a ++ firstn k b)) /\
  (forall k, cluster_width u a - cluster_width u (a ++ firstn k b) <= x).
(** The characters of [t] whose bytes are all among the first [k] ones. *)
Definition complete_before (t : list N) (k : nat) (t1 t2 : list N) (len : list N -> nat) : Prop :=
  t = t1 ++ t2 /\ (len t1 <= k)%nat /\ forall c q, t2 = c :: q -> (k < len (t1 ++ [c]))%nat.
