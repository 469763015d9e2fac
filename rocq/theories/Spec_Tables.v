(** What "sorted table" means in C51 and C52. *)
From Verif Require Import Base.
From Coq Require Export Sorted.

(** Strictly increasing keys. *)
Definition strictly_sorted {A} (key : A -> N) (tbl : list A) : Prop :=
  StronglySorted (fun x y => (key x < key y)%N) tbl.

(** Composition pairs in increasing lexicographic order of (first, second). *)
Definition pair_lt (x y : N * N * N) : Prop :=
  let '(a, b, _) := x in let '(a', b', _) := y in (a < a' \/ (a = a' /\ b < b'))%N.

(** Disjoint, non-empty intervals [from, to] in increasing order. *)
Definition disjoint_sorted (l : list (N * N)) : Prop :=
  StronglySorted (fun x y => (snd x < fst y)%N) l /\ Forall (fun x => (fst x <= snd x)%N) l.

Definition ivls {T} (l : list (N * N * T)) : list (N * N) := map fst l.

