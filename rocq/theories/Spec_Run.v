(** Vocabulary for the run segmenter property (C58). *)
From Verif Require Import Base Spec_Script.

(** [yields next s rs]: calling consume() repeatedly from state [s] reports the segments [rs] (end offset, property), then false. *)
Inductive yields {S P} (next : S -> Res (option (nat * P) * S)) : S -> list (nat * P) -> Prop :=
| yields_end : forall s s', next s = Ok (None, s') -> yields next s []
| yields_seg : forall s s' r rs, next s = Ok (Some r, s') -> yields next s' rs -> yields next s (r :: rs).

(** [segment_of from rs a b p]: the segments [rs], the first of which starts at [from], have one that covers a..b-1 with property p *)
Fixpoint segment_of {P} (from : nat) (rs : list (nat * P)) (a b : nat) (p : P) : Prop :=
  match rs with [] => False | (e, q) :: rs' => (a = from /\ b = e /\ p = q) \/ segment_of e rs' a b p end.

(** a well-behaved segmentation of a text of [n] code points: strictly increasing ends, the last one at [n] *)
Definition segmentation {P} (n : nat) (rs : list (nat * P)) : Prop := ends_at n 0 (map fst rs).

(** Runs are contiguous from [from] to [n] and non-empty. *)
Fixpoint contiguous {P} (n from : nat) (runs : list (nat * nat * list P)) : Prop :=
  match runs with
  | [] => from = n
  | (a, b, _) :: r => a = from /\ (a < b)%nat /\ contiguous n b r
  end.

(** [runs] is the common refinement of the segmentations [segss] of a text of [n] code points *)
Definition common_refinement {P} (n : nat) (segss : list (list (nat * P))) (runs : list (nat * nat * list P)) : Prop :=
  contiguous n 0 runs /\
  (forall e, In e (map (fun r => snd (fst r)) runs) <-> exists rs, In rs segss /\ In e (map fst rs)) /\
  (forall a b ps, In (a, b, ps) runs ->
     Forall2 (fun rs p => exists a' b', segment_of 0 rs a' b' p /\ (a' <= a)%nat /\ (b <= b')%nat) segss ps).
