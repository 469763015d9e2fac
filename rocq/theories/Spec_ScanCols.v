(** Vocabulary for the columns announced to the receiver (C34). *)
From Verif Require Import Base Spec_Utf M_Ucd Spec_Scan.
Open Scope Z_scope.
(** [b] attaches to the 7-bit character [a] before it, which is not a control (GB9, GB9a) *)
Definition attaches (u : ucd) (a b : N) : bool :=
  ((a <? 0x7F)%N && (0x80 <=? b)%N && match p_gcb (u b) with GExtend | GZWJ | GSpacingMark => true | _ => false end).
(** the number of 7-bit characters to which the next character attaches *)
Fixpoint attachments (u : ucd) (t : list N) : Z :=
  match t with
  | a :: ((b :: _) as r) => (if attaches u a b then 1 else 0) + attachments u r
  | _ => 0
  end.
