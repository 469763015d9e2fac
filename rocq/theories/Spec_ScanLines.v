(** Reading a text line by line: each call continues with the state the call before left behind. *)
From Verif Require Import Base Spec_Utf M_Utf8 M_Convert M_Ucd M_Width M_Scan Spec_Scan.
Open Scope Z_scope.

(** A state reached by any number of calls, each on well-formed, control-free text without Prepend characters and with any limit. *)
Inductive between_lines (u : ucd) (uchar : bool) (i : impl) : sstate -> Prop :=
| before_first : between_lines u uchar i (sstate0 u)
| after_line : forall st t max r st' ev, between_lines u uchar i st -> scalars t -> Forall plain_text t -> Forall (fun c => p_gcb (u c) <> GPrepend) t ->
    scan_text u uchar i st (utf8_text t) max = Ok (r, st', ev) -> between_lines u uchar i (next_buffer st').
(** A character that neither joins the character in front of it nor changes how the text behind it is cut. *)
Definition stands_alone (u : ucd) (c : N) : Prop :=
  (c < 0x80)%N \/ (p_gcb (u c) = GOther /\ p_incb (u c) = INone /\ p_extpic (u c) = false).
