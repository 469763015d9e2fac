(** Specification for the C macros: per-bit state of a 32-bit word, and parenthesis structure of token sequences. *)
From Verif Require Import Base M_CMacros.
Open Scope N_scope.

(** The setting of bit [i] after a history of (new value, index) assignments, starting from [b0]. *)
Definition last_setting (b0 : bool) (ops : list (bool * N)) (i : N) : bool :=
  fold_left (fun b op => if snd op =? i then fst op else b) ops b0.

(** Nesting depth after the tokens, starting at [d]; [None] when a closing parenthesis has no partner. *)
Fixpoint depth (d : nat) (ts : list token) : option nat :=
  match ts with
  | [] => Some d
  | LPar :: r => depth (S d) r
  | RPar :: r => match d with O => None | S d' => depth d' r end
  | _ :: r => depth d r
  end.
(** A necessary condition for being an expression. *)
Definition balanced (ts : list token) : Prop := depth 0 ts = Some 0%nat.

(** C has no linkage specifications. *)
Definition valid_C (h : list header_line) : Prop := ~ In OpenExternC h.
(** Every declaration lies inside [extern "C" { ... }]. *)
Fixpoint all_inside (inside : bool) (h : list header_line) : Prop :=
  match h with
  | [] => True
  | OpenExternC :: r => all_inside true r
  | CloseBrace :: r => all_inside false r
  | Declares _ :: r => inside = true /\ all_inside inside r
  | IfNotCplusplus _ :: r => all_inside inside r
  end.
Definition c_linkage (h : list header_line) : Prop := all_inside false h.
