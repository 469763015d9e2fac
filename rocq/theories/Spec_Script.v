(** Vocabulary for the fs_array and script segmentation properties (C54, C55, C61, C69). *)
From Verif Require Import Base M_Script.
Open Scope N_scope.

(** Run end offsets of a text of [n] code points: strictly increasing from [from], ending at [n]. *)
Inductive ends_at (n : nat) : nat -> list nat -> Prop :=
| ends_done : ends_at n n []
| ends_more : forall from e es, (from < e)%nat -> ends_at n e es -> ends_at n from (e :: es).

(** [run rs a b s]: a run with script [s] that covers positions a..b-1, in a list of (script, end offset) *)
Inductive run_from : nat -> list (N * nat) -> nat -> nat -> N -> Prop :=
| run_here : forall a s e rs, run_from a ((s, e) :: rs) a e s
| run_later : forall a s e rs a' b' s', run_from e rs a' b' s' -> run_from a ((s, e) :: rs) a' b' s'.
Definition is_run (rs : list (N * nat)) (a b : nat) (s : N) : Prop := run_from 0 rs a b s.

(** a real script is one that is not Common, Inherited or Invalid *)
Definition real (s : N) : Prop := s <> sc_invalid /\ s <> sc_common /\ s <> sc_inherited.
(** code point [c] may be used with script [s]: its Script or one of its Script_Extensions *)
Definition used_with (tb : script_tables) (c s : N) : Prop :=
  s = script_of tb c \/ (exists l, extensions_of tb c = Some l /\ In s l).
Definition has_real (tb : script_tables) (c : N) : Prop := exists s, real s /\ used_with tb c s.
(** every code point at positions a..b-1 of [t] that has a real script may be used with [s] *)
Definition shared (tb : script_tables) (t : list N) (a b : nat) (s : N) : Prop :=
  forall i c, (a <= i < b)%nat -> nth_error t i = Some c -> has_real tb c -> used_with tb c s.
(** as in ScriptExtensions.txt: at most 31 extensions per code point, all of them real scripts *)
Definition script_data (tb : script_tables) : Prop :=
  forall c l, extensions_of tb c = Some l -> (length l <= 31)%nat /\ forall s, In s l -> real s.

(** histories of an fs_array *)
Inductive fs_op (A : Type) := OpPush (v : A) | OpResize (n : nat) | OpClear.
Arguments OpPush {A}. Arguments OpResize {A}. Arguments OpClear {A}.
Definition fs_step {A} (N : nat) (a : fs_array A) (o : fs_op A) : Res (fs_array A) :=
  match o with
  | OpPush v => do (_, a') <- fs_push N a v ; Ok a'
  | OpResize n => Ok (fs_resize N a n)
  | OpClear => Ok (fs_clear a)
  end.
Fixpoint fs_run {A} (N : nat) (a : fs_array A) (os : list (fs_op A)) : Res (fs_array A) :=
  match os with [] => Ok a | o :: r => do a' <- fs_step N a o ; fs_run N a' r end.
