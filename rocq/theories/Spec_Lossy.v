(** How a byte string is read when errors are not fatal: every completed character as itself, every rejected byte as
    U+FFFD, an unfinished character at the very end as U+0000 — in terms of what from_utf8 reports for each byte. *)
From Verif Require Import Base M_Utf8.
Open Scope N_scope.
Fixpoint lossy (rs : list cres) : list N :=
  match rs with
  | [] => []
  | Success v :: rs' => v :: lossy rs'
  | Invalid :: rs' => 0xFFFD :: lossy rs'
  | [Incomplete] => [0]
  | Incomplete :: rs' => lossy rs'
  end.
