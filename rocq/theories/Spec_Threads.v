(** Vocabulary for property C124: calls made by several threads, and what each call returns when it is the only one. *)
From Verif Require Import Base M_AsciiScan M_Convert Spec_Simd M_Simd.
Open Scope N_scope.

(** A call of one of the three functions that choose their implementation at run time, with the buffers the caller owns
    ([out]: the contents of the output buffer before the call). *)
Inductive call :=
| ToUtf32 (input out : list N)
| ToUtf16 (input out : list N)
| ScanAscii (text : list N) (limit : nat).
Inductive outcome :=
| Converted (r : Res (list N * nat))
| Scanned (r : Res nat).

(** The same call in a program with one thread (property C98 says what these are). *)
Definition alone (m : machine) (c : simd_config) (uchar : bool) (k : call) : outcome :=
  match k with
  | ToUtf32 i o => Converted (convert_utf8_to_utf32_dispatch m c i o)
  | ToUtf16 i o => Converted (convert_utf8_to_utf16_dispatch m c i o)
  | ScanAscii t l => Scanned (scan_for_text_ascii_dispatch m c uchar t l)
  end.

(** Runs of a transition system in which in every step one thread, chosen by the scheduler, acts. *)
Section Runs.
Variables (S : Type) (step : nat -> S -> S -> Prop).
Inductive run (s : S) : list nat -> S -> Prop :=
| run_nil : run s [] s
| run_snoc sched i s' s'' : run s sched s' -> step i s' s'' -> run s (sched ++ [i]) s''.
End Runs.
Arguments run {S}.

(** Memory accesses of a thread's next step.  Guard operations of function-local statics are synchronisation ([stmt.dcl]/4:
    concurrent executions wait), everything else is plain. *)
Inductive access (L : Type) := NoAccess | Reads (l : L) | Writes (l : L).
Arguments NoAccess {L}.
Arguments Reads {L}.
Arguments Writes {L}.
(** [intro.races]/21: two accesses conflict if they touch the same location and one of them writes. *)
Definition conflict {L} (a b : access L) : Prop :=
  match a, b with
  | Writes l, Writes l' | Writes l, Reads l' | Reads l, Writes l' => l = l'
  | _, _ => False
  end.
