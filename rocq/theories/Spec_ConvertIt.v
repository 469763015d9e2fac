(** How text that need not be well-formed falls into sequences (for C12). *)
From Verif Require Import Base Spec_Utf.
Open Scope N_scope.

(** how many continuation bytes a UTF-8 lead byte announces (the old 5- and 6-byte forms included) *)
Definition announced (b : N) : nat :=
  if b <? 0xC0 then 0 else if b <? 0xE0 then 1 else if b <? 0xF0 then 2 else if b <? 0xF8 then 3 else if b <? 0xFC then 4 else if b <? 0xFE then 5 else 0.
Definition continuation (b : N) : Prop := 0x80 <= b < 0xC0.
(** a sequence: a byte with all the continuation bytes it announces, or with fewer of them and one other byte *)
Definition sequence8 (bs : list N) : Prop := exists b cs, Forall continuation cs /\
  ((bs = b :: cs /\ length cs = announced b) \/ (exists x, bs = b :: cs ++ [x] /\ (length cs < announced b)%nat /\ ~ continuation x)).
(** the beginning of a sequence, ended by the end of the text *)
Definition truncated8 (bs : list N) : Prop := exists b cs, Forall continuation cs /\ bs = b :: cs /\ (length cs < announced b)%nat.

(** UTF-16: a high surrogate takes the next unit, whatever it is *)
Definition high_surrogate (u : N) : Prop := 0xD800 <= u < 0xDC00.
Definition sequence16 (us : list N) : Prop := (exists u, us = [u] /\ ~ high_surrogate u) \/ (exists h x, us = [h; x] /\ high_surrogate h).
Definition truncated16 (us : list N) : Prop := exists h, us = [h] /\ high_surrogate h.

(** by element type; UTF-32 has no sequences *)
Definition sequence (s : elem) (us : list N) : Prop :=
  match s with T8 => sequence8 us | T16 | TW true => sequence16 us | T32 | TW false => length us = 1%nat end.
Definition truncated (s : elem) (us : list N) : Prop :=
  match s with T8 => truncated8 us | T16 | TW true => truncated16 us | T32 | TW false => False end.
