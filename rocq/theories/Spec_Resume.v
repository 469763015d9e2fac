(** Vocabulary for scan_text called again with the rest of a character (C35). *)
From Verif Require Import Base Spec_Utf M_Utf8 M_Ucd M_Grapheme M_Width M_Scan.
Open Scope Z_scope.

(** the byte [b] is text, given what is pending: not a 7-bit byte, and not a C1 control between two characters *)
Definition in_text (d : dstate) (b : N) : Prop := (0x80 <= b)%N /\ ~ (d_exp d = 0%N /\ (b <= 0x9F)%N).
(** after a rejected sequence nothing is pending *)
Definition idle (d : dstate) : dstate := DS (d_char d) 0 (d_cur d).
(** reading [bs] yields no character, but [n] rejected sequences; it leads from decoder state [d] to [e] *)
Inductive stalls : dstate -> list N -> Z -> dstate -> Prop :=
| stalls_nil d : stalls d [] 0 d
| stalls_wait d b d' r n e : in_text d b -> from_utf8 d b = (d', Incomplete) -> stalls d' r n e -> stalls d (b :: r) n e
| stalls_bad d b d' r n e : in_text d b -> from_utf8 d b = (d', Invalid) -> stalls (idle d') r n e -> stalls d (b :: r) (n + 1) e.
(** [c] does not continue the cluster that was open when the buffer ended *)
Definition opens_cluster (u : ucd) (st : sstate) (c : N) : Prop := s_hint st = 0%N \/ fst (process_breakable u c (s_g st)) = true.
(** the buffer holds no character at all, or more rejected sequences than columns before the first one, or its first character starts a
    cluster for which the columns do not suffice *)
Definition no_progress (u : ucd) (st : sstate) (buf : list N) (max : Z) : Prop :=
  (exists n e, stalls (s_utf8 st) buf n e) \/
  (exists p r n e, buf = p ++ r /\ stalls (s_utf8 st) p n e /\ max < n) \/
  (exists p b r n e e' c, buf = p ++ b :: r /\ stalls (s_utf8 st) p n e /\ in_text e b /\ from_utf8 e b = (e', Success c) /\
     max < n + cluster_width u [c] /\ (0 < n \/ opens_cluster u st c)).
