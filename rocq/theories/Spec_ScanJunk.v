(** Byte streams with ill-formed sequences in them: well-formed text, an ill-formed sequence, text, an ill-formed sequence, ... *)
From Verif Require Import Base Spec_Utf M_Utf8 Spec_Scan.
Open Scope N_scope.

(** [t0], then each ill-formed sequence with the text behind it *)
Fixpoint bytes_of (t0 : list N) (rest : list (list N * list N)) : list N :=
  utf8_text t0 ++ match rest with [] => [] | (j, t) :: rest' => j ++ bytes_of t rest' end.
(** A sequence the decoder rejects at its last byte; no byte of it is 7-bit, and it does not start with a C1 control. *)
Definition ill_formed (j : list N) : Prop := rejected j /\ Forall (fun b => 0x80 <= b < 256) j /\ ~ c1 (hd 0 j).
(** The beginning of a character. *)
Definition cut_short (j : list N) : Prop := unfinished j /\ Forall (fun b => 0x80 <= b < 256) j /\ j <> [].
(** Each ill-formed sequence is rejected as such, or it is the beginning of a character with a 7-bit character behind it. *)
Fixpoint flaws (rest : list (list N * list N)) : Prop :=
  match rest with
  | [] => True
  | (j, t) :: rest' => (ill_formed j \/ (cut_short j /\ exists c t', t = c :: t' /\ c < 0x80)) /\ flaws rest'
  end.
Definition texts (t0 : list N) (rest : list (list N * list N)) : list (list N) := t0 :: map snd rest.
Definition last_text (t0 : list N) (rest : list (list N * list N)) : list N := last (map snd rest) t0.
(** No C0 control, no DEL, and no C1 control at a character boundary. *)
Definition control_free (bs : list N) : Prop :=
  Forall (fun b => 0x20 <= b < 256 /\ b <> 0x7F) bs /\ (forall pre b post, bs = pre ++ b :: post -> at_boundary pre -> ~ c1 b).
(** A byte string that a decoder starting at a boundary accepts at its last byte, not earlier, as the code point [c]. *)
Definition accepted (s : list N) (c : N) : Prop := exists n, snd (from_utf8_run dinit s) = repeat Incomplete n ++ [Success c].
(** Whatever the decoder accepts in [bs] is the UTF-8 form of a scalar value (no overlong forms, no surrogates). *)
Definition accepts_wellformed (bs : list N) : Prop :=
  forall pre s post c, bs = pre ++ s ++ post -> at_boundary pre -> accepted s c -> scalar c /\ s = utf8 c.
(** Text made of scalar values, without controls. *)
Definition all_text (t0 : list N) (rest : list (list N * list N)) : Prop := Forall (fun t => scalars t /\ Forall plain_text t) (texts t0 rest).
