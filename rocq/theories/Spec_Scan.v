(** Vocabulary of the scan_text properties. *)
From Verif Require Import Base Spec_Utf M_Utf8 M_Ucd M_Scan.
Open Scope N_scope.

(** Reading a byte in a terminal stream: a 7-bit byte ends whatever was pending; a rejected byte leaves nothing pending;
    otherwise the byte belongs to a multi-byte character. *)
Definition stream_step (d : dstate) (b : N) : dstate :=
  if b <? 0x80 then dinit
  else match from_utf8 d b with
       | (d', Invalid) => dinit
       | (d', _) => d'
       end.
(** After [bs] no character is pending: the next byte stands at a character boundary. *)
Definition at_boundary (bs : list N) : Prop := d_exp (fold_left stream_step bs dinit) = 0.

(** A byte string that a decoder starting at a boundary rejects at its last byte, not earlier. *)
Definition rejected (bs : list N) : Prop :=
  exists n, snd (from_utf8_run dinit bs) = repeat Incomplete n ++ [Invalid].
(** A byte string that is the beginning of a character: the decoder wants more. *)
Definition unfinished (bs : list N) : Prop := Forall (eq Incomplete) (snd (from_utf8_run dinit bs)).

(** Number of invalid sequences reported to the receiver. *)
Fixpoint invalids (ev : list event) : nat :=
  match ev with [] => O | EInvalid :: ev' => S (invalids ev') | _ :: ev' => invalids ev' end.

(** Bytes a scan must stop at: C0 controls anywhere, C1 controls at a character boundary. *)
Definition c0 (b : N) : Prop := b < 0x20.
Definition c1 (b : N) : Prop := 0x80 <= b <= 0x9F.

(** The ranges handed to the receiver follow each other without gap or overlap from [a] to [b], and none is empty or
    invalid. *)
Fixpoint covers (ev : list event) (a b : Z) : Prop :=
  match ev with
  | [] => a = b
  | EAscii x y :: ev' => x = a /\ (x < y)%Z /\ covers ev' y b
  | ECluster x y _ :: ev' => x = a /\ (x < y)%Z /\ covers ev' y b
  | EInvalid :: _ => False
  end.
(** Columns announced to the receiver; an ASCII sequence announces one per byte. *)
Fixpoint announced (ev : list event) : Z :=
  match ev with
  | [] => 0%Z
  | EAscii x y :: ev' => (y - x + announced ev')%Z
  | ECluster _ _ w :: ev' => (w + announced ev')%Z
  | EInvalid :: ev' => announced ev'
  end.

(** Text without controls: no C0 control and no DEL (C1 code points are two-byte characters in UTF-8 and count as text). *)
Definition plain_text (c : N) : Prop := 0x20 <= c /\ c <> 0x7F.
(** Characters that attach to any character before them (GB9, GB9a). *)
Definition ezs (u : ucd) (b : N) : Prop := p_gcb (u b) = GExtend \/ p_gcb (u b) = GZWJ \/ p_gcb (u b) = GSpacingMark.
(** Facts about the data: ASCII text is narrow and unremarkable; no wide emoji-variation base is an attaching character. *)
Record ucd_scan_ok (u : ucd) : Prop := {
  sok_ascii : forall c, 0x20 <= c < 0x7F -> p_width (u c) = 1 /\ p_gcb (u c) = GOther;
  sok_wide : forall c, p_varbase (u c) = true -> p_width (u c) = 2 -> ~ ezs u c
}.
(** Two regional indicators follow each other only at the very start of the text, and no Prepend character stands
    directly before a 7-bit character. *)
Definition no_flags_no_prepend (u : ucd) (t : list N) : Prop := forall l a b r, t = l ++ a :: b :: r ->
  (p_gcb (u a) = GRI -> p_gcb (u b) = GRI -> l = []) /\ (p_gcb (u a) = GPrepend -> 0x80 <= b).
(** No character attaches to a 7-bit character. *)
Definition unattached (u : ucd) (t : list N) : Prop := forall l a b r, t = l ++ a :: b :: r -> a < 0x80 -> 0x80 <= b -> ~ ezs u b /\ p_gcb (u b) <> GLF.
(** What a scan leaves behind for the next call, except the position. *)
Definition same_memory (a b : sstate) : Prop :=
  s_hint a = s_hint b /\ s_g a = s_g b /\ s_acc a = s_acc b /\ s_rep a = s_rep b /\ d_exp (s_utf8 a) = 0 /\ d_exp (s_utf8 b) = 0.
(** The state handed to the next call with a new buffer: the position pointer is reset to null. *)
Definition next_buffer (st : sstate) : sstate := SS (s_utf8 st) (s_hint st) (s_g st) (s_acc st) (s_rep st) None.
(** Byte ranges given to the receiver as grapheme clusters. *)
Fixpoint cluster_ranges (ev : list event) : list (Z * Z) :=
  match ev with [] => [] | ECluster x y _ :: ev' => (x, y) :: cluster_ranges ev' | _ :: ev' => cluster_ranges ev' end.
Definition slice (buf : list N) (x y : Z) : list N := firstn (Z.to_nat (y - x)) (skipn (Z.to_nat x) buf).
