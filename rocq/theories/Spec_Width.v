(** Vocabulary of the width properties (no reference to the accumulator). *)
From Verif Require Import Base M_Ucd.
Open Scope N_scope.

(** Facts about the data: NUL is no emoji, ZWJ has no width (both true of the UCD). *)
Record ucd_width_ok (u : ucd) : Prop := {
  wok_nul : p_extpic (u 0) = false /\ p_gcb (u 0) <> GRI;
  wok_zwj : p_width (u 0x200D) = 0
}.
(** Every character occupies at most two columns (toCharWidth, codepoint_properties_loader.cpp:354-392). *)
Definition widths_le2 (u : ucd) : Prop := forall c, p_width (u c) <= 2.

(** A visible base: a character with a width that is none of the special code points. *)
Definition base (u : ucd) (b : N) : Prop :=
  p_width (u b) <> 0 /\ b <> 0x200D /\ b <> 0xFE0E /\ b <> 0xFE0F /\ ~ (0x1F3FB <= b <= 0x1F3FF) /\ p_gcb (u b) <> GRI.
(** A plain zero-width member of a cluster: no width, not a virama, spacing mark, regional indicator, selector or ZWJ. *)
Definition mark (u : ucd) (m : N) : Prop :=
  p_width (u m) = 0 /\ p_virama (u m) = false /\ p_mc (u m) = false /\ p_gcb (u m) <> GRI /\
  m <> 0x200D /\ m <> 0xFE0E /\ m <> 0xFE0F /\ ~ (0x1F3FB <= m <= 0x1F3FF).
Definition marks (u : ucd) (ms : list N) : Prop := Forall (mark u) ms.
Definition virama (u : ucd) (v : N) : Prop :=
  p_width (u v) = 0 /\ p_virama (u v) = true /\ p_gcb (u v) <> GRI /\
  v <> 0x200D /\ v <> 0xFE0E /\ v <> 0xFE0F /\ ~ (0x1F3FB <= v <= 0x1F3FF).
Definition spacing_mark (u : ucd) (m : N) : Prop :=
  p_width (u m) = 0 /\ p_virama (u m) = false /\ p_mc (u m) = true /\ p_gcb (u m) <> GRI /\
  m <> 0x200D /\ m <> 0xFE0E /\ m <> 0xFE0F /\ ~ (0x1F3FB <= m <= 0x1F3FF).

(** A regional indicator symbol (two columns on its own). *)
Definition ri_cp (u : ucd) (c : N) : Prop := p_gcb (u c) = GRI /\ p_width (u c) = 2 /\ ~ (0x1F3FB <= c <= 0x1F3FF) /\
  c <> 0x200D /\ c <> 0xFE0E /\ c <> 0xFE0F.
Definition zsum (l : list Z) : Z := fold_right Z.add 0%Z l.
