(** Spec for C140: the property lookups of a library compiled from the printed tables. *)
From Coq Require Import String.
From Verif Require Import Base M_Ucd M_Emoji M_TableGen M_PropGen M_Link Spec_Cpp Spec_EmitUcd Spec_EmitMs.
Open Scope N_scope.

(** [source] is the text of codepoint_properties_data.cpp.  A library whose arrays are those of [source] has the properties [u] and emoji
    segmentation categories [e]: it indexes stage1 with c / 256, stage2 with the block found, and takes the members of the record (a code
    point above U+10FFFF has the record of U+0000; codepoint_properties.h:83-100). *)
Definition library_of (source : str) (u : ucd) (e : N -> ecat) : Prop :=
  exists s1 s2 recs,
    has_table source (Direct true) (lit "uint8_t") (lit "stage1") (unsigned 8) s1 /\
    (has_table source (Direct true) (lit "uint8_t") (lit "stage2") (unsigned 8) s2 \/ has_table source (Direct true) (lit "uint16_t") (lit "stage2") (unsigned 16) s2) /\
    has_table source (Direct true) (lit "codepoint_properties") (lit "properties") read_record recs /\
    forall c, let i := if c <=? 0x10FFFF then c else 0 in exists block index r,
      nth_error s1 (N.to_nat (i / 256)) = Some block /\ nth_error s2 (N.to_nat (block * 256 + i mod 256)) = Some index /\ nth_error recs (N.to_nat index) = Some r /\
      u c = props_of r /\ e c = ecat_of (o_esc r).
