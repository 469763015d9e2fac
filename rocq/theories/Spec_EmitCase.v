(** Spec for C142: the properties the case functions ask of a library compiled from the printed tables. *)
From Coq Require Import String.
From Verif Require Import Base M_Ucd M_TableGen M_PropGen M_UcdApi M_Tables M_Case M_Link M_LinkCase Spec_Cpp Spec_EmitUcd Spec_EmitMs.
Open Scope N_scope.

(** [impl] is the text of codepoint_properties_data.cpp, [cpp] that of ucd.cpp.  The properties [u] and the category [gcp] are members of the
    record that the arrays of [impl] lead to (a code point above U+10FFFF has the record of U+0000); the category [gca] is found by searching the
    array General_Category of [cpp]. *)
Definition case_library (impl cpp : str) (u : ucd) (gcp gca : N -> gencat) : Prop :=
  (exists s1 s2 recs,
    has_table impl (Direct true) (lit "uint8_t") (lit "stage1") (unsigned 8) s1 /\
    (has_table impl (Direct true) (lit "uint8_t") (lit "stage2") (unsigned 8) s2 \/ has_table impl (Direct true) (lit "uint16_t") (lit "stage2") (unsigned 16) s2) /\
    has_table impl (Direct true) (lit "codepoint_properties") (lit "properties") read_record recs /\
    forall c, let i := if c <=? 0x10FFFF then c else 0 in exists block index r,
      nth_error s1 (N.to_nat (i / 256)) = Some block /\ nth_error s2 (N.to_nat (block * 256 + i mod 256)) = Some index /\ nth_error recs (N.to_nat index) = Some r /\
      u c = props_of r /\ gcp c = gencat_of (o_gc r)) /\
  exists gcs,
    enum_table cpp (lit "General_Category") (lit "Prop<::unicode::General_Category>") (lit "::unicode::General_Category") gcs /\
    contains_text cpp (lit "General_Category get(char32_t value) noexcept { return search(tables::General_Category, value).value_or(General_Category::Unspecified); }") /\
    forall c, exists v, value_or (search gcs c) (lit "Unspecified") = Ok v /\ gca c = gencat_of v.
