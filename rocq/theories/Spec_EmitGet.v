(** What the compiled tables answer when they are indexed in the way of multistage_table_view (C133). *)
From Coq Require Import String.
From Verif Require Import Base M_TableGen M_PropGen Spec_PropGen Spec_Cpp Spec_EmitUcd Spec_EmitMs.
Open Scope N_scope.

(** The names of values in the files that end up in the sources as names of enumerators are identifiers. *)
Definition value_names_ok (F : ucd_files) : Prop :=
  (forall c w, gives (f_scripts F) c w -> identifier w) /\
  (forall prop a v, In prop [GC; GCB; WB; EAW; INCB; AGE] -> alias (f_pva F) prop a v -> identifier v).
(** [source] defines arrays stage1 (of uint8_t), stage2 (of uint8_t or uint16_t) and properties with which the record of every code point [c]
    is properties[stage2[stage1[c / 256] * 256 + c % 256]] *)
Definition source_answers (source : str) (props : N -> orec) : Prop :=
  exists s1 s2 recs,
    has_table source (Direct true) (lit "uint8_t") (lit "stage1") (unsigned 8) s1 /\
    (has_table source (Direct true) (lit "uint8_t") (lit "stage2") (unsigned 8) s2 \/ has_table source (Direct true) (lit "uint16_t") (lit "stage2") (unsigned 16) s2) /\
    has_table source (Direct true) (lit "codepoint_properties") (lit "properties") read_record recs /\
    forall c, c <= 0x10FFFF -> exists block index, nth_error s1 (N.to_nat (c / 256)) = Some block /\
      nth_error s2 (N.to_nat (block * 256 + c mod 256)) = Some index /\ nth_error recs (N.to_nat index) = Some (props c).
