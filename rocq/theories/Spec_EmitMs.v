(** What codepoint_properties_data.h, codepoint_properties_data.cpp and codepoint_properties_names.cpp have to say to the compiler. *)
From Coq Require Import String.
From Verif Require Import Base M_TableGen M_PropGen Spec_Cpp Spec_EmitUcd.
Open Scope N_scope.

(** the initializer of a codepoint_properties, whose members are, in this order (codepoint_properties.h:25-38): three of type uint8_t, then the
    script, grapheme cluster break, East Asian width, general category, emoji segmentation category, age, Indic conjunct break and word break *)
Definition read_record (i : init) : option orec :=
  match i with
  | IList [] [w; f; f2; sc; gcb; eaw; gc; esc; age; incb; wb] =>
      match unsigned 8 w, unsigned 8 f, unsigned 8 f2, read_enum (lit "Script") sc, read_enum (lit "Grapheme_Cluster_Break") gcb, read_enum (lit "East_Asian_Width") eaw with
      | Some a, Some b, Some c, Some d, Some e, Some g =>
          match read_enum (lit "General_Category") gc, read_enum (lit "EmojiSegmentationCategory") esc, read_enum (lit "Age") age,
                read_enum (lit "Indic_Conjunct_Break") incb, read_enum (lit "Word_Break") wb with
          | Some h, Some j, Some k, Some l, Some m => Some (mkO a b c d e g h j k l m)
          | _, _, _, _, _ => None
          end
      | _, _, _, _, _, _ => None
      end
  | _ => None
  end.
(** [impl] defines the array [name] of [type] with the elements [l], and [header] declares it with the same type and length *)
Definition exported {A} (header impl type name : str) (rd : init -> option A) (l : list A) : Prop :=
  has_table impl (Direct true) type name rd l /\
  contains_text header (lit "extern std::array<" ++ type ++ lit ", " ++ numeral (length l) ++ lit "> const " ++ name ++ lit ";").
(** The element types are those of tables_view and names_view (codepoint_properties.h:86-101), which codepoint_properties.cpp points at the arrays. *)
Definition ms_denotes (ns header impl names : str) (s1 s2 : list N) (recs : list orec) (n1 n2 : list N) (texts : list str) : Prop :=
  (contains_text header (lit "namespace " ++ ns ++ lit "{") /\ contains_text impl (lit "namespace " ++ ns ++ lit "{") /\
   contains_text names (lit "namespace " ++ ns ++ lit "{")) /\
  (exported header impl (lit "uint8_t") (lit "stage1") (unsigned 8) s1 /\ exported header impl (lit "uint16_t") (lit "stage2") (unsigned 16) s2 /\
   exported header impl (lit "codepoint_properties") (lit "properties") read_record recs) /\
  (exported header names (lit "uint8_t") (lit "names_stage1") (unsigned 8) n1 /\ exported header names (lit "uint16_t") (lit "names_stage2") (unsigned 16) n2 /\
   exported header names (lit "std::string_view") (lit "names_stage3") string_view texts).

(** ** The data: numbers of the types of the stages, records of enumerators, names of characters that need no escape *)
Definition bytes_ok (l : list N) : Prop := l <> [] /\ few l /\ Forall (fun x => x < 2 ^ 8) l.
Definition words_ok (l : list N) : Prop := l <> [] /\ few l /\ Forall (fun x => x < 2 ^ 16) l.
Definition record_ok (r : orec) : Prop :=
  o_width r < 2 ^ 8 /\ o_flags r < 2 ^ 8 /\ o_flags2 r < 2 ^ 8 /\
  Forall identifier [o_script r; o_gcb r; o_eaw r; o_gc r; o_esc r; o_age r; o_incb r; o_wb r].
Definition text_ok (s : str) : Prop := Forall (fun c => c <> 34 /\ c <> 10 /\ c <> 92) s.
(** a namespace: identifiers with "::" between them *)
Fixpoint qualified (parts : list str) : str := match parts with [] => [] | [x] => x | x :: r => x ++ lit "::" ++ qualified r end.
