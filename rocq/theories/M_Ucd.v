(** The per-code-point property record.  The generated tables (UCD data) are not in /repo, so every function of the
    model takes the whole property assignment [u : ucd] as an argument and theorems quantify over it. *)
From Verif Require Import Base.

(** Grapheme_Cluster_Break, values used by src/libunicode/grapheme_segmenter.cpp (generated enum; the further members
    Undefined, E_Base, E_Base_GAZ, E_Modifier, Glue_After_Zwj are never assigned by current UCD files and behave as
    [GOther] in every comparison the code makes). *)
Inductive gcb := GOther | GCR | GLF | GControl | GExtend | GZWJ | GRI | GPrepend | GSpacingMark | GL | GV | GT | GLV | GLVT.
(** Indic_Conjunct_Break *)
Inductive incb := INone | ILinker | IConsonant | IExtend.
(** Word_Break *)
Inductive wbc := WOther | WCR | WLF | WNewline | WExtend | WZWJ | WFormat | WRI | WKatakana | WHebrew | WALetter
  | WSingleQuote | WDoubleQuote | WMidNumLet | WMidLetter | WMidNum | WNumeric | WExtendNumLet | WWSegSpace.
Scheme Equality for gcb.
Scheme Equality for incb.
Scheme Equality for wbc.

(** src/libunicode/codepoint_properties.h:26-103 struct codepoint_properties, the fields read by the modelled code.
    [p_mc]: general_category == Spacing_Mark.  Script, emoji segmentation category etc. are modelled where used. *)
Record props := mkProps {
  p_width : N;        (* char_width *)
  p_gcb : gcb;        (* grapheme_cluster_break *)
  p_incb : incb;      (* indic_conjunct_break *)
  p_wb : wbc;         (* word_break *)
  p_extpic : bool;    (* is_extended_pictographic() *)
  p_virama : bool;    (* is_virama() *)
  p_varbase : bool;   (* is_emoji_variation_base() *)
  p_emoji_modifier : bool; (* is_emoji_modifier() *)
  p_emoji : bool;     (* is_emoji() *)
  p_emoji_pres : bool;(* is_emoji_presentation() *)
  p_mc : bool         (* general_category == General_Category::Spacing_Mark *)
}.
(** codepoint_properties::get (codepoint_properties.h:100) *)
Definition ucd := N -> props.

(** A plain narrow character: what most of the code space looks like. *)
Definition plain : props := mkProps 1 GOther INone WOther false false false false false false false.
