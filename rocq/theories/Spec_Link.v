(** What it means for a property assignment of the library to be that of the database files, and the facts of the Unicode Character Database
    the theorems about segmentation, width and scanning assume, as conditions on the files. *)
From Coq Require Import String.
From Verif Require Import Base M_Ucd M_TableGen M_PropGen Spec_TableGen Spec_PropGen M_Emoji.
Open Scope N_scope.

Definition gcb_names : list (string * gcb) :=
  [("CR", GCR); ("Control", GControl); ("Extend", GExtend); ("L", GL); ("LF", GLF); ("LV", GLV); ("LVT", GLVT); ("Prepend", GPrepend);
   ("Regional_Indicator", GRI); ("SpacingMark", GSpacingMark); ("T", GT); ("V", GV); ("ZWJ", GZWJ)]%string.
Definition incb_names : list (string * M_Ucd.incb) := [("Consonant", IConsonant); ("Extend", IExtend); ("Linker", ILinker)]%string.
Definition wb_names : list (string * wbc) :=
  [("ALetter", WALetter); ("CR", WCR); ("Double_Quote", WDoubleQuote); ("Extend", WExtend); ("ExtendNumLet", WExtendNumLet); ("Format", WFormat);
   ("Hebrew_Letter", WHebrew); ("Katakana", WKatakana); ("LF", WLF); ("MidLetter", WMidLetter); ("MidNum", WMidNum); ("MidNumLet", WMidNumLet);
   ("Newline", WNewline); ("Numeric", WNumeric); ("Regional_Indicator", WRI); ("Single_Quote", WSingleQuote); ("WSegSpace", WWSegSpace); ("ZWJ", WZWJ)]%string.
Definition ecat_names : list (string * ecat) :=
  [("EmojiTextPresentation", ETextPres); ("EmojiEmojiPresentation", EEmojiPres); ("EmojiModifierBase", EModBase); ("EmojiModifier", EModifier);
   ("RegionalIndicator", ERegional); ("KeyCapBase", EKeycapBase); ("CombiningEnclosingKeyCap", EKeycap); ("CombiningEnclosingCircleBackslash", EBackslash);
   ("ZWJ", EZwj); ("VS15", EVs15); ("VS16", EVs16); ("TagBase", ETagBase); ("TagSequence", ETagSeq); ("TagTerm", ETagTerm); ("Invalid", EInvalid)]%string.
(** the value of the property of [c] according to the files has the long name [n] *)
Definition file_gcb (F : ucd_files) (c : N) (n : string) : Prop := valued F GCB (gives (f_gcb F) c) (lit "Other") (lit n).
Definition file_wb (F : ucd_files) (c : N) (n : string) : Prop := valued F WB (gives (f_wb F) c) (lit "Other") (lit n).
Definition file_incb (F : ucd_files) (c : N) (n : string) : Prop := valued F INCB (fun w => gives (f_core F) c (incb w)) (lit "None") (lit n).
Definition emoji_prop (F : ucd_files) (c : N) (n : string) : Prop := gives (f_emoji F) c (lit n).

(** [v] assigns to every code point the properties the files give it; a value without a name above is the remaining constructor *)
Definition describes (F : ucd_files) (v : ucd) : Prop := forall c, c <= 0x10FFFF ->
  (forall n g, In (n, g) gcb_names -> (p_gcb (v c) = g <-> file_gcb F c n)) /\
  (forall n g, In (n, g) incb_names -> (p_incb (v c) = g <-> file_incb F c n)) /\
  (forall n g, In (n, g) wb_names -> (p_wb (v c) = g <-> file_wb F c n)) /\
  first_match (width_rules F c) 1 (p_width (v c)) /\
  (p_extpic (v c) = true <-> emoji_prop F c "Extended_Pictographic") /\
  (p_virama (v c) = true <-> gives (f_isc F) c (lit "Virama") \/ gives (f_isc F) c (lit "Invisible_Stacker")) /\
  (p_varbase (v c) = true <-> exists e, has (f_evs F) e /\ ev_base e = c) /\
  (p_emoji_modifier (v c) = true <-> emoji_prop F c "Emoji_Modifier") /\
  (p_emoji (v c) = true <-> emoji_prop F c "Emoji") /\
  (p_emoji_pres (v c) = true <-> emoji_prop F c "Emoji_Presentation") /\
  (p_mc (v c) = true <-> gc_value F c (lit "Spacing_Mark")).
(** and the emoji segmentation category *)
Definition describes_ecat (F : ucd_files) (v : N -> ecat) : Prop := forall c, c <= 0x10FFFF ->
  forall n e, In (n, e) ecat_names -> (v c = e <-> first_match (esc_rules F c) (lit "Invalid") (lit n)).

(** ** Facts of the Unicode Character Database *)
Record database_facts (F : ucd_files) : Prop := {
  (* ASCII characters are controls or plain characters *)
  df_ascii_gcb : forall c n g, c < 128 -> In (n, g) gcb_names -> file_gcb F c n -> g = GCR \/ g = GLF \/ g = GControl;
  df_ascii_incb : forall c n g, c < 128 -> In (n, g) incb_names -> ~ file_incb F c n;
  df_ascii_pict : forall c, c < 128 -> ~ emoji_prop F c "Extended_Pictographic";
  (* conjunct linkers and extenders are extending characters, consonants and pictographs are not *)
  df_linker : forall c, file_incb F c "Linker" \/ file_incb F c "Extend" -> file_gcb F c "Extend" \/ file_gcb F c "ZWJ" \/ file_gcb F c "SpacingMark";
  df_consonant : forall c n g, file_incb F c "Consonant" -> In (n, g) gcb_names -> ~ file_gcb F c n;
  df_pict : forall c n g, emoji_prop F c "Extended_Pictographic" -> In (n, g) gcb_names -> ~ file_gcb F c n;
  df_pict_wb : forall c, emoji_prop F c "Extended_Pictographic" -> ~ (file_wb F c "Extend" \/ file_wb F c "Format" \/ file_wb F c "ZWJ");
  (* the zero width joiner is a format character *)
  df_zwj : category F 0x200D "Format" /\ ~ gives (f_gcb F) 0x200D (lit "Prepend");
  (* the printable ASCII characters are narrow *)
  df_printable : forall c, 0x20 <= c < 0x7F -> (forall n g, In (n, g) gcb_names -> ~ file_gcb F c n) /\
     ~ gives (f_hst F) c (lit "V") /\ ~ gives (f_hst F) c (lit "T") /\ ~ zero_width_category F c /\ ~ emoji_prop F c "Emoji_Presentation" /\
     ~ east_asian F c "Wide" /\ ~ east_asian F c "Fullwidth";
  (* the bases of emoji variation sequences are not extending characters *)
  df_varbase : forall e n, has (f_evs F) e -> In n ["Extend"; "ZWJ"; "SpacingMark"]%string -> ~ file_gcb F (ev_base e) n
}.
