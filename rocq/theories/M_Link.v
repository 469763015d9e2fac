(** The property record the library code reads, as the generated table holds it: codepoint_properties::get on the table printed by the
    generator (M_PropGen, M_Multistage), and the enumerators the code compares with. *)
From Coq Require Import String.
From Verif Require Import Base M_Ucd M_TableGen M_PropGen M_Multistage M_Emoji.
Open Scope N_scope.

Definition is_named (s : str) (n : string) : bool := str_eqb s (lit n).
(** Grapheme_Cluster_Break:: enumerators named in grapheme_segmenter.cpp:19-154 and width.cpp:41-149; every other one takes the same branches *)
Definition gcb_of (s : str) : gcb :=
  if is_named s "CR" then GCR else if is_named s "LF" then GLF else if is_named s "Control" then GControl
  else if is_named s "Extend" then GExtend else if is_named s "ZWJ" then GZWJ else if is_named s "Regional_Indicator" then GRI
  else if is_named s "Prepend" then GPrepend else if is_named s "SpacingMark" then GSpacingMark else if is_named s "L" then GL
  else if is_named s "V" then GV else if is_named s "T" then GT else if is_named s "LV" then GLV else if is_named s "LVT" then GLVT else GOther.
(** Indic_Conjunct_Break::, grapheme_segmenter.cpp:70-81, 135 *)
Definition incb_of (s : str) : incb :=
  if is_named s "Linker" then ILinker else if is_named s "Consonant" then IConsonant else if is_named s "Extend" then IExtend else INone.
(** Word_Break::, word_segmenter.cpp:24-294 *)
Definition wb_of (s : str) : wbc :=
  if is_named s "CR" then WCR else if is_named s "LF" then WLF else if is_named s "Newline" then WNewline else if is_named s "Extend" then WExtend
  else if is_named s "ZWJ" then WZWJ else if is_named s "Format" then WFormat else if is_named s "Regional_Indicator" then WRI
  else if is_named s "Katakana" then WKatakana else if is_named s "Hebrew_Letter" then WHebrew else if is_named s "ALetter" then WALetter
  else if is_named s "Single_Quote" then WSingleQuote else if is_named s "Double_Quote" then WDoubleQuote
  else if is_named s "MidNumLet" then WMidNumLet else if is_named s "MidLetter" then WMidLetter else if is_named s "MidNum" then WMidNum
  else if is_named s "Numeric" then WNumeric else if is_named s "ExtendNumLet" then WExtendNumLet else if is_named s "WSegSpace" then WWSegSpace else WOther.
(** codepoint_properties.h:26-81: the members and accessors; width.cpp compares general_category with Spacing_Mark *)
Definition props_of (r : orec) : props :=
  mkProps (o_width r) (gcb_of (o_gcb r)) (incb_of (o_incb r)) (wb_of (o_wb r))
    (flag_set (o_flags r) FlagExtendedPictographic) (flag_set (o_flags r) FlagVirama) (flag_set (o_flags2 r) Flag2EmojiVariationBase)
    (flag_set (o_flags r) FlagEmojiModifier) (flag_set (o_flags r) FlagEmoji) (flag_set (o_flags r) FlagEmojiPresentation)
    (is_named (o_gc r) "Spacing_Mark").
(** EmojiSegmentationCategory::, emoji_segmenter.h:31-50 *)
Definition ecat_of (s : str) : ecat :=
  if is_named s "Emoji" then EEmoji else if is_named s "EmojiTextPresentation" then ETextPres else if is_named s "EmojiEmojiPresentation" then EEmojiPres
  else if is_named s "EmojiModifierBase" then EModBase else if is_named s "EmojiModifier" then EModifier else if is_named s "EmojiVSBase" then EVSBase
  else if is_named s "RegionalIndicator" then ERegional else if is_named s "KeyCapBase" then EKeycapBase
  else if is_named s "CombiningEnclosingKeyCap" then EKeycap else if is_named s "CombiningEnclosingCircleBackslash" then EBackslash
  else if is_named s "ZWJ" then EZwj else if is_named s "VS15" then EVs15 else if is_named s "VS16" then EVs16 else if is_named s "TagBase" then ETagBase
  else if is_named s "TagSequence" then ETagSeq else if is_named s "TagTerm" then ETagTerm else EInvalid.
(** codepoint_properties::get, codepoint_properties.h:83-100, on the table [g] generated from the parsed files [d]; [plain] stands for
    undefined behaviour of the lookup, which C53/C82 exclude *)
Definition runtime (members : list str) (d : pdata) (g : gen crec) : ucd :=
  fun c => match get 256 0x10FFFF g c with Ok r => props_of (print_rec members d r) | _ => plain end.
Definition runtime_ecat (members : list str) (d : pdata) (g : gen crec) : N -> ecat :=
  fun c => match get 256 0x10FFFF g c with Ok r => ecat_of (o_esc (print_rec members d r)) | _ => EInvalid end.
