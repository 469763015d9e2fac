(** What ucd.h has to say to the compiler: declarations of the functions ucd.cpp defines, and the inline functions. *)
From Coq Require Import String.
From Verif Require Import Base M_TableGen Spec_Cpp Spec_EmitUcd.
Open Scope N_scope.

(** "TYPE NAME(char32_t codepoint) noexcept" *)
Definition lookup_sig (type name : str) : str := type ++ lit " " ++ name ++ lit "(char32_t codepoint) noexcept".
(** The functions of the API: one per grapheme break table and per emoji property besides the fixed ones; make_age if there are ages. *)
Definition signatures (breaks emoji : list str) (ages : bool) : list str :=
  [lookup_sig (lit "Plane") (lit "plane"); lit "bool contains(Core_Property prop, char32_t codepoint) noexcept";
   lit "bool contains(General_Category generalCategory, char32_t codepoint) noexcept"; lit "General_Category get(char32_t value) noexcept";
   lookup_sig (lit "Script") (lit "script"); lit "std::optional<std::span<Script const>> script_extensions(char32_t codepoint) noexcept";
   lookup_sig (lit "Block") (lit "block"); lookup_sig (lit "EastAsianWidth") (lit "east_asian_width"); lookup_sig (lit "bool") (lit "is_mirrored");
   lookup_sig (lit "char32_t") (lit "bidi_mirroring_glyph")]
  ++ map (fun n => lookup_sig n (map down n)) breaks ++ map (fun n => lookup_sig (lit "bool") (lit "is_" ++ map down n)) emoji
  ++ (if ages then [lit "std::optional<Age> make_age(std::string_view value) noexcept"] else []).
Definition declared_in (header : str) (sig : str) : Prop := contains_text header (sig ++ lit ";").
Definition defined_in (impl : str) (sig : str) : Prop := contains_text impl (sig ++ lit " {").
(** namespace general_category: get, and for every category X an inline function is_x that asks contains(General_Category::X, ...) *)
Definition category_helpers (cats : list str) : str :=
  lit "namespace general_category { General_Category get(char32_t value) noexcept; "
  ++ flat_map (fun n => lit "inline bool is_" ++ map down n ++ lit "(char32_t codepoint) noexcept { return contains(General_Category::" ++ n ++ lit ", codepoint); } ") cats
  ++ lit "}".
Definition width_to_string (widths : list str) : str :=
  lit "inline std::string to_string(EastAsianWidth value) { switch (value) { "
  ++ flat_map (fun v => lit "case EastAsianWidth::" ++ v ++ lit ": return """ ++ v ++ lit """; ") widths ++ lit "} return ""Unknown""; }".
Definition the_widths : list str := map lit ["Ambiguous"; "FullWidth"; "HalfWidth"; "Neutral"; "Narrow"; "Wide"; "Unspecified"]%string.
Definition ucd_h_denotes (header : str) (cats breaks emoji : list str) (ages : bool) : Prop :=
  contains_text header (lit "namespace unicode {") /\ (forall s, In s (signatures breaks emoji ages) -> declared_in header s) /\
  contains_text header (category_helpers cats) /\ contains_text header (width_to_string the_widths).
