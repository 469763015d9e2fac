(** The C++ text of ucd.h, as ucd_api_generator.cpp prints it. *)
From Coq Require Import String.
From Verif Require Import Base M_TableGen M_PropGen M_UcdApi M_Emit M_EmitUcd.
Open Scope N_scope.

(** the file header, 110-120 *)
Definition h_header : str :=
  license_header ++ lit "#pragma once" ++ nl ++ nl ++ lit "#include <libunicode/ucd_enums.h>" ++ nl ++ nl ++ lit "#include <optional>" ++ nl ++ lit "#include <span>" ++ nl
  ++ lit "#include <string>" ++ nl ++ lit "#include <string_view>" ++ nl ++ lit "#include <utility>" ++ nl ++ nl.
(** 121-124 *)
Definition h_open : str := lit "namespace unicode" ++ nl ++ lit "{" ++ nl ++ nl.
(** 164 *)
Definition h_plane : str := lit "Plane plane(char32_t codepoint) noexcept;" ++ nl ++ nl.
(** 196 *)
Definition h_core : str := lit "bool contains(Core_Property prop, char32_t codepoint) noexcept;" ++ nl ++ nl.
(** 257 *)
Definition h_gc : str := lit "bool contains(General_Category generalCategory, char32_t codepoint) noexcept;" ++ nl ++ nl.
(** 265-278 *)
Definition is_helper (name : str) : str :=
  lit "    inline bool is_" ++ lower name ++ lit "(char32_t codepoint) noexcept" ++ nl ++ lit "    {" ++ nl
  ++ lit "        return contains(General_Category::" ++ name ++ lit ", codepoint);" ++ nl ++ lit "    }" ++ nl ++ nl.
(** 260-281 *)
Definition h_helpers (cats : list str) : str :=
  lit "// Disabling clang-format to avoid single-line folding implementations." ++ nl ++ lit "// clang-format off" ++ nl
  ++ lit "namespace general_category" ++ nl ++ lit "{" ++ nl ++ lit "    General_Category get(char32_t value) noexcept;" ++ nl ++ nl
  ++ flat_map is_helper cats ++ lit "} // namespace general_category" ++ nl ++ lit "// clang-format on" ++ nl ++ nl.
(** 303 *)
Definition h_script : str := lit "Script script(char32_t codepoint) noexcept;" ++ nl ++ nl.
(** 357 *)
Definition h_sce : str := lit "std::optional<std::span<Script const>> script_extensions(char32_t codepoint) noexcept;" ++ nl ++ nl.
(** 385 *)
Definition h_block : str := lit "Block block(char32_t codepoint) noexcept;" ++ nl ++ nl.
(** 414-429 *)
Definition break_decl (name : str) : str := name ++ lit " " ++ lower name ++ lit "(char32_t codepoint) noexcept;" ++ nl.
Definition h_breaks (breaks : list str) : str := flat_map break_decl breaks ++ nl.
(** 441-451 *)
Definition width_names : list str := map lit ["Ambiguous"; "FullWidth"; "HalfWidth"; "Neutral"; "Narrow"; "Wide"; "Unspecified"]%string.
Definition width_case (v : str) : str := lit "        case EastAsianWidth::" ++ v ++ lit ": return """ ++ v ++ lit """;" ++ nl.
Definition h_widths : str :=
  lit "inline std::string to_string(EastAsianWidth value)" ++ nl ++ lit "{" ++ nl ++ lit "    switch (value)" ++ nl ++ lit "    {" ++ nl
  ++ flat_map width_case width_names ++ lit "    }" ++ nl ++ lit "    return ""Unknown"";" ++ nl ++ lit "}" ++ nl ++ nl
  ++ lit "EastAsianWidth east_asian_width(char32_t codepoint) noexcept;" ++ nl ++ nl.
(** 509-515 *)
Definition emoji_decl (name : str) : str := lit "bool is_" ++ lower name ++ lit "(char32_t codepoint) noexcept;" ++ nl.
Definition h_emoji (emoji : list str) : str := flat_map emoji_decl emoji ++ nl.
(** 560-564 *)
Definition h_bidi : str :=
  lit "/// Returns true if the codepoint has the Bidi_Mirrored property." ++ nl ++ lit "[[nodiscard]] bool is_mirrored(char32_t codepoint) noexcept;" ++ nl ++ nl
  ++ lit "/// Returns the Bidi_Mirroring_Glyph for a codepoint." ++ nl ++ lit "/// If no mirroring glyph exists, returns the input codepoint unchanged." ++ nl
  ++ lit "[[nodiscard]] char32_t bidi_mirroring_glyph(char32_t codepoint) noexcept;" ++ nl ++ nl.
(** 590-594 *)
Definition h_age : str :=
  lit "/// Parses a Unicode version string (e.g., ""1.1"", ""17.0"") to an Age enum value." ++ nl
  ++ lit "/// @param value The version string from DerivedAge.txt." ++ nl
  ++ lit "/// @return The corresponding Age enum value, or std::nullopt if not recognized." ++ nl
  ++ lit "[[nodiscard]] std::optional<Age> make_age(std::string_view value) noexcept;" ++ nl ++ nl.
(** generateUcdApiFiles, 104-619, what it writes to ucd.h; None: propertyValueAliases().at("Script") throws (312) *)
Definition ucd_h_text (u : ucd_src) : option str :=
  match smap_get (lit "Script") (u_pva u) with
  | None => None
  | Some _ =>
      Some (h_header ++ h_open ++ h_plane ++ h_core ++ h_gc ++ h_helpers (map fst (u_cats u)) ++ h_script ++ h_sce ++ h_block ++ h_breaks (map fst (u_breaks u))
            ++ h_widths ++ h_emoji (map fst (u_emoji u)) ++ h_bidi ++ (match smap_get (lit "Age") (u_pva u) with Some _ => h_age | None => [] end)
            ++ lit "} // namespace unicode" ++ nl)
  end.
