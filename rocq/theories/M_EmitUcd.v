(** The C++ text of ucd.cpp, as ucd_api_generator.cpp prints it. *)
From Coq Require Import Ascii String.
From Verif Require Import Base M_TableGen M_PropGen M_UcdApi M_Emit.
Open Scope N_scope.

(** PropertyRange and ScriptExtension with their comments, ucd_parser.h:46-66 *)
Definition crange := (prange * str)%type.
Definition csce := (sce_range * str)%type.
(** the members of UcdParser the generator reads *)
Record ucd_src := mkSrc {
  u_core : list (str * list crange); u_gcs : list crange; u_cats : list (str * list crange); u_scripts : list crange; u_sces : list csce; u_pva : pva;
  u_blocks : list prange; u_breaks : list (str * list crange); u_widths : list crange; u_emoji : list (str * list crange);
  u_mirrored : list (N * N); u_glyphs : list (N * N) }.

Definition fold_open : str := lit "{{{".
Definition fold_close : str := lit "}}}".
Definition c_first (r : crange) : N := r_first (fst r).
Definition c_last (r : crange) : N := r_last (fst r).
Definition c_prop (r : crange) : str := r_prop (fst r).
(** ::tolower in the "C" locale *)
Definition lower_char (c : N) : N := if (65 <=? c) && (c <=? 90) then c + 32 else c.
Definition lower (s : str) : str := map lower_char s.

(** "auto static const NAME = std::array<TYPE, n>{ // {{{" (e.g. 147, 176) *)
Definition table_head (indent name type : str) (n : nat) : str :=
  indent ++ lit "auto static const " ++ name ++ lit " = std::array<" ++ type ++ lit ", " ++ fmt_d (N.of_nat n) ++ lit ">{ // " ++ fold_open ++ nl.
(** the beginning of an entry: "TYPE { { 0xFFFF, 0xFFFF }, ENUM::NAME }," (e.g. 150, 215, 294, 376) *)
Definition prop_entry (indent type enum name : str) (a b : N) : str :=
  indent ++ type ++ lit " { { 0x" ++ fmt_X4 a ++ lit ", 0x" ++ fmt_X4 b ++ lit " }, " ++ enum ++ lit "::" ++ name ++ lit " },".
Definition prop_line (type enum : str) (r : crange) : str :=
  prop_entry (lit "    ") type enum (c_prop r) (c_first r) (c_last r) ++ lit " // " ++ snd r ++ nl.
(** "    Interval{ 0xFFFF, 0xFFFF }, // comment" (178-181) *)
Definition interval_line (r : crange) : str :=
  lit "    Interval{ 0x" ++ fmt_X4 (c_first r) ++ lit ", 0x" ++ fmt_X4 (c_last r) ++ lit " }, // " ++ snd r ++ nl.
(** the interval tables of a map, 174-183, 232-241, 487-496 *)
Definition interval_table (e : str * list crange) : str :=
  table_head [] (fst e) (lit "Interval") (length (snd e)) ++ flat_map interval_line (snd e) ++ lit "}; // " ++ fold_close ++ nl.

(** the file header of ucd.cpp, 126-139 *)
Definition impl_header : str :=
  license_header ++ nl ++ lit "#include <libunicode/ucd.h>" ++ nl ++ lit "#include <libunicode/ucd_private.h>" ++ nl ++ nl
  ++ lit "#include <algorithm>" ++ nl ++ lit "#include <array>" ++ nl ++ lit "#include <span>" ++ nl ++ lit "#include <string_view>" ++ nl ++ nl
  ++ lit "namespace unicode" ++ nl ++ lit "{" ++ nl ++ nl.
(** _planes with number and short name, ucd_parser.cpp:173-191 *)
Definition planes_full : list (N * N * N * str * str) :=
  map (fun e => let '(n, a, b, s, l) := e in (n, a, b, lit s, lit l))
  [ (0, 0x0000, 0x0FFFF, "BMP", "Basic Multilingual Plane"); (1, 0x10000, 0x1FFFF, "SMP", "Supplementary Multilingual Plane");
    (2, 0x20000, 0x2FFFF, "SIP", "Supplementary Ideographic Plane"); (3, 0x30000, 0x3FFFF, "TIP", "Tertiary Ideographic Plane");
    (4, 0x40000, 0x4FFFF, "", "Unassigned"); (5, 0x50000, 0x5FFFF, "", "Unassigned"); (6, 0x60000, 0x6FFFF, "", "Unassigned");
    (7, 0x70000, 0x7FFFF, "", "Unassigned"); (8, 0x80000, 0x8FFFF, "", "Unassigned"); (9, 0x90000, 0x9FFFF, "", "Unassigned");
    (10, 0xA0000, 0xAFFFF, "", "Unassigned"); (11, 0xB0000, 0xBFFFF, "", "Unassigned"); (12, 0xC0000, 0xCFFFF, "", "Unassigned");
    (13, 0xD0000, 0xDFFFF, "", "Unassigned"); (14, 0xE0000, 0xEFFFF, "SSP", "Supplementary Special-purpose Plane");
    (15, 0xF0000, 0xFFFFF, "SPUA-A", "Supplementary Private Use Area Plane"); (16, 0x100000, 0x10FFFF, "SPUA-B", "Supplementary Private Use Area Plane") ]%string.
(** 141-168 *)
Definition plane_line (p : N * N * N * str * str) : str :=
  let '(n, a, b, s, l) := p in
  prop_entry (lit "        ") (lit "Prop<::unicode::Plane>") (lit "unicode::Plane") (sanitize l) a b
  ++ match s with [] => lit " // Plane " ++ fmt_d n ++ nl | _ => lit " // Plane " ++ fmt_d n ++ lit " " ++ s ++ nl end.
Definition emit_planes : str :=
  lit "namespace tables" ++ nl ++ lit "{" ++ nl ++ lit "    // clang-format off" ++ nl
  ++ table_head (lit "    ") (lit "Plane") (lit "Prop<::unicode::Plane>") (length planes_full)
  ++ flat_map plane_line planes_full ++ lit "    }; // " ++ fold_close ++ nl
  ++ lit "    // clang-format off" ++ nl ++ lit "} // namespace tables" ++ nl ++ nl
  ++ lit "Plane plane(char32_t codepoint) noexcept {" ++ nl
  ++ lit "    return search(tables::Plane, codepoint).value_or(Plane::Unassigned);" ++ nl ++ lit "}" ++ nl ++ nl.
(** 170-197 *)
Definition core_case (e : str * list crange) : str :=
  lit "        case Core_Property::" ++ fst e ++ lit ": return contains(tables::" ++ fst e ++ lit ", codepoint);" ++ nl.
Definition emit_core (core : list (str * list crange)) : str :=
  lit "namespace tables {" ++ nl ++ flat_map interval_table core ++ lit "} // end namespace tables" ++ nl ++ nl
  ++ lit "bool contains(Core_Property prop, char32_t codepoint) noexcept {" ++ nl ++ lit "    switch (prop)" ++ nl ++ lit "    {" ++ nl
  ++ flat_map core_case core ++ lit "    }" ++ nl ++ lit "    return false;" ++ nl ++ lit "}" ++ nl ++ nl.
(** 199-258 *)
Definition gc_case (e : str * list crange) : str :=
  lit "        case General_Category::" ++ fst e ++ lit ": return contains(tables::" ++ fst e ++ lit ", codepoint);" ++ nl.
Definition emit_gcs (gcs : list crange) : str :=
  lit "namespace tables {" ++ nl
  ++ lit "auto const General_Category = std::array<Prop<::unicode::General_Category>, " ++ fmt_d (N.of_nat (length gcs)) ++ lit ">{" ++ nl
  ++ flat_map (prop_line (lit "Prop<::unicode::General_Category>") (lit "::unicode::General_Category")) gcs ++ lit "};" ++ nl
  ++ lit "} // end namespace tables" ++ nl ++ nl
  ++ lit "namespace general_category" ++ nl ++ lit "{" ++ nl ++ lit "    General_Category get(char32_t value) noexcept {" ++ nl
  ++ lit "        return search(tables::General_Category, value).value_or(General_Category::Unspecified);" ++ nl ++ lit "    }" ++ nl ++ lit "}" ++ nl ++ nl.
Definition emit_cats (cats : list (str * list crange)) : str :=
  lit "namespace tables {" ++ nl ++ flat_map interval_table cats ++ lit "} // end namespace tables" ++ nl ++ nl
  ++ lit "bool contains(General_Category generalCategory, char32_t codepoint) noexcept {" ++ nl ++ lit "    switch (generalCategory)" ++ nl ++ lit "    {" ++ nl
  ++ flat_map gc_case cats ++ lit "        case General_Category::Unspecified: return false;" ++ nl ++ lit "    }" ++ nl ++ lit "    return false;" ++ nl ++ lit "}" ++ nl ++ nl.
(** 284-307 *)
Definition emit_scripts (scripts : list crange) : str :=
  lit "namespace tables {" ++ nl ++ table_head [] (lit "Script") (lit "Prop<unicode::Script>") (length scripts)
  ++ flat_map (prop_line (lit "Prop<unicode::Script>") (lit "unicode::Script")) scripts ++ lit "}; // " ++ fold_close ++ nl
  ++ lit "} // end namespace tables" ++ nl ++ nl
  ++ lit "Script script(char32_t codepoint) noexcept {" ++ nl
  ++ lit "    return search(tables::Script, codepoint).value_or(Script::Unknown);" ++ nl ++ lit "}" ++ nl ++ nl.
(** 309-364; the done list is that of [sce_arrays] *)
Definition sce_element : str := lit "Prop<std::pair<unicode::Script const*, std::size_t>>".
Definition sce_array (e : str * list str) : str :=
  lit "auto static const " ++ fst e ++ lit " = std::array<unicode::Script, " ++ fmt_d (N.of_nat (length (snd e))) ++ lit ">{" ++ nl
  ++ flat_map (fun s => lit "    unicode::Script::" ++ s ++ lit "," ++ nl) (snd e) ++ lit "};" ++ nl ++ nl.
Definition sce_line (r : csce) : str :=
  let k := sce_key (snd (fst r)) in
  lit "    " ++ sce_element ++ lit " { { 0x" ++ fmt_X4 (fst (fst (fst r))) ++ lit ", 0x" ++ fmt_X4 (snd (fst (fst r))) ++ lit " }, { " ++ k
  ++ lit ".data(), " ++ k ++ lit ".size() } }, // " ++ snd r ++ nl.
Definition emit_sces (al : list (str * str)) (sces : list csce) : str :=
  lit "namespace tables { // " ++ fold_open ++ lit " ScriptExtensions" ++ nl ++ flat_map sce_array (sce_arrays al (map fst sces))
  ++ lit "static const std::array<" ++ sce_element ++ lit ", " ++ fmt_d (N.of_nat (length sces)) ++ lit "> sce { {" ++ nl
  ++ flat_map sce_line sces ++ lit "} };" ++ nl ++ lit "} // " ++ fold_close ++ nl ++ nl
  ++ lit "std::optional<std::span<Script const>> script_extensions(char32_t codepoint) noexcept {" ++ nl
  ++ lit "    auto const p = search(tables::sce, codepoint);" ++ nl ++ lit "    if (!p.has_value())" ++ nl ++ lit "        return std::nullopt;" ++ nl
  ++ lit "    return std::span<Script const>{ p->first, p->second };" ++ nl ++ lit "}" ++ nl ++ nl.
(** 366-389 *)
Definition emit_blocks (blocks : list prange) : str :=
  lit "namespace tables {" ++ nl ++ table_head [] (lit "Block") (lit "Prop<::unicode::Block>") (length blocks)
  ++ flat_map (fun b => prop_entry (lit "    ") (lit "Prop<::unicode::Block>") (lit "::unicode::Block") (sanitize (r_prop b)) (r_first b) (r_last b) ++ nl) blocks
  ++ lit "};" ++ nl ++ lit "} // end namespace tables {}" ++ nl ++ nl
  ++ lit "Block block(char32_t codepoint) noexcept {" ++ nl
  ++ lit "    return search(tables::Block, codepoint).value_or(::unicode::Block::Unspecified);" ++ nl ++ lit "}" ++ nl ++ nl.
(** 391-431 *)
Definition break_table (e : str * list crange) : str :=
  table_head [] (fst e) (lit "Prop<::unicode::" ++ fst e ++ lit ">") (length (snd e))
  ++ flat_map (prop_line (lit "Prop<::unicode::" ++ fst e ++ lit ">") (lit "::unicode::" ++ fst e)) (snd e) ++ lit "}; // " ++ fold_close ++ nl.
Definition break_function (e : str * list crange) : str :=
  fst e ++ lit " " ++ lower (fst e) ++ lit "(char32_t codepoint) noexcept {" ++ nl
  ++ lit "    return search(tables::" ++ fst e ++ lit ", codepoint).value_or(" ++ fst e ++ lit "::Undefined);" ++ nl ++ lit "}" ++ nl ++ nl.
Definition emit_breaks (breaks : list (str * list crange)) : str :=
  lit "namespace tables {" ++ nl ++ flat_map break_table breaks ++ lit "} // end namespace tables" ++ nl ++ nl ++ flat_map break_function breaks ++ nl.
(** mergeRanges with comments and counts, 44-82 *)
Record merged := mkM { m_range : prange; m_comments : list str; m_count : N }.
Definition range_comment (a b : N) (s : str) : str := lit "0x" ++ fmt_X4 a ++ lit " .. 0x" ++ fmt_X4 b ++ lit ": " ++ s.
Definition join_comments (a b : N) (cs : list str) (r : crange) : list str :=
  match cs with
  | [] => []
  | [c] => [range_comment a b c; range_comment (c_first r) (c_last r) (snd r)]
  | _ => cs ++ [range_comment (c_first r) (c_last r) (snd r)]
  end.
Fixpoint merge_all (cur : option merged) (l : list crange) : list merged :=
  match l with
  | [] => match cur with Some c => [c] | None => [] end
  | r :: rest =>
      match cur with
      | Some (mkM (a, b, v) cs n) =>
          if ((b + 1) mod 2 ^ 32 =? c_first r) && str_eqb v (c_prop r) then merge_all (Some (mkM (a, c_last r, v) (join_comments a b cs r) (n + 1))) rest
          else mkM (a, b, v) cs n :: merge_all (Some (mkM (fst r) [snd r] 1)) rest
      | None => merge_all (Some (mkM (fst r) [snd r] 1)) rest
      end
  end.
(** 433-480.  Every merged range has at least one comment (69), so the two cases of 466-469 are count = 1 and count > 1. *)
Definition eaw_line (m : merged) : str :=
  (if (1 <? length (m_comments m))%nat then flat_map (fun c => lit "    // " ++ c ++ nl) (m_comments m) else [])
  ++ prop_entry (lit "    ") (lit "Prop<::unicode::EastAsianWidth>") (lit "::unicode::EastAsianWidth") (width_name (r_prop (m_range m)))
       (r_first (m_range m)) (r_last (m_range m))
  ++ (match m_comments m with
      | [c] => if m_count m =? 1 then lit " // " ++ c else if 1 <? m_count m then lit " // #" ++ fmt_d (m_count m) else []
      | _ => if 1 <? m_count m then lit " // #" ++ fmt_d (m_count m) else []
      end) ++ nl.
Definition emit_widths (widths : list crange) : str :=
  let l := merge_all None widths in
  lit "namespace tables {" ++ nl ++ table_head [] (lit "EastAsianWidth") (lit "Prop<::unicode::EastAsianWidth>") (length l)
  ++ flat_map eaw_line l ++ lit "}; // " ++ fold_close ++ nl ++ lit "} // end namespace tables" ++ nl ++ nl
  ++ lit "EastAsianWidth east_asian_width(char32_t codepoint) noexcept {" ++ nl
  ++ lit "    return search(tables::EastAsianWidth, codepoint).value_or(EastAsianWidth::Unspecified);" ++ nl ++ lit "}" ++ nl ++ nl.
(** 482-507 *)
Definition emoji_function (e : str * list crange) : str :=
  lit "bool is_" ++ lower (fst e) ++ lit "(char32_t codepoint) noexcept {" ++ nl
  ++ lit "    return contains(tables::" ++ fst e ++ lit ", codepoint);" ++ nl ++ lit "}" ++ nl ++ nl.
Definition emit_emoji (emoji : list (str * list crange)) : str :=
  lit "namespace tables {" ++ nl ++ flat_map interval_table emoji ++ lit "} // end namespace tables" ++ nl ++ nl ++ flat_map emoji_function emoji.
(** 518-560 *)
Definition mirrored_line (e : N * N) : str := lit "    Interval{ 0x" ++ fmt_X4 (fst e) ++ lit ", 0x" ++ fmt_X4 (snd e) ++ lit " }," ++ nl.
Definition glyph_line (e : N * N) : str := lit "    std::pair<char32_t, char32_t>{ 0x" ++ fmt_X4 (fst e) ++ lit ", 0x" ++ fmt_X4 (snd e) ++ lit " }," ++ nl.
Definition emit_bidi (ivs glyphs : list (N * N)) : str :=
  lit "namespace tables {" ++ nl ++ table_head [] (lit "Bidi_Mirrored") (lit "Interval") (length ivs)
  ++ flat_map mirrored_line ivs ++ lit "}; // " ++ fold_close ++ nl
  ++ table_head [] (lit "Bidi_Mirroring_Glyph") (lit "std::pair<char32_t, char32_t>") (length glyphs)
  ++ flat_map glyph_line glyphs ++ lit "}; // " ++ fold_close ++ nl ++ lit "} // end namespace tables" ++ nl ++ nl
  ++ lit "bool is_mirrored(char32_t codepoint) noexcept {" ++ nl ++ lit "    return contains(tables::Bidi_Mirrored, codepoint);" ++ nl ++ lit "}" ++ nl ++ nl
  ++ lit "char32_t bidi_mirroring_glyph(char32_t codepoint) noexcept {" ++ nl ++ lit "    auto const it = std::lower_bound(" ++ nl
  ++ lit "        tables::Bidi_Mirroring_Glyph.begin()," ++ nl ++ lit "        tables::Bidi_Mirroring_Glyph.end()," ++ nl ++ lit "        codepoint," ++ nl
  ++ lit "        [](auto const& pair, char32_t cp) { return pair.first < cp; });" ++ nl
  ++ lit "    if (it != tables::Bidi_Mirroring_Glyph.end() && it->first == codepoint)" ++ nl ++ lit "        return it->second;" ++ nl
  ++ lit "    return codepoint;" ++ nl ++ lit "}" ++ nl ++ nl.
(** 567-613; [al] is the alias map of Age.  The std::sort at 588 gets a list in key order and is left out (as in [api_make_age]). *)
Definition age_line (e : str * str) : str := lit "        std::pair{ """ ++ fst e ++ lit """sv, Age::" ++ snd e ++ lit " }," ++ nl.
Definition age_entries (al : list (str * str)) : list (str * str) := filter (fun e => negb (str_eqb (snd e) (lit "Unassigned"))) al.
Definition emit_age (al : list (str * str)) : str :=
  lit "std::optional<Age> make_age(std::string_view value) noexcept {" ++ nl ++ lit "    using namespace std::string_view_literals;" ++ nl
  ++ lit "    // clang-format off" ++ nl
  ++ lit "    static constexpr auto mappings = std::array<std::pair<std::string_view, Age>, " ++ fmt_d (N.of_nat (length (age_entries al))) ++ lit ">{" ++ nl
  ++ flat_map age_line (age_entries al) ++ lit "    };" ++ nl ++ lit "    // clang-format on" ++ nl
  ++ lit "    for (auto const& [key, val] : mappings)" ++ nl ++ lit "        if (key == value)" ++ nl ++ lit "            return val;" ++ nl
  ++ lit "    return std::nullopt;" ++ nl ++ lit "}" ++ nl ++ nl.
(** generateUcdApiFiles, 104-619, what it writes to ucd.cpp; None: propertyValueAliases().at("Script") throws (312) *)
Definition ucd_cpp_text (u : ucd_src) : option str :=
  match smap_get (lit "Script") (u_pva u) with
  | None => None
  | Some al =>
      Some (impl_header ++ emit_planes ++ emit_core (u_core u) ++ emit_gcs (u_gcs u) ++ emit_cats (u_cats u) ++ emit_scripts (u_scripts u)
            ++ emit_sces al (u_sces u) ++ emit_blocks (u_blocks u) ++ emit_breaks (u_breaks u) ++ emit_widths (u_widths u) ++ emit_emoji (u_emoji u)
            ++ emit_bidi (u_mirrored u) (u_glyphs u) ++ (match smap_get (lit "Age") (u_pva u) with Some a => emit_age a | None => [] end)
            ++ lit "} // namespace unicode" ++ nl)
  end.
