(** What ucd.cpp has to say to the compiler: the arrays, and the functions that search them. *)
From Coq Require Import String.
From Verif Require Import Base M_TableGen M_PropGen M_UcdApi Spec_Cpp.
Open Scope N_scope.

(** ** Reading elements *)
Definition tok_eqb (a b : tok) : bool :=
  match a, b with TWord x, TWord y => str_eqb x y | TStr x, TStr y => str_eqb x y | TPunct x, TPunct y => x =? y | _, _ => false end.
Fixpoint toks_eqb (a b : list tok) : bool :=
  match a, b with [] , [] => true | x :: r, y :: s => tok_eqb x y && toks_eqb r s | _, _ => false end.
Definition spells (ts : list tok) (text : str) : bool := match lex text with Some l => toks_eqb ts l | None => false end.
(** "TYPE{ from, to }" *)
Definition read_typed_pair (type : str) (i : init) : option (N * N) :=
  match i with
  | IList h [a; b] => if spells h type then match unsigned 32 a, unsigned 32 b with Some x, Some y => Some (x, y) | _, _ => None end else None
  | _ => None
  end.
(** "ENUM::NAME" *)
Definition read_enum (enum : str) (i : init) : option str :=
  match i with
  | IExpr ts => match rev ts with
                | TWord n :: TPunct 58 :: TPunct 58 :: r => if spells (rev r) enum then Some n else None
                | _ => None
                end
  | _ => None
  end.
(** "TYPE { { from, to }, ENUM::NAME }" *)
Definition read_prop (type enum : str) (i : init) : option (N * N * str) :=
  match i with
  | IList h [IList [] [a; b]; e] =>
      if spells h type then match unsigned 32 a, unsigned 32 b, read_enum enum e with Some x, Some y, Some n => Some (x, y, n) | _, _, _ => None end else None
  | _ => None
  end.
(** "TYPE { { from, to }, { ARRAY.data(), ARRAY.size() } }" *)
Definition read_view (type : str) (i : init) : option (N * N * str) :=
  match i with
  | IList h [IList [] [a; b]; IList [] [IExpr (TWord k :: d); IExpr (TWord k' :: s)]] =>
      if spells h type && str_eqb k k' && spells d (lit ".data()") && spells s (lit ".size()")
      then match unsigned 32 a, unsigned 32 b with Some x, Some y => Some (x, y, k) | _, _ => None end else None
  | _ => None
  end.
(** "std::pair{ "text"sv, Age::NAME }" *)
Definition read_age (i : init) : option (str * str) :=
  match i with
  | IList h [a; b] => if spells h (lit "std::pair") then match string_view a, read_enum (lit "Age") b with Some x, Some n => Some (x, n) | _, _ => None end else None
  | _ => None
  end.

(** ** The file *)
Definition enum_table (file name type enum : str) (l : list prange) : Prop := has_table file Assigned type name (read_prop type enum) l.
Definition interval_table_in (file name : str) (l : list (N * N)) : Prop := has_table file Assigned (lit "Interval") name (read_typed_pair (lit "Interval")) l.
(** the function TYPE NAME(char32_t codepoint) noexcept { return ...; } *)
Definition fun_text (type name body : str) : str := type ++ lit " " ++ name ++ lit "(char32_t codepoint) noexcept { return " ++ body ++ lit "; }".
Definition search_text (table default : str) : str := lit "search(tables::" ++ table ++ lit ", codepoint).value_or(" ++ default ++ lit ")".
Definition contains_call (table : str) : str := lit "contains(tables::" ++ table ++ lit ", codepoint)".
Definition switch_text (type param : str) (names : list str) (more : str) : str :=
  lit "bool contains(" ++ type ++ lit " " ++ param ++ lit ", char32_t codepoint) noexcept { switch (" ++ param ++ lit ") { "
  ++ flat_map (fun n => lit "case " ++ type ++ lit "::" ++ n ++ lit ": return " ++ contains_call n ++ lit "; ") names ++ more ++ lit " } return false; }".
Definition down (c : N) : N := if (65 <=? c) && (c <=? 90) then c + 32 else c.

(** The tables: [core], [cats] and [emoji] are maps from names to lists of ranges, [breaks] one function each; the rest as in the API. *)
Record api_tables := mkApi {
  a_core : list (str * list (N * N)); a_gcs : list prange; a_cats : list (str * list (N * N)); a_scripts : list prange;
  a_sces : list (N * N * str); a_sce_arrays : list (str * list str); a_blocks : list prange; a_breaks : list (str * list prange);
  a_widths : list prange; a_emoji : list (str * list (N * N)); a_mirrored : list (N * N); a_glyphs : list (N * N); a_ages : option (list (str * str)) }.
Definition glyph_fun : str :=
  lit "char32_t bidi_mirroring_glyph(char32_t codepoint) noexcept { auto const it = std::lower_bound(tables::Bidi_Mirroring_Glyph.begin(), "
  ++ lit "tables::Bidi_Mirroring_Glyph.end(), codepoint, [](auto const& pair, char32_t cp) { return pair.first < cp; }); "
  ++ lit "if (it != tables::Bidi_Mirroring_Glyph.end() && it->first == codepoint) return it->second; return codepoint; }".
Definition sce_fun : str :=
  lit "std::optional<std::span<Script const>> script_extensions(char32_t codepoint) noexcept { auto const p = search(tables::sce, codepoint); "
  ++ lit "if (!p.has_value()) return std::nullopt; return std::span<Script const>{ p->first, p->second }; }".
Definition age_intro : str := lit "std::optional<Age> make_age(std::string_view value) noexcept { using namespace std::string_view_literals;".
Definition age_fun : str := lit "for (auto const& [key, val] : mappings) if (key == value) return val; return std::nullopt; }".
Definition sce_type : str := lit "Prop<std::pair<unicode::Script const*, std::size_t>>".
Definition ucd_cpp_denotes (file : str) (a : api_tables) : Prop :=
  (enum_table file (lit "Plane") (lit "Prop<::unicode::Plane>") (lit "unicode::Plane") (map (fun r => (fst r, sanitize (snd r))) planes) /\
   contains_text file (fun_text (lit "Plane") (lit "plane") (search_text (lit "Plane") (lit "Plane::Unassigned")))) /\
  ((forall name l, In (name, l) (a_core a) -> interval_table_in file name l) /\
   contains_text file (switch_text (lit "Core_Property") (lit "prop") (map fst (a_core a)) [])) /\
  (enum_table file (lit "General_Category") (lit "Prop<::unicode::General_Category>") (lit "::unicode::General_Category") (a_gcs a) /\
   contains_text file (lit "General_Category get(char32_t value) noexcept { return search(tables::General_Category, value).value_or(General_Category::Unspecified); }")) /\
  ((forall name l, In (name, l) (a_cats a) -> interval_table_in file name l) /\
   contains_text file (switch_text (lit "General_Category") (lit "generalCategory") (map fst (a_cats a)) (lit "case General_Category::Unspecified: return false;"))) /\
  (enum_table file (lit "Script") (lit "Prop<unicode::Script>") (lit "unicode::Script") (a_scripts a) /\
   contains_text file (fun_text (lit "Script") (lit "script") (search_text (lit "Script") (lit "Script::Unknown")))) /\
  (has_table file (Direct false) sce_type (lit "sce") (read_view sce_type) (a_sces a) /\
   (forall key l, In (key, l) (a_sce_arrays a) -> has_table file Assigned (lit "unicode::Script") key (read_enum (lit "unicode::Script")) l) /\
   contains_text file sce_fun) /\
  (enum_table file (lit "Block") (lit "Prop<::unicode::Block>") (lit "::unicode::Block") (a_blocks a) /\
   contains_text file (fun_text (lit "Block") (lit "block") (search_text (lit "Block") (lit "::unicode::Block::Unspecified")))) /\
  (forall name l, In (name, l) (a_breaks a) ->
     enum_table file name (lit "Prop<::unicode::" ++ name ++ lit ">") (lit "::unicode::" ++ name) l /\
     contains_text file (fun_text name (map down name) (search_text name (name ++ lit "::Undefined")))) /\
  (enum_table file (lit "EastAsianWidth") (lit "Prop<::unicode::EastAsianWidth>") (lit "::unicode::EastAsianWidth") (a_widths a) /\
   contains_text file (fun_text (lit "EastAsianWidth") (lit "east_asian_width") (search_text (lit "EastAsianWidth") (lit "EastAsianWidth::Unspecified")))) /\
  (forall name l, In (name, l) (a_emoji a) ->
     interval_table_in file name l /\ contains_text file (fun_text (lit "bool") (lit "is_" ++ map down name) (contains_call name))) /\
  (interval_table_in file (lit "Bidi_Mirrored") (a_mirrored a) /\
   contains_text file (fun_text (lit "bool") (lit "is_mirrored") (contains_call (lit "Bidi_Mirrored")))) /\
  (has_table file Assigned (lit "std::pair<char32_t, char32_t>") (lit "Bidi_Mirroring_Glyph") (read_typed_pair (lit "std::pair<char32_t, char32_t>")) (a_glyphs a) /\
   contains_text file glyph_fun) /\
  (forall l, a_ages a = Some l ->
     has_table file Assigned (lit "std::pair<std::string_view, Age>") (lit "mappings") read_age l /\ contains_text file age_intro /\ contains_text file age_fun).

(** ** What must hold of the data for that: numbers fit their types, names are identifiers, comments do not end the line *)
Definition identifier (s : str) : Prop := s <> [] /\ Forall (fun c => word_char c = true) s.
Definition fits (a b : N) : Prop := a < 2 ^ 32 /\ b < 2 ^ 32.
Definition range_fits (r : prange) : Prop := fits (r_first r) (r_last r) /\ identifier (r_prop r).
Definition few {A} (l : list A) : Prop := N.of_nat (length l) < 2 ^ 64.
Definition one_line (s : str) : Prop := Forall (fun c => c <> 10) s.
