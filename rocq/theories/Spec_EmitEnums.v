(** What ucd_enums.h, ucd_ostream.h and ucd_fmt.h have to say to the compiler. *)
From Coq Require Import String.
From Verif Require Import Base M_TableGen M_PropGen M_UcdApi M_Enums Spec_TableGen Spec_PropGen Spec_UcdApi Spec_Enums Spec_Cpp Spec_EmitUcd Spec_EmitMs.
Open Scope N_scope.

(** "Latin = 5" in the braces of an enumeration *)
Definition enumerator_def (i : init) : option (str * N) :=
  match i with IExpr [TWord id; TPunct 61; TWord w] => option_map (pair id) (int_literal w) | _ => None end.
Definition uint_type (bits : N) : str := lit "uint" ++ numeral (N.to_nat bits) ++ lit "_t".
(** [file] defines the enumeration [name] over the unsigned type of [bits] bits, with exactly the enumerators [vals] and values it can hold *)
Definition defines_enum (file name : str) (bits : N) (vals : list (str * N)) : Prop :=
  exists pre head body post l,
    lex file = Some (pre ++ head ++ body ++ TPunct 59 :: post) /\ lex (lit "enum class " ++ name ++ lit ": " ++ uint_type bits) = Some head /\
    parse_init body = Some (IList [] l) /\ all_some enumerator_def l = Some vals /\ Forall (fun v => snd v < 2 ^ bits) vals.
(** the shortest of the types uint8_t to uint64_t for [n] members *)
Definition shortest (n : nat) (bits : N) : Prop :=
  In bits [8; 16; 32; 64] /\ N.of_nat n < 2 ^ bits /\ forall b, In b [8; 16; 32; 64] -> N.of_nat n < 2 ^ b -> bits <= b.
(** operator<< that prints [text] for every enumerator [id] of [cases], and other values as numbers *)
Definition ostream_function (name : str) (cases : list (str * str)) : str :=
  lit "inline std::ostream& operator<<(std::ostream& os, " ++ name ++ lit " value) noexcept { switch (value) {"
  ++ flat_map (fun c => lit "case " ++ name ++ lit "::" ++ fst c ++ lit ": return os << """ ++ snd c ++ lit """;") cases
  ++ lit "} return os << ""("" << static_cast<unsigned>(value) << "")""; }".
(** the std::formatter that formats the same names *)
Definition formatter_class (name : str) (cases : list (str * str)) : str :=
  lit "template <> struct std::formatter<unicode::" ++ name ++ lit ">: std::formatter<std::string_view> { auto format(unicode::" ++ name
  ++ lit " value, auto& ctx) const { std::string_view name; switch (value) {"
  ++ flat_map (fun c => lit "case unicode::" ++ name ++ lit "::" ++ fst c ++ lit ": name = """ ++ snd c ++ lit """; break;") cases
  ++ lit "} return formatter<string_view>::format(name, ctx); } };".

(** the i-th of the [names], spelled as an identifier, with the value i *)
Definition values (names : list str) : list (str * N) := combine (map Spec_UcdApi.identifier names) (map N.of_nat (seq 0 (length names))).
Definition texts (names : list str) : list (str * str) := map (fun m => (Spec_UcdApi.identifier m, m)) names.
(** [enums_h], [ostream_h] and [fmt_h] define the enumeration [name] of the members [names] in namespace unicode, its operator<< and its formatter *)
Definition enum_in_headers (enums_h ostream_h fmt_h name : str) (names : list str) : Prop :=
  (exists bits, shortest (length names) bits /\ defines_enum enums_h name bits (values names)) /\
  contains_text ostream_h (ostream_function name (texts names)) /\ contains_text fmt_h (formatter_class name (texts names)).
Definition in_unicode (file : str) : Prop := contains_text file (lit "namespace unicode {").

(** Names a C++ compiler can read: letters, digits and underscores once blanks and hyphens are replaced, and nothing to escape in a string *)
Definition spellable (s : str) : Prop := Spec_EmitUcd.identifier (Spec_UcdApi.identifier s) /\ text_ok s.
Definition spellable_names (F : ucd_files) (B : list (fline stline)) : Prop :=
  (forall prop a v, alias (f_pva F) prop a v -> Spec_EmitUcd.identifier prop /\ spellable v) /\
  (forall c w, gives (f_scripts F) c w -> spellable w) /\ (forall c w, gives (f_core F) c w -> word w -> spellable w) /\
  (forall l, has B l -> Spec_EmitUcd.identifier (Spec_UcdApi.identifier (st_prop l))).
