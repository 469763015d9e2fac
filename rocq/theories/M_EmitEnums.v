(** The C++ text of ucd_enums.h, ucd_ostream.h and ucd_fmt.h, as enum_generator.cpp prints it. *)
From Coq Require Import String.
From Verif Require Import Base M_TableGen M_PropGen M_UcdApi M_Enums M_Emit.
Open Scope N_scope.

(** the result of minimalUint, enum_generator.cpp:32-41, as text *)
Definition uint_name (bits : N) : str := lit "uint" ++ fmt_d bits ++ lit "_t".
(** writeEnumClass, 50-56; [declared] is the list of the loop *)
Definition enumerator_line (x : str * N) : str := lit "    " ++ fst x ++ lit " = " ++ fmt_d (snd x) ++ lit "," ++ nl.
Definition enum_class (e : enum_def) : str :=
  lit "enum class " ++ e_name e ++ lit ": " ++ uint_name (e_bits e) ++ nl ++ lit "{" ++ nl ++ flat_map enumerator_line (declared e) ++ lit "};" ++ nl ++ nl.
(** writeEnumOstream, 58-72 *)
Definition ostream_case (name : str) (x : str * str) : str :=
  lit "    case " ++ name ++ lit "::" ++ fst x ++ lit ": return os << """ ++ snd x ++ lit """;" ++ nl.
Definition enum_ostream_text (e : enum_def) : str :=
  lit "inline std::ostream& operator<<(std::ostream& os, " ++ e_name e ++ lit " value) noexcept" ++ nl ++ lit "{" ++ nl
  ++ lit "    // clang-format off" ++ nl ++ lit "    switch (value)" ++ nl ++ lit "    {" ++ nl
  ++ flat_map (ostream_case (e_name e)) (switch_cases e)
  ++ lit "    }" ++ nl ++ lit "    // clang-format on" ++ nl ++ lit "    return os << ""("" << static_cast<unsigned>(value) << "")"";" ++ nl ++ lit "}" ++ nl ++ nl.
(** writeEnumFormatter, 74-95 *)
Definition format_case (name : str) (x : str * str) : str :=
  lit "            case " ++ lit "unicode::" ++ name ++ lit "::" ++ fst x ++ lit ": name = """ ++ snd x ++ lit """; break;" ++ nl.
Definition enum_format_text (e : enum_def) : str :=
  lit "template <>" ++ nl
  ++ lit "struct std::formatter<" ++ lit "unicode::" ++ e_name e ++ lit ">: std::formatter<std::string_view>" ++ nl ++ lit "{" ++ nl
  ++ lit "    auto format(" ++ lit "unicode::" ++ e_name e ++ lit " value, auto& ctx) const" ++ nl
  ++ lit "    {" ++ nl ++ lit "        std::string_view name;" ++ nl ++ lit "        switch (value)" ++ nl ++ lit "        {" ++ nl
  ++ lit "            // clang-format off" ++ nl
  ++ flat_map (format_case (e_name e)) (switch_cases e)
  ++ lit "            // clang-format off" ++ nl ++ lit "        }" ++ nl
  ++ lit "        return formatter<string_view>::format(name, ctx);" ++ nl ++ lit "    }" ++ nl ++ lit "};" ++ nl ++ nl.
(** generateEnumFiles, 233-279; licenseHeader is that of enum_utils.h *)
Definition enums_h (enums : list enum_def) : str :=
  license_header ++ lit "#pragma once" ++ nl ++ nl ++ lit "#include <cstdint>" ++ nl ++ nl ++ lit "namespace unicode" ++ nl ++ lit "{" ++ nl ++ nl
  ++ flat_map enum_class enums ++ lit "} // namespace unicode" ++ nl.
Definition ostream_h (enums : list enum_def) : str :=
  license_header ++ lit "#pragma once" ++ nl ++ nl ++ lit "#include <libunicode/ucd.h>" ++ nl ++ nl ++ lit "#include <ostream>" ++ nl ++ nl
  ++ lit "namespace unicode" ++ nl ++ lit "{" ++ nl ++ nl
  ++ flat_map enum_ostream_text enums ++ lit "} // namespace unicode" ++ nl.
Definition fmt_h (enums : list enum_def) : str :=
  license_header ++ lit "#pragma once" ++ nl ++ nl ++ lit "#include <libunicode/ucd_enums.h>" ++ nl ++ nl ++ lit "#include <format>" ++ nl ++ nl
  ++ flat_map enum_format_text enums.
