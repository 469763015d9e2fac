(** The C++ text of case_normalization_data.h, as case_norm_generator.cpp prints it. *)
From Coq Require Import String.
From Verif Require Import Base M_Normalize M_Case M_TableGen.
Open Scope N_scope.

(** std::format: "{:04X}" (at least four upper-case hexadecimal digits; the arguments are 32-bit) and "{}" of an unsigned number *)
Definition hexU (d : N) : N := if d <? 10 then 48 + d else 55 + d.
Fixpoint fmt_digits (fuel : nat) (base n : N) : str :=
  match fuel with O => [] | S f => if n <? base then [hexU n] else fmt_digits f base (n / base) ++ [hexU (n mod base)] end.
Definition fmt_X4 (n : N) : str := let s := fmt_digits 8 16 n in repeat 48 (4 - length s) ++ s.
Definition fmt_d (n : N) : str := fmt_digits 20 10 n.
(** "{}" of an int *)
Definition fmt_i (z : Z) : str := match z with Z.neg p => 45 :: fmt_d (N.pos p) | _ => fmt_d (Z.to_N z) end.
Definition nl : str := [10].
Definition size_of {A} (l : list A) : str := fmt_d (N.of_nat (length l)).
(** "(i < sortedItems.size() - 1) ? "," : """: behind every entry but the last *)
Fixpoint entries {A} (line : A -> str -> str) (l : list A) : str :=
  match l with [] => [] | x :: r => line x (match r with [] => [] | _ => lit "," end) ++ entries line r end.

(** writeSimpleCaseTable, case_norm_generator.cpp:33-52.  The comment behind an entry is the source character if it is printable ASCII. *)
Definition simple_line (e : N * N) (comma : str) : str :=
  lit "    { 0x" ++ fmt_X4 (fst e) ++ lit ", 0x" ++ fmt_X4 (snd e) ++ lit " }" ++ comma ++ lit " // "
  ++ (if (32 <=? fst e) && (fst e <? 127) then [fst e] else []) ++ nl.
Definition write_simple (m : list (N * N)) (name : str) : str :=
  lit "// Simple " ++ name ++ lit " mappings: source -> target" ++ nl
  ++ lit "// Total entries: " ++ size_of m ++ nl
  ++ lit "inline constexpr std::array<std::pair<char32_t, char32_t>, " ++ size_of m ++ lit "> simple_" ++ name ++ lit "_table {{" ++ nl
  ++ entries simple_line m ++ lit "}};" ++ nl.

(** writeFullCaseTable, 54-87: the first three targets, padded with zeros, and the number of targets *)
Definition pad (n : nat) (l : list N) : list N := l ++ repeat 0 (n - length l).
Definition full_line (e : N * list N) (comma : str) : str :=
  let p := pad 3 (snd e) in
  lit "    { 0x" ++ fmt_X4 (fst e) ++ lit ", { 0x" ++ fmt_X4 (nth 0 p 0) ++ lit ", 0x" ++ fmt_X4 (nth 1 p 0) ++ lit ", 0x" ++ fmt_X4 (nth 2 p 0)
  ++ lit " }, " ++ size_of (snd e) ++ lit " }" ++ comma ++ nl.
Definition write_full (m : list (N * list N)) (name : str) : str :=
  lit "// Full " ++ name ++ lit " mappings: source -> [target1, target2, target3]" ++ nl
  ++ lit "// Total entries: " ++ size_of m ++ nl
  ++ lit "struct full_" ++ name ++ lit "_entry {" ++ nl
  ++ lit "    char32_t source;" ++ nl ++ lit "    char32_t targets[3];" ++ nl ++ lit "    uint8_t length;" ++ nl ++ lit "};" ++ nl ++ nl
  ++ lit "inline constexpr std::array<full_" ++ name ++ lit "_entry, " ++ size_of m ++ lit "> full_" ++ name ++ lit "_table {{" ++ nl
  ++ entries full_line m ++ lit "}};" ++ nl.

(** writeCccTable, 89-105 *)
Definition ccc_line (e : N * Z) (comma : str) : str :=
  lit "    { 0x" ++ fmt_X4 (fst e) ++ lit ", " ++ fmt_i (snd e) ++ lit " }" ++ comma ++ nl.
Definition emit_ccc (m : list (N * Z)) : str :=
  lit "// Canonical Combining Class entries for non-zero CCC values" ++ nl
  ++ lit "// Total entries: " ++ size_of m ++ nl
  ++ lit "inline constexpr std::array<std::pair<char32_t, uint8_t>, " ++ size_of m ++ lit "> ccc_table {{" ++ nl
  ++ entries ccc_line m ++ lit "}};" ++ nl.

(** maxLen, 116-119 and 228-231 *)
Definition max_len (l : list (N * list N)) : nat := fold_left (fun a e => Nat.max a (length (snd e))) l 4%nat.
(** the targets, 139-144 and 253-258 *)
Fixpoint hex_list (l : list N) : str :=
  match l with [] => [] | [x] => lit "0x" ++ fmt_X4 x | x :: r => lit "0x" ++ fmt_X4 x ++ lit ", " ++ hex_list r end.
(** writeDecompositionTable, 107-149; [m] is [write_canonical] of the decompositions *)
Definition canon_line (k : nat) (e : N * list N) (comma : str) : str :=
  lit "    { 0x" ++ fmt_X4 (fst e) ++ lit ", { " ++ hex_list (pad k (snd e)) ++ lit " }, " ++ size_of (snd e) ++ lit " }" ++ comma ++ nl.
Definition emit_canonical (m : list (N * list N)) : str :=
  lit "// Canonical decomposition mappings" ++ nl
  ++ lit "// Total entries: " ++ size_of m ++ lit ", max length: " ++ fmt_d (N.of_nat (max_len m)) ++ nl
  ++ lit "struct canonical_decomposition_entry {" ++ nl ++ lit "    char32_t source;" ++ nl
  ++ lit "    char32_t targets[" ++ fmt_d (N.of_nat (max_len m)) ++ lit "];" ++ nl ++ lit "    uint8_t length;" ++ nl ++ lit "};" ++ nl ++ nl
  ++ lit "inline constexpr std::array<canonical_decomposition_entry, " ++ size_of m ++ lit "> canonical_decomposition_table {{" ++ nl
  ++ entries (canon_line (max_len m)) m ++ lit "}};" ++ nl.

(** decompositionTypeOrdinal, 195-217 *)
Definition type_ordinal (t : str) : N :=
  let is s := str_eqb t (lit s) in
  if is "circle"%string then 1 else if is "compat"%string then 2 else if is "final"%string then 3 else if is "font"%string then 4
  else if is "fraction"%string then 5 else if is "initial"%string then 6 else if is "isolated"%string then 7 else if is "medial"%string then 8
  else if is "narrow"%string then 9 else if is "noBreak"%string then 10 else if is "small"%string then 12 else if is "square"%string then 13
  else if is "sub"%string then 14 else if is "super"%string then 15 else if is "vertical"%string then 16 else if is "wide"%string then 17 else 2.
(** writeCompatibilityDecompositionTable, 219-263 *)
Definition compat_entries (m : list (N * (list N * str))) : list (N * (list N * str)) := filter (fun e => negb (is_canonical (snd e))) m.
Definition compat_line (k : nat) (e : N * (list N * str)) (comma : str) : str :=
  lit "    { 0x" ++ fmt_X4 (fst e) ++ lit ", { " ++ hex_list (pad k (fst (snd e))) ++ lit " }, " ++ size_of (fst (snd e)) ++ lit ", "
  ++ fmt_d (type_ordinal (snd (snd e))) ++ lit " }" ++ comma ++ nl.
Definition emit_compat (m : list (N * (list N * str))) : str :=
  let l := compat_entries m in let k := max_len (write_compat m) in
  lit "// Compatibility decomposition mappings" ++ nl
  ++ lit "// Total entries: " ++ size_of l ++ lit ", max length: " ++ fmt_d (N.of_nat k) ++ nl
  ++ lit "struct compatibility_decomposition_entry {" ++ nl ++ lit "    char32_t source;" ++ nl
  ++ lit "    char32_t targets[" ++ fmt_d (N.of_nat k) ++ lit "];" ++ nl ++ lit "    uint8_t length;" ++ nl
  ++ lit "    uint8_t decomp_type; // maps to Decomposition_Type enum ordinal" ++ nl ++ lit "};" ++ nl ++ nl
  ++ lit "inline constexpr std::array<compatibility_decomposition_entry, " ++ size_of l ++ lit "> compatibility_decomposition_table {{" ++ nl
  ++ entries (compat_line k) l ++ lit "}};" ++ nl.

(** writeCompositionTable, 174-192; [sorted] is what std::sort made of [compositions] *)
Definition comp_line (e : N * N * N) (comma : str) : str :=
  lit "    { 0x" ++ fmt_X4 (fst (fst e)) ++ lit ", 0x" ++ fmt_X4 (snd (fst e)) ++ lit ", 0x" ++ fmt_X4 (snd e) ++ lit " }" ++ comma ++ nl.
Definition emit_compositions (sorted : list (N * N * N)) : str :=
  lit "// Canonical composition pairs (first + second -> composed)" ++ nl
  ++ lit "// Total entries: " ++ size_of sorted ++ nl
  ++ lit "struct composition_pair {" ++ nl ++ lit "    char32_t first;" ++ nl ++ lit "    char32_t second;" ++ nl ++ lit "    char32_t composed;" ++ nl
  ++ lit "};" ++ nl ++ nl
  ++ lit "inline constexpr std::array<composition_pair, " ++ size_of sorted ++ lit "> composition_table {{" ++ nl
  ++ entries comp_line sorted ++ lit "}};" ++ nl.

(** writeQuickCheckTable, 265-288: eight numbers a line.  The C++ loops run over indices; here over the list ([fuel]: its length). *)
Fixpoint set_lines (fuel : nat) (l : list N) : str :=
  match fuel, l with
  | O, _ | _, [] => []
  | S f, _ => lit "    " ++ hex_list (firstn 8 l) ++ (match skipn 8 l with [] => [] | _ => lit "," end) ++ nl ++ set_lines f (skipn 8 l)
  end.
Definition write_set (s : list N) (name : str) : str :=
  lit "// " ++ name ++ lit " codepoints" ++ nl
  ++ lit "// Total entries: " ++ size_of s ++ nl
  ++ lit "inline constexpr std::array<char32_t, " ++ size_of s ++ lit "> " ++ name ++ lit "_table {{" ++ nl
  ++ set_lines (length s) s ++ lit "}};" ++ nl.

(** licenseHeader, enum_utils.h:28-41, and the beginning of the file, 295-307 *)
Definition license_header : str :=
  lit "/**" ++ nl ++ lit "* This file is part of the ""libunicode"" project" ++ nl
  ++ lit "*   Copyright (c) 2020-2021 Christian Parpart <christian@parpart.family>" ++ nl ++ lit "*" ++ nl
  ++ lit "* Licensed under the Apache License, Version 2.0 (the ""License"");" ++ nl
  ++ lit "* you may not use this file except in compliance with the License." ++ nl ++ lit "*" ++ nl
  ++ lit "* Unless required by applicable law or agreed to in writing, software" ++ nl
  ++ lit "* distributed under the License is distributed on an ""AS IS"" BASIS," ++ nl
  ++ lit "* WITHOUT WARRANTIES OR CONDITIONS OF ANY KIND, either express or implied." ++ nl
  ++ lit "* See the License for the specific language governing permissions and" ++ nl
  ++ lit "* limitations under the License." ++ nl ++ lit "*/" ++ nl.
Definition case_norm_preamble : str :=
  license_header ++ nl ++ lit "#pragma once" ++ nl ++ nl ++ lit "#include <array>" ++ nl ++ lit "#include <cstdint>" ++ nl ++ lit "#include <utility>" ++ nl
  ++ nl ++ lit "namespace unicode::detail" ++ nl ++ lit "{" ++ nl ++ nl ++ lit "// clang-format off" ++ nl ++ nl.
(** generateCaseNormFile, 290-365 *)
Definition case_norm_text (d : ucdata) (sp : special) (fold : list (N * N) * list (N * list N)) (p : nprops) (sorted : list (N * N * N)) : str :=
  case_norm_preamble
  ++ write_simple (d_upper d) (lit "uppercase") ++ nl ++ write_simple (d_lower d) (lit "lowercase") ++ nl
  ++ write_simple (d_title d) (lit "titlecase") ++ nl ++ write_simple (fst fold) (lit "casefold") ++ nl
  ++ write_full (sp_upper sp) (lit "uppercase") ++ nl ++ write_full (sp_lower sp) (lit "lowercase") ++ nl
  ++ write_full (sp_title sp) (lit "titlecase") ++ nl ++ write_full (snd fold) (lit "casefold") ++ nl
  ++ emit_ccc (d_ccc d) ++ nl ++ emit_canonical (write_canonical (d_dec d)) ++ nl ++ emit_compat (d_dec d) ++ nl ++ emit_compositions sorted ++ nl
  ++ write_set (np_nfc_no p) (lit "nfc_qc_no") ++ nl ++ write_set (np_nfc_maybe p) (lit "nfc_qc_maybe") ++ nl
  ++ write_set (np_nfkc_no p) (lit "nfkc_qc_no") ++ nl ++ write_set (np_nfkc_maybe p) (lit "nfkc_qc_maybe") ++ nl
  ++ write_set (np_nfd_no p) (lit "nfd_qc_no") ++ nl ++ write_set (np_nfkd_no p) (lit "nfkd_qc_no") ++ nl
  ++ write_set (np_excl p) (lit "composition_exclusions") ++ nl
  ++ lit "// clang-format on" ++ nl ++ nl ++ lit "} // namespace unicode::detail" ++ nl.
