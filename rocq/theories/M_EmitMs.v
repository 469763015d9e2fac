(** The C++ text of codepoint_properties_data.h, codepoint_properties_data.cpp and codepoint_properties_names.cpp, as multistage_generator.cpp
    prints it. *)
From Coq Require Import String.
From Verif Require Import Base M_TableGen M_PropGen M_Emit.
Open Scope N_scope.

(** std::setw(4) << std::right: padded with spaces on the left *)
Definition setw (k : nat) (s : str) : str := repeat 32 (k - length s) ++ s.
(** binstr, multistage_generator.cpp:287-294 *)
Definition bit_char (n : N) (i : N) : N := if N.testbit n i then 49 else 48.
Definition binstr (n : N) : str := lit "0b" ++ map (bit_char n) [7; 6; 5; 4; 3; 2; 1; 0].
(** minimumUintType, 296-307; std::max_element of an empty vector is not to be dereferenced: None *)
Definition minimum_type (values : list N) : option str :=
  match values with
  | [] => None
  | x :: r =>
      let v := fold_left N.max r x in
      Some (if v <=? 0xFF then lit "uint8_t" else if v <=? 0xFFFF then lit "uint16_t" else if v <=? 0xFFFFFFFF then lit "uint32_t" else lit "uint64_t")
  end.
(** the loop of writeCxxTable, 319-326, from index [i]; BLOCK_SIZE is 256 (line 38) *)
Definition column_break (block : bool) (i : N) : str :=
  (if i mod 16 =? 0 then nl ++ lit "    " else [])
  ++ (if block && (i mod 256 =? 0) then lit "// block number: " ++ fmt_d (i / 256) ++ nl ++ lit "    " else []).
Fixpoint stage_cells (block : bool) (i : N) (table : list N) : str :=
  match table with [] => [] | x :: r => column_break block i ++ setw 4 (fmt_d x) ++ lit "," ++ stage_cells block (i + 1) r end.
(** writeCxxTable, 309-328: what it appends to the header and to the implementation *)
Definition extern_line (type name : str) (n : N) : str := lit "extern std::array<" ++ type ++ lit ", " ++ fmt_d n ++ lit "> const " ++ name ++ lit ";" ++ nl.
Definition stage_text (type name : str) (block : bool) (table : list N) : str :=
  lit "std::array<" ++ type ++ lit ", " ++ fmt_d (N.of_nat (length table)) ++ lit "> const " ++ name ++ lit " {" ++ stage_cells block 0 table ++ nl ++ lit "};" ++ nl ++ nl.
Definition write_stage (table : list N) (name : str) (block : bool) : option (str * str) :=
  match minimum_type table with
  | Some t => Some (extern_line t name (N.of_nat (length table)), stage_text t name block table)
  | None => None
  end.
(** "(!flags ? "0" : binstr(flags))" *)
Definition flags_text (n : N) : str := if n =? 0 then lit "0" else binstr n.
(** one record, 685-701; the enumerator names are looked up by [print_rec] of M_PropGen *)
Definition record_line (r : orec) : str :=
  lit "    {" ++ fmt_d (o_width r) ++ lit ", " ++ flags_text (o_flags r) ++ lit ", " ++ flags_text (o_flags2 r) ++ lit ", "
  ++ lit "Script::" ++ o_script r ++ lit ", " ++ lit "Grapheme_Cluster_Break::" ++ o_gcb r ++ lit ", " ++ lit "East_Asian_Width::" ++ o_eaw r ++ lit ", "
  ++ lit "General_Category::" ++ o_gc r ++ lit ", " ++ lit "EmojiSegmentationCategory::" ++ o_esc r ++ lit ", " ++ lit "Age::" ++ o_age r ++ lit ", "
  ++ lit "Indic_Conjunct_Break::" ++ o_incb r ++ lit ", " ++ lit "Word_Break::" ++ o_wb r ++ lit "}," ++ nl.
Definition props_text (recs : list orec) : str :=
  lit "std::array<codepoint_properties, " ++ fmt_d (N.of_nat (length recs)) ++ lit "> const properties{{" ++ nl ++ flat_map record_line recs ++ lit "}};" ++ nl ++ nl.
(** the names, 725-728 *)
Definition name_line (name : str) : str := lit "    """ ++ name ++ lit """sv," ++ nl.
Definition names_text (names : list str) : str :=
  lit "std::array<std::string_view, " ++ fmt_d (N.of_nat (length names)) ++ lit "> const names_stage3{{" ++ nl ++ flat_map name_line names ++ lit "}};" ++ nl ++ nl.

(** The three files, 655-735.  [s1 s2 recs]: the stages of the table of properties; [n1 n2 names]: those of the table of names. *)
Definition disclaimer : str := lit "// This file was auto-generated by unicode_tablegen." ++ nl.
Definition open_namespace (ns : str) : str := lit "namespace " ++ ns ++ nl ++ lit "{" ++ nl ++ nl.
Definition close_namespace (ns : str) : str := lit "} // end namespace " ++ ns ++ nl.
Definition ms_header_head : str :=
  disclaimer ++ lit "#pragma once" ++ nl ++ nl ++ lit "#include <libunicode/codepoint_properties.h>" ++ nl ++ nl ++ lit "#include <array>" ++ nl
  ++ lit "#include <cstdint>" ++ nl ++ nl.
Definition ms_impl_head : str :=
  disclaimer ++ lit "#include <libunicode/codepoint_properties.h>" ++ nl ++ lit "#include <libunicode/codepoint_properties_data.h>" ++ nl
  ++ lit "#include <libunicode/emoji_segmenter.h>" ++ nl ++ lit "#include <libunicode/ucd_enums.h>" ++ nl ++ nl ++ lit "#include <array>" ++ nl
  ++ lit "#include <cstdint>" ++ nl ++ lit "#include <string_view>" ++ nl ++ nl ++ lit "using namespace unicode;" ++ nl ++ nl.
Definition ms_names_head : str :=
  disclaimer ++ lit "#include <libunicode/codepoint_properties_data.h>" ++ nl ++ nl ++ lit "#include <array>" ++ nl ++ lit "#include <string_view>" ++ nl
  ++ lit "#include <cstdint>" ++ nl ++ nl ++ lit "using namespace unicode;" ++ nl ++ lit "using namespace std::string_view_literals;" ++ nl ++ nl.
Record ms_src := mkMs { m_s1 : list N; m_s2 : list N; m_recs : list orec; m_n1 : list N; m_n2 : list N; m_names : list str }.
Definition ms_files (ns : str) (m : ms_src) : option (str * str * str) :=
  match write_stage (m_s1 m) (lit "stage1") false, write_stage (m_s2 m) (lit "stage2") true,
        write_stage (m_n1 m) (lit "names_stage1") false, write_stage (m_n2 m) (lit "names_stage2") true with
  | Some (h1, i1), Some (h2, i2), Some (k1, j1), Some (k2, j2) =>
      Some (ms_header_head ++ open_namespace ns ++ h1 ++ h2 ++ extern_line (lit "codepoint_properties") (lit "properties") (N.of_nat (length (m_recs m)))
              ++ k1 ++ k2 ++ extern_line (lit "std::string_view") (lit "names_stage3") (N.of_nat (length (m_names m))) ++ nl ++ close_namespace ns,
            ms_impl_head ++ open_namespace ns ++ i1 ++ i2 ++ props_text (m_recs m) ++ close_namespace ns,
            ms_names_head ++ open_namespace ns ++ j1 ++ j2 ++ names_text (m_names m) ++ close_namespace ns)
  | _, _, _, _ => None
  end.
