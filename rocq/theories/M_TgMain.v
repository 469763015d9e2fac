(** Model of tablegen_main.cpp, the order of file accesses in ucd_parser.cpp and the generators, and the reuse decision of
    src/libunicode/CMakeLists.txt.  What is computed from the input lines is a parameter here (M_TableGen, M_PropGen,
    M_UcdApi, M_Enums model it). *)
From Coq Require Import String Ascii.
From Verif Require Import Base Spec_TgMain.
Open Scope string_scope.
Notation text := (list N).
Definition lits (s : string) : text := map N_of_ascii (list_ascii_of_string s).
Definition newline : text := [10%N].

(** ucd_parser.cpp:193-224 parseAll: the files in the order in which openFile is called on them (292, 337, 369, 400, 405,
    412, 438, 454, 461, 468, 475, 482, 508, 535, 583, 601, 676, 726, 781, 814, 898, 905) *)
Definition parse_order : list string :=
  ["PropertyValueAliases.txt"; "extracted/DerivedGeneralCategory.txt"; "DerivedCoreProperties.txt"; "Scripts.txt"; "IndicSyllabicCategory.txt";
   "ScriptExtensions.txt"; "Blocks.txt"; "auxiliary/GraphemeBreakProperty.txt"; "auxiliary/WordBreakProperty.txt"; "EastAsianWidth.txt";
   "HangulSyllableType.txt"; "emoji/emoji-data.txt"; "emoji/emoji-variation-sequences.txt"; "UnicodeData.txt"; "BidiMirroring.txt"; "UnicodeData.txt";
   "CaseFolding.txt"; "SpecialCasing.txt"; "CompositionExclusions.txt"; "DerivedNormalizationProps.txt"; "DerivedAge.txt"; "extracted/DerivedName.txt"].

(** The exceptions of the parser besides openFile's (map::at, std::stoul), with their what(): [before] a file is opened
    (ucd_parser.cpp:334) and [after] its lines were read, given the lines of all files read so far. *)
Record parser := Parser { before : list (list text) -> option text; after : list (list text) -> option text }.
Inductive parsed := Threw (what : text) | Parsed (contents : list (list text)).
(** ucd_parser.cpp:67-73 openFile; std::getline ends the loop at a read error as at the end of the file *)
Fixpoint parse_all (p : parser) (dir : text) (fs : string -> option infile) (names : list string) (acc : list (list text)) : parsed :=
  match names with
  | [] => Parsed acc
  | f :: r =>
      match before p acc with
      | Some w => Threw w
      | None => match fs f with
                | None => Threw (lits "Failed to open file: " ++ dir ++ lits "/" ++ lits f)%list
                | Some i => let acc := (acc ++ [delivered i])%list in
                            match after p acc with Some w => Threw w | None => parse_all p dir fs r acc end
                end
      end
  end.

(** The generators: the text of each file, and the exception of ucd_api_generator.cpp:312 (map::at("Script")), with the
    number of bytes written to ucd.h and ucd.cpp before. *)
Record generator := Generator { gtext : list (list text) -> string -> text; api_fails : list (list text) -> option (text * nat * nat) }.
(** An output device: [None] the file cannot be opened for writing, [Some n] at most n bytes can be written.
    std::ofstream sets its failure bits, which no generator looks at. *)
Definition device := string -> option nat.
Definition disk := string -> option text.
Definition write_file (dev : device) (d : disk) (f : string) (t : text) : disk :=
  match dev f with None => d | Some n => fun x => if x =? f then Some (firstn n t) else d x end.
Fixpoint write_files (dev : device) (g : string -> text) (fs : list string) (d : disk) : disk :=
  match fs with [] => d | f :: r => write_files dev g r (write_file dev d f (g f)) end.

(** enum_generator.cpp:237,251,267; ucd_api_generator.cpp:106-107; case_norm_generator.cpp:293; multistage_generator.cpp:658-660;
    the files of one stage are open at the same time *)
Definition stage_enums := [["ucd_enums.h"]; ["ucd_ostream.h"]; ["ucd_fmt.h"]].
Definition stage_api := ["ucd.h"; "ucd.cpp"].
Definition stage_case := ["case_normalization_data.h"].
Definition stage_multi := ["codepoint_properties_data.h"; "codepoint_properties_data.cpp"; "codepoint_properties_names.cpp"].
Definition stages : list (list string) := (stage_enums ++ [stage_api; stage_case; stage_multi])%list.

Inductive status := ExitSuccess | ExitFailure.
(** tablegen_main.cpp:60-104 main; the progress messages on standard output are left out *)
Definition tablegen_main (p : parser) (g : generator) (dev : device) (argc : nat) (dir : text) (fs : string -> option infile) (d : disk)
  : status * text * disk :=
  let fail what d := (ExitFailure, (lits "unicode_tablegen: " ++ what ++ newline)%list, d) in
  if Nat.ltb argc 3 then (ExitFailure, (lits "Usage: unicode_tablegen <UCD_DIR> <OUTPUT_DIR> [NAMESPACE]" ++ newline)%list, d)
  else match parse_all p dir fs parse_order [] with
       | Threw w => fail w d
       | Parsed c =>
           let d := write_files dev (gtext g c) (concat stage_enums) d in
           match api_fails g c with
           | Some (w, n1, n2) =>
               fail w (write_file dev (write_file dev d "ucd.h" (firstn n1 (gtext g c "ucd.h"))) "ucd.cpp" (firstn n2 (gtext g c "ucd.cpp")))
           | None => (ExitSuccess, [], write_files dev (gtext g c) (stage_api ++ stage_case ++ stage_multi) d)
           end
       end.

(** The actions of one generator stage: the streams are constructed (created or truncated) first, then the text reaches
    the files in pieces, in an order that depends on the stream buffers. *)
Definition stage_run (txt : string -> text) (fs : list string) (l : list action) : Prop :=
  exists puts, l = (map Create fs ++ puts)%list /\ (forall a, In a puts -> exists f b, a = Put f b /\ In f fs) /\ forall f, In f fs -> put_to f puts = txt f.
(** a whole run of the generators; the streams of a stage are closed before the next stage begins *)
Definition generator_run (txt : string -> text) (l : list action) : Prop := exists parts, Forall2 (stage_run txt) stages parts /\ l = concat parts.

(** CMake's if(a IS_NEWER_THAN b): also true if the times are equal or a file is missing *)
Definition is_newer (a b : option N) : bool := match a, b with Some x, Some y => (y <=? x)%N | _, _ => true end.
Definition mtime (d : stamped) (f : string) : option N := option_map snd (d f).
(** CMakeLists.txt:15-25 _LIBUNICODE_GENERATED_FILES *)
Definition generated_files : list string :=
  ["ucd.cpp"; "ucd.h"; "ucd_enums.h"; "ucd_fmt.h"; "ucd_ostream.h"; "case_normalization_data.h"; "codepoint_properties_data.h";
   "codepoint_properties_data.cpp"; "codepoint_properties_names.cpp"].
(** CMakeLists.txt:28-33 the first foreach *)
Fixpoint all_exist (d : stamped) (fs : list string) : bool :=
  match fs with [] => true | f :: r => match d f with None => false | Some _ => all_exist d r end end.
(** CMakeLists.txt:46-57 the inner foreach: [true] if it leaves the variable TRUE *)
Fixpoint fresh_for (s : option N) (d : stamped) (fs : list string) : bool :=
  match fs with
  | [] => true
  | f :: r => if is_newer s (mtime d f) && negb (is_newer (mtime d f) s) then false else fresh_for s d r
  end.
(** CMakeLists.txt:45-61 the outer foreach over the generator's sources *)
Fixpoint fresh (srcs : list (option N)) (d : stamped) : bool :=
  match srcs with [] => true | s :: r => if fresh_for s d generated_files then fresh r d else false end.
(** LIBUNICODE_HAS_PREGENERATED_FILES after lines 27-62; [srcs] are the times of tablegen/*.cpp and tablegen/*.h *)
Definition has_pregenerated (srcs : list (option N)) (d : stamped) : bool :=
  if all_exist d generated_files then fresh srcs d else false.
(** CMakeLists.txt:117-120 LIBUNICODE_NEEDS_TABLEGEN *)
Definition needs_tablegen (emscripten : bool) (srcs : list (option N)) (d : stamped) : bool := negb emscripten && negb (has_pregenerated srcs d).
