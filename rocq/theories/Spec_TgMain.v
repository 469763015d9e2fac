(** Vocabulary for unicode_tablegen as a program: its input files, the nine files it writes, interrupted runs. *)
From Coq Require Import String.
From Verif Require Import Base.
Open Scope string_scope.

(** the files of the Unicode Character Database that are needed *)
Definition needed : list string :=
  ["Blocks.txt"; "BidiMirroring.txt"; "CaseFolding.txt"; "CompositionExclusions.txt"; "DerivedAge.txt"; "DerivedCoreProperties.txt";
   "DerivedNormalizationProps.txt"; "EastAsianWidth.txt"; "HangulSyllableType.txt"; "IndicSyllabicCategory.txt"; "PropertyValueAliases.txt";
   "ScriptExtensions.txt"; "Scripts.txt"; "SpecialCasing.txt"; "UnicodeData.txt"; "auxiliary/GraphemeBreakProperty.txt"; "auxiliary/WordBreakProperty.txt";
   "emoji/emoji-data.txt"; "emoji/emoji-variation-sequences.txt"; "extracted/DerivedGeneralCategory.txt"; "extracted/DerivedName.txt"].
(** the files the library is compiled from *)
Definition nine : list string :=
  ["ucd_enums.h"; "ucd_ostream.h"; "ucd_fmt.h"; "ucd.h"; "ucd.cpp"; "case_normalization_data.h"; "codepoint_properties_data.h";
   "codepoint_properties_data.cpp"; "codepoint_properties_names.cpp"].

(** an input file as the program sees it: the lines delivered, and whether they are all of them (no read error) *)
Record infile := In_file { delivered : list (list N); whole : bool }.
(** an output file on the disk: contents and time of the last modification *)
Definition stamped := string -> option (list N * N).

(** what reaches the disk: creation (truncation) of a file, bytes appended to it *)
Inductive action := Create (f : string) | Put (f : string) (bytes : list N).
Definition touches (a : action) : string := match a with Create f => f | Put f _ => f end.
Definition act (d : stamped) (a : action * N) : stamped :=
  match a with
  | (Create f, t) => fun x => if x =? f then Some ([], t) else d x
  | (Put f b, t) => fun x => if x =? f then match d f with Some (c, _) => Some (List.app c b, t) | None => None end else d x
  end.
Definition acts (d : stamped) (l : list (action * N)) : stamped := fold_left act l d.
(** the bytes appended to [f] *)
Fixpoint put_to (f : string) (l : list action) : list N :=
  match l with
  | [] => []
  | Put g b :: r => if g =? f then List.app b (put_to f r) else put_to f r
  | Create _ :: r => put_to f r
  end.
(** the table set on the disk is the one that was to be written *)
Definition complete (text : string -> list N) (d : stamped) : Prop := forall f, In f nine -> exists t, d f = Some (text f, t).
