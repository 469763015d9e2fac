(** Case conversion in terms of the database files (C128, C129). *)
From Coq Require Import String.
From Verif Require Import Base M_TableGen M_PropGen Spec_Utf Spec_TableGen Spec_PropGen Spec_UcdApi Spec_Case Spec_Link.
Open Scope N_scope.

(** DerivedGeneralCategory.txt consists of one section per category *)
Definition sectioned (F : ucd_files) : Prop :=
  exists pre secs, f_gc F = gc_file pre secs /\ secs <> [] /\ gc_sections_ok (f_pva F) pre secs /\ separate (f_gc F).

(** upper case, lower case and title case letters *)
Definition file_cased (F : ucd_files) (c : N) : Prop := Exists (category F c) ["Uppercase_Letter"; "Lowercase_Letter"; "Titlecase_Letter"]%string.
(** The Unicode Standard, D136: case-ignorable *)
Definition file_ignorable (F : ucd_files) (c : N) : Prop :=
  Exists (file_wb F c) ["MidLetter"; "MidNumLet"; "Single_Quote"]%string \/
  Exists (category F c) ["Nonspacing_Mark"; "Enclosing_Mark"; "Format"; "Modifier_Letter"; "Modifier_Symbol"]%string.

Section Text.
Context (F : ucd_files) (ud : list (fline udline)) (sc : list (fline scline)) (cf : list (fline cfline)).
(** a text converted character by character with the mappings of the files *)
Definition file_converted (k : ckind) (t r : list N) : Prop := exists rs, Forall2 (file_map ud sc cf k) t rs /\ r = concat rs.
(** a character of a word behind its first cased one *)
Definition file_rest (c : N) (r : list N) : Prop := (file_cased F c /\ file_map ud sc cf Lower c r) \/ (~ file_cased F c /\ r = [c]).
(** a word in title case: its first cased character in title case, later ones in lower case, everything else as it is *)
Definition file_titled (word r : list N) : Prop :=
  (Forall (fun c => ~ file_cased F c) word /\ r = word) \/
  exists pre c post t ls, word = pre ++ c :: post /\ Forall (fun x => ~ file_cased F x) pre /\ file_cased F c /\
    file_map ud sc cf Title c t /\ Forall2 file_rest post ls /\ r = pre ++ t ++ concat ls.
(** every mapping in the files is to scalar values *)
Definition maps_scalars : Prop := forall k, (forall c s, file_simple ud cf k c s -> scalar s) /\ (forall c m, file_special sc cf k c m -> scalars m).
(** a full mapping of a code point to itself is not given where the simple one is different, and not at all for folding *)
Definition no_special_identity : Prop := forall k c, file_special sc cf k c [c] -> k <> Fold /\ file_simple_map ud cf k c c.
(** what a mapping yields is mapped to itself *)
Definition maps_closed (k : ckind) : Prop := forall c m x, file_map ud sc cf k c m -> In x m -> file_map ud sc cf k x [x].
End Text.
