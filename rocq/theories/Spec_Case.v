(** Vocabulary for the case mapping properties (C46-C50, C67). *)
From Verif Require Import Base Spec_Utf M_Tables Spec_Tables M_Ucd M_Word M_Case.
Open Scope N_scope.

Inductive ckind := Upper | Lower | Title | Fold.
Definition simple_table (tb : case_tables) (k : ckind) : list (N * N) :=
  match k with Upper => s_upper tb | Lower => s_lower tb | Title => s_title tb | Fold => s_fold tb end.
Definition full_table (tb : case_tables) (k : ckind) : list (N * list N) :=
  match k with Upper => f_upper tb | Lower => f_lower tb | Title => f_title tb | Fold => f_fold tb end.
(** the public functions by kind *)
Definition full_of (tb : case_tables) (k : ckind) : N -> Res (list N) :=
  match k with Upper => full_uppercase tb | Lower => full_lowercase tb | Title => full_titlecase tb | Fold => full_casefold tb end.
Definition simple_of (tb : case_tables) (k : ckind) : N -> N :=
  match k with Upper => simple_uppercase tb | Lower => simple_lowercase tb | Title => simple_titlecase tb | Fold => simple_casefold tb end.
Definition changes_when (tb : case_tables) (k : ckind) : N -> Res bool :=
  match k with Upper => changes_when_uppercased tb | Lower => changes_when_lowercased tb
             | Title => changes_when_titlecased tb | Fold => changes_when_casefolded tb end.
(** the three character-wise string functions *)
Definition convert_of (tb : case_tables) (k : ckind) : list N -> Res (list N) :=
  match k with Upper => to_uppercase tb | Lower => to_lowercase tb | Title => map_text (full_titlecase tb) | Fold => casefold tb end.

(** Tables are sorted by source (strictly, so sources are unique), full mappings have one to three targets. *)
Definition tables_ok (tb : case_tables) : Prop := forall k,
  strictly_sorted fst (simple_table tb k) /\ strictly_sorted fst (full_table tb k) /\
  (forall c m, In (c, m) (full_table tb k) -> (1 <= length m <= 3)%nat).

(** ASCII letters of the case a conversion changes, and their counterparts *)
Definition ascii_changes (k : ckind) (c : N) : Prop :=
  match k with Upper | Title => 0x61 <= c <= 0x7A | Lower | Fold => 0x41 <= c <= 0x5A end.
Definition ascii_swap (k : ckind) (c : N) : N := match k with Upper | Title => c - 32 | Lower | Fold => c + 32 end.
(** [simple_map tb k c s]: the simple mapping of [c] is [s] *)
Definition simple_map (tb : case_tables) (k : ckind) (c s : N) : Prop :=
  (ascii_changes k c /\ s = ascii_swap k c) \/
  (~ ascii_changes k c /\ In (c, s) (simple_table tb k)) \/
  (~ ascii_changes k c /\ (forall s', ~ In (c, s') (simple_table tb k)) /\ s = c).
(** [char_map tb k c r]: [c] converts to [r]: its full mapping if it has one, else its simple mapping (itself if none) *)
Definition char_map (tb : case_tables) (k : ckind) (c : N) (r : list N) : Prop :=
  In (c, r) (full_table tb k) \/
  ((forall m, ~ In (c, m) (full_table tb k)) /\ exists s, simple_map tb k c s /\ r = [s]).

(** the code points title casing acts on: upper case, lower case and title case letters *)
Definition cased_letter (gc : N -> gencat) (c : N) : bool := match gc c with Lu | Ll | Lt => true | _ => false end.

(** one word in title case: the first cased code point in title case, later cased ones in lower case, others unchanged *)
Definition rest_map (tb : case_tables) (cased : N -> bool) (c : N) (r : list N) : Prop :=
  if cased c then char_map tb Lower c r else r = [c].
Definition titled (tb : case_tables) (cased : N -> bool) (word r : list N) : Prop :=
  (Forall (fun c => cased c = false) word /\ r = word) \/
  exists pre c post t ls, word = pre ++ c :: post /\ Forall (fun x => cased x = false) pre /\ cased c = true /\
    char_map tb Title c t /\ Forall2 (rest_map tb cased) post ls /\ r = pre ++ t ++ concat ls.

(** targets are scalar values *)
Definition case_scalars (tb : case_tables) : Prop := forall k,
  (forall c s, In (c, s) (simple_table tb k) -> scalar s) /\ (forall c m, In (c, m) (full_table tb k) -> scalars m).
(** no full mapping maps a code point to itself (UnicodeData.txt does list simple ones: the title case of U+01C5 is U+01C5) *)
Definition no_identities (tb : case_tables) : Prop := forall k c, ~ In (c, [c]) (full_table tb k).
(** every target is its own mapping *)
Definition closed (tb : case_tables) (k : ckind) : Prop :=
  forall c r x, char_map tb k c r -> In x r -> char_map tb k x [x].
