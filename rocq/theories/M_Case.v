(** Model of src/libunicode/case_mapping.cpp and case_mapping.h.  The generated tables are arguments. *)
From Coq Require Import ZArith.
From Verif Require Import Base Spec_Utf M_Convert M_Ucd M_Word M_Tables.
Open Scope N_scope.

(** detail::simple_*_table: (code point, mapping); detail::full_*_table: (source, the first [length] targets). *)
Record case_tables := {
  s_upper : list (N * N); s_lower : list (N * N); s_title : list (N * N); s_fold : list (N * N);
  f_upper : list (N * list N); f_lower : list (N * list N); f_title : list (N * list N); f_fold : list (N * list N) }.

(** General_Category, as far as case_mapping.cpp looks at it *)
Inductive gencat := Lu | Ll | Lt | Mn | Me | Cf | Lm | Sk | GCother.
Scheme Equality for gencat.

(** lookup_simple, case_mapping.cpp:28-40 *)
Definition lookup_simple (tbl : list (N * N)) (cp : N) : N :=
  match find_entry fst tbl cp with Some e => snd e | None => cp end.
(** lookup_full, case_mapping.cpp:42-59.  The result (codepoints, length) is the list of the first [length] code points; the empty
    list is length 0 (is_identity()).  Writing codepoints[i] for i >= MaxCaseMappingLength = 3 is undefined. *)
Definition lookup_full (tbl : list (N * list N)) (cp : N) : Res (list N) :=
  match find_entry fst tbl cp with
  | Some e => if (3 <? length (snd e))%nat then UB else Ok (snd e)
  | None => Ok []
  end.

Section Tables.
Variable tb : case_tables.

(** case_mapping.cpp:67-101 *)
Definition simple_uppercase (cp : N) : N :=
  if (0x61 <=? cp) && (cp <=? 0x7A) then cp - (0x61 - 0x41) else lookup_simple (s_upper tb) cp.
Definition simple_lowercase (cp : N) : N :=
  if (0x41 <=? cp) && (cp <=? 0x5A) then cp + (0x61 - 0x41) else lookup_simple (s_lower tb) cp.
Definition simple_titlecase (cp : N) : N :=
  if (0x61 <=? cp) && (cp <=? 0x7A) then cp - (0x61 - 0x41) else lookup_simple (s_title tb) cp.
Definition simple_casefold (cp : N) : N :=
  if (0x41 <=? cp) && (cp <=? 0x5A) then cp + (0x61 - 0x41) else lookup_simple (s_fold tb) cp.

(** case_mapping.cpp:107-181 *)
Definition full_uppercase (cp : N) : Res (list N) :=
  do r <- lookup_full (f_upper tb) cp ;
  match r with
  | _ :: _ => Ok r
  | [] => let simple := simple_uppercase cp in if negb (simple =? cp) then Ok [simple] else Ok []
  end.
Definition full_lowercase (cp : N) : Res (list N) :=
  do r <- lookup_full (f_lower tb) cp ;
  match r with
  | _ :: _ => Ok r
  | [] => let simple := simple_lowercase cp in if negb (simple =? cp) then Ok [simple] else Ok []
  end.
Definition full_titlecase (cp : N) : Res (list N) :=
  do r <- lookup_full (f_title tb) cp ;
  match r with
  | _ :: _ => Ok r
  | [] => let simple := simple_titlecase cp in if negb (simple =? cp) then Ok [simple] else Ok []
  end.
Definition full_casefold (cp : N) : Res (list N) :=
  do r <- lookup_full (f_fold tb) cp ;
  match r with
  | _ :: _ => Ok r
  | [] => let simple := simple_casefold cp in if negb (simple =? cp) then Ok [simple] else Ok []
  end.

(** [mapping.is_identity() ? push_back(cp) : append(mapping.view())] *)
Definition emit (cp : N) (mapping : list N) : list N := match mapping with [] => [cp] | _ => mapping end.
(** the loops of to_uppercase, to_lowercase, casefold: case_mapping.cpp:187-202, 204-219, 267-282 *)
Fixpoint map_text (full : N -> Res (list N)) (text : list N) : Res (list N) :=
  match text with
  | [] => Ok []
  | cp :: r => do m <- full cp ; do rest <- map_text full r ; Ok (emit cp m ++ rest)
  end.
Definition to_uppercase (text : list N) : Res (list N) := map_text full_uppercase text.
Definition to_lowercase (text : list N) : Res (list N) := map_text full_lowercase text.
Definition casefold (text : list N) : Res (list N) := map_text full_casefold text.

(** is_cased, case_mapping.cpp:348-353, [gc] is general_category::get *)
Definition is_cased (gc : N -> gencat) (cp : N) : bool :=
  gencat_beq (gc cp) Lu || gencat_beq (gc cp) Ll || gencat_beq (gc cp) Lt.
(** is_case_ignorable, case_mapping.cpp:355-366 *)
Definition is_case_ignorable (u : ucd) (gc : N -> gencat) (cp : N) : bool :=
  gencat_beq (gc cp) Mn || gencat_beq (gc cp) Me || gencat_beq (gc cp) Cf || gencat_beq (gc cp) Lm || gencat_beq (gc cp) Sk
  || wbc_beq (p_wb (u cp)) WMidLetter || wbc_beq (p_wb (u cp)) WMidNumLet || wbc_beq (p_wb (u cp)) WSingleQuote.

(** the loop over one word, case_mapping.cpp:233-257 *)
Fixpoint title_word (gc : N -> gencat) (first_cased : bool) (word : list N) : Res (list N) :=
  match word with
  | [] => Ok []
  | cp :: r =>
      if first_cased && is_cased gc cp then
        do m <- full_titlecase cp ; do rest <- title_word gc false r ; Ok (emit cp m ++ rest)
      else if negb first_cased && is_cased gc cp then
        do m <- full_lowercase cp ; do rest <- title_word gc first_cased r ; Ok (emit cp m ++ rest)
      else do rest <- title_word gc first_cased r ; Ok (cp :: rest)
  end.
(** to_titlecase, case_mapping.cpp:221-265: [while (true)] over the words.  Each round but the last advances the
    segmenter, so the text's length bounds the rounds (proved). *)
Fixpoint title_loop (u : ucd) (gc : N -> gencat) (fuel : nat) (seg : wseg) : Res (list N) :=
  match fuel with
  | O => NoFuel
  | S f =>
      let word := wseg_value seg in
      if match word with [] => negb (wseg_available seg) | _ => false end then Ok []
      else
        do w <- title_word gc true word ;
        if negb (wseg_available seg) then Ok w
        else do rest <- title_loop u gc f (wseg_next u seg) ; Ok (w ++ rest)
  end.
Definition to_titlecase (u : ucd) (gc : N -> gencat) (text : list N) : Res (list N) :=
  title_loop u gc (S (length text)) (wseg_make u text).

(** UTF-8 overloads, case_mapping.cpp:288-314 *)
Definition via_utf32 (i : impl) (f : list N -> Res (list N)) (text : list N) : Res (list N) :=
  do t <- convert_to false i T32 T8 text ; do r <- f t ; convert_to false i T8 T32 r.
Definition to_uppercase8 (i : impl) := via_utf32 i to_uppercase.
Definition to_lowercase8 (i : impl) := via_utf32 i to_lowercase.
Definition to_titlecase8 (u : ucd) (gc : N -> gencat) (i : impl) := via_utf32 i (to_titlecase u gc).
Definition casefold8 (i : impl) := via_utf32 i casefold.

(** std::basic_string::compare: char_traits::compare on the common length (-1, 0 or 1 here; only its sign is specified), then
    the difference of the lengths.  Elements compare as unsigned values (char_traits<char> compares as unsigned char). *)
Fixpoint traits_compare (n : nat) (a b : list N) : Z :=
  match n, a, b with
  | S n', x :: a', y :: b' => if (x <? y)%N then -1 else if (y <? x)%N then 1 else traits_compare n' a' b'
  | _, _, _ => 0
  end%Z.
Definition string_compare (a b : list N) : Z :=
  let r := traits_compare (Nat.min (length a) (length b)) a b in
  if (r =? 0)%Z then (Z.of_nat (length a) - Z.of_nat (length b))%Z else r.
(** casefold_compare, casefold_equals: case_mapping.cpp:320-342 *)
Definition casefold_compare (a b : list N) : Res Z := do x <- casefold a ; do y <- casefold b ; Ok (string_compare x y).
Definition casefold_compare8 (i : impl) (a b : list N) : Res Z :=
  do x <- casefold8 i a ; do y <- casefold8 i b ; Ok (string_compare x y).
Definition casefold_equals (a b : list N) : Res bool := do c <- casefold_compare a b ; Ok (c =? 0)%Z.
Definition casefold_equals8 (i : impl) (a b : list N) : Res bool := do c <- casefold_compare8 i a b ; Ok (c =? 0)%Z.

(** changes_when_*, case_mapping.cpp:368-386 *)
Definition changes_when_uppercased (cp : N) : Res bool :=
  if negb (simple_uppercase cp =? cp) then Ok true else do m <- full_uppercase cp ; Ok (match m with [] => false | _ => true end).
Definition changes_when_lowercased (cp : N) : Res bool :=
  if negb (simple_lowercase cp =? cp) then Ok true else do m <- full_lowercase cp ; Ok (match m with [] => false | _ => true end).
Definition changes_when_titlecased (cp : N) : Res bool :=
  if negb (simple_titlecase cp =? cp) then Ok true else do m <- full_titlecase cp ; Ok (match m with [] => false | _ => true end).
Definition changes_when_casefolded (cp : N) : Res bool :=
  if negb (simple_casefold cp =? cp) then Ok true else do m <- full_casefold cp ; Ok (match m with [] => false | _ => true end).
End Tables.
