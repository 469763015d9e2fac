(** Model of the table generator: src/libunicode/tablegen/ucd_parser.cpp (case, normalization, names, and the standard line format) and
    src/libunicode/tablegen/case_norm_generator.cpp.  Text is a list of byte values; a file is the list of its lines (std::getline and
    opening files are not modelled). *)
From Coq Require Import Ascii String.
From Verif Require Import Base M_Normalize M_Case.
Open Scope N_scope.

Definition str := list N.
(** the bytes of a C string literal *)
Definition lit (s : string) : str := map N_of_ascii (list_ascii_of_string s).
Fixpoint str_eqb (a b : str) : bool :=
  match a, b with [], [] => true | x :: a', y :: b' => (x =? y) && str_eqb a' b' | _, _ => false end.

Definition ch_semi : N := 59. Definition ch_hash : N := 35. Definition ch_space : N := 32. Definition ch_dot : N := 46.
Definition ch_lt : N := 60. Definition ch_gt : N := 62. Definition ch_at : N := 64. Definition ch_cr : N := 13. Definition ch_minus : N := 45.

Fixpoint drop_front (p : N -> bool) (s : str) : str := match s with [] => [] | c :: r => if p c then drop_front p r else s end.
Definition drop_back (p : N -> bool) (s : str) : str := rev (drop_front p (rev s)).
Definition is_ws (c : N) : bool := (c =? 32) || (c =? 9) || (c =? 13) || (c =? 10).
Definition is_sp (c : N) : bool := c =? 32.
(** trim, ucd_parser.cpp:58-66 *)
Definition trim (s : str) : str := drop_back is_ws (drop_front is_ws s).
(** std::string_view::find(char) and find("..") *)
Fixpoint find_char (c : N) (s : str) : option nat :=
  match s with [] => None | x :: r => if x =? c then Some O else match find_char c r with Some n => Some (S n) | None => None end end.
Fixpoint find_dots (s : str) : option nat :=
  match s with
  | a :: ((b :: _) as r) => if (a =? ch_dot) && (b =? ch_dot) then Some O else match find_dots r with Some n => Some (S n) | None => None end
  | _ => None
  end.

(** std::from_chars: the digits at the front; [base] 16 or 10 *)
Definition digit_of (base : N) (c : N) : option N :=
  let d := if (48 <=? c) && (c <=? 57) then Some (c - 48)
           else if (65 <=? c) && (c <=? 70) then Some (c - 55)
           else if (97 <=? c) && (c <=? 102) then Some (c - 87) else None in
  match d with Some v => if v <? base then Some v else None | None => None end.
Fixpoint take_digits (base : N) (s : str) : list N :=
  match s with [] => [] | c :: r => match digit_of base c with Some d => d :: take_digits base r | None => [] end end.
Definition value_of (base : N) (ds : list N) : N := fold_left (fun a d => a * base + d) ds 0.
(** parseCodepoint, ucd_parser.cpp:29-38: an unsigned; std::from_chars leaves [value] at 0 if there is no digit or on overflow *)
Definition parse_codepoint (s : str) : N :=
  let v := value_of 16 (take_digits 16 (drop_back is_sp (drop_front is_sp s))) in if v <? 2 ^ 32 then v else 0.
(** parseCodepoints, ucd_parser.cpp:40-57.  The loop cuts the text at spaces and skips runs of them; [words] does the same by structural
    recursion, [cur] being the current word reversed. *)
Fixpoint words (cur : str) (s : str) : list str :=
  match s with
  | [] => match cur with [] => [] | _ => [rev cur] end
  | c :: r => if c =? ch_space then match cur with [] => words [] r | _ => rev cur :: words [] r end else words (c :: cur) r
  end.
Definition parse_codepoints (s : str) : list N := map parse_codepoint (words [] s).
(** the splitting loop of ucd_parser.cpp:610-620 (and 684-694, 734-744, 822-832): the pieces between semicolons, at least one *)
Fixpoint split_semi (s : str) : list str :=
  match s with
  | [] => [[]]
  | c :: r => if c =? ch_semi then [] :: split_semi r
              else match split_semi r with f :: fs => (c :: f) :: fs | [] => [[c]] end
  end.
Definition field (fs : list str) (i : nat) : str := nth i fs [].

(** std::map<char32_t, V> and std::set<char32_t> as lists in key order *)
Fixpoint map_set {V} (k : N) (v : V) (m : list (N * V)) : list (N * V) :=
  match m with
  | [] => [(k, v)]
  | (k', v') :: r => if k <? k' then (k, v) :: m else if k =? k' then (k, v) :: r else (k', v') :: map_set k v r
  end.
Fixpoint map_get {V} (k : N) (m : list (N * V)) : option V :=
  match m with [] => None | (k', v) :: r => if k =? k' then Some v else map_get k r end.
Fixpoint set_insert (k : N) (m : list N) : list N :=
  match m with [] => [k] | k' :: r => if k <? k' then k :: m else if k =? k' then m else k' :: set_insert k r end.
Definition set_has (k : N) (m : list N) : bool := existsb (N.eqb k) m.

(** the members of UcdParser used here, ucd_parser.h:255-278 *)
Record ucdata := mkUd {
  d_ccc : list (N * Z); d_dec : list (N * (list N * str)); d_upper : list (N * N); d_lower : list (N * N); d_title : list (N * N) }.
Definition ucdata0 : ucdata := mkUd [] [] [] [] [].

(** std::from_chars into an int *)
Definition parse_int (s : str) : Z :=
  let '(neg, ds) := match s with c :: r => if c =? ch_minus then (true, take_digits 10 r) else (false, take_digits 10 s) | [] => (false, []) end in
  let v := Z.of_N (value_of 10 ds) in
  let v := if neg : bool then (- v)%Z else v in
  if (- 2 ^ 31 <=? v)%Z && (v <? 2 ^ 31)%Z then v else 0%Z.

Definition opt_set (cp : N) (f : str) (m : list (N * N)) : list (N * N) :=
  match trim f with [] => m | x => map_set cp (parse_codepoint x) m end.
(** the decomposition field, ucd_parser.cpp:637-653 *)
Definition load_decomposition (cp : N) (f : str) (m : list (N * (list N * str))) : list (N * (list N * str)) :=
  match trim f with
  | [] => m
  | c :: r =>
      let s := c :: r in
      let '(ty, s') :=
        if c =? ch_lt then
          match find_char ch_gt s with
          | Some e => (firstn (e - 1) r, trim (skipn (e + 1) s))
          | None => (r, trim s)
          end
        else (lit "canonical", s) in
      match s' with [] => m | _ => map_set cp (parse_codepoints s', ty) m end
  end.
(** one line of UnicodeData.txt, ucd_parser.cpp:605-668 *)
Definition load_unicode_line (d : ucdata) (line : str) : ucdata :=
  match trim line with
  | [] => d
  | c :: _ =>
      let fields := split_semi (trim line) in
      if (c =? ch_hash) || (length fields <? 15)%nat then d
      else
        let cp := parse_codepoint (field fields 0) in
        let ccc := match trim (field fields 3) with
                   | [] => d_ccc d
                   | f => let v := parse_int f in if (v =? 0)%Z then d_ccc d else map_set cp v (d_ccc d)
                   end in
        mkUd ccc (load_decomposition cp (field fields 5) (d_dec d))
             (opt_set cp (field fields 12) (d_upper d)) (opt_set cp (field fields 13) (d_lower d)) (opt_set cp (field fields 14) (d_title d))
  end.
(** loadUnicodeData, ucd_parser.cpp:599-669 *)
Definition load_unicode_data (lines : list str) : ucdata := fold_left load_unicode_line lines ucdata0.

(** one line of CaseFolding.txt, ucd_parser.cpp:678-718: (simple, full) *)
Definition load_folding_line (m : list (N * N) * list (N * list N)) (line : str) : list (N * N) * list (N * list N) :=
  let '(simple, full) := m in
  match trim line with
  | [] => m
  | c :: _ =>
      let parts := split_semi (trim line) in
      if (c =? ch_hash) || (length parts <? 3)%nat then m
      else
        let cp := parse_codepoint (field parts 0) in
        let status := trim (field parts 1) in
        let mapping := parse_codepoints (field parts 2) in
        let simple' := match mapping with [x] => map_set cp x simple | _ => simple end in
        if str_eqb status (lit "C") then (simple', map_set cp mapping full)
        else if str_eqb status (lit "S") then (simple', full)
        else if str_eqb status (lit "F") then (simple, map_set cp mapping full)
        else m
  end.
(** loadCaseFolding, ucd_parser.cpp:674-720 *)
Definition load_case_folding (lines : list str) : list (N * N) * list (N * list N) := fold_left load_folding_line lines ([], []).

Definition count_char (c : N) (s : str) : nat := length (filter (N.eqb c) s).
Definition simple_or_self (m : list (N * N)) (cp : N) : N := match map_get cp m with Some x => x | None => cp end.
(** "Only store non-trivial mappings", ucd_parser.cpp:766-773 *)
Definition store_special (simple : list (N * N)) (cp : N) (l : list N) (m : list (N * list N)) : list (N * list N) :=
  let expected := simple_or_self simple cp in
  match l with
  | [] => m
  | [x] => if negb (x =? expected) then map_set cp l m else m
  | _ => map_set cp l m
  end.
(** the maps _fullLowercase, _fullTitlecase, _fullUppercase *)
Record special := mkSp { sp_lower : list (N * list N); sp_title : list (N * list N); sp_upper : list (N * list N) }.
(** one line of SpecialCasing.txt, ucd_parser.cpp:728-774 *)
Definition load_special_line (d : ucdata) (m : special) (line : str) : special :=
  match trim line with
  | [] => m
  | c :: _ =>
      let t := trim line in
      let parts := split_semi t in
      if (c =? ch_hash) || (length parts <? 4)%nat then m
      else if match find_char ch_hash t with Some i => (4 <? count_char ch_semi (firstn i t))%nat | None => false end then m
      else
        let cp := parse_codepoint (field parts 0) in
        mkSp (store_special (d_lower d) cp (parse_codepoints (field parts 1)) (sp_lower m))
             (store_special (d_title d) cp (parse_codepoints (field parts 2)) (sp_title m))
             (store_special (d_upper d) cp (parse_codepoints (field parts 3)) (sp_upper m))
  end.
(** loadSpecialCasing, ucd_parser.cpp:724-775; runs after loadUnicodeData (parseAll, 215-217) *)
Definition load_special_casing (d : ucdata) (lines : list str) : special := fold_left (load_special_line d) lines (mkSp [] [] []).

(** for (cp = first; cp <= last; ++cp).  A [last] of 2^32-1 would loop for ever in C++; not modelled (the list is finite here). *)
Definition cp_range (first last : N) : list N := map (fun k => first + N.of_nat k) (seq 0 (N.to_nat (last + 1 - first))).
(** "first..last" or "cp", ucd_parser.cpp:797-806 and 846-857 *)
Definition parse_range (s : str) : list N :=
  match find_dots s with
  | Some i => cp_range (parse_codepoint (firstn i s)) (parse_codepoint (skipn (i + 2) s))
  | None => [parse_codepoint s]
  end.
Definition insert_all (l : list N) (m : list N) : list N := fold_left (fun m cp => set_insert cp m) l m.
(** one line of CompositionExclusions.txt, ucd_parser.cpp:785-808 *)
Definition load_exclusion_line (m : list N) (line : str) : list N :=
  match trim line with
  | [] => m
  | c :: _ =>
      let t := trim line in
      if c =? ch_hash then m
      else
        let part := trim (match find_char ch_hash t with Some i => firstn i t | None => t end) in
        match part with [] => m | _ => insert_all (parse_range part) m end
  end.
(** loadCompositionExclusions, ucd_parser.cpp:779-809 *)
Definition load_exclusions (lines : list str) : list N := fold_left load_exclusion_line lines [].

(** the sets filled from DerivedNormalizationProps.txt, ucd_parser.h:270-278 *)
Record nprops := mkNp { np_excl : list N; np_nfc_no : list N; np_nfc_maybe : list N; np_nfkc_no : list N; np_nfkc_maybe : list N;
                        np_nfd_no : list N; np_nfkd_no : list N }.
(** the insertions of ucd_parser.cpp:859-889 for all code points of the line *)
Definition insert_props (prop value : str) (cps : list N) (m : nprops) : nprops :=
  let '(mkNp e cn cm kn km dn kdn) := m in
  if str_eqb prop (lit "NFC_QC") then
    if str_eqb value (lit "N") then mkNp e (insert_all cps cn) cm kn km dn kdn
    else if str_eqb value (lit "M") then mkNp e cn (insert_all cps cm) kn km dn kdn else m
  else if str_eqb prop (lit "NFKC_QC") then
    if str_eqb value (lit "N") then mkNp e cn cm (insert_all cps kn) km dn kdn
    else if str_eqb value (lit "M") then mkNp e cn cm kn (insert_all cps km) dn kdn else m
  else if str_eqb prop (lit "NFD_QC") then
    if str_eqb value (lit "N") then mkNp e cn cm kn km (insert_all cps dn) kdn else m
  else if str_eqb prop (lit "NFKD_QC") then
    if str_eqb value (lit "N") then mkNp e cn cm kn km dn (insert_all cps kdn) else m
  else if str_eqb prop (lit "Full_Composition_Exclusion") then mkNp (insert_all cps e) cn cm kn km dn kdn
  else m.
(** one line of DerivedNormalizationProps.txt, ucd_parser.cpp:816-890: comments are only cut off the third field *)
Definition load_nprops_line (m : nprops) (line : str) : nprops :=
  match trim line with
  | [] => m
  | c :: _ =>
      let parts := split_semi (trim line) in
      if (c =? ch_hash) || (length parts <? 2)%nat then m
      else
        let cpPart := trim (field parts 0) in
        let prop := trim (field parts 1) in
        let raw := trim (field parts 2) in
        let value := match find_char ch_hash raw with Some i => trim (firstn i raw) | None => raw end in
        insert_props prop value (parse_range cpPart) m
  end.
(** loadDerivedNormalizationProps, ucd_parser.cpp:812-892; [excl] is what loadCompositionExclusions left *)
Definition load_nprops (excl : list N) (lines : list str) : nprops := fold_left load_nprops_line lines (mkNp excl [] [] [] [] [] []).

(** parseStandardLine, ucd_parser.cpp:86-137: (first, last, property) *)
Definition parse_standard_line (line : str) : option (N * N * str) :=
  let line := match rev line with c :: r => if c =? ch_cr then rev r else line | [] => line end in
  match line with
  | [] => None
  | c :: _ =>
      if (c =? ch_hash) || (c =? ch_at) then None
      else
        let line := match find_char ch_hash line with Some i => firstn i line | None => line end in
        match find_char ch_semi line with
        | None => None
        | Some i =>
            let cpPart := trim (firstn i line) in
            let prop := trim (skipn (i + 1) line) in
            let '(first, last) := match find_dots cpPart with
                                  | Some k => (parse_codepoint (firstn k cpPart), parse_codepoint (skipn (k + 2) cpPart))
                                  | None => (parse_codepoint cpPart, parse_codepoint cpPart)
                                  end in
            if (0x10FFFF <? first) || (0x10FFFF <? last) || (last <? first) then None else Some (first, last, prop)
        end
  end.
(** loadDerivedNames, ucd_parser.cpp:903-918, before the sort by code point *)
Definition load_names (lines : list str) : list (N * str) :=
  flat_map (fun line => match parse_standard_line line with
                        | Some (first, last, prop) => map (fun cp => (cp, trim prop)) (cp_range first last)
                        | None => []
                        end) lines.

(** the loop "names[cp] = name" over the sorted list, multistage_generator.cpp:490-492; names starts as empty strings (line 389) *)
Definition set_name (t : N -> str) (e : N * str) : N -> str := fun x => if x =? fst e then snd e else t x.
Definition assign_names (l : list (N * str)) : N -> str := fold_left set_name l (fun _ => []).

(** ** The writers of case_norm_generator.cpp.  The C++ source text they print is compiled into the constant arrays; modelled is the
    content of the arrays.  The std::sort calls at lines 36, 59, 92, 114, 226, 267 get lists already in key order and are left out. *)
Definition is_canonical (d : list N * str) : bool := str_eqb (snd d) (lit "canonical").
(** writeCccTable, 89-105: the element type is uint8_t; a value outside 0..255 would not compile *)
Definition write_ccc (m : list (N * Z)) : list (N * N) := map (fun e => (fst e, Z.to_N (snd e))) m.
(** writeDecompositionTable, 107-149, and writeCompatibilityDecompositionTable, 219-264: [length] of the padded targets is targets.size() *)
Definition write_canonical (m : list (N * (list N * str))) : list (N * list N) :=
  map (fun e => (fst e, fst (snd e))) (filter (fun e => is_canonical (snd e)) m).
Definition write_compat (m : list (N * (list N * str))) : list (N * list N) :=
  map (fun e => (fst e, fst (snd e))) (filter (fun e => negb (is_canonical (snd e))) m).
(** writeCompositionTable, 151-172: the entries before std::sort *)
Definition compositions (m : list (N * (list N * str))) (excl : list N) : list (N * N * N) :=
  flat_map (fun e => match fst (snd e) with
                     | [a; b] => if is_canonical (snd e) && negb (set_has (fst e) excl) then [(a, b, fst e)] else []
                     | _ => []
                     end) m.
(** the comparison passed to std::sort, 168-172 *)
Definition comp_less (x y : N * N * N) : bool :=
  let '(a, b, _) := x in let '(a', b', _) := y in if negb (a =? a') then a <? a' else b <? b'.
(** generateCaseNormFile, 293-364: the tables of normalization.cpp; [sorted] is what std::sort made of [compositions] *)
Definition gen_norm (d : ucdata) (p : nprops) (sorted : list (N * N * N)) : norm_tables :=
  {| t_ccc := write_ccc (d_ccc d); t_canon := write_canonical (d_dec d); t_compat := write_compat (d_dec d); t_comp := sorted;
     t_excl := np_excl p; t_nfc_no := np_nfc_no p; t_nfc_maybe := np_nfc_maybe p; t_nfkc_no := np_nfkc_no p;
     t_nfkc_maybe := np_nfkc_maybe p; t_nfd_no := np_nfd_no p; t_nfkd_no := np_nfkd_no p |}.
(** ... and of case_mapping.cpp *)
Definition gen_case (d : ucdata) (sp : special) (fold : list (N * N) * list (N * list N)) : case_tables :=
  {| s_upper := d_upper d; s_lower := d_lower d; s_title := d_title d; s_fold := fst fold;
     f_upper := sp_upper sp; f_lower := sp_lower sp; f_title := sp_title sp; f_fold := snd fold |}.

(** is_full_composition_exclusion, normalization.cpp:298-301 *)
Definition is_full_composition_exclusion (tb : norm_tables) (cp : N) : bool := is_composition_exclusion tb cp.
