(** Model of the property table generator: the loaders of src/libunicode/tablegen/ucd_parser.cpp for PropertyValueAliases.txt and the
    property files, src/libunicode/tablegen/enum_utils.h and src/libunicode/tablegen/multistage_generator.cpp up to the point where the
    records are handed to the multistage table generator (M_Multistage).  Text is a list of byte values, a file the list of its lines. *)
From Coq Require Import Ascii String.
From Verif Require Import Base M_TableGen.
Open Scope N_scope.

(** ** std::map<std::string, V> and std::set<std::string>: lists in key order (std::string compares bytes as unsigned char) *)
Fixpoint str_ltb (a b : str) : bool :=
  match a, b with
  | _, [] => false
  | [], _ :: _ => true
  | x :: a', y :: b' => (x <? y) || ((x =? y) && str_ltb a' b')
  end.
Fixpoint smap_set {V} (k : str) (v : V) (m : list (str * V)) : list (str * V) :=
  match m with
  | [] => [(k, v)]
  | (k', v') :: r => if str_eqb k k' then (k, v) :: r else if str_ltb k k' then (k, v) :: m else (k', v') :: smap_set k v r
  end.
Fixpoint smap_get {V} (k : str) (m : list (str * V)) : option V :=
  match m with [] => None | (k', v) :: r => if str_eqb k k' then Some v else smap_get k r end.
Fixpoint sset_insert (k : str) (m : list str) : list str :=
  match m with [] => [k] | k' :: r => if str_eqb k k' then m else if str_ltb k k' then k :: m else k' :: sset_insert k r end.
Definition sset_of (l : list str) : list str := fold_left (fun m s => sset_insert s m) l [].
(** std::sort on a vector of strings: equal strings cannot be told apart, so the result is determined *)
Fixpoint sinsert (k : str) (l : list str) : list str :=
  match l with [] => [k] | x :: r => if str_ltb x k then x :: sinsert k r else k :: l end.
Definition ssort (l : list str) : list str := fold_right sinsert [] l.

(** ** Parsing *)
(** find_first_of(" \t;") *)
Fixpoint word_prefix (s : str) : str :=
  match s with [] => [] | c :: r => if (c =? 32) || (c =? 9) || (c =? ch_semi) then [] else c :: word_prefix r end.
(** firstWord, ucd_parser.cpp:140-147 *)
Definition first_word (s : str) : str := word_prefix (trim s).
Fixpoint starts_with (p s : str) : bool :=
  match p, s with [], _ => true | x :: p', y :: s' => (x =? y) && starts_with p' s' | _ :: _, [] => false end.
(** std::string_view::find(std::string): offset of the first occurrence *)
Fixpoint find_sub (p s : str) : option nat :=
  if starts_with p s then Some O else match s with [] => None | _ :: r => match find_sub p r with Some n => Some (S n) | None => None end end.
(** splitSemicolons, ucd_parser.cpp:150-165: trimmed parts; no part after a final semicolon, none for the empty string.
    [split_semi] yields the untrimmed parts, with one more (empty) part in those two cases. *)
Definition split_semicolons (s : str) : list str :=
  let ps := split_semi s in
  map trim (match rev ps with [] :: r => rev r | _ => ps end).

(** PropertyRange, ucd_parser.h: first, last, property (the comment is not modelled) *)
Definition prange := (N * N * str)%type.
Definition r_first (r : prange) : N := fst (fst r).
Definition r_last (r : prange) : N := snd (fst r).
Definition r_prop (r : prange) : str := snd r.

(** loadGenericProperties, ucd_parser.cpp:228-243, before std::sort *)
Definition load_generic (lines : list str) : list prange :=
  flat_map (fun line => match parse_standard_line line with Some (a, b, p) => [(a, b, first_word p)] | None => [] end) lines.
Definition push {V} (k : str) (v : V) (m : list (str * list V)) : list (str * list V) :=
  smap_set k (match smap_get k m with Some l => l | None => [] end ++ [v]) m.
(** one line of loadGroupedProperties, ucd_parser.cpp:245-284 with headerKey; state: currentGroup and the map *)
Definition load_grouped_line (key : str) (st : str * list (str * list prange)) (line : str) : str * list (str * list prange) :=
  let '(group, m) := st in
  match trim line with
  | c :: _ =>
      if c =? ch_hash then
        match find_sub (key ++ [58]) line, line with
        | Some pos, c0 :: _ =>
            if c0 =? ch_hash then
              let g := first_word (trim (skipn (pos + length key + 1) line)) in
              (g, match smap_get g m with Some _ => m | None => smap_set g [] m end)
            else st
        | _, _ => st
        end
      else match parse_standard_line line with Some (a, b, p) => (group, push group (a, b, first_word p) m) | None => st end
  | [] => match parse_standard_line line with Some (a, b, p) => (group, push group (a, b, first_word p) m) | None => st end
  end.
(** ... the map before the std::sort of each group *)
Definition load_grouped (key : str) (lines : list str) : list (str * list prange) := snd (fold_left (load_grouped_line key) lines ([], [])).

(** loadPropertyValueAliases, ucd_parser.cpp:288-328; state: currentProperty and _propertyValues *)
Definition pva := list (str * list (str * str)).
Definition blacklisted (p : str) : bool := str_eqb p (lit "Block").
Definition load_pva_line (st : str * pva) (line : str) : str * pva :=
  let '(cur, m) := st in
  let sv := trim line in
  match sv with
  | [] => st
  | c :: _ =>
      if starts_with (lit "# ") sv then
        let content := skipn 2 sv in
        match find_sub (lit " (") content with
        | Some pos =>
            if match rev content with x :: _ => x =? 41 | [] => false end then
              let p := firstn pos content in (p, if blacklisted p then m else smap_set p [] m)
            else st
        | None => st
        end
      else if c =? ch_hash then st
      else
        let parts := split_semicolons sv in
        if (length parts <? 3)%nat then st
        else if blacklisted cur then st
        else
          let a := first_word (field parts 1) in
          let v := first_word (field parts 2) in
          (cur, smap_set cur (smap_set a v (match smap_get cur m with Some l => l | None => [] end)) m)
  end.
Definition load_pva (lines : list str) : pva := snd (fold_left load_pva_line lines ([], [])).
(** findPva, multistage_generator.cpp:338-342 *)
Definition find_pva (m : pva) (key : string) : list (str * str) := match smap_get (lit key) m with Some l => l | None => [] end.

(** loadGeneralCategory, ucd_parser.cpp:332-363; None: std::map::at throws.  State: catName, _generalCategoryMap, _generalCategory. *)
Definition load_gc_line (aliases : list (str * str)) (st : option (str * list (str * list prange) * list prange)) (line : str) :=
  match st with
  | None => None
  | Some (cat, m, l) =>
      let header := lit "# General_Category=" in
      if starts_with header line then
        let g := trim (skipn (length header) line) in
        Some (g, match smap_get g m with Some _ => m | None => smap_set g [] m end, l)
      else match parse_standard_line line with
           | None => st
           | Some (a, b, p) =>
               match smap_get (first_word p) aliases with
               | None => None
               | Some full => Some (cat, push cat (a, b, full) m, l ++ [(a, b, full)])
               end
           end
  end.
Definition load_gc (m : pva) (lines : list str) : option (list (str * list prange) * list prange) :=
  match smap_get (lit "General_Category") m with
  | None => None
  | Some aliases =>
      match fold_left (load_gc_line aliases) lines (Some ([], [], [])) with Some (_, g, l) => Some (g, l) | None => None end
  end.

(** loadCoreProperties, ucd_parser.cpp:367-394, before the sorts: (_coreProperties, _indicConjunctBreak) *)
Definition load_core_line (st : list (str * list prange) * list (str * list prange)) (line : str) :=
  let '(core, incb) := st in
  match parse_standard_line line with
  | None => st
  | Some (a, b, p) =>
      match find_char ch_semi p with
      | Some i =>
          let name := trim (firstn i p) in
          let value := trim (skipn (i + 1) p) in
          if str_eqb name (lit "InCB") then (core, push value (a, b, value) incb) else st
      | None => (push (first_word p) (a, b, []) core, incb)
      end
  end.
Definition load_core (lines : list str) := fold_left load_core_line lines ([], []).
(** loadEmojiProps, ucd_parser.cpp:480-494, before the sorts *)
Definition load_emoji_line (st : list (str * list prange)) (line : str) :=
  match parse_standard_line line with
  | None => st
  | Some (a, b, p) => push (first_word p) (a, b, first_word p) st
  end.
Definition load_emoji (lines : list str) := fold_left load_emoji_line lines [].

(** istringstream >> string: isspace in the C locale *)
Definition is_space (c : N) : bool := (c =? 32) || ((9 <=? c) && (c <=? 13)).
Fixpoint take_word (s : str) : str := match s with [] => [] | c :: r => if is_space c then [] else c :: take_word r end.
(** one line of loadEmojiVariationSequences, ucd_parser.cpp:506-529.  std::stoul(text, nullptr, 16) is modelled for texts of hexadecimal digits
    only: sign, "0x" prefix and the exceptions for texts without digits or too large are not (they give None: no entry). *)
Definition load_evs_line (line : str) : list N :=
  let line := match find_char ch_hash line with Some i => firstn i line | None => line end in
  match find_char ch_semi line with
  | None => []
  | Some i =>
      match take_word (drop_front is_space (firstn i line)) with
      | [] => []
      | w => match take_digits 16 w with [] => [] | ds => [value_of 16 ds] end
      end
  end.
(** ... the std::sort and std::unique at 527-528 make it a set *)
Definition load_evs (lines : list str) : list N := insert_all (flat_map load_evs_line lines) [].

(** ** Enumerations: enum_utils.h and multistage_generator.cpp *)
(** a uint8_t counter *)
Definition next8 (i : N) : N := (i + 1) mod 256.
(** for (auto const& s : l) result[s] = idx++ *)
Definition number_all (l : list str) (st : N * list (str * N)) : N * list (str * N) :=
  fold_left (fun '(i, m) s => (next8 i, smap_set s i m)) l st.
(** buildScriptNames, multistage_generator.cpp:219-232 *)
Definition script_names (scripts : list prange) : list str :=
  map lit ["Invalid"; "Unknown"; "Common"]%string ++ filter (fun s => negb (str_eqb s (lit "Common"))) (sset_of (map r_prop scripts)).
(** buildScriptIndex, multistage_generator.cpp:130-144 *)
Definition script_index (scripts : list prange) : list (str * N) :=
  snd (number_all (filter (fun s => negb (str_eqb s (lit "Common"))) (sset_of (map r_prop scripts)))
        (3, smap_set (lit "Common") 2 (smap_set (lit "Unknown") 1 (smap_set (lit "Invalid") 0 [])))).
(** buildGeneralCategoryNames, multistage_generator.cpp:234-244, and buildGeneralCategoryIndex, 146-157 *)
Definition gc_names (gcs : list prange) : list str := lit "Unspecified" :: sset_of (map r_prop gcs).
Definition gc_index (gcs : list prange) : list (str * N) :=
  snd (number_all (sset_of (map r_prop gcs)) (1, smap_set (lit "Unspecified") 0 [])).
(** buildPvaBasedIndex, multistage_generator.cpp:107-128: the empty [first] stands for no first member *)
Definition add_member (st : N * list (str * N)) (v : str) : N * list (str * N) :=
  let '(i, m) := st in match smap_get v m with Some _ => st | None => (next8 i, smap_set v i m) end.
Definition add_abbrev (m : list (str * N)) (e : str * str) : list (str * N) :=
  match smap_get (snd e) m with Some i => smap_set (fst e) i m | None => m end.
Definition pva_index (aliases : list (str * str)) (first : str) : list (str * N) :=
  let st0 := match first with [] => (0, []) | _ => (1, [(first, 0)]) end in
  fold_left add_abbrev aliases (snd (fold_left add_member (ssort (map snd aliases)) st0)).
(** reverseLookup, multistage_generator.cpp:248-259 *)
Definition reverse_lookup (index : list (str * N)) (value : N) (dflt : str) : str :=
  let best := fold_left (fun b e => if (snd e =? value) && (length b <? length (fst e))%nat then fst e else b) index [] in
  match best with [] => dflt | _ => best end.
(** parseVersionNumber, enum_utils.h:118-125, for names of the form V<digits>_<digits>; std::stoi throws on others (None) *)
Definition parse_version (name : str) : option (N * N) :=
  match find_char 95 name with
  | None => None
  | Some u =>
      match take_digits 10 (firstn (u - 1) (skipn 1 name)), take_digits 10 (skipn (u + 1) name) with
      | [], _ => None | _, [] => None
      | a, b => Some (value_of 10 a, value_of 10 b)
      end
  end.
(** std::pair's operator< on ((major, minor), name) *)
Definition version_less (x y : (N * N) * str) : bool :=
  let '((a, b), s) := x in let '((a', b'), s') := y in
  (a <? a') || ((a =? a') && ((b <? b') || ((b =? b') && str_ltb s s'))).
Fixpoint vinsert (k : (N * N) * str) (l : list ((N * N) * str)) : list ((N * N) * str) :=
  match l with [] => [k] | x :: r => if version_less x k then x :: vinsert k r else k :: l end.
Fixpoint versions (aliases : list (str * str)) : option (list ((N * N) * str)) :=
  match aliases with
  | [] => Some []
  | (_, full) :: r =>
      match versions r with
      | None => None
      | Some l => if str_eqb full (lit "Unassigned") then Some l else match parse_version full with Some v => Some ((v, full) :: l) | None => None end
      end
  end.
(** buildAgeEnumMembers, enum_utils.h:129-147 (std::sort on pairs: the order is total, the result determined); None: std::stoi throws *)
Definition age_members (aliases : list (str * str)) : option (list str) :=
  match versions aliases with None => None | Some l => Some (lit "Unassigned" :: map snd (fold_right vinsert [] l)) end.
(** buildEnumIndexMap, enum_utils.h:48-54: static_cast<uint8_t>(i) *)
Definition enum_index (members : list str) : list (str * N) := snd (number_all members (0, [])).
(** buildAgeIndex, enum_utils.h:151-159 *)
Definition age_index (members : list str) (aliases : list (str * str)) : list (str * N) := fold_left add_abbrev aliases (enum_index members).

(** ** Code point records.  std::vector<CodepointRecord> (array of structs) is modelled as one array, a function from code points, per
    field: every loop of generateMultistageFiles writes a single field. *)
Definition set_range (r : prange) (v : N) (t : N -> N) : N -> N := fun x => if (r_first r <=? x) && (x <=? r_last r) then v else t x.
Definition or_range (r : prange) (flag : N) (t : N -> N) : N -> N := fun x => if (r_first r <=? x) && (x <=? r_last r) then N.lor (t x) flag else t x.
(** "auto it = index.find(r.property); if (it == end) continue; for (cp ...) records[cp].field = it->second" (e.g. 412-419) *)
Definition fill (index : list (str * N)) (ranges : list prange) (t : N -> N) : N -> N :=
  fold_left (fun t r => match smap_get (r_prop r) index with Some i => set_range r i t | None => t end) ranges t.
Definition or_all (flag : N) (ranges : list prange) (t : N -> N) : N -> N := fold_left (fun t r => or_range r flag t) ranges t.
Definition group (m : list (str * list prange)) (k : string) : list prange := match smap_get (lit k) m with Some l => l | None => [] end.
Definition get_or (index : list (str * N)) (k : string) (d : N) : N := match smap_get (lit k) index with Some i => i | None => d end.
Definition has_prop (l : list string) (r : prange) : bool := existsb (fun p => str_eqb (r_prop r) (lit p)) l.

(** what the parser has loaded, after its sorts *)
Record pdata := mkPd {
  pd_pva : pva; pd_scripts : list prange; pd_gc : list prange; pd_core : list (str * list prange); pd_incb : list (str * list prange);
  pd_isc : list prange; pd_evs : list N; pd_age : list prange; pd_gcb : list (str * list prange); pd_wb : list (str * list prange);
  pd_eaw : list prange; pd_emoji : list (str * list prange); pd_hst : list prange }.
(** all ranges of a grouped property, in the order "for [name, ranges] in map: for r in ranges" *)
Definition ungroup (m : list (str * list prange)) : list prange := concat (map snd m).

(** multistage_generator.cpp:391-409 (defaults), 411-419 *)
Definition rec_script (d : pdata) : N -> N :=
  let ix := script_index (pd_scripts d) in fill ix (pd_scripts d) (fun _ => get_or ix "Unknown" 1).
(** multistage_generator.cpp:479-488 *)
Definition rec_gc (d : pdata) : N -> N :=
  let ix := gc_index (pd_gc d) in fill ix (pd_gc d) (fun _ => get_or ix "Unassigned" 0).
Definition gcb_index (d : pdata) := pva_index (find_pva (pd_pva d) "Grapheme_Cluster_Break") (lit "Undefined").
Definition eaw_index (d : pdata) := pva_index (find_pva (pd_pva d) "East_Asian_Width") [].
Definition incb_index (d : pdata) := pva_index (find_pva (pd_pva d) "Indic_Conjunct_Break") [].
Definition wb_index (d : pdata) := pva_index (find_pva (pd_pva d) "Word_Break") [].
(** multistage_generator.cpp:494-505 *)
Definition rec_gcb (d : pdata) : N -> N := fill (gcb_index d) (ungroup (pd_gcb d)) (fun _ => get_or (gcb_index d) "Other" 0).
(** multistage_generator.cpp:507-516: the value is the group's name *)
Definition rec_incb (d : pdata) : N -> N :=
  fold_left (fun t g => match smap_get (fst g) (incb_index d) with Some i => fold_left (fun t r => set_range r i t) (snd g) t | None => t end)
    (pd_incb d) (fun _ => get_or (incb_index d) "None" 3).
(** multistage_generator.cpp:518-529 *)
Definition rec_wb (d : pdata) : N -> N := fill (wb_index d) (ungroup (pd_wb d)) (fun _ => get_or (wb_index d) "Other" 18).
(** multistage_generator.cpp:531-539 *)
Definition rec_eaw (d : pdata) : N -> N := fill (eaw_index d) (pd_eaw d) (fun _ => get_or (eaw_index d) "Narrow" 0).
(** multistage_generator.cpp:456-477: the property is looked up as an abbreviation *)
Definition rec_age (members : list str) (d : pdata) : N -> N :=
  let al := find_pva (pd_pva d) "Age" in
  let ix := age_index members al in
  fold_left (fun t r => match smap_get (r_prop r) al with
                        | Some ((_ :: _) as full) => match smap_get full ix with Some i => set_range r i t | None => t end
                        | _ => t
                        end) (pd_age d) (fun _ => 0).

(** codepoint_properties.h:40-50 and multistage_generator.cpp:43-50 *)
Definition FlagEmoji := 0x01. Definition FlagEmojiPresentation := 0x02. Definition FlagEmojiComponent := 0x04. Definition FlagEmojiModifier := 0x08.
Definition FlagEmojiModifierBase := 0x10. Definition FlagExtendedPictographic := 0x20. Definition FlagCoreGraphemeExtend := 0x40.
Definition FlagVirama := 0x80. Definition Flag2EmojiVariationBase := 0x01.
(** multistage_generator.cpp:543-556 *)
Definition emoji_flag (name : str) : option N :=
  if str_eqb name (lit "Emoji") then Some FlagEmoji
  else if str_eqb name (lit "Emoji_Component") then Some FlagEmojiComponent
  else if str_eqb name (lit "Emoji_Modifier") then Some FlagEmojiModifier
  else if str_eqb name (lit "Emoji_Modifier_Base") then Some FlagEmojiModifierBase
  else if str_eqb name (lit "Emoji_Presentation") then Some FlagEmojiPresentation
  else if str_eqb name (lit "Extended_Pictographic") then Some FlagExtendedPictographic
  else None.
(** multistage_generator.cpp:421-430 (Grapheme_Extend), 446-449 (Virama), 541-562 (emoji properties); the flags start as 0 *)
Definition rec_flags (d : pdata) : N -> N :=
  let t1 := or_all FlagCoreGraphemeExtend (group (pd_core d) "Grapheme_Extend") (fun _ => 0) in
  let t2 := or_all FlagVirama (filter (has_prop ["Virama"; "Invisible_Stacker"]%string) (pd_isc d)) t1 in
  fold_left (fun t g => match emoji_flag (fst g) with Some f => or_all f (snd g) t | None => t end) (pd_emoji d) t2.
(** multistage_generator.cpp:451-454 *)
Definition rec_flags2 (d : pdata) : N -> N :=
  fold_left (fun t cp => if cp <? 0x110000 then (fun x => if x =? cp then N.lor (t x) Flag2EmojiVariationBase else t x) else t) (pd_evs d) (fun _ => 0).

(** EmojiSegmentationCategory values, multistage_generator.cpp:55-73 *)
Definition ESC_Invalid := (-1)%Z. Definition ESC_Emoji := 0%Z. Definition ESC_EmojiTextPresentation := 1%Z. Definition ESC_EmojiEmojiPresentation := 2%Z.
Definition ESC_EmojiModifierBase := 3%Z. Definition ESC_EmojiModifier := 4%Z. Definition ESC_RegionalIndicator := 6%Z. Definition ESC_KeyCapBase := 7%Z.
Definition ESC_CombiningEnclosingKeyCap := 8%Z. Definition ESC_CombiningEnclosingCircleBackslash := 9%Z. Definition ESC_ZWJ := 10%Z.
Definition ESC_VS15 := 11%Z. Definition ESC_VS16 := 12%Z. Definition ESC_TagBase := 13%Z. Definition ESC_TagSequence := 14%Z. Definition ESC_TagTerm := 15%Z.
Definition flag_set (flags f : N) : bool := negb (N.land flags f =? 0).
(** computeEmojiSegmentationCategory, multistage_generator.cpp:180-215 *)
Definition compute_esc (cp flags gcb gcb_ri : N) : Z :=
  if cp =? 0x20e3 then ESC_CombiningEnclosingKeyCap
  else if cp =? 0x20e0 then ESC_CombiningEnclosingCircleBackslash
  else if cp =? 0x200d then ESC_ZWJ
  else if cp =? 0xfe0e then ESC_VS15
  else if cp =? 0xfe0f then ESC_VS16
  else if cp =? 0x1f3f4 then ESC_TagBase
  else if ((0xE0030 <=? cp) && (cp <=? 0xE0039)) || ((0xE0061 <=? cp) && (cp <=? 0xE007A)) then ESC_TagSequence
  else if cp =? 0xE007F then ESC_TagTerm
  else if flag_set flags FlagEmojiModifierBase then ESC_EmojiModifierBase
  else if flag_set flags FlagEmojiModifier then ESC_EmojiModifier
  else if gcb =? gcb_ri then ESC_RegionalIndicator
  else if ((48 <=? cp) && (cp <=? 57)) || (cp =? 35) || (cp =? 42) then ESC_KeyCapBase
  else if flag_set flags FlagEmojiPresentation then ESC_EmojiEmojiPresentation
  else if flag_set flags FlagEmoji && negb (flag_set flags FlagEmojiPresentation) then ESC_EmojiTextPresentation
  else if flag_set flags FlagEmoji then ESC_Emoji
  else ESC_Invalid.
(** escName, multistage_generator.cpp:261-284 *)
Definition esc_name (i : Z) : string :=
  match i with
  | -1 => "Invalid" | 0 => "Emoji" | 1 => "EmojiTextPresentation" | 2 => "EmojiEmojiPresentation" | 3 => "EmojiModifierBase"
  | 4 => "EmojiModifier" | 5 => "EmojiVSBase" | 6 => "RegionalIndicator" | 7 => "KeyCapBase" | 8 => "CombiningEnclosingKeyCap"
  | 9 => "CombiningEnclosingCircleBackslash" | 10 => "ZWJ" | 11 => "VS15" | 12 => "VS16" | 13 => "TagBase" | 14 => "TagSequence"
  | 15 => "TagTerm" | _ => "Invalid"
  end%Z%string.

(** computeCharWidth, multistage_generator.cpp:163-178 *)
Definition compute_width (gc flags eaw : N) (zero : list N) (eaw_wide eaw_full : N) : N :=
  if existsb (N.eqb gc) zero then 0
  else if flag_set flags FlagEmojiPresentation then 2
  else if (eaw =? eaw_wide) || (eaw =? eaw_full) then 2
  else 1.
(** zeroWidthGCs, multistage_generator.cpp:370-384 *)
Definition zero_gcs (ix : list (str * N)) : list N :=
  flat_map (fun n => match smap_get (lit n) ix with Some i => [i] | None => [] end)
    ["Control"; "Enclosing_Mark"; "Format"; "Line_Separator"; "Nonspacing_Mark"; "Paragraph_Separator"; "Spacing_Mark"; "Surrogate"]%string.
Definition covered (l : list prange) (x : N) : bool := existsb (fun r => (r_first r <=? x) && (x <=? r_last r)) l.
(** char_width: multistage_generator.cpp:571-574, then 588-608 (rendered format characters, U+00AD), then 613-618 (Hangul V and T) *)
Definition rec_width (d : pdata) : N -> N :=
  let ix := gc_index (pd_gc d) in
  let wide := get_or (eaw_index d) "Wide" 0 in
  let full := get_or (eaw_index d) "Fullwidth" 0 in
  let t1 := fun x => compute_width (rec_gc d x) (rec_flags d x) (rec_eaw d x) (zero_gcs ix) wide full in
  let prepend := filter (has_prop ["Prepend"]%string) (ungroup (pd_gcb d)) in
  let t2 := match smap_get (lit "Format") ix with
            | Some f => fun x => if (rec_gc d x =? f) && covered prepend x then 1 else t1 x
            | None => t1
            end in
  let t3 := fun x => if x =? 0x00AD then 1 else t2 x in
  fold_left (fun t r => if has_prop ["V"; "T"]%string r then set_range r 0 t else t) (pd_hst d) t3.
(** multistage_generator.cpp:359-362, 565-569 *)
Definition rec_esc (d : pdata) (x : N) : Z :=
  compute_esc x (rec_flags d x) (rec_gcb d x) (get_or (gcb_index d) "Regional_Indicator" 0).

(** the initializer printed for a record, 686-701: enumerator names *)
Record orec := mkO { o_width : N; o_flags : N; o_flags2 : N; o_script : str; o_gcb : str; o_eaw : str; o_gc : str; o_esc : str; o_age : str; o_incb : str; o_wb : str }.
Definition name_at (names : list str) (i : N) (dflt : string) : str := nth (N.to_nat i) names (lit dflt).
Definition out_record (members : list str) (d : pdata) (x : N) : orec :=
  mkO (rec_width d x) (rec_flags d x) (rec_flags2 d x)
      (name_at (script_names (pd_scripts d)) (rec_script d x) "Unknown")
      (reverse_lookup (gcb_index d) (rec_gcb d x) (lit "Other"))
      (reverse_lookup (eaw_index d) (rec_eaw d x) (lit "Narrow"))
      (name_at (gc_names (pd_gc d)) (rec_gc d x) "Unspecified")
      (lit (esc_name (rec_esc d x)))
      (name_at members (rec_age members d x) "Unassigned")
      (reverse_lookup (incb_index d) (rec_incb d x) (lit "None"))
      (reverse_lookup (wb_index d) (rec_wb d x) (lit "Other")).

(** ** The properties table.  CodepointRecord, multistage_generator.cpp:76-89: eleven bytes, compared with memcmp (94-97); the emoji
    segmentation category is an int8_t. *)
Record crec := mkC { c_width : N; c_flags : N; c_flags2 : N; c_script : N; c_gcb : N; c_eaw : N; c_gc : N; c_esc : N; c_age : N; c_incb : N; c_wb : N }.
Definition int8_of (z : Z) : N := Z.to_N (z mod 256).
Definition of_int8 (b : N) : Z := if b <? 128 then Z.of_N b else (Z.of_N b - 256)%Z.
Definition rec_at (members : list str) (d : pdata) (x : N) : crec :=
  mkC (rec_width d x) (rec_flags d x) (rec_flags2 d x) (rec_script d x) (rec_gcb d x) (rec_eaw d x) (rec_gc d x) (int8_of (rec_esc d x))
      (rec_age members d x) (rec_incb d x) (rec_wb d x).
Definition rec_bytes (r : crec) : list N :=
  [c_width r; c_flags r; c_flags2 r; c_script r; c_gcb r; c_eaw r; c_gc r; c_esc r; c_age r; c_incb r; c_wb r].
Definition crec_eqb (a b : crec) : bool := str_eqb (rec_bytes a) (rec_bytes b).
(** the input of support::generate, 640-642: records.data(), one record per code point, with its object bytes *)
Definition rec_cells (members : list str) (d : pdata) : list (crec * list N) :=
  map (fun i => let r := rec_at members d (N.of_nat i) in (r, rec_bytes r)) (seq 0 (N.to_nat 0x110000)).
(** the initializer printed for an entry of stage 3, 685-701 *)
Definition print_rec (members : list str) (d : pdata) (r : crec) : orec :=
  mkO (c_width r) (c_flags r) (c_flags2 r)
      (name_at (script_names (pd_scripts d)) (c_script r) "Unknown")
      (reverse_lookup (gcb_index d) (c_gcb r) (lit "Other"))
      (reverse_lookup (eaw_index d) (c_eaw r) (lit "Narrow"))
      (name_at (gc_names (pd_gc d)) (c_gc r) "Unspecified")
      (lit (esc_name (of_int8 (c_esc r))))
      (name_at members (c_age r) "Unassigned")
      (reverse_lookup (incb_index d) (c_incb r) (lit "None"))
      (reverse_lookup (wb_index d) (c_wb r) (lit "Other")).
