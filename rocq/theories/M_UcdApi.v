(** Model of the ucd.h / ucd.cpp generator, src/libunicode/tablegen/ucd_api_generator.cpp, with the loaders of ucd_parser.cpp it uses and the
    generated functions.  A generated function is modelled by its effect: the array it refers to, and the search it runs on it
    (contains() and search() of ucd_private.h are in M_Tables).  Enumerators are modelled by their names; the printed C++ text is not. *)
From Coq Require Import Ascii String.
From Verif Require Import Base M_TableGen M_PropGen M_Tables.
Open Scope N_scope.

(** ** Loaders *)
(** ParsedLine::isRange, ucd_parser.cpp:112-124 *)
Definition is_range (line : str) : bool :=
  let line := match rev line with c :: r => if c =? ch_cr then rev r else line | [] => line end in
  let line := match find_char ch_hash line with Some i => firstn i line | None => line end in
  match find_char ch_semi line with
  | None => false
  | Some i => match find_dots (trim (firstn i line)) with Some _ => true | None => false end
  end.
(** loadBlocks, ucd_parser.cpp:436-449 *)
Definition load_blocks (lines : list str) : list prange :=
  flat_map (fun line => match parse_standard_line line with
                        | Some (a, b, p) => if is_range line then [(a, b, trim p)] else []
                        | None => []
                        end) lines.
(** the loop "while (iss >> token) props.push_back(token)", ucd_parser.cpp:424-427; [cur] is the current token reversed *)
Fixpoint tokens (cur : str) (s : str) : list str :=
  match s with
  | [] => match cur with [] => [] | _ => [rev cur] end
  | c :: r => if is_space c then match cur with [] => tokens [] r | _ => rev cur :: tokens [] r end else tokens (c :: cur) r
  end.
(** loadScriptExtensions, ucd_parser.cpp:410-432, before the last std::sort *)
Definition sce_range := (N * N * list str)%type.
Definition load_sce (lines : list str) : list sce_range :=
  flat_map (fun line => match parse_standard_line line with
                        | Some (a, b, p) => [(a, b, ssort (tokens [] (trim p)))]
                        | None => []
                        end) lines.
(** one line of loadBidiMirrored, ucd_parser.cpp:538-566: the loop reaches field 9 iff there are ten fields *)
Definition load_mirrored_line (line : str) : list N :=
  match trim line with
  | [] => []
  | c :: _ =>
      if c =? ch_hash then []
      else
        let fields := split_semi (trim line) in
        if (length fields <? 10)%nat then []
        else if str_eqb (trim (field fields 9)) (lit "Y") then [parse_codepoint (field fields 0)] else []
  end.
(** std::sort on code points (567) *)
Fixpoint ninsert (k : N) (l : list N) : list N := match l with [] => [k] | x :: r => if x <? k then x :: ninsert k r else k :: l end.
Definition nsort (l : list N) : list N := fold_right ninsert [] l.
(** "Compress into intervals", ucd_parser.cpp:569-576; [last] is _bidiMirroredIntervals.back(), char32_t arithmetic *)
Fixpoint compress (last : option (N * N)) (l : list N) : list (N * N) :=
  match l with
  | [] => match last with Some i => [i] | None => [] end
  | cp :: r =>
      match last with
      | Some (a, b) => if (b + 1) mod 2 ^ 32 =? cp then compress (Some (a, cp)) r else (a, b) :: compress (Some (cp, cp)) r
      | None => compress (Some (cp, cp)) r
      end
  end.
Definition load_mirrored (lines : list str) : list (N * N) := compress None (nsort (flat_map load_mirrored_line lines)).
(** loadBidiMirroringGlyph, ucd_parser.cpp:581-595; std::sort on std::pair: the order is total, the result determined *)
Definition pair_less (x y : N * N) : bool := (fst x <? fst y) || ((fst x =? fst y) && (snd x <? snd y)).
Fixpoint pinsert (k : N * N) (l : list (N * N)) : list (N * N) := match l with [] => [k] | x :: r => if pair_less x k then x :: pinsert k r else k :: l end.
Definition psort (l : list (N * N)) : list (N * N) := fold_right pinsert [] l.
Definition load_mirroring (lines : list str) : list (N * N) :=
  psort (flat_map (fun line => match parse_standard_line line with Some (a, _, p) => [(a, parse_codepoint p)] | None => [] end) lines).
(** _planes, ucd_parser.cpp:171-191: start, end, name *)
Definition planes : list prange :=
  map (fun e => (fst (fst e), snd (fst e), lit (snd e)))
  [ (0x0000, 0x0FFFF, "Basic Multilingual Plane"); (0x10000, 0x1FFFF, "Supplementary Multilingual Plane");
    (0x20000, 0x2FFFF, "Supplementary Ideographic Plane"); (0x30000, 0x3FFFF, "Tertiary Ideographic Plane");
    (0x40000, 0x4FFFF, "Unassigned"); (0x50000, 0x5FFFF, "Unassigned"); (0x60000, 0x6FFFF, "Unassigned"); (0x70000, 0x7FFFF, "Unassigned");
    (0x80000, 0x8FFFF, "Unassigned"); (0x90000, 0x9FFFF, "Unassigned"); (0xA0000, 0xAFFFF, "Unassigned"); (0xB0000, 0xBFFFF, "Unassigned");
    (0xC0000, 0xCFFFF, "Unassigned"); (0xD0000, 0xDFFFF, "Unassigned");
    (0xE0000, 0xEFFFF, "Supplementary Special-purpose Plane"); (0xF0000, 0xFFFFF, "Supplementary Private Use Area Plane");
    (0x100000, 0x10FFFF, "Supplementary Private Use Area Plane") ]%string.

(** ** The generator *)
(** sanitizeIdentifier, enum_utils.h:56-63 *)
Definition sanitize (s : str) : str := map (fun c => if (c =? 32) || (c =? 45) then 95 else c) s.
(** mergeRanges, ucd_api_generator.cpp:44-82; [cur] is current if current.count > 0, char32_t arithmetic; the comments are not modelled *)
Fixpoint merge_ranges (cur : option prange) (l : list prange) : list prange :=
  match l with
  | [] => match cur with Some c => [c] | None => [] end
  | r :: rest =>
      match cur with
      | Some (a, b, v) =>
          if ((b + 1) mod 2 ^ 32 =? r_first r) && str_eqb v (r_prop r) then merge_ranges (Some (a, r_last r, v)) rest
          else (a, b, v) :: merge_ranges (Some r) rest
      | None => merge_ranges (Some r) rest
      end
  end.
(** widthName, 85-100 *)
Definition width_name (s : str) : str :=
  if str_eqb s (lit "A") then lit "Ambiguous" else if str_eqb s (lit "F") then lit "FullWidth" else if str_eqb s (lit "H") then lit "HalfWidth"
  else if str_eqb s (lit "N") then lit "Neutral" else if str_eqb s (lit "Na") then lit "Narrow" else if str_eqb s (lit "W") then lit "Wide"
  else lit "Unspecified".
(** search(...).value_or(...) *)
Definition value_or {T} (r : Res (option T)) (d : T) : Res T :=
  match r with Ok (Some v) => Ok v | Ok None => Ok d | UB => UB | NoFuel => NoFuel end.
Definition intervals (l : list prange) : list (N * N) := map fst l.

(** plane(), 141-168 *)
Definition api_plane (cp : N) : Res str := value_or (search (map (fun r => (fst r, sanitize (snd r))) planes) cp) (lit "Unassigned").
(** contains(Core_Property, char32_t), 170-197; [name] is the enumerator *)
Definition api_core_contains (core : list (str * list prange)) (name : str) (cp : N) : Res bool :=
  match smap_get name core with Some l => contains (intervals l) cp | None => Ok false end.
(** general_category::get(), 207-229 *)
Definition api_gc_get (gcs : list prange) (cp : N) : Res str := value_or (search gcs cp) (lit "Unspecified").
(** contains(General_Category, char32_t) and is_<name>(), 231-282 *)
Definition api_gc_contains (cats : list (str * list prange)) (name : str) (cp : N) : Res bool :=
  match smap_get name cats with Some l => contains (intervals l) cp | None => Ok false end.
(** script(), 284-307 *)
Definition api_script (scripts : list prange) (cp : N) : Res str := value_or (search scripts cp) (lit "Unknown").
(** the key of a list of scripts, 320-322, 342-344 *)
Definition sce_key (props : list str) : str := fold_left (fun k s => k ++ lit "_" ++ s) props (lit "sce").
(** the arrays of the "Indirected lists", 316-335: the first list with a key defines its array; [al] is the alias map of Script *)
Definition sce_names (al : list (str * str)) (props : list str) : list str := map (fun s => match smap_get s al with Some v => v | None => s end) props.
Definition sce_arrays (al : list (str * str)) (sces : list sce_range) : list (str * list str) :=
  fold_left (fun done r => match smap_get (sce_key (snd r)) done with Some _ => done | None => done ++ [(sce_key (snd r), sce_names al (snd r))] end) sces [].
(** script_extensions(), 337-364: the table refers to the arrays by key; None: propertyValueAliases().at("Script") throws (312) *)
Definition api_script_extensions (m : pva) (sces : list sce_range) : option (N -> Res (option (list str))) :=
  match smap_get (lit "Script") m with
  | None => None
  | Some al =>
      let arrays := sce_arrays al sces in
      Some (fun cp => search (map (fun r => (fst r, match smap_get (sce_key (snd r)) arrays with Some a => a | None => [] end)) sces) cp)
  end.
(** block(), 366-389 *)
Definition api_block (blocks : list prange) (cp : N) : Res str :=
  value_or (search (map (fun r => (fst r, sanitize (snd r))) blocks) cp) (lit "Unspecified").
(** 391-431: one function per group, e.g. grapheme_cluster_break() *)
Definition api_grapheme (groups : list (str * list prange)) (name : str) : option (N -> Res str) :=
  match smap_get name groups with Some l => Some (fun cp => value_or (search l cp) (lit "Undefined")) | None => None end.
(** east_asian_width(), 433-480 *)
Definition api_eaw (widths : list prange) (cp : N) : Res str :=
  value_or (search (map (fun r => (fst r, width_name (snd r))) (merge_ranges None widths)) cp) (lit "Unspecified").
(** is_<emoji property>(), 482-516 *)
Definition api_emoji (emoji : list (str * list prange)) (name : str) : option (N -> Res bool) :=
  match smap_get name emoji with Some l => Some (contains (intervals l)) | None => None end.
(** is_mirrored() and bidi_mirroring_glyph(), 518-565 *)
Definition api_is_mirrored (ivs : list (N * N)) (cp : N) : Res bool := contains ivs cp.
Definition api_mirroring_glyph (pairs : list (N * N)) (cp : N) : N := match find_entry fst pairs cp with Some e => snd e | None => cp end.
(** make_age(), 567-612: the std::sort at 588 gets a list in key order (the map's) and is left out *)
Fixpoint first_pair (value : str) (l : list (str * str)) : option str :=
  match l with [] => None | (k, v) :: r => if str_eqb k value then Some v else first_pair value r end.
Definition api_make_age (m : pva) : option (str -> option str) :=
  match smap_get (lit "Age") m with
  | None => None
  | Some al => Some (fun value => first_pair value (filter (fun e => negb (str_eqb (snd e) (lit "Unassigned"))) al))
  end.
