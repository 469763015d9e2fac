(** What the functions of the generated ucd.cpp answer, in terms of the files of the Unicode Character Database (C136). *)
From Coq Require Import String Permutation.
From Verif Require Import Base M_TableGen M_PropGen M_UcdApi M_Tables M_Emit M_EmitUcd Spec_TableGen Spec_PropGen Spec_UcdApi Spec_Cpp Spec_EmitUcd.
Open Scope N_scope.

(** the files read for ucd.cpp besides those of [ucd_files]; [ap_pre], [ap_secs]: the sections of DerivedGeneralCategory.txt *)
Record api_files := mkAp { ap_pre : list (fline stline); ap_secs : list gsection; ap_sce : list (fline stline); ap_blocks : list (fline stline);
  ap_ud : list (fline udline); ap_mirror : list (fline stline) }.
(** What is asked of them: lines of the right form, no two lines about the same code point where one value is expected, nothing empty,
    values of East_Asian_Width among A, F, H, N, Na, W. *)
Definition api_files_ok (F : ucd_files) (A : api_files) : Prop :=
  (f_gc F = gc_file (ap_pre A) (ap_secs A) /\ ap_secs A <> [] /\ gc_sections_ok (f_pva F) (ap_pre A) (ap_secs A) /\ separate (f_gc F)) /\
  separate_values (f_core F) /\ separate_values (f_emoji F) /\
  (separate (f_scripts F) /\ nonempty (f_scripts F)) /\
  (separate (f_eaw F) /\ nonempty (f_eaw F) /\ forall c w, gives (f_eaw F) c w -> exists v, width_enum w v) /\
  (separate (f_gcb F) /\ nonempty (f_gcb F) /\ grouped_file GCB (f_gcb F)) /\
  (lines_ok (fun l => exists ws, sce_line l ws) (ap_sce A) /\ separate (ap_sce A) /\ nonempty (ap_sce A) /\
   forall c ws w, lists (ap_sce A) c ws -> In w ws -> exists v, alias (f_pva F) SC w v) /\
  (lines_ok st_ok (ap_blocks A) /\ ascending (ap_blocks A) /\ exists l, has (ap_blocks A) l /\ is_span (st_span l)) /\
  (lines_ok flag_line (ap_ud A) /\ one_line_each (ap_ud A) /\ exists x, mirrored (ap_ud A) x) /\
  (mirror_file (ap_mirror A) /\ one_mirror_each (ap_mirror A)) /\
  exists a v, alias (f_pva F) AGE a v.
(** The values that become names in the program are identifiers, the versions of Age can be written as string literals. *)
Definition names_ok (F : ucd_files) (A : api_files) : Prop :=
  (forall c w, gives (f_scripts F) c w -> identifier w) /\ (forall c w, gives (f_core F) c w -> word w -> identifier w) /\
  (forall c w, gives (f_emoji F) c w -> identifier w) /\ (forall c w, gives (f_gcb F) c w -> identifier w) /\
  (forall prop a v, In prop [GC; SC; AGE] -> alias (f_pva F) prop a v -> identifier v) /\
  (forall c ws, lists (ap_sce A) c ws -> Forall identifier ws) /\
  (forall l, has (ap_blocks A) l -> is_span (st_span l) -> identifier (Spec_UcdApi.identifier (st_prop l))) /\
  (forall a v, alias (f_pva F) AGE a v -> Forall (fun c => c <> 34 /\ c <> 10 /\ c <> 92) a).
(** fewer than 2^64 lines, fewer than 2^64 scripts in one list, fewer than 2^64 versions *)
Definition sizes_ok (F : ucd_files) (A : api_files) : Prop :=
  Forall (fun f => few (data f)) [f_scripts F; f_gc F; f_core F; f_emoji F; f_gcb F; f_eaw F; ap_sce A; ap_blocks A; ap_mirror A] /\ few (data (ap_ud A)) /\
  (forall c ws, lists (ap_sce A) c ws -> few ws) /\ forall al, (forall a v, In (a, v) al -> alias (f_pva F) AGE a v) -> NoDup (map fst al) -> few al.

(** ** What the generator has loaded.  std::sort may leave any sorted permutation. *)
Definition without_comments (e : str * list crange) : str * list prange := (fst e, map fst (snd e)).
Definition loaded_api (crlf : bool) (F : ucd_files) (A : api_files) (u : ucd_src) : Prop :=
  let text f := file_text st_text crlf f in
  u_pva u = load_pva (pva_text crlf (f_pre F) (f_pva F)) /\
  (exists l, load_gc (u_pva u) (text (f_gc F)) = Some (map without_comments (u_cats u), l) /\ sorted_by_first l (map fst (u_gcs u))) /\
  groups_sorted (fst (load_core (text (f_core F)))) (map without_comments (u_core u)) /\
  groups_sorted (load_emoji (text (f_emoji F))) (map without_comments (u_emoji u)) /\
  sorted_by_first (load_generic (text (f_scripts F))) (map fst (u_scripts u)) /\
  sorted_by_first (load_generic (text (f_eaw F))) (map fst (u_widths u)) /\
  groups_sorted (load_grouped (lit "Property") (text (f_gcb F))) (map without_comments (u_breaks u)) /\
  sorted_by_first (load_sce (text (ap_sce A))) (map fst (u_sces u)) /\
  u_blocks u = load_blocks (text (ap_blocks A)) /\
  u_mirrored u = load_mirrored (file_text ud_text crlf (ap_ud A)) /\
  u_glyphs u = load_mirroring (text (ap_mirror A)).
(** every comment, as it was copied from the files, is one line and does not end in a backslash *)
Definition comments_ok (u : ucd_src) : Prop :=
  let ok c := one_line c /\ last c 0 <> 92 in
  Forall (fun e => Forall (fun r => ok (snd r)) (snd e)) (u_core u ++ u_cats u ++ u_emoji u ++ u_breaks u) /\
  Forall (fun r => ok (snd r)) (u_gcs u ++ u_scripts u ++ u_widths u) /\ Forall (fun r => ok (snd r)) (u_sces u).

(** ** The answers.  [search], [contains]: ucd_private.h (M_Tables).  The program [cpp] defines an array of ranges with the enumerators and a
    function that looks a code point up in it. *)
Definition looks_up (cpp table type enum text default : str) (spec : N -> str -> Prop) : Prop :=
  exists l, enum_table cpp table type enum l /\ contains_text cpp text /\ forall c, exists v, value_or (search l c) default = Ok v /\ spec c v.
Definition tests (cpp table text : str) (spec : N -> Prop) : Prop :=
  exists l, interval_table_in cpp table l /\ contains_text cpp text /\ forall c, exists b, contains l c = Ok b /\ (b = true <-> spec c).
(** the value the file gives, or the default for code points the file does not mention *)
Definition value_in (f : list (fline stline)) (default : str) (c : N) (v : str) : Prop := gives f c v \/ (forall w, ~ gives f c w) /\ v = default.
Definition cpp_answers (cpp : str) (F : ucd_files) (A : api_files) : Prop :=
  looks_up cpp (lit "Script") (lit "Prop<unicode::Script>") (lit "unicode::Script")
    (fun_text (lit "Script") (lit "script") (search_text (lit "Script") (lit "Script::Unknown"))) (lit "Unknown") (value_in (f_scripts F) (lit "Unknown")) /\
  looks_up cpp (lit "General_Category") (lit "Prop<::unicode::General_Category>") (lit "::unicode::General_Category")
    (lit "General_Category get(char32_t value) noexcept { return search(tables::General_Category, value).value_or(General_Category::Unspecified); }") (lit "Unspecified")
    (fun c v => (exists a, gives (f_gc F) c a /\ alias (f_pva F) GC a v) \/ (forall a, ~ gives (f_gc F) c a) /\ v = lit "Unspecified") /\
  (exists names, forall name, (exists c a, gives (f_gc F) c a /\ alias (f_pva F) GC a name) -> In name names /\
     tests cpp name (switch_text (lit "General_Category") (lit "generalCategory") names (lit "case General_Category::Unspecified: return false;"))
       (fun c => exists a, gives (f_gc F) c a /\ alias (f_pva F) GC a name)) /\
  (exists names, forall name, word name -> (exists c, gives (f_core F) c name) -> In name names /\
     tests cpp name (switch_text (lit "Core_Property") (lit "prop") names []) (fun c => gives (f_core F) c name)) /\
  (forall name, (exists c, gives (f_emoji F) c name) ->
     tests cpp name (fun_text (lit "bool") (lit "is_" ++ map down name) (contains_call name)) (fun c => gives (f_emoji F) c name)) /\
  looks_up cpp (lit "EastAsianWidth") (lit "Prop<::unicode::EastAsianWidth>") (lit "::unicode::EastAsianWidth")
    (fun_text (lit "EastAsianWidth") (lit "east_asian_width") (search_text (lit "EastAsianWidth") (lit "EastAsianWidth::Unspecified"))) (lit "Unspecified")
    (fun c v => (exists w, gives (f_eaw F) c w /\ width_enum w v) \/ (forall w, ~ gives (f_eaw F) c w) /\ v = lit "Unspecified") /\
  looks_up cpp GCB (lit "Prop<::unicode::" ++ GCB ++ lit ">") (lit "::unicode::" ++ GCB)
    (fun_text GCB (lit "grapheme_cluster_break") (search_text GCB (GCB ++ lit "::Undefined"))) (lit "Undefined") (value_in (f_gcb F) (lit "Undefined")) /\
  looks_up cpp (lit "Block") (lit "Prop<::unicode::Block>") (lit "::unicode::Block")
    (fun_text (lit "Block") (lit "block") (search_text (lit "Block") (lit "::unicode::Block::Unspecified"))) (lit "Unspecified")
    (fun c v => (exists l, has (ap_blocks A) l /\ is_span (st_span l) /\ covers (st_span l) c /\ v = Spec_UcdApi.identifier (st_prop l)) \/
                (forall l, has (ap_blocks A) l -> is_span (st_span l) -> ~ covers (st_span l) c) /\ v = lit "Unspecified") /\
  tests cpp (lit "Bidi_Mirrored") (fun_text (lit "bool") (lit "is_mirrored") (contains_call (lit "Bidi_Mirrored"))) (mirrored (ap_ud A)) /\
  (exists l, has_table cpp Assigned (lit "std::pair<char32_t, char32_t>") (lit "Bidi_Mirroring_Glyph") (read_typed_pair (lit "std::pair<char32_t, char32_t>")) l /\
     contains_text cpp glyph_fun /\
     forall c, let glyph := match find_entry fst l c with Some e => snd e | None => c end in
       (forall t, mirrors (ap_mirror A) c t -> glyph = t) /\ ((forall t, ~ mirrors (ap_mirror A) c t) -> glyph = c)) /\
  (exists l, has_table cpp (Direct false) sce_type (lit "sce") (read_view sce_type) l /\ contains_text cpp sce_fun /\
     forall c, exists r, search l c = Ok r /\
       match r with
       | Some array => exists vs ws vs', has_table cpp Assigned (lit "unicode::Script") array (read_enum (lit "unicode::Script")) vs /\
                         lists (ap_sce A) c ws /\ Forall2 (alias (f_pva F) SC) ws vs' /\ Permutation vs' vs
       | None => forall ws, ~ lists (ap_sce A) c ws
       end) /\
  (exists l, has_table cpp Assigned (lit "std::pair<std::string_view, Age>") (lit "mappings") read_age l /\ contains_text cpp age_intro /\ contains_text cpp age_fun /\
     NoDup (map fst l) /\ forall s v, In (s, v) l <-> alias (f_pva F) AGE s v /\ v <> lit "Unassigned").
