(** The property files of the Unicode Character Database and the character properties they define, for the theorems about the property
    table generator. *)
From Coq Require Import Ascii String Permutation.
From Verif Require Import Base M_TableGen M_PropGen Spec_TableGen.
Open Scope N_scope.

(** ** Property files in the common format, e.g. Scripts.txt: "0041..005A    ; Latin # L&  [26] LATIN CAPITAL LETTER A.." *)
Definition word (w : str) : Prop := w <> [] /\ no_white w /\ without ch_semi w /\ without ch_hash w.
Definition word_line (l : stline) : Prop := st_ok l /\ word (st_prop l).
(** the file gives [c] the value [w] *)
Definition gives (f : list (fline stline)) (c : N) (w : str) : Prop := exists l, has f l /\ covers (st_span l) c /\ st_prop l = w.
(** no code point has two values *)
Definition single (f : list (fline stline)) : Prop := forall c w w', gives f c w -> gives f c w' -> w = w'.
(** an enumerated property with one value per code point *)
Definition value_file (f : list (fline stline)) : Prop := lines_ok word_line f /\ single f.
(** DerivedCoreProperties.txt has lines "0300 ; Grapheme_Extend" and lines "094D ; InCB; Linker" *)
Definition core_line (l : stline) : Prop := st_ok l /\ (word (st_prop l) \/ exists p v, word p /\ word v /\ st_prop l = p ++ lit "; " ++ v).
Definition incb (v : str) : str := lit "InCB; " ++ v.
Definition core_file (f : list (fline stline)) : Prop := lines_ok core_line f /\
  forall c v v', gives f c (incb v) -> gives f c (incb v') -> v = v'.

(** emoji-variation-sequences.txt: "231A FE0E  ; text style;  # (1.1) WATCH" *)
Record evline := mkEv { ev_base : N; ev_selector : N; ev_gap : nat; ev_tail : str }.
Definition ev_text (e : evline) : str := hexs (ev_base e) ++ spaces 1 ++ hexs (ev_selector e) ++ spaces (ev_gap e) ++ lit ";" ++ ev_tail e.
Definition ev_ok (e : evline) : Prop := ev_base e <= 0x10FFFF /\ ev_selector e <= 0x10FFFF.

(** ** PropertyValueAliases.txt: sections "# General_Category (gc)" of lines "gc ; Cc   ; Control     ; cntrl" *)
Record pvline := mkPv { pv_short : str; pv_g0 : nat; pv_g1 : nat; pv_abbrev : str; pv_g2 : nat; pv_g3 : nat; pv_full : str; pv_tail : str }.
Definition pv_text (l : pvline) : str :=
  pv_short l ++ spaces (pv_g0 l) ++ lit ";" ++ spaces (pv_g1 l) ++ pv_abbrev l ++ spaces (pv_g2 l) ++ lit ";" ++ spaces (pv_g3 l) ++ pv_full l ++ pv_tail l.
(** what may follow the full name: nothing, or something separated by a blank, a tab or a semicolon *)
Definition tail_ok (t : str) : Prop := match t with [] => True | c :: _ => c = 32 \/ c = 9 \/ c = ch_semi end.
Definition pv_ok (l : pvline) : Prop := word (pv_short l) /\ word (pv_abbrev l) /\ word (pv_full l) /\ tail_ok (pv_tail l).
Record section := mkSec { sec_name : str; sec_short : str; sec_body : list (fline pvline) }.
Definition sec_ok (s : section) : Prop := word (sec_name s) /\ lines_ok pv_ok (sec_body s) /\
  (forall q, In (Comment q) (sec_body s) -> without 40 q).
(** comment lines (and blank lines), then the sections *)
Definition pva_text (crlf : bool) (pre : list str) (secs : list section) : list str :=
  file_text (fun s : str => s) crlf (map Comment pre) ++
  flat_map (fun s => file_text pv_text crlf (Comment (lit " " ++ sec_name s ++ lit " (" ++ sec_short s ++ lit ")") :: sec_body s)) secs.
(** [a] is the short name of the value [v] of property [prop] *)
Definition alias (secs : list section) (prop a v : str) : Prop :=
  exists s l, In s secs /\ sec_name s = prop /\ has (sec_body s) l /\ pv_abbrev l = a /\ pv_full l = v.
Definition pva_ok (secs : list section) : Prop :=
  NoDup (map sec_name secs) /\ (forall s, In s secs -> sec_ok s) /\
  (forall prop a v v', prop <> lit "Block" -> alias secs prop a v -> alias secs prop a v' -> v = v').
(** [v] is the long name of the value written [w], which may be the short or the long name *)
Definition names_value (secs : list section) (prop w v : str) : Prop := alias secs prop w v \/ (w = v /\ exists a, alias secs prop a v).
(** the names of the values of an enumerated property: a short name is the long name or shorter, and not the long name of another value; at
    most 255 lines; [first] does not name a value *)
Definition enum_ok (secs : list section) (prop first : str) : Prop :=
  (forall a v, alias secs prop a v -> (a = v \/ (length a < length v)%nat) /\ a <> first /\ v <> first) /\
  (forall a v a' v', alias secs prop a v -> alias secs prop a' v' -> a = v' -> v = v') /\
  (exists l, (length l <= 255)%nat /\ forall a v, alias secs prop a v -> In (a, v) l).
Definition has_value (secs : list section) (prop v : str) : Prop := exists a, alias secs prop a v.

(** ** All files *)
Record ucd_files := mkF {
  f_pre : list str; f_pva : list section; f_scripts : list (fline stline); f_gc : list (fline stline); f_core : list (fline stline);
  f_isc : list (fline stline); f_evs : list (fline evline); f_age : list (fline stline); f_gcb : list (fline stline); f_wb : list (fline stline);
  f_eaw : list (fline stline); f_emoji : list (fline stline); f_hst : list (fline stline) }.
Definition GC : str := lit "General_Category". Definition GCB : str := lit "Grapheme_Cluster_Break". Definition EAW : str := lit "East_Asian_Width".
Definition INCB : str := lit "Indic_Conjunct_Break". Definition WB : str := lit "Word_Break". Definition AGE : str := lit "Age".
(** version names are V<major>_<minor> *)
Definition version_name (a b : N) : str := lit "V" ++ decs a ++ lit "_" ++ decs b.
Definition few_values_in (f : list (fline stline)) : Prop := exists l, (length l <= 253)%nat /\ forall c w, gives f c w -> In w l.
Definition files_ok (F : ucd_files) : Prop :=
  pva_ok (f_pva F) /\
  Forall value_file [f_scripts F; f_gc F; f_isc F; f_age F; f_gcb F; f_wb F; f_eaw F; f_hst F] /\
  core_file (f_core F) /\ lines_ok word_line (f_emoji F) /\ lines_ok ev_ok (f_evs F) /\
  few_values_in (f_scripts F) /\ few_values_in (f_gc F) /\
  (forall c a, gives (f_gc F) c a -> exists v, alias (f_pva F) GC a v) /\
  enum_ok (f_pva F) GCB (lit "Undefined") /\ enum_ok (f_pva F) EAW [] /\ enum_ok (f_pva F) INCB [] /\ enum_ok (f_pva F) WB [] /\ enum_ok (f_pva F) AGE [] /\
  (forall c, ~ gives (f_gcb F) c (lit "Undefined")) /\
  has_value (f_pva F) GCB (lit "Other") /\ has_value (f_pva F) GCB (lit "Regional_Indicator") /\
  has_value (f_pva F) EAW (lit "Narrow") /\ has_value (f_pva F) EAW (lit "Wide") /\ has_value (f_pva F) EAW (lit "Fullwidth") /\
  has_value (f_pva F) INCB (lit "None") /\ has_value (f_pva F) WB (lit "Other") /\
  (forall a v, alias (f_pva F) AGE a v -> v = lit "Unassigned" \/ exists x y, v = version_name x y /\ x < 1000 /\ y < 1000) /\
  (exists a v, alias (f_pva F) GC a v).

(** ** What the generator holds after parsing.  std::sort may leave equal keys in any order: any order of the ranges is allowed. *)
Definition reordered (m m' : list (str * list prange)) : Prop := Forall2 (fun g g' => fst g = fst g' /\ Permutation (snd g) (snd g')) m m'.
Definition parsed (crlf : bool) (F : ucd_files) (d : pdata) : Prop :=
  let text f := file_text st_text crlf f in
  pd_pva d = load_pva (pva_text crlf (f_pre F) (f_pva F)) /\
  Permutation (pd_scripts d) (load_generic (text (f_scripts F))) /\
  (exists m l, load_gc (pd_pva d) (text (f_gc F)) = Some (m, l) /\ Permutation (pd_gc d) l) /\
  reordered (fst (load_core (text (f_core F)))) (pd_core d) /\ reordered (snd (load_core (text (f_core F)))) (pd_incb d) /\
  Permutation (pd_isc d) (load_generic (text (f_isc F))) /\
  pd_evs d = load_evs (file_text ev_text crlf (f_evs F)) /\
  Permutation (pd_age d) (load_generic (text (f_age F))) /\
  reordered (load_grouped (lit "Property") (text (f_gcb F))) (pd_gcb d) /\
  reordered (load_grouped (lit "Property") (text (f_wb F))) (pd_wb d) /\
  Permutation (pd_eaw d) (load_generic (text (f_eaw F))) /\
  reordered (load_emoji (text (f_emoji F))) (pd_emoji d) /\
  Permutation (pd_hst d) (load_generic (text (f_hst F))).
(** [props c] is the record generated for code point [c] *)
Definition generated_props (crlf : bool) (F : ucd_files) (props : N -> orec) : Prop :=
  exists d members, parsed crlf F d /\ age_members (find_pva (pd_pva d) "Age") = Some members /\ props = out_record members d.

(** ** Properties of a code point *)
(** the long name [v] of the value of an enumerated property, given the name in the file, if any: G w *)
Definition valued (F : ucd_files) (prop : str) (G : str -> Prop) (dflt v : str) : Prop :=
  (exists w, G w /\ names_value (f_pva F) prop w v) \/ ((forall w u, G w -> ~ names_value (f_pva F) prop w u) /\ v = dflt).
(** ... for Age, whose file has short names only *)
Definition age_value (F : ucd_files) (c : N) (v : str) : Prop :=
  (exists a, gives (f_age F) c a /\ alias (f_pva F) AGE a v) \/ ((forall a u, gives (f_age F) c a -> ~ alias (f_pva F) AGE a u) /\ v = lit "Unassigned").
(** ... for General_Category, whose file must list a value for the code points without a category *)
Definition gc_value (F : ucd_files) (c : N) (v : str) : Prop :=
  (exists a, gives (f_gc F) c a /\ alias (f_pva F) GC a v) \/
  ((forall a, ~ gives (f_gc F) c a) /\
   v = lit "Unassigned" /\ (exists c' a, gives (f_gc F) c' a /\ alias (f_pva F) GC a v)) \/
  ((forall a, ~ gives (f_gc F) c a) /\
   v = lit "Unspecified" /\ ~ (exists c' a, gives (f_gc F) c' a /\ alias (f_pva F) GC a (lit "Unassigned"))).
(** the first rule that applies *)
Fixpoint first_match {V} (rules : list (Prop * V)) (dflt v : V) : Prop :=
  match rules with [] => v = dflt | (P, x) :: r => (P /\ v = x) \/ (~ P /\ first_match r dflt v) end.
Definition category (F : ucd_files) (c : N) (v : string) : Prop := exists a, gives (f_gc F) c a /\ alias (f_pva F) GC a (lit v).
Definition east_asian (F : ucd_files) (c : N) (v : string) : Prop := exists a, gives (f_eaw F) c a /\ names_value (f_pva F) EAW a (lit v).
Definition zero_width_category (F : ucd_files) (c : N) : Prop :=
  Exists (category F c) ["Control"; "Enclosing_Mark"; "Format"; "Line_Separator"; "Nonspacing_Mark"; "Paragraph_Separator"; "Spacing_Mark"; "Surrogate"]%string.
Definition width_rules (F : ucd_files) (c : N) : list (Prop * N) :=
  [ (gives (f_hst F) c (lit "V") \/ gives (f_hst F) c (lit "T"), 0);
    (c = 0xAD, 1);
    (category F c "Format" /\ gives (f_gcb F) c (lit "Prepend"), 1);
    (zero_width_category F c, 0);
    (gives (f_emoji F) c (lit "Emoji_Presentation"), 2);
    (east_asian F c "Wide" \/ east_asian F c "Fullwidth", 2) ].
(** the emoji segmentation category *)
Definition esc_rules (F : ucd_files) (c : N) : list (Prop * str) :=
  [ (c = 0x20E3, lit "CombiningEnclosingKeyCap"); (c = 0x20E0, lit "CombiningEnclosingCircleBackslash"); (c = 0x200D, lit "ZWJ");
    (c = 0xFE0E, lit "VS15"); (c = 0xFE0F, lit "VS16"); (c = 0x1F3F4, lit "TagBase");
    ((0xE0030 <= c /\ c <= 0xE0039) \/ (0xE0061 <= c /\ c <= 0xE007A), lit "TagSequence"); (c = 0xE007F, lit "TagTerm");
    (gives (f_emoji F) c (lit "Emoji_Modifier_Base"), lit "EmojiModifierBase"); (gives (f_emoji F) c (lit "Emoji_Modifier"), lit "EmojiModifier");
    (exists w, gives (f_gcb F) c w /\ names_value (f_pva F) GCB w (lit "Regional_Indicator"), lit "RegionalIndicator");
    ((0x30 <= c /\ c <= 0x39) \/ c = 0x23 \/ c = 0x2A, lit "KeyCapBase");
    (gives (f_emoji F) c (lit "Emoji_Presentation"), lit "EmojiEmojiPresentation");
    (gives (f_emoji F) c (lit "Emoji"), lit "EmojiTextPresentation") ].
