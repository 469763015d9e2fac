(** Boolean checks of [database_facts], and files that meet them. *)
From Coq Require Import Ascii String Permutation Sorted.
From Verif Require Import Base M_Ucd M_TableGen M_PropGen Spec_TableGen Spec_PropGen Spec_Link P_TableGen P_TableGen2 P_PropGen TableGen_Demo PropGen_Demo.
Open Scope N_scope.

Definition names_valueb (secs : list section) (prop w v : str) : bool :=
  existsb (fun e => str_eqb (fst e) w && str_eqb (snd e) v) (aliases_of secs prop) || (str_eqb w v && existsb (fun e => str_eqb (snd e) v) (aliases_of secs prop)).
Lemma names_valueb_ok secs prop w v : names_valueb secs prop w v = true <-> names_value secs prop w v.
Proof.
  unfold names_valueb, names_value. rewrite orb_true_iff, andb_true_iff, !existsb_exists. split.
  - intros [([a b] & H & E)|[E ([a b] & H & E2)]]; cbn [fst snd] in *.
    + apply andb_true_iff in E as [E1 E2]. apply str_eqb_eq in E1, E2. subst. left. now apply aliases_in.
    + apply str_eqb_eq in E, E2. subst. right. split; [reflexivity|]. exists a. now apply aliases_in.
  - intros [H|[-> [a H]]].
    + left. exists (w, v). split; [now apply aliases_in|]. cbn [fst snd]. now rewrite !str_eqb_refl.
    + right. split; [apply str_eqb_refl|]. exists (a, v). split; [now apply aliases_in|]. apply str_eqb_refl.
Qed.
Definition aliasb (secs : list section) (prop w v : str) : bool := existsb (fun e => str_eqb (fst e) w && str_eqb (snd e) v) (aliases_of secs prop).
Lemma aliasb_ok secs prop w v : aliasb secs prop w v = true <-> alias secs prop w v.
Proof.
  unfold aliasb. rewrite existsb_exists. split.
  - intros ([a b] & H & E); cbn [fst snd] in *. apply andb_true_iff in E as [E1 E2]. apply str_eqb_eq in E1, E2. subst. now apply aliases_in.
  - intros H. exists (w, v). split; [now apply aliases_in|]. cbn [fst snd]. now rewrite !str_eqb_refl.
Qed.
Definition meets (sp sp' : span) : bool := (span_first sp <=? span_last sp') && (span_first sp' <=? span_last sp).
Lemma meets_ok sp sp' c : covers sp c -> covers sp' c -> meets sp sp' = true.
Proof. unfold meets. destruct sp, sp'; cbn; lia. Qed.
Definition insideb (sp sp' : span) : bool := (span_first sp' <=? span_first sp) && (span_last sp <=? span_last sp').
Lemma inside_ok sp sp' c : insideb sp sp' = true -> covers sp c -> covers sp' c.
Proof. unfold insideb. destruct sp, sp'; cbn; lia. Qed.

(** no line of [f] whose value satisfies [p] meets the span *)
Definition freeb (p : str -> bool) (f : list (fline stline)) (sp : span) : bool := forallb (fun l => negb (meets (st_span l) sp && p (st_prop l))) (data_of f).
Lemma freeb_ok p f sp c w : freeb p f sp = true -> covers sp c -> gives f c w -> p w = false.
Proof.
  intros H C (l & Hl & Cl & <-). unfold freeb in H. rewrite forallb_forall in H. specialize (H l (proj1 (data_in f l) Hl)).
  rewrite (meets_ok _ _ c Cl C) in H. cbn [andb] in H. now apply negb_true_iff in H.
Qed.
(** the names of gcb_names except those listed *)
Definition gcb_value (F : ucd_files) (ns : list string) (w : str) : bool := existsb (fun n => names_valueb (f_pva F) GCB w (lit n)) ns.
Definition all_gcb : list string := map fst gcb_names.
Lemma file_gcb_line F c n : n <> "Other"%string -> file_gcb F c n -> exists w, gives (f_gcb F) c w /\ names_value (f_pva F) GCB w (lit n).
Proof. intros Hn [H|[_ E]]; [exact H|]. destruct Hn. unfold lit in E. clear -E. revert E. generalize "Other"%string as m. induction n as [|a n IH]; intros [|b m] E; try discriminate; [reflexivity|]. cbn in E. injection E as E1 E2. f_equal; [|now apply IH]. apply (f_equal ascii_of_N) in E1. now rewrite !ascii_N_embedding in E1. Qed.
Lemma lit_inj n : forall m, lit n = lit m -> n = m.
Proof. induction n as [|a n IH]; intros [|b m] E; try discriminate; [reflexivity|]. cbn in E. injection E as E1 E2. f_equal; [|now apply IH]. apply (f_equal ascii_of_N) in E1. now rewrite !ascii_N_embedding in E1. Qed.
Lemma gcb_free F ns sp c n : freeb (gcb_value F ns) (f_gcb F) sp = true -> covers sp c -> In n ns -> n <> "Other"%string -> ~ file_gcb F c n.
Proof.
  intros H C Hn Ho G. destruct (file_gcb_line F c n Ho G) as (w & Gw & Nw). pose proof (freeb_ok _ _ _ _ _ H C Gw) as E.
  unfold gcb_value in E. apply not_true_iff_false in E. apply E. apply existsb_exists. exists n. split; [exact Hn|now apply names_valueb_ok].
Qed.
Lemma not_other n g : In (n, g) gcb_names -> In n all_gcb /\ n <> "Other"%string.
Proof. intros H. split; [exact (in_map fst _ _ H)|]. unfold gcb_names in H. cbn [In] in H. intuition congruence. Qed.
(** a line of the group gives the property to the span *)
Definition gcb_coverb (F : ucd_files) (ns : list string) (sp : span) : bool :=
  existsb (fun n => existsb (fun l => insideb sp (st_span l) && names_valueb (f_pva F) GCB (st_prop l) (lit n)) (data_of (f_gcb F))) ns.
Lemma gcb_cover F ns sp c : gcb_coverb F ns sp = true -> covers sp c -> exists n, In n ns /\ file_gcb F c n.
Proof.
  unfold gcb_coverb. rewrite existsb_exists. intros (n & Hn & H) C. apply existsb_exists in H as (l & Hl & H). apply andb_true_iff in H as [I V].
  exists n. split; [exact Hn|]. left. exists (st_prop l). split; [exists l; split; [now apply data_in|split; [exact (inside_ok _ _ c I C)|reflexivity]]|now apply names_valueb_ok].
Qed.
(** lines "InCB; w" with a named value *)
Definition incb_lines (F : ucd_files) (ns : list string) : list stline :=
  filter (fun l => existsb (fun n => existsb (fun w => str_eqb (st_prop l) (incb w) && names_valueb (f_pva F) INCB w (lit n))
     (map fst (aliases_of (f_pva F) INCB) ++ map snd (aliases_of (f_pva F) INCB))) ns) (data_of (f_core F)).
Lemma names_value_in secs prop w v : names_value secs prop w v -> In w (map fst (aliases_of secs prop) ++ map snd (aliases_of secs prop)).
Proof.
  intros [H|[-> [a H]]]; apply in_or_app; [left|right]; apply aliases_in in H; [exact (in_map fst _ _ H)|exact (in_map snd _ _ H)].
Qed.
Lemma incb_line F c n ns : In n ns -> n <> "None"%string -> file_incb F c n -> exists l, In l (incb_lines F ns) /\ covers (st_span l) c.
Proof.
  intros Hn Ho [(w & (l & Hl & Cl & El) & V)|[_ E]]; [|apply lit_inj in E; contradiction]. exists l. split; [|exact Cl].
  apply filter_In. split; [now apply data_in|]. apply existsb_exists. exists n. split; [exact Hn|]. apply existsb_exists. exists w.
  split; [exact (names_value_in _ _ _ _ V)|]. rewrite El, str_eqb_refl. now apply names_valueb_ok.
Qed.
Definition emoji_lines (F : ucd_files) (n : string) : list stline := filter (fun l => str_eqb (st_prop l) (lit n)) (data_of (f_emoji F)).
Lemma emoji_line F c n : emoji_prop F c n -> exists l, In l (emoji_lines F n) /\ covers (st_span l) c.
Proof. intros (l & Hl & C & E). exists l. split; [|exact C]. apply filter_In. split; [now apply data_in|]. rewrite E. apply str_eqb_refl. Qed.
Definition apart (ls : list stline) (sp : span) : bool := forallb (fun l => negb (meets (st_span l) sp)) ls.
Lemma apart_ok ls sp c l : apart ls sp = true -> In l ls -> covers (st_span l) c -> covers sp c -> False.
Proof. intros H Hl C C'. unfold apart in H. rewrite forallb_forall in H. specialize (H l Hl). rewrite (meets_ok _ _ c C C') in H. discriminate. Qed.
Definition wb_value (F : ucd_files) (ns : list string) (w : str) : bool := existsb (fun n => names_valueb (f_pva F) WB w (lit n)) ns.
Lemma wb_free F ns sp c n : freeb (wb_value F ns) (f_wb F) sp = true -> covers sp c -> In n ns -> n <> "Other"%string -> ~ file_wb F c n.
Proof.
  intros H C Hn Ho [(w & Gw & Nw)|[_ E]]; [|apply lit_inj in E; contradiction]. pose proof (freeb_ok _ _ _ _ _ H C Gw) as E.
  unfold wb_value in E. apply not_true_iff_false in E. apply E. apply existsb_exists. exists n. split; [exact Hn|now apply names_valueb_ok].
Qed.
Definition zero_names : list string := ["Control"; "Enclosing_Mark"; "Format"; "Line_Separator"; "Nonspacing_Mark"; "Paragraph_Separator"; "Spacing_Mark"; "Surrogate"]%string.
Definition printable : span := Span 0x20 0x7E.
Definition factsb (F : ucd_files) : bool :=
  freeb (gcb_value F (filter (fun n => negb (existsb (String.eqb n) ["CR"; "LF"; "Control"]%string)) all_gcb)) (f_gcb F) (Span 0 127) &&
  apart (incb_lines F ["Consonant"; "Extend"; "Linker"]%string) (Span 0 127) &&
  apart (emoji_lines F "Extended_Pictographic") (Span 0 127) &&
  forallb (fun l => gcb_coverb F ["Extend"; "ZWJ"; "SpacingMark"]%string (st_span l)) (incb_lines F ["Linker"; "Extend"]%string) &&
  forallb (fun l => freeb (gcb_value F all_gcb) (f_gcb F) (st_span l)) (incb_lines F ["Consonant"]%string) &&
  forallb (fun l => freeb (gcb_value F all_gcb) (f_gcb F) (st_span l)) (emoji_lines F "Extended_Pictographic") &&
  forallb (fun l => freeb (wb_value F ["Extend"; "Format"; "ZWJ"]%string) (f_wb F) (st_span l)) (emoji_lines F "Extended_Pictographic") &&
  existsb (fun l => insideb (One 0x200D) (st_span l) && aliasb (f_pva F) GC (st_prop l) (lit "Format")) (data_of (f_gc F)) &&
  freeb (fun w => str_eqb w (lit "Prepend")) (f_gcb F) (One 0x200D) &&
  freeb (gcb_value F all_gcb) (f_gcb F) printable &&
  freeb (fun w => str_eqb w (lit "V") || str_eqb w (lit "T")) (f_hst F) printable &&
  freeb (fun w => existsb (fun n => aliasb (f_pva F) GC w (lit n)) zero_names) (f_gc F) printable &&
  apart (emoji_lines F "Emoji_Presentation") printable &&
  freeb (fun w => existsb (fun n => names_valueb (f_pva F) EAW w (lit n)) ["Wide"; "Fullwidth"]%string) (f_eaw F) printable &&
  forallb (fun e => freeb (gcb_value F ["Extend"; "ZWJ"; "SpacingMark"]%string) (f_gcb F) (One (ev_base e))) (data_of (f_evs F)).
Ltac fa X l Hl := rewrite forallb_forall in X; specialize (X l Hl).
Lemma factsb_ok F : factsb F = true -> database_facts F.
Proof.
  unfold factsb. intros H. repeat (apply andb_true_iff in H; let K := fresh "K" in destruct H as [H K]).
  constructor.
  - intros c n g Hc Hn G. destruct (not_other n g Hn) as [Ha Ho].
    destruct (existsb (String.eqb n) ["CR"; "LF"; "Control"]%string) eqn:E.
    + unfold gcb_names in Hn. cbn [In] in Hn. repeat (destruct Hn as [Hn|Hn]; [injection Hn as <- <-; try discriminate; auto|]). destruct Hn.
    + exfalso. revert G. eapply gcb_free; [exact H|cbn; lia| |exact Ho]. apply filter_In. split; [exact Ha|now rewrite E].
  - intros c n g Hc Hn G. destruct (incb_line F c n ["Consonant"; "Extend"; "Linker"]%string) as (l & Hl & C); try exact G.
    { unfold incb_names in Hn. cbn [In] in Hn |- *. intuition congruence. } { unfold incb_names in Hn. cbn [In] in Hn. intuition congruence. }
    eapply apart_ok; [exact K12|exact Hl|exact C|cbn; lia].
  - intros c Hc G. destruct (emoji_line F c _ G) as (l & Hl & C). eapply apart_ok; [exact K11|exact Hl|exact C|cbn; lia].
  - intros c G. assert (X : exists l, In l (incb_lines F ["Linker"; "Extend"]%string) /\ covers (st_span l) c).
    { destruct G as [G|G]; [apply (incb_line F c "Linker"%string)|apply (incb_line F c "Extend"%string)]; try exact G; try discriminate; cbn; auto. }
    destruct X as (l & Hl & C). fa K10 l Hl. destruct (gcb_cover F _ _ c K10 C) as (n & Hn & Gn). cbn [In] in Hn. destruct Hn as [<-|[<-|[<-|[]]]]; auto.
  - intros c n g G Hn. destruct (not_other n g Hn) as [Ha Ho]. destruct (incb_line F c "Consonant"%string ["Consonant"]%string) as (l & Hl & C); [cbn; auto|discriminate|exact G|].
    fa K9 l Hl. eapply gcb_free; [exact K9|exact C|exact Ha|exact Ho].
  - intros c n g G Hn. destruct (not_other n g Hn) as [Ha Ho]. destruct (emoji_line F c _ G) as (l & Hl & C). fa K8 l Hl. eapply gcb_free; [exact K8|exact C|exact Ha|exact Ho].
  - intros c G X. destruct (emoji_line F c _ G) as (l & Hl & C). fa K7 l Hl.
    destruct X as [X|[X|X]]; (eapply wb_free in X; [exact X|exact K7|exact C|cbn; auto|discriminate]).
  - split.
    + apply existsb_exists in K6 as (l & Hl & E). apply andb_true_iff in E as [I A]. exists (st_prop l). split; [|now apply aliasb_ok].
      exists l. split; [now apply data_in|]. split; [apply (inside_ok _ _ 0x200D I); reflexivity|reflexivity].
    + intros G. pose proof (freeb_ok _ _ _ 0x200D _ K5 eq_refl G) as E. cbv beta in E. rewrite str_eqb_refl in E. discriminate.
  - intros c Hc. assert (C : covers printable c) by (cbn; lia). split.
    { intros n g Hn. destruct (not_other n g Hn) as [Ha Ho]. eapply gcb_free; [exact K4|exact C|exact Ha|exact Ho]. }
    split. { intros G. pose proof (freeb_ok _ _ _ c _ K3 C G) as E. cbv beta in E. rewrite str_eqb_refl in E. discriminate. }
    split. { intros G. pose proof (freeb_ok _ _ _ c _ K3 C G) as E. cbv beta in E. rewrite str_eqb_refl, orb_true_r in E. discriminate. }
    split. { intros Z. apply Exists_exists in Z as (n & Hn & (a & Ga & A)). pose proof (freeb_ok _ _ _ c _ K2 C Ga) as E. cbv beta in E.
      apply not_true_iff_false in E. apply E. apply existsb_exists. exists n. split; [exact Hn|now apply aliasb_ok]. }
    split. { intros G. destruct (emoji_line F c _ G) as (l & Hl & Cl). eapply apart_ok; [exact K1|exact Hl|exact Cl|exact C]. }
    split; intros (a & Ga & A); pose proof (freeb_ok _ _ _ c _ K0 C Ga) as E; cbv beta in E; apply not_true_iff_false in E; apply E; apply existsb_exists;
      eexists; (split; [|apply names_valueb_ok; exact A]); cbn; auto.
  - intros e n He Hn. apply data_in in He. fa K e He. eapply gcb_free; [exact K|reflexivity|exact Hn|]. cbn [In] in Hn. intuition congruence.
Qed.

(** ** Files *)
Local Open Scope string_scope.
Definition pva_link : list section := [
  mkSec (lit "Age") (lit "age") [Blank []; pvl "age" 0 "1.1" 35 "V1_1" ""; pvl "age" 0 "6.0" 35 "V6_0" ""; pvl "age" 0 "NA" 36 "Unassigned" ""; Blank []];
  mkSec (lit "East_Asian_Width") (lit "ea") [Blank []; pvl "ea" 1 "A" 37 "Ambiguous" ""; pvl "ea" 1 "F" 37 "Fullwidth" ""; pvl "ea" 1 "N" 37 "Neutral" "";
    pvl "ea" 1 "Na" 36 "Narrow" ""; pvl "ea" 1 "W" 37 "Wide" ""; Blank []];
  mkSec (lit "General_Category") (lit "gc") [Blank []; pvl "gc" 1 "Cc" 36 "Control" "                          ; cntrl"; pvl "gc" 1 "Cf" 36 "Format" "";
    pvl "gc" 1 "Cn" 36 "Unassigned" ""; pvl "gc" 1 "Ll" 36 "Lowercase_Letter" ""; pvl "gc" 1 "Lo" 36 "Other_Letter" ""; pvl "gc" 1 "Lu" 36 "Uppercase_Letter" "";
    pvl "gc" 1 "Mc" 36 "Spacing_Mark" ""; pvl "gc" 1 "Mn" 36 "Nonspacing_Mark" ""; pvl "gc" 1 "So" 36 "Other_Symbol" ""; Blank []];
  mkSec (lit "Grapheme_Cluster_Break") (lit "GCB") [Blank []; pvl "GCB" 0 "CN" 36 "Control" ""; pvl "GCB" 0 "CR" 36 "CR" ""; pvl "GCB" 0 "EX" 36 "Extend" "";
    pvl "GCB" 0 "L" 37 "L" ""; pvl "GCB" 0 "LF" 36 "LF" ""; pvl "GCB" 0 "LV" 36 "LV" ""; pvl "GCB" 0 "LVT" 35 "LVT" ""; pvl "GCB" 0 "PP" 36 "Prepend" "";
    pvl "GCB" 0 "RI" 36 "Regional_Indicator" ""; pvl "GCB" 0 "SM" 36 "SpacingMark" ""; pvl "GCB" 0 "T" 37 "T" ""; pvl "GCB" 0 "V" 37 "V" "";
    pvl "GCB" 0 "XX" 36 "Other" ""; pvl "GCB" 0 "ZWJ" 35 "ZWJ" ""; Blank []];
  mkSec (lit "Indic_Conjunct_Break") (lit "InCB") [Blank []; pvl "InCB" 0 "Consonant" 23 "Consonant" ""; pvl "InCB" 0 "Extend" 26 "Extend" "";
    pvl "InCB" 0 "Linker" 26 "Linker" ""; pvl "InCB" 0 "None" 28 "None" ""; Blank []];
  mkSec (lit "Word_Break") (lit "WB") [Blank []; pvl "WB" 1 "Extend" 31 "Extend" ""; pvl "WB" 1 "LE" 36 "ALetter" ""; pvl "WB" 1 "XX" 36 "Other" ""; pvl "WB" 1 "ZWJ" 35 "ZWJ" ""; Blank []] ].
Definition F_link : ucd_files := mkF
  [lit " PropertyValueAliases-17.0.0.txt"]
  pva_link
  (* Scripts.txt *)
  [stl (Span 0x41 0x5A) 4 "Latin" 1 " L&  [26] LATIN CAPITAL LETTER A..LATIN CAPITAL LETTER Z"]
  (* DerivedGeneralCategory.txt *)
  [stl (Span 0x61 0x7A) 4 "Ll" 1 "  [26] LATIN SMALL LETTER A..LATIN SMALL LETTER Z"; stl (Span 0 0x1F) 4 "Cc" 1 "  [32] <control-0000>..<control-001F>";
   stl (Span 0x300 0x36F) 4 "Mn" 1 " [112] COMBINING GRAVE ACCENT..COMBINING LATIN SMALL LETTER X"; stl (One 0x903) 10 "Mc" 1 "       DEVANAGARI SIGN VISARGA";
   stl (One 0x94D) 10 "Mn" 1 "       DEVANAGARI SIGN VIRAMA"; stl (Span 0x915 0x939) 4 "Lo" 1 "  [37] DEVANAGARI LETTER KA..DEVANAGARI LETTER HA";
   stl (Span 0x200B 0x200F) 4 "Cf" 1 "   [5] ZERO WIDTH SPACE..RIGHT-TO-LEFT MARK"]
  (* DerivedCoreProperties.txt *)
  [stl (One 0x94D) 10 "InCB; Linker" 1 " Mn       DEVANAGARI SIGN VIRAMA"; stl (Span 0x915 0x939) 4 "InCB; Consonant" 1 " Lo  [37] DEVANAGARI LETTER KA..DEVANAGARI LETTER HA";
   stl (Span 0x300 0x36F) 4 "InCB; Extend" 1 " Mn [112] COMBINING GRAVE ACCENT..COMBINING LATIN SMALL LETTER X"; stl (One 0x200D) 10 "InCB; Extend" 1 " Cf       ZERO WIDTH JOINER"]
  (* IndicSyllabicCategory.txt *)
  [stl (One 0x94D) 10 "Virama" 1 " Mn       DEVANAGARI SIGN VIRAMA"]
  (* emoji-variation-sequences.txt *)
  [Data (mkEv 0x231A 0xFE0E 2 (lit " text style;  # (1.1) WATCH")); Data (mkEv 0x231A 0xFE0F 2 (lit " emoji style; # (1.1) WATCH"))]
  (* DerivedAge.txt *)
  [stl (Span 0x20 0x7E) 4 "1.1" 1 "  [95] SPACE..TILDE"]
  (* GraphemeBreakProperty.txt *)
  [stl (One 0xD) 10 "CR" 1 " Cc       <control-000D>"; stl (One 0xA) 10 "LF" 1 " Cc       <control-000A>"; stl (Span 0 0x9) 4 "Control" 1 " Cc  [10] <control-0000>..<control-0009>";
   stl (Span 0x300 0x36F) 4 "Extend" 1 " Mn [112] COMBINING GRAVE ACCENT..COMBINING LATIN SMALL LETTER X"; stl (One 0x94D) 10 "Extend" 1 " Mn       DEVANAGARI SIGN VIRAMA";
   stl (One 0x903) 10 "SpacingMark" 1 " Mc       DEVANAGARI SIGN VISARGA"; stl (One 0x200D) 10 "ZWJ" 1 " Cf       ZERO WIDTH JOINER";
   stl (Span 0x1F1E6 0x1F1FF) 2 "Regional_Indicator" 1 " So  [26] REGIONAL INDICATOR SYMBOL LETTER A..REGIONAL INDICATOR SYMBOL LETTER Z"]
  (* WordBreakProperty.txt *)
  [stl (Span 0x61 0x7A) 4 "ALetter" 1 " L&  [26] LATIN SMALL LETTER A..LATIN SMALL LETTER Z"; stl (One 0x200D) 10 "ZWJ" 1 " Cf       ZERO WIDTH JOINER"]
  (* EastAsianWidth.txt *)
  [stl (Span 0x4E00 0x9FFF) 5 "W" 2 " Lo [20992] CJK UNIFIED IDEOGRAPH-4E00..CJK UNIFIED IDEOGRAPH-9FFF"]
  (* emoji-data.txt *)
  [stl (Span 0x231A 0x231B) 4 "Emoji" 16 " E0.6   [2] watch..hourglass done"; stl (Span 0x231A 0x231B) 4 "Emoji_Presentation" 3 " E0.6   [2] watch..hourglass done";
   stl (Span 0x231A 0x231B) 4 "Extended_Pictographic" 1 " E0.6   [2] watch..hourglass done"; stl (Span 0x1F3FB 0x1F3FF) 2 "Emoji_Modifier" 7 " E1.0   [5] light skin tone..dark skin tone"]
  (* HangulSyllableType.txt *)
  [stl (Span 0x1160 0x11A7) 4 "V" 1 " Lo  [72] HANGUL JUNGSEONG FILLER..HANGUL JUNGSEONG O-YAE"].
Lemma F_link_ok : files_ok F_link.
Proof. apply files_okb_ok. vm_compute. reflexivity. Qed.
Lemma F_link_facts : database_facts F_link.
Proof. apply factsb_ok. vm_compute. reflexivity. Qed.
