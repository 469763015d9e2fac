(** Small property files with lines copied from the Unicode Character Database, and boolean checks of the hypotheses of T_PropGen.v. *)
From Coq Require Import Ascii String Permutation Sorted.
From Verif Require Import Base M_TableGen M_PropGen Spec_TableGen Spec_PropGen P_TableGen P_TableGen2 P_PropGen TableGen_Demo.
Open Scope N_scope.

(** ** Checks *)
Definition data_of {A} (f : list (fline A)) : list A := flat_map (fun l => match l with Data a => [a] | _ => [] end) f.
Lemma data_in {A} (f : list (fline A)) a : has f a <-> In a (data_of f).
Proof.
  unfold has, data_of. rewrite in_flat_map. split; [intros H; exists (Data a); split; [exact H|left; reflexivity]|].
  intros ([b|s|s] & H & G); cbn in G; [destruct G as [->|[]]; exact H|destruct G|destruct G].
Qed.
Definition wordb (w : str) : bool := match w with [] => false | _ => forallb (fun c => negb (is_ws c)) w && withoutb ch_semi w && withoutb ch_hash w end.
Lemma wordb_ok (w : str) : wordb w = true -> word w.
Proof.
  intros H. assert (Hne : w <> []) by (intros ->; discriminate). assert (G : forallb (fun c => negb (is_ws c)) w && withoutb ch_semi w && withoutb ch_hash w = true).
  { destruct w; [discriminate|exact H]. } apply andb_true_iff in G as [G G3]. apply andb_true_iff in G as [G1 G2].
  split; [exact Hne|]. split; [|split; apply withoutb_ok; assumption]. apply Forall_forall. intros c Hc Hw. apply is_ws_white in Hw.
  rewrite forallb_forall in G1. specialize (G1 c Hc). rewrite Hw in G1. discriminate.
Qed.
Definition st_okb (l : stline) : bool := span_okb (st_span l) && cleanb (st_prop l) && withoutb ch_hash (st_prop l) &&
  match st_comment l with Some q => withoutb ch_cr q | None => true end.
Lemma st_okb_ok l : st_okb l = true -> st_ok l.
Proof.
  unfold st_okb, st_ok. intros H. repeat (apply andb_true_iff in H; destruct H as [H ?]). split; [now apply span_okb_ok|]. split; [now apply cleanb_ok|].
  split; [now apply withoutb_ok|]. intros q Hq. rewrite Hq in *. now apply withoutb_ok.
Qed.
Definition word_lineb (l : stline) : bool := st_okb l && wordb (st_prop l).
Lemma word_lineb_ok l : word_lineb l = true -> word_line l.
Proof. intros H. apply andb_true_iff in H as [A B]. split; [now apply st_okb_ok|now apply wordb_ok]. Qed.
Definition overlap (a b : stline) : bool := (span_first (st_span a) <=? span_last (st_span b)) && (span_first (st_span b) <=? span_last (st_span a)).
Lemma overlap_ok a b c : covers (st_span a) c -> covers (st_span b) c -> overlap a b = true.
Proof. unfold overlap. destruct (st_span a), (st_span b); cbn; lia. Qed.
Definition singleb (f : list (fline stline)) : bool :=
  forallb (fun a => forallb (fun b => negb (overlap a b) || str_eqb (st_prop a) (st_prop b)) (data_of f)) (data_of f).
Lemma singleb_ok f : singleb f = true -> single f.
Proof.
  intros H c w w' (a & Ha & Ca & <-) (b & Hb & Cb & <-). unfold singleb in H. rewrite forallb_forall in H. specialize (H a (proj1 (data_in f a) Ha)).
  rewrite forallb_forall in H. specialize (H b (proj1 (data_in f b) Hb)). rewrite (overlap_ok a b c Ca Cb) in H. now apply str_eqb_eq.
Qed.
Definition value_fileb (f : list (fline stline)) : bool := all_data word_lineb f && singleb f.
Lemma value_fileb_ok f : value_fileb f = true -> value_file f.
Proof. intros H. apply andb_true_iff in H as [A B]. split; [exact (all_data_ok _ _ f word_lineb_ok A)|now apply singleb_ok]. Qed.
(** the two parts of "InCB; Linker" *)
Definition parts2 (s : str) : option (str * str) := match find_char ch_semi s with Some i => Some (firstn i s, skipn (i + 2) s) | None => None end.
Definition core_lineb (l : stline) : bool := st_okb l && (wordb (st_prop l) ||
  match parts2 (st_prop l) with Some (p, v) => wordb p && wordb v && str_eqb (st_prop l) (p ++ lit "; " ++ v) | None => false end).
Lemma core_lineb_ok l : core_lineb l = true -> core_line l.
Proof.
  intros H. apply andb_true_iff in H as [A B]. split; [now apply st_okb_ok|]. apply orb_true_iff in B as [B|B]; [left; now apply wordb_ok|right].
  destruct (parts2 (st_prop l)) as [[p v]|]; [|discriminate]. apply andb_true_iff in B as [B E]. apply andb_true_iff in B as [B1 B2].
  exists p, v. split; [now apply wordb_ok|]. split; [now apply wordb_ok|]. now apply str_eqb_eq.
Qed.
Definition is_incbb (l : stline) : bool := starts_with (lit "InCB; ") (st_prop l).
Lemma starts_self (p s : str) : starts_with p (p ++ s) = true.
Proof. induction p as [|c p IH]; [reflexivity|]. cbn [app starts_with]. now rewrite N.eqb_refl. Qed.
Definition core_fileb (f : list (fline stline)) : bool := all_data core_lineb f &&
  forallb (fun a => forallb (fun b => negb (is_incbb a && is_incbb b && overlap a b) || str_eqb (st_prop a) (st_prop b)) (data_of f)) (data_of f).
Lemma core_fileb_ok f : core_fileb f = true -> core_file f.
Proof.
  intros H. apply andb_true_iff in H as [A B]. split; [exact (all_data_ok _ _ f core_lineb_ok A)|].
  intros c v v' (a & Ha & Ca & Ea) (b & Hb & Cb & Eb). rewrite forallb_forall in B. specialize (B a (proj1 (data_in f a) Ha)).
  rewrite forallb_forall in B. specialize (B b (proj1 (data_in f b) Hb)). unfold is_incbb in B. rewrite Ea, Eb, (overlap_ok a b c Ca Cb) in B.
  unfold incb in *. rewrite !starts_self in B. cbn [andb negb orb] in B. apply str_eqb_eq in B. now apply app_inv_head in B.
Qed.
Definition ev_okb (e : evline) : bool := (ev_base e <=? 0x10FFFF) && (ev_selector e <=? 0x10FFFF).
Lemma ev_okb_ok e : ev_okb e = true -> ev_ok e. Proof. unfold ev_okb, ev_ok. lia. Qed.

(** aliases *)
Definition aliases_of (secs : list section) (prop : str) : list (str * str) :=
  flat_map (fun s => if str_eqb (sec_name s) prop then map (fun l => (pv_abbrev l, pv_full l)) (data_of (sec_body s)) else []) secs.
Lemma aliases_in secs prop a v : alias secs prop a v <-> In (a, v) (aliases_of secs prop).
Proof.
  unfold alias, aliases_of. rewrite in_flat_map. split.
  - intros (s & l & Hs & E & Hl & Ea & Ev). exists s. split; [exact Hs|]. apply str_eqb_eq in E. rewrite E. apply in_map_iff. exists l.
    split; [congruence|now apply data_in].
  - intros (s & Hs & H). destruct (str_eqb_spec (sec_name s) prop) as [E|]; [|destruct H]. apply in_map_iff in H as (l & El & Hl). exists s, l.
    split; [exact Hs|]. split; [exact E|]. split; [now apply data_in|]. split; congruence.
Qed.
Definition tail_okb (t : str) : bool := match t with [] => true | c :: _ => (c =? 32) || (c =? 9) || (c =? ch_semi) end.
Definition pv_okb (l : pvline) : bool := wordb (pv_short l) && wordb (pv_abbrev l) && wordb (pv_full l) && tail_okb (pv_tail l).
Lemma pv_okb_ok l : pv_okb l = true -> pv_ok l.
Proof.
  intros H. unfold pv_okb in H. repeat (apply andb_true_iff in H; destruct H as [H ?]). repeat (split; [now apply wordb_ok|]). destruct (pv_tail l) as [|c r]; [exact I|].
  cbn [tail_okb tail_ok] in *. lia.
Qed.
Definition sec_okb (s : section) : bool := wordb (sec_name s) && all_data pv_okb (sec_body s) &&
  forallb (fun l => match l with Comment q => withoutb 40 q | _ => true end) (sec_body s).
Lemma sec_okb_ok s : sec_okb s = true -> sec_ok s.
Proof.
  intros H. unfold sec_okb in H. repeat (apply andb_true_iff in H; destruct H as [H ?]). split; [now apply wordb_ok|]. split; [eapply all_data_ok; [exact pv_okb_ok|assumption]|].
  intros q Hq. match goal with X : forallb _ (sec_body s) = true |- _ => rewrite forallb_forall in X; specialize (X _ Hq) end. now apply withoutb_ok.
Qed.
Fixpoint nodupb (l : list str) : bool := match l with [] => true | x :: r => negb (existsb (str_eqb x) r) && nodupb r end.
Lemma nodupb_ok l : nodupb l = true -> NoDup l.
Proof.
  induction l as [|x r IH]; intros H; constructor; cbn [nodupb] in H; apply andb_true_iff in H as [A B]; [|now apply IH].
  intros G. apply negb_true_iff, not_true_iff_false in A. apply A. apply existsb_exists. exists x. split; [exact G|apply str_eqb_refl].
Qed.
Definition funb (l : list (str * str)) : bool := forallb (fun e => forallb (fun e' => negb (str_eqb (fst e) (fst e')) || str_eqb (snd e) (snd e')) l) l.
Lemma funb_ok l : funb l = true -> forall (a v v' : str), In (a, v) l -> In (a, v') l -> v = v'.
Proof.
  intros H a v v' H1 H2. unfold funb in H. rewrite forallb_forall in H. specialize (H _ H1). rewrite forallb_forall in H. specialize (H _ H2). cbn [fst snd] in H.
  rewrite str_eqb_refl in H. now apply str_eqb_eq.
Qed.
Definition pva_okb (secs : list section) : bool := nodupb (map sec_name secs) && forallb sec_okb secs && forallb (fun s => funb (aliases_of secs (sec_name s))) secs.
Lemma pva_okb_ok secs : pva_okb secs = true -> pva_ok secs.
Proof.
  intros H. unfold pva_okb in H. repeat (apply andb_true_iff in H; destruct H as [H ?]). split; [now apply nodupb_ok|]. split.
  - intros s Hs. apply sec_okb_ok. match goal with X : forallb sec_okb secs = true |- _ => rewrite forallb_forall in X; now apply X end.
  - intros prop a v v' _ A1 A2. pose proof A1 as (s & l & Hs & E & _). apply aliases_in in A1, A2.
    match goal with X : forallb _ secs = true |- _ => rewrite forallb_forall in X; specialize (X s Hs); rewrite E in X; exact (funb_ok _ X a v v' A1 A2) end.
Qed.
Definition enum_okb (secs : list section) (prop first : str) : bool :=
  let l := aliases_of secs prop in
  forallb (fun e => (str_eqb (fst e) (snd e) || (length (fst e) <? length (snd e))%nat) && negb (str_eqb (fst e) first) && negb (str_eqb (snd e) first)) l &&
  forallb (fun e => forallb (fun e' => negb (str_eqb (fst e) (snd e')) || str_eqb (snd e) (snd e')) l) l && (length l <=? 255)%nat.
Lemma enum_okb_ok secs prop first : enum_okb secs prop first = true -> enum_ok secs prop first.
Proof.
  intros H. unfold enum_okb in H. apply andb_true_iff in H as [H L]. apply andb_true_iff in H as [A B]. split; [|split].
  - intros a v H. apply aliases_in in H. rewrite forallb_forall in A. specialize (A _ H). cbn [fst snd] in A. apply andb_true_iff in A as [A A3]. apply andb_true_iff in A as [A1 A2].
    split; [|split].
    + apply orb_true_iff in A1 as [E|E]; [left; now apply str_eqb_eq|right; now apply Nat.ltb_lt].
    + intros ->. rewrite str_eqb_refl in A2. discriminate. + intros ->. rewrite str_eqb_refl in A3. discriminate.
  - intros a v a' v' H1 H2 ->. apply aliases_in in H1, H2. rewrite forallb_forall in B. specialize (B _ H1). rewrite forallb_forall in B. specialize (B _ H2). cbn [fst snd] in B.
    rewrite str_eqb_refl in B. now apply str_eqb_eq.
  - exists (aliases_of secs prop). split; [now apply Nat.leb_le|]. intros a v. apply aliases_in.
Qed.
Definition has_valueb (secs : list section) (prop v : str) : bool := existsb (fun e => str_eqb (snd e) v) (aliases_of secs prop).
Lemma has_valueb_ok secs prop v : has_valueb secs prop v = true -> has_value secs prop v.
Proof. intros H. apply existsb_exists in H as ([a v'] & H & E). apply str_eqb_eq in E. cbn [snd] in E. subst v'. exists a. now apply aliases_in. Qed.
Definition few_valuesb (f : list (fline stline)) : bool := (length (data_of f) <=? 253)%nat.
Lemma few_valuesb_ok f : few_valuesb f = true -> few_values_in f.
Proof. intros H. exists (map st_prop (data_of f)). split; [rewrite map_length; now apply Nat.leb_le|]. intros c w (l & Hl & _ & <-). apply in_map. now apply data_in. Qed.
Definition versionb (v : str) : bool := str_eqb v (lit "Unassigned") ||
  match parse_version v with Some (x, y) => str_eqb v (version_name x y) && (x <? 1000) && (y <? 1000) | None => false end.
Definition files_okb (F : ucd_files) : bool :=
  pva_okb (f_pva F) && forallb value_fileb [f_scripts F; f_gc F; f_isc F; f_age F; f_gcb F; f_wb F; f_eaw F; f_hst F] &&
  core_fileb (f_core F) && all_data word_lineb (f_emoji F) && all_data ev_okb (f_evs F) && few_valuesb (f_scripts F) && few_valuesb (f_gc F) &&
  forallb (fun l => existsb (fun e => str_eqb (fst e) (st_prop l)) (aliases_of (f_pva F) GC)) (data_of (f_gc F)) &&
  enum_okb (f_pva F) GCB (lit "Undefined") && enum_okb (f_pva F) EAW [] && enum_okb (f_pva F) INCB [] && enum_okb (f_pva F) WB [] && enum_okb (f_pva F) AGE [] &&
  forallb (fun l => negb (str_eqb (st_prop l) (lit "Undefined"))) (data_of (f_gcb F)) &&
  has_valueb (f_pva F) GCB (lit "Other") && has_valueb (f_pva F) GCB (lit "Regional_Indicator") &&
  has_valueb (f_pva F) EAW (lit "Narrow") && has_valueb (f_pva F) EAW (lit "Wide") && has_valueb (f_pva F) EAW (lit "Fullwidth") &&
  has_valueb (f_pva F) INCB (lit "None") && has_valueb (f_pva F) WB (lit "Other") &&
  forallb (fun e => versionb (snd e)) (aliases_of (f_pva F) AGE) && match aliases_of (f_pva F) GC with [] => false | _ => true end.
Lemma files_okb_ok F : files_okb F = true -> files_ok F.
Proof.
  unfold files_okb. intros H. do 22 (apply andb_true_iff in H; destruct H as [H ?]). unfold files_ok.
  split; [now apply pva_okb_ok|]. split; [apply Forall_forall; intros f Hf; apply value_fileb_ok; match goal with X : forallb value_fileb _ = true |- _ => rewrite forallb_forall in X; now apply X end|].
  split; [now apply core_fileb_ok|]. split; [eapply all_data_ok; [exact word_lineb_ok|assumption]|]. split; [eapply all_data_ok; [exact ev_okb_ok|assumption]|].
  split; [now apply few_valuesb_ok|]. split; [now apply few_valuesb_ok|]. split.
  { intros c a (l & Hl & _ & <-). match goal with X : forallb _ (data_of (f_gc F)) = true |- _ => rewrite forallb_forall in X; specialize (X l (proj1 (data_in _ _) Hl)) as G end.
    apply existsb_exists in G as ([a v] & G & E). apply str_eqb_eq in E. cbn [fst] in E. exists v. apply aliases_in. rewrite <- E. exact G. }
  do 5 (split; [now apply enum_okb_ok|]). split.
  { intros c (l & Hl & _ & E). match goal with X : forallb _ (data_of (f_gcb F)) = true |- _ => rewrite forallb_forall in X; specialize (X l (proj1 (data_in _ _) Hl)) as G end.
    rewrite E, str_eqb_refl in G. discriminate. }
  do 7 (split; [now apply has_valueb_ok|]). split.
  { intros a v Ha. apply aliases_in in Ha. match goal with X : forallb _ (aliases_of (f_pva F) AGE) = true |- _ => rewrite forallb_forall in X; specialize (X _ Ha) as G end.
    cbn [snd] in G. unfold versionb in G. apply orb_true_iff in G as [G|G]; [left; now apply str_eqb_eq|right]. destruct (parse_version v) as [[x y]|]; [|discriminate].
    apply andb_true_iff in G as [G Hy]. apply andb_true_iff in G as [G Hx]. exists x, y. split; [now apply str_eqb_eq|]. lia. }
  destruct (aliases_of (f_pva F) GC) as [|[a v] r] eqn:E; [discriminate|]. exists a, v. apply aliases_in. rewrite E. left. reflexivity.
Qed.

(** ** A database *)
Local Open Scope string_scope.
Definition pvl (s : string) (g0 : nat) (a : string) (g2 : nat) (v : string) (t : string) : fline pvline := Data (mkPv (lit s) g0 1 (lit a) g2 1 (lit v) (lit t)).
Definition stl (sp : span) (gap : nat) (p : string) (g2 : nat) (c : string) : fline stline := Data (mkSt sp gap 1 (lit p) g2 (Some (lit c))).
Definition pva_demo : list section := [
  mkSec (lit "Age") (lit "age") [Blank []; pvl "age" 0 "1.1" 35 "V1_1" ""; pvl "age" 0 "3.0" 35 "V3_0" ""; pvl "age" 0 "6.0" 35 "V6_0" "";
    pvl "age" 0 "NA" 36 "Unassigned" ""; Blank []];
  mkSec (lit "East_Asian_Width") (lit "ea") [Blank []; pvl "ea" 1 "A" 37 "Ambiguous" ""; pvl "ea" 1 "F" 37 "Fullwidth" ""; pvl "ea" 1 "N" 37 "Neutral" "";
    pvl "ea" 1 "Na" 36 "Narrow" ""; pvl "ea" 1 "W" 37 "Wide" ""; Blank []];
  mkSec (lit "General_Category") (lit "gc") [Blank []; pvl "gc" 1 "Cc" 36 "Control" "                          ; cntrl"; pvl "gc" 1 "Cf" 36 "Format" "";
    pvl "gc" 1 "Cn" 36 "Unassigned" ""; pvl "gc" 1 "Lo" 36 "Other_Letter" ""; pvl "gc" 1 "Lu" 36 "Uppercase_Letter" "";
    pvl "gc" 1 "Mn" 36 "Nonspacing_Mark" ""; pvl "gc" 1 "So" 36 "Other_Symbol" "";
    Comment (lit " @missing: 0000..10FFFF; General_Category; Unassigned"); Blank []];
  mkSec (lit "Grapheme_Cluster_Break") (lit "GCB") [Blank []; pvl "GCB" 0 "CN" 36 "Control" ""; pvl "GCB" 0 "EX" 36 "Extend" ""; pvl "GCB" 0 "PP" 36 "Prepend" "";
    pvl "GCB" 0 "RI" 36 "Regional_Indicator" ""; pvl "GCB" 0 "V" 37 "V" ""; pvl "GCB" 0 "XX" 36 "Other" ""; Blank []];
  mkSec (lit "Indic_Conjunct_Break") (lit "InCB") [Blank []; pvl "InCB" 0 "Consonant" 23 "Consonant" ""; pvl "InCB" 0 "Extend" 26 "Extend" "";
    pvl "InCB" 0 "Linker" 26 "Linker" ""; pvl "InCB" 0 "None" 28 "None" ""; Blank []];
  mkSec (lit "Word_Break") (lit "WB") [Blank []; pvl "WB" 1 "LE" 36 "ALetter" ""; pvl "WB" 1 "XX" 36 "Other" ""; Blank []] ].
Definition F_demo : ucd_files := mkF
  [lit " PropertyValueAliases-17.0.0.txt"; lit " Date: 2025-06-30, 06:16:21 GMT"]
  pva_demo
  (* Scripts.txt *)
  [Comment (lit " Script=Latin"); stl (Span 0x41 0x5A) 4 "Latin" 1 " L&  [26] LATIN CAPITAL LETTER A..LATIN CAPITAL LETTER Z";
   stl (Span 0x30 0x39) 4 "Common" 1 " Nd  [10] DIGIT ZERO..DIGIT NINE"; stl (Span 0x300 0x36F) 4 "Inherited" 1 " Mn [112] COMBINING GRAVE ACCENT..COMBINING LATIN SMALL LETTER X"]
  (* DerivedGeneralCategory.txt *)
  [Comment (lit " General_Category=Unassigned"); stl (Span 0x378 0x379) 4 "Cn" 1 "   [2] <reserved-0378>..<reserved-0379>";
   stl (Span 0x41 0x5A) 4 "Lu" 1 "  [26] LATIN CAPITAL LETTER A..LATIN CAPITAL LETTER Z"; stl (Span 0x4E00 0x9FFF) 4 "Lo" 1 " [20992] CJK UNIFIED IDEOGRAPH-4E00..CJK UNIFIED IDEOGRAPH-9FFF";
   stl (Span 0x300 0x36F) 4 "Mn" 1 " [112] COMBINING GRAVE ACCENT..COMBINING LATIN SMALL LETTER X"; stl (Span 0 0x1F) 4 "Cc" 1 "  [32] <control-0000>..<control-001F>";
   stl (One 0xAD) 10 "Cf" 1 "       SOFT HYPHEN"; stl (Span 0x600 0x605) 4 "Cf" 1 "   [6] ARABIC NUMBER SIGN..ARABIC NUMBER MARK ABOVE";
   stl (Span 0x1F1E6 0x1F1FF) 2 "So" 1 "  [26] REGIONAL INDICATOR SYMBOL LETTER A..REGIONAL INDICATOR SYMBOL LETTER Z"]
  (* DerivedCoreProperties.txt *)
  [stl (Span 0x300 0x36F) 4 "Grapheme_Extend" 1 " Mn [112] COMBINING GRAVE ACCENT..COMBINING LATIN SMALL LETTER X"; stl (One 0x94D) 10 "Grapheme_Extend" 1 " Mn       DEVANAGARI SIGN VIRAMA";
   stl (One 0x94D) 10 "InCB; Linker" 1 " Mn       DEVANAGARI SIGN VIRAMA"; stl (Span 0x915 0x939) 4 "InCB; Consonant" 1 " Lo  [37] DEVANAGARI LETTER KA..DEVANAGARI LETTER HA"]
  (* IndicSyllabicCategory.txt *)
  [stl (One 0x94D) 10 "Virama" 1 " Mn       DEVANAGARI SIGN VIRAMA"; stl (One 0x1039) 10 "Invisible_Stacker" 1 " Mn       MYANMAR SIGN VIRAMA"; stl (One 0x903) 10 "Visarga" 1 " Mc       DEVANAGARI SIGN VISARGA"]
  (* emoji-variation-sequences.txt *)
  [Data (mkEv 0x231A 0xFE0E 2 (lit " text style;  # (1.1) WATCH")); Data (mkEv 0x231A 0xFE0F 2 (lit " emoji style; # (1.1) WATCH"))]
  (* DerivedAge.txt *)
  [stl (Span 0x20 0x7E) 4 "1.1" 1 "  [95] SPACE..TILDE"; stl (Span 0x1F601 0x1F610) 2 "6.0" 1 " [16] GRINNING FACE WITH SMILING EYES..NEUTRAL FACE"]
  (* GraphemeBreakProperty.txt *)
  [Comment (lit " Property:	Grapheme_Cluster_Break"); stl (Span 0x600 0x605) 4 "Prepend" 1 " Cf   [6] ARABIC NUMBER SIGN..ARABIC NUMBER MARK ABOVE";
   stl (Span 0x1F1E6 0x1F1FF) 2 "Regional_Indicator" 1 " So  [26] REGIONAL INDICATOR SYMBOL LETTER A..REGIONAL INDICATOR SYMBOL LETTER Z"]
  (* WordBreakProperty.txt *)
  [stl (Span 0x41 0x5A) 4 "ALetter" 1 " L&  [26] LATIN CAPITAL LETTER A..LATIN CAPITAL LETTER Z"]
  (* EastAsianWidth.txt *)
  [stl (Span 0x41 0x5A) 5 "Na" 1 " Lu    [26] LATIN CAPITAL LETTER A..LATIN CAPITAL LETTER Z"; stl (Span 0x4E00 0x9FFF) 5 "W" 2 " Lo [20992] CJK UNIFIED IDEOGRAPH-4E00..CJK UNIFIED IDEOGRAPH-9FFF";
   stl (Span 0xFF01 0xFF03) 5 "F" 2 " Po     [3] FULLWIDTH EXCLAMATION MARK..FULLWIDTH NUMBER SIGN"]
  (* emoji-data.txt *)
  [stl (One 0x23) 10 "Emoji" 16 " E0.0   [1] (#️)       hash sign"; stl (Span 0x231A 0x231B) 4 "Emoji" 16 " E0.6   [2] (⌚..⌛)    watch..hourglass done";
   stl (Span 0x231A 0x231B) 4 "Emoji_Presentation" 3 " E0.6   [2] (⌚..⌛)    watch..hourglass done"; stl (Span 0x1F3FB 0x1F3FF) 2 "Emoji_Modifier" 7 " E1.0   [5] (🏻..🏿)    light skin tone..dark skin tone"]
  (* HangulSyllableType.txt *)
  [stl (Span 0x1160 0x11A7) 4 "V" 1 " Lo  [72] HANGUL JUNGSEONG FILLER..HANGUL JUNGSEONG O-YAE"; stl (Span 0x11A8 0x11FF) 4 "T" 1 " Lo  [88] HANGUL JONGSEONG KIYEOK..HANGUL JONGSEONG SSANGNIEUN"].
Lemma F_demo_ok : files_ok F_demo.
Proof. apply files_okb_ok. vm_compute. reflexivity. Qed.
