(** Files that meet the hypotheses of C128 and C129. *)
From Coq Require Import String Permutation Sorted.
From Verif Require Import Base M_TableGen M_PropGen M_UcdApi M_Case Spec_TableGen Spec_PropGen Spec_UcdApi Spec_Case Spec_Link Spec_LinkCase P_TableGen P_TableGen2 P_TableGen6 P_PropGen P_Case Norm_Demo
  TableGen_Demo PropGen_Demo UcdApi_Demo Link_Demo.
Open Scope N_scope.
Local Open Scope string_scope.
Definition pva_case : list section := [
  mkSec (lit "Age") (lit "age") [Blank []; pvl "age" 0 "1.1" 35 "V1_1" ""; pvl "age" 0 "6.0" 35 "V6_0" ""; pvl "age" 0 "NA" 36 "Unassigned" ""; Blank []];
  mkSec (lit "East_Asian_Width") (lit "ea") [Blank []; pvl "ea" 1 "A" 37 "Ambiguous" ""; pvl "ea" 1 "F" 37 "Fullwidth" ""; pvl "ea" 1 "N" 37 "Neutral" "";
    pvl "ea" 1 "Na" 36 "Narrow" ""; pvl "ea" 1 "W" 37 "Wide" ""; Blank []];
  mkSec (lit "General_Category") (lit "gc") [Blank []; pvl "gc" 1 "Cc" 36 "Control" "                          ; cntrl"; pvl "gc" 1 "Cf" 36 "Format" "";
    pvl "gc" 1 "Cn" 36 "Unassigned" ""; pvl "gc" 1 "Ll" 36 "Lowercase_Letter" ""; pvl "gc" 1 "Lm" 36 "Modifier_Letter" ""; pvl "gc" 1 "Lo" 36 "Other_Letter" ""; pvl "gc" 1 "Lt" 36 "Titlecase_Letter" "";
    pvl "gc" 1 "Lu" 36 "Uppercase_Letter" ""; pvl "gc" 1 "Mc" 36 "Spacing_Mark" ""; pvl "gc" 1 "Me" 36 "Enclosing_Mark" ""; pvl "gc" 1 "Mn" 36 "Nonspacing_Mark" "";
    pvl "gc" 1 "Sk" 36 "Modifier_Symbol" ""; pvl "gc" 1 "So" 36 "Other_Symbol" ""; Blank []];
  mkSec (lit "Grapheme_Cluster_Break") (lit "GCB") [Blank []; pvl "GCB" 0 "CN" 36 "Control" ""; pvl "GCB" 0 "CR" 36 "CR" ""; pvl "GCB" 0 "EX" 36 "Extend" "";
    pvl "GCB" 0 "L" 37 "L" ""; pvl "GCB" 0 "LF" 36 "LF" ""; pvl "GCB" 0 "LV" 36 "LV" ""; pvl "GCB" 0 "LVT" 35 "LVT" ""; pvl "GCB" 0 "PP" 36 "Prepend" "";
    pvl "GCB" 0 "RI" 36 "Regional_Indicator" ""; pvl "GCB" 0 "SM" 36 "SpacingMark" ""; pvl "GCB" 0 "T" 37 "T" ""; pvl "GCB" 0 "V" 37 "V" "";
    pvl "GCB" 0 "XX" 36 "Other" ""; pvl "GCB" 0 "ZWJ" 35 "ZWJ" ""; Blank []];
  mkSec (lit "Indic_Conjunct_Break") (lit "InCB") [Blank []; pvl "InCB" 0 "Consonant" 23 "Consonant" ""; pvl "InCB" 0 "Extend" 26 "Extend" "";
    pvl "InCB" 0 "Linker" 26 "Linker" ""; pvl "InCB" 0 "None" 28 "None" ""; Blank []];
  mkSec (lit "Word_Break") (lit "WB") [Blank []; pvl "WB" 1 "Extend" 31 "Extend" ""; pvl "WB" 1 "LE" 36 "ALetter" ""; pvl "WB" 1 "MB" 36 "MidNumLet" ""; pvl "WB" 1 "ML" 36 "MidLetter" "";
    pvl "WB" 1 "SQ" 36 "Single_Quote" ""; pvl "WB" 1 "XX" 36 "Other" ""; pvl "WB" 1 "ZWJ" 35 "ZWJ" ""; Blank []] ].
Definition gc_pre_case : list (fline stline) := [Comment (lit " DerivedGeneralCategory-17.0.0.txt"); Comment (lit " General_Category values"); Blank []].
Definition gc_secs_case : list gsection := [
  mkGs (lit "Uppercase_Letter") [Blank []; stl (Span 0x41 0x5A) 4 "Lu" 1 "  [26] LATIN CAPITAL LETTER A..LATIN CAPITAL LETTER Z"; stl (One 0x1E9E) 10 "Lu" 1 "       LATIN CAPITAL LETTER SHARP S"];
  mkGs (lit "Lowercase_Letter") [stl (Span 0x61 0x7A) 4 "Ll" 1 "  [26] LATIN SMALL LETTER A..LATIN SMALL LETTER Z"; stl (One 0xDF) 10 "Ll" 1 "       LATIN SMALL LETTER SHARP S"];
  mkGs (lit "Titlecase_Letter") [stl (One 0x1C5) 10 "Lt" 1 "       LATIN CAPITAL LETTER D WITH SMALL LETTER Z WITH CARON"];
  mkGs (lit "Modifier_Letter") [stl (Span 0x2B0 0x2C1) 4 "Lm" 1 "  [18] MODIFIER LETTER SMALL H..MODIFIER LETTER REVERSED GLOTTAL STOP"];
  mkGs (lit "Nonspacing_Mark") [stl (Span 0x300 0x36F) 4 "Mn" 1 " [112] COMBINING GRAVE ACCENT..COMBINING LATIN SMALL LETTER X"; stl (One 0x94D) 10 "Mn" 1 "       DEVANAGARI SIGN VIRAMA"];
  mkGs (lit "Control") [stl (Span 0 0x1F) 4 "Cc" 1 "  [32] <control-0000>..<control-001F>"];
  mkGs (lit "Format") [stl (One 0xAD) 10 "Cf" 1 "       SOFT HYPHEN"; stl (Span 0x200B 0x200F) 4 "Cf" 1 "   [5] ZERO WIDTH SPACE..RIGHT-TO-LEFT MARK"];
  mkGs (lit "Modifier_Symbol") [stl (One 0x5E) 10 "Sk" 1 "       CIRCUMFLEX ACCENT"; stl (One 0x60) 10 "Sk" 1 "       GRAVE ACCENT"]].
Definition F_case : ucd_files := let F := F_link in
  mkF (f_pre F) pva_case (f_scripts F) (gc_file gc_pre_case gc_secs_case) (f_core F) (f_isc F) (f_evs F) (f_age F) (f_gcb F)
  [stl (Span 0x41 0x5A) 4 "ALetter" 1 " L&  [26] LATIN CAPITAL LETTER A..LATIN CAPITAL LETTER Z"; stl (Span 0x61 0x7A) 4 "ALetter" 1 " L&  [26] LATIN SMALL LETTER A..LATIN SMALL LETTER Z";
   stl (One 0xDF) 10 "ALetter" 1 " L&       LATIN SMALL LETTER SHARP S"; stl (One 0x27) 10 "Single_Quote" 1 " Po       APOSTROPHE"; stl (One 0x3A) 10 "MidLetter" 1 " Po       COLON";
   stl (One 0x2E) 10 "MidNumLet" 1 " Po       FULL STOP"; stl (One 0x200D) 10 "ZWJ" 1 " Cf       ZERO WIDTH JOINER"]
  (f_eaw F) (f_emoji F) (f_hst F).
Lemma F_case_ok : files_ok F_case.
Proof. apply files_okb_ok. vm_compute. reflexivity. Qed.
Lemma F_case_facts : database_facts F_case.
Proof. apply factsb_ok. vm_compute. reflexivity. Qed.
Lemma F_case_sectioned : sectioned F_case.
Proof.
  exists gc_pre_case, gc_secs_case. split; [reflexivity|]. split; [discriminate|]. split; [apply gc_sections_okb_ok; vm_compute; reflexivity|apply separateb_ok; vm_compute; reflexivity].
Qed.
(** the case files of TableGen_Demo *)
Definition fixedb (tb : case_tables) (k : ckind) (x : N) : bool := match full_of tb k x with Ok m => str_eqb (emit x m) [x] | _ => false end.
Definition letters (k : ckind) : list N := match k with Upper | Title => nrange 0x61 26 | _ => nrange 0x41 26 end.
Definition closedb (tb : case_tables) (k : ckind) : bool :=
  forallb (fun e => forallb (fixedb tb k) (snd e)) (full_table tb k) && forallb (fun e => existsb (fun f => fst f =? fst e)%N (full_table tb k) || fixedb tb k (snd e)) (simple_table tb k) &&
  forallb (fun c => fixedb tb k (ascii_swap k c)) (letters k).
Definition tb_case : case_tables := let d := load_unicode_data (file_text ud_text true udc_demo) in
  gen_case d (load_special_casing d (file_text sc_text true sc_demo)) (load_case_folding (file_text cf_text true cf_demo)).
Lemma tb_case_gen : generated_case true udc_demo sc_demo cf_demo tb_case.
Proof. reflexivity. Qed.
Lemma fixed_map k x : fixedb tb_case k x = true -> file_map udc_demo sc_demo cf_demo k x [x].
Proof.
  unfold fixedb. destruct (case_full true udc_demo sc_demo cf_demo case_demo_ok tb_case tb_case_gen case_demo_ascii k x) as (m & E & H). rewrite E. intros G. apply str_eqb_eq in G. now rewrite <- G.
Qed.
Lemma closedb_ok k : closedb tb_case k = true -> maps_closed udc_demo sc_demo cf_demo k.
Proof.
  unfold closedb. intros H. apply andb_true_iff in H as [H H3]. apply andb_true_iff in H as [H1 H2]. rewrite forallb_forall in H1, H2, H3.
  intros c m x Hm Hx. pose proof Hm as Hm'. apply (char_map_file true udc_demo sc_demo cf_demo case_demo_ok tb_case tb_case_gen case_demo_ascii) in Hm'.
  destruct Hm' as [Hin|(Hno & s & Hs & ->)].
  - apply fixed_map. specialize (H1 _ Hin). cbn [snd] in H1. rewrite forallb_forall in H1. exact (H1 x Hx).
  - destruct Hx as [<-|[]]. destruct Hs as [[Ha ->]|[[Ha Hs]|(Ha & Hs & ->)]].
    + apply fixed_map, H3. unfold letters. destruct k; cbn [ascii_changes] in Ha; apply in_nrange; lia.
    + apply fixed_map. specialize (H2 _ Hs). cbn [fst snd] in H2. apply orb_true_iff in H2 as [H2|H2]; [|exact H2].
      exfalso. apply existsb_exists in H2 as ([c' m] & Hin & E). cbn [fst] in E. apply N.eqb_eq in E. subst c'. exact (Hno m Hin).
    + exact Hm.
Qed.
Lemma closed_demo : maps_closed udc_demo sc_demo cf_demo Upper /\ maps_closed udc_demo sc_demo cf_demo Lower /\ maps_closed udc_demo sc_demo cf_demo Fold.
Proof. split; [|split]; apply closedb_ok; vm_compute; reflexivity. Qed.
Local Open Scope N_scope.
Lemma scalars_demo : maps_scalars udc_demo sc_demo cf_demo.
Proof.
  intros k. split.
  - intros c s H. apply (proj2 (simple_in true udc_demo sc_demo cf_demo case_demo_ok tb_case tb_case_gen k)) in H.
    assert (K : forallb (fun e => snd e <? 0xD800) (simple_table tb_case k) = true) by (destruct k; vm_compute; reflexivity).
    rewrite forallb_forall in K. specialize (K _ H). cbn [snd] in K. unfold Spec_Utf.scalar. lia.
  - intros c m H. assert (K : forall l, has sc_demo l -> forallb (fun x => x <? 0xD800) (sc_lower l ++ sc_title l ++ sc_upper l) = true).
    { intros l Hl. unfold has, sc_demo in Hl. cbn [In] in Hl. repeat (destruct Hl as [Hl|Hl]; [try discriminate; injection Hl as <-; vm_compute; reflexivity|]). destruct Hl. }
    assert (G : forall l, forallb (fun x => x <? 0xD800) l = true -> Spec_Utf.scalars l).
    { intros l E. rewrite forallb_forall in E. apply Forall_forall. intros x Hx. specialize (E x Hx). unfold Spec_Utf.scalar. lia. }
    destruct k; cbn [file_special] in H.
    1-3: destruct H as (l & Hl & _ & _ & <-); specialize (K l Hl); rewrite !forallb_app, !andb_true_iff in K; apply G, K.
    apply G. assert (M : forallb (fun e => forallb (fun x => x <? 0xD800) (snd e)) (full_table tb_case Fold) = true) by (vm_compute; reflexivity).
    rewrite forallb_forall in M. assert (Hin : In (c, m) (full_table tb_case Fold)).
    { apply (proj2 (full_in true udc_demo sc_demo cf_demo case_demo_ok tb_case tb_case_gen Fold)). split; [exact H|left; reflexivity]. }
    exact (M _ Hin).
Qed.
Lemma no_identity_demo : no_special_identity udc_demo sc_demo cf_demo.
Proof.
  intros k c H.
  assert (K : forall l, has sc_demo l -> sc_condition l = None -> sc_cp l = 0xDF /\ sc_lower l = [0xDF] /\ sc_title l = [0x53; 0x73] /\ sc_upper l = [0x53; 0x53]).
  { intros l Hl. unfold has, sc_demo in Hl. cbn [In] in Hl. repeat (destruct Hl as [Hl|Hl]; [try discriminate; injection Hl as <-; cbn; try discriminate; auto|]). destruct Hl. }
  destruct k; cbn [file_special] in H.
  - exfalso. destruct H as (l & Hl & _ & E & G). destruct (K l Hl E) as (_ & _ & _ & X). congruence.
  - destruct H as (l & Hl & Hcp & E & G). destruct (K l Hl E) as (X & _). split; [discriminate|]. assert (c = 0xDF) by congruence. subst c.
    pose proof (case_simple true udc_demo sc_demo cf_demo case_demo_ok tb_case tb_case_gen case_demo_ascii Lower 0xDF) as S0.
    replace (simple_of tb_case Lower 0xDF) with 0xDF in S0 by (vm_compute; reflexivity). rewrite X. exact S0.
  - exfalso. destruct H as (l & Hl & _ & E & G). destruct (K l Hl E) as (_ & _ & X & _). congruence.
  - exfalso. assert (Hin : In (c, [c]) (full_table tb_case Fold)).
    { apply (proj2 (full_in true udc_demo sc_demo cf_demo case_demo_ok tb_case tb_case_gen Fold)). split; [exact H|left; reflexivity]. }
    assert (M : forallb (fun e => negb (str_eqb (snd e) [fst e])) (full_table tb_case Fold) = true) by (vm_compute; reflexivity).
    rewrite forallb_forall in M. specialize (M _ Hin). cbn [fst snd] in M. rewrite str_eqb_refl in M. discriminate.
Qed.
