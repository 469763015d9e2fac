(** Small files with lines copied from the Unicode Character Database, and boolean checks of the hypotheses of T_UcdApi.v and T_UcdApi2.v. *)
From Coq Require Import Ascii String Permutation Sorted.
From Verif Require Import Base M_TableGen M_PropGen M_UcdApi Spec_TableGen Spec_PropGen Spec_UcdApi P_TableGen P_TableGen2 P_PropGen TableGen_Demo PropGen_Demo P_UcdApi.
Open Scope N_scope.

(** ** Checks *)
Fixpoint pairsb {A} (r : A -> A -> bool) (l : list A) : bool := match l with [] => true | x :: t => forallb (r x) t && pairsb r t end.
Lemma pairsb_ok {A} (R : A -> A -> Prop) r (l : list A) : (forall a b, r a b = true -> R a b) -> pairsb r l = true -> ForallOrdPairs R l.
Proof.
  intros H. induction l as [|x t IH]; intros E; constructor; cbn [pairsb] in E; apply andb_true_iff in E as [E1 E2]; [|auto].
  apply Forall_forall. intros y Hy. apply H. rewrite forallb_forall in E1. auto.
Qed.
Lemma not_overlap a b : negb (overlap a b) = true -> apart a b.
Proof. intros H c Ca Cb. rewrite (overlap_ok a b c Ca Cb) in H. discriminate. Qed.
Definition separateb (f : list (fline stline)) : bool := pairsb (fun a b => negb (overlap a b)) (data f).
Lemma separateb_ok f : separateb f = true -> separate f.
Proof. apply pairsb_ok. exact not_overlap. Qed.
Definition separate_valuesb (f : list (fline stline)) : bool := pairsb (fun a b => negb (str_eqb (st_prop a) (st_prop b)) || negb (overlap a b)) (data f).
Lemma separate_valuesb_ok f : separate_valuesb f = true -> separate_values f.
Proof.
  apply pairsb_ok. intros a b H E. rewrite E, str_eqb_refl in H. cbn [negb orb] in H. now apply not_overlap.
Qed.
Definition nonemptyb {A} (f : list (fline A)) : bool := match data f with [] => false | _ => true end.
Lemma nonemptyb_ok {A} (f : list (fline A)) : nonemptyb f = true -> nonempty f.
Proof. unfold nonemptyb. destruct (data f) as [|a l] eqn:E; [discriminate|]. intros _. exists a. apply P_UcdApi.data_in. rewrite E. left. reflexivity. Qed.
Lemma pairs_sorted {A} (R : A -> A -> Prop) l : ForallOrdPairs R l -> StronglySorted R l.
Proof. induction 1; constructor; assumption. Qed.
Definition ascendingb (f : list (fline stline)) : bool := pairsb (fun a b => span_last (st_span a) <? span_first (st_span b)) (data f).
Lemma ascendingb_ok f : ascendingb f = true -> ascending f.
Proof. intros H. apply pairs_sorted. revert H. apply pairsb_ok. intros a b H. now apply N.ltb_lt. Qed.
(** a sort *)
Fixpoint rinsert {V} (k : N * N * V) (l : list (N * N * V)) : list (N * N * V) :=
  match l with [] => [k] | x :: r => if fst (fst x) <? fst (fst k) then x :: rinsert k r else k :: l end.
Definition rsort {V} (l : list (N * N * V)) : list (N * N * V) := fold_right rinsert [] l.
Lemma rinsert_perm {V} (k : N * N * V) l : Permutation (k :: l) (rinsert k l).
Proof. induction l as [|x r IH]; cbn [rinsert]; [reflexivity|]. destruct (_ <? _); [|reflexivity]. etransitivity; [apply perm_swap|]. now constructor. Qed.
Lemma rsort_ok {V} (l : list (N * N * V)) : sorted_by_first l (rsort l).
Proof.
  unfold rsort. induction l as [|x l [P S]]; cbn [fold_right]; [split; constructor|]. split.
  - etransitivity; [constructor; exact P|]. apply rinsert_perm.
  - clear P. induction S as [|y r S IH Hy]; cbn [rinsert]; [constructor; constructor|]. destruct (N.ltb_spec (fst (fst y)) (fst (fst x))) as [H|H].
    + constructor; [exact IH|]. eapply Permutation_Forall; [apply rinsert_perm|]. constructor; [apply N.ltb_ge; lia|exact Hy].
    + constructor; [constructor; assumption|]. constructor; [now apply N.ltb_ge|]. eapply Forall_impl; [|exact Hy]. cbn beta. intros a Ha. apply N.ltb_ge in Ha. apply N.ltb_ge. lia.
Qed.
Definition gsort (m : list (str * list prange)) : list (str * list prange) := map (fun g => (fst g, rsort (snd g))) m.
Lemma gsort_ok m : groups_sorted m (gsort m).
Proof. unfold gsort. induction m as [|g m IH]; cbn [map]; constructor; [|exact IH]. split; [reflexivity|apply rsort_ok]. Qed.
(** general category sections *)
Definition no_headerb (f : list (fline stline)) : bool := forallb (fun l => match l with Comment q => negb (starts_with gc_header q) | _ => true end) f.
Lemma no_headerb_ok f : no_headerb f = true -> no_gc_header f.
Proof. intros H q Hq r ->. unfold no_headerb in H. rewrite forallb_forall in H. specialize (H _ Hq). cbn beta iota in H. rewrite starts_self in H. discriminate. Qed.
Definition gc_sections_okb (aliases : list section) (pre : list (fline stline)) (secs : list gsection) : bool :=
  match data pre with [] => true | _ => false end && no_headerb pre && nodupb (map gs_name secs) &&
  forallb (fun s => wordb (gs_name s) && no_headerb (gs_body s) && ascendingb (gs_body s) && nonemptyb (gs_body s) &&
    forallb (fun l => existsb (fun e => str_eqb (fst e) (st_prop l) && str_eqb (snd e) (gs_name s)) (aliases_of aliases GC)) (data (gs_body s))) secs.
Lemma gc_sections_okb_ok aliases pre secs : gc_sections_okb aliases pre secs = true -> gc_sections_ok aliases pre secs.
Proof.
  unfold gc_sections_okb. intros H. apply andb_true_iff in H as [H H4]. apply andb_true_iff in H as [H H3]. apply andb_true_iff in H as [H1 H2].
  split; [destruct (data pre); [reflexivity|discriminate]|]. split; [now apply no_headerb_ok|]. split; [now apply nodupb_ok|].
  intros s Hs. rewrite forallb_forall in H4. specialize (H4 s Hs). cbn beta in H4. apply andb_true_iff in H4 as [H H5]. apply andb_true_iff in H as [H H4]. apply andb_true_iff in H as [H H6]. apply andb_true_iff in H as [H H7].
  split; [now apply wordb_ok|]. split; [now apply no_headerb_ok|]. split; [now apply ascendingb_ok|]. split; [now apply nonemptyb_ok|].
  intros l Hl. rewrite forallb_forall in H5. specialize (H5 l (proj1 (P_UcdApi.data_in _ _) Hl)). apply existsb_exists in H5 as ([a v] & Hin & E). cbn [fst snd] in E.
  apply andb_true_iff in E as [E1 E2]. apply str_eqb_eq in E1, E2. subst a v. now apply aliases_in.
Qed.
(** script extensions *)
Definition sce_lineb (l : stline) (ws : list str) : bool := st_okb l && match ws with [] => false | _ => true end && str_eqb (st_prop l) (join (spaces 1) ws) &&
  forallb (fun w => wordb w && withoutb 95 w && forallb (fun c => negb (is_space c)) w) ws.
Lemma sce_lineb_ok l ws : sce_lineb l ws = true -> sce_line l ws.
Proof.
  unfold sce_lineb. intros H. apply andb_true_iff in H as [H H4]. apply andb_true_iff in H as [H H3]. apply andb_true_iff in H as [H1 H2].
  split; [now apply st_okb_ok|]. split; [intros ->; discriminate|]. split; [now apply str_eqb_eq|]. apply Forall_forall. intros w Hw. rewrite forallb_forall in H4. specialize (H4 w Hw).
  cbn beta in H4. apply andb_true_iff in H4 as [H H5]. apply andb_true_iff in H as [H H6]. split; [now apply wordb_ok|]. split; [now apply withoutb_ok|].
  apply Forall_forall. intros c Hc. rewrite forallb_forall in H5. specialize (H5 c Hc). now apply negb_true_iff.
Qed.

(** ** Files *)
Local Open Scope string_scope.
(** DerivedGeneralCategory.txt *)
Definition gc_pre_demo : list (fline stline) := [Comment (lit " DerivedGeneralCategory-17.0.0.txt"); Comment (lit " General_Category values"); Blank []].
Definition gc_secs_demo : list gsection := [
  mkGs (lit "Unassigned") [Blank []; stl (Span 0x378 0x379) 4 "Cn" 1 "   [2] <reserved-0378>..<reserved-0379>"; stl (Span 0x380 0x383) 4 "Cn" 1 "   [4] <reserved-0380>..<reserved-0383>";
    Blank []; Comment (lit " Total code points: 819533")];
  mkGs (lit "Uppercase_Letter") [Blank []; stl (Span 0x41 0x5A) 4 "Lu" 1 "  [26] LATIN CAPITAL LETTER A..LATIN CAPITAL LETTER Z"; stl (Span 0xC0 0xD6) 4 "Lu" 1 "  [23] LATIN CAPITAL LETTER A WITH GRAVE..LATIN CAPITAL LETTER O WITH DIAERESIS"];
  mkGs (lit "Nonspacing_Mark") [stl (Span 0x300 0x36F) 4 "Mn" 1 " [112] COMBINING GRAVE ACCENT..COMBINING LATIN SMALL LETTER X"];
  mkGs (lit "Format") [stl (One 0xAD) 10 "Cf" 1 "       SOFT HYPHEN"; stl (Span 0x600 0x605) 4 "Cf" 1 "   [6] ARABIC NUMBER SIGN..ARABIC NUMBER MARK ABOVE"]].
Definition F2_demo : ucd_files := let F := F_demo in
  mkF (f_pre F) (f_pva F) (f_scripts F) (gc_file gc_pre_demo gc_secs_demo) (f_core F) (f_isc F) (f_evs F) (f_age F) (f_gcb F) (f_wb F) (f_eaw F) (f_emoji F) (f_hst F).
Lemma F2_demo_ok : files_ok F2_demo.
Proof. apply files_okb_ok. vm_compute. reflexivity. Qed.
(** Blocks.txt *)
Definition blocks_demo : list (fline stline) := [Comment (lit " Blocks-17.0.0.txt"); Blank [];
  Data (mkSt (Span 0x0000 0x007F) 0 1 (lit "Basic Latin") 0 None); Data (mkSt (Span 0x0080 0x00FF) 0 1 (lit "Latin-1 Supplement") 0 None);
  Data (mkSt (Span 0x4E00 0x9FFF) 0 1 (lit "CJK Unified Ideographs") 0 None)].
(** PropertyValueAliases.txt, ScriptExtensions.txt *)
Definition pva2_demo : list section := [
  mkSec (lit "Age") (lit "age") [Blank []; pvl "age" 0 "1.1" 35 "V1_1" ""; pvl "age" 0 "17.0" 34 "V17_0" ""; pvl "age" 0 "NA" 36 "Unassigned" ""; Blank []];
  mkSec (lit "Script") (lit "sc") [Blank []; pvl "sc" 1 "Beng" 34 "Bengali" ""; pvl "sc" 1 "Deva" 34 "Devanagari" ""; pvl "sc" 1 "Gran" 34 "Grantha" ""; pvl "sc" 1 "Knda" 34 "Kannada" ""; Blank []]].
Definition sce_demo : list (fline stline) := [Comment (lit " ScriptExtensions-17.0.0.txt"); Comment (lit " Script_Extensions=Deva");
  stl (One 0x1CD1) 10 "Deva" 1 " Mn       VEDIC TONE SHARA"; stl (One 0x1CD0) 10 "Beng Deva Gran Knda" 1 " Mn       VEDIC TONE KARSHANA";
  stl (One 0x1CF7) 10 "Beng" 1 " Mc       VEDIC SIGN ATIKRAMA"; stl (Span 0x951 0x952) 4 "Gran Deva Knda Beng" 1 " Mn"].
(** UnicodeData.txt, BidiMirroring.txt *)
Definition udm (c : N) (name cat bidi f9 : string) : fline udline := Data (mkUl c (lit name) (lit cat) 0 (lit bidi) None [] [] [] (lit f9) [] [] None None None).
Definition udm_demo : list (fline udline) := [udm 0x28 "LEFT PARENTHESIS" "Ps" "ON" "Y"; udm 0x29 "RIGHT PARENTHESIS" "Pe" "ON" "Y"; udm 0x2A "ASTERISK" "Po" "ON" "N";
  udm 0x3C "LESS-THAN SIGN" "Sm" "ON" "Y"; udm 0x3D "EQUALS SIGN" "Sm" "ON" "N"; udm 0x3E "GREATER-THAN SIGN" "Sm" "ON" "Y"].
Definition mir_demo : list (fline stline) := [Comment (lit " BidiMirroring-17.0.0.txt"); Blank [];
  Data (mkSt (One 0x28) 0 1 (lit "0029") 1 (Some (lit " LEFT PARENTHESIS"))); Data (mkSt (One 0x29) 0 1 (lit "0028") 1 (Some (lit " RIGHT PARENTHESIS")));
  Data (mkSt (One 0x3C) 0 1 (lit "003E") 1 (Some (lit " LESS-THAN SIGN"))); Data (mkSt (One 0x3E) 0 1 (lit "003C") 1 (Some (lit " GREATER-THAN SIGN")))].
