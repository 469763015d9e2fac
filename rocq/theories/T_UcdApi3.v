(** C94: the query functions of ucd.h against the code point property table; and the cases that meet the hypotheses of C83 to C94. *)
From Coq Require Import Ascii String Permutation Sorted.
From Verif Require Import Base M_TableGen M_PropGen M_UcdApi M_Tables Spec_Tables Spec_TableGen Spec_PropGen Spec_UcdApi
  P_TableGen P_TableGen2 P_PropGen P_PropGen2 P_PropGen3 P_PropGen9 TableGen_Demo PropGen_Demo T_PropGen P_UcdApi P_UcdApi2 P_UcdApi3 P_UcdApi4 T_UcdApi T_UcdApi2 UcdApi_Demo.
Open Scope N_scope.

(** C94.  "grapheme_cluster_break() and the Grapheme_Cluster_Break of the code point property table agree for every code point": false for the
    code points the file does not list (Undefined against Other). *)
Definition C94_grapheme_statement : Prop := forall crlf F props groups g c, files_ok F -> separate (f_gcb F) -> nonempty (f_gcb F) -> grouped_file GCB (f_gcb F) ->
  generated_props crlf F props -> groups_sorted (load_grouped (lit "Property") (file_text st_text crlf (f_gcb F))) groups -> api_grapheme groups GCB = Some g ->
  g c = Ok (o_gcb (props c)).
Lemma gcb_demo_grouped : grouped_file GCB (f_gcb F_demo).
Proof.
  exists [], [9], (tl (f_gcb F_demo)). split; [reflexivity|]. split; [reflexivity|]. split; [constructor; [right; left; reflexivity|constructor]|]. split; [apply wordb_ok; reflexivity|].
  intros q H. cbn in H. destruct H as [H|[H|[]]]; discriminate H.
Qed.
Lemma gcb_demo_separate : separate (f_gcb F_demo). Proof. apply separateb_ok. vm_compute. reflexivity. Qed.
Lemma gcb_demo_nonempty : nonempty (f_gcb F_demo). Proof. apply nonemptyb_ok. vm_compute. reflexivity. Qed.
Definition gcb_groups : list (str * list prange) := gsort (load_grouped (lit "Property") (file_text st_text true (f_gcb F_demo))).
Theorem C94_grapheme_cluster_break_refuted : ~ C94_grapheme_statement.
Proof.
  intros H.
  assert (E : exists g, api_grapheme gcb_groups GCB = Some g /\ g 0x41 = Ok (lit "Undefined")) by (eexists; split; [vm_compute; reflexivity|vm_compute; reflexivity]).
  destruct E as (g & Eg & E1).
  specialize (H true F_demo (out_record members_demo d_demo) gcb_groups g 0x41 F_demo_ok gcb_demo_separate gcb_demo_nonempty gcb_demo_grouped
    (ex_intro _ d_demo (ex_intro _ members_demo (conj d_demo_parsed (conj members_demo_ok eq_refl)))) (gsort_ok _) Eg).
  rewrite E1 in H. assert (E2 : o_gcb (out_record members_demo d_demo 0x41) = lit "Other") by (vm_compute; reflexivity). rewrite E2 in H. discriminate H.
Qed.
Print Assumptions C94_grapheme_cluster_break_refuted.
(** C94 (partial): they agree for every code point to which the file gives the long name of a value; for the others they are Undefined and Other. *)
Theorem C94_grapheme_cluster_break_partial : forall crlf crlf' F props groups g c, files_ok F -> separate (f_gcb F) -> nonempty (f_gcb F) -> grouped_file GCB (f_gcb F) ->
  generated_props crlf F props -> groups_sorted (load_grouped (lit "Property") (file_text st_text crlf' (f_gcb F))) groups -> api_grapheme groups GCB = Some g ->
  ((exists w, gives (f_gcb F) c w /\ has_value (f_pva F) GCB w) -> g c = Ok (o_gcb (props c))) /\
  ((forall w, ~ gives (f_gcb F) c w) -> g c = Ok (lit "Undefined") /\ o_gcb (props c) = lit "Other").
Proof.
  intros crlf crlf' F props groups g c Hok Hs Hne Hg Hp Ht Eg. pose proof (C76_values crlf F props Hok Hp c) as (_ & _ & V & _).
  assert (Hv : value_file (f_gcb F)). { destruct Hok as (_ & H & _). rewrite Forall_forall in H. apply H. cbn [In]. tauto. }
  destruct (C87_grapheme_cluster_break crlf' (f_gcb F) groups (proj1 Hv) Hs Hne Hg Ht) as (g' & Eg' & G). rewrite Eg in Eg'. injection Eg' as <-.
  destruct (G c) as (v & E & Hv'). rewrite E. split.
  - intros (w & Hw & a & Ha). destruct Hv' as [Gv|[Hno _]]; [|destruct (Hno w Hw)]. f_equal.
    assert (v = w) as -> by exact (proj2 Hv c v w Gv Hw).
    destruct V as [(w' & Hw' & Hn)|[Hno _]].
    + assert (w' = w) as -> by exact (proj2 Hv c w' w Hw' Hw). destruct Hn as [Ha'|[E' _]]; [|exact E'].
      assert (He : enum_ok (f_pva F) GCB (lit "Undefined")) by (apply Hok). destruct He as (_ & He & _). symmetry. exact (He w (o_gcb (props c)) a w Ha' Ha eq_refl).
    + exfalso. apply (Hno w w Hw). right. split; [reflexivity|]. exists a. exact Ha.
  - intros Hno. destruct Hv' as [Gv|[_ ->]]; [destruct (Hno v Gv)|]. split; [reflexivity|]. destruct V as [(w' & Hw' & _)|[_ E']]; [destruct (Hno w' Hw')|exact E'].
Qed.
Print Assumptions C94_grapheme_cluster_break_partial.

(** C94.  "east_asian_width() and the East_Asian_Width of the property table agree for every code point": false for the code points the file does
    not list (Unspecified against Narrow). *)
Definition C94_width_statement : Prop := forall crlf F props tbl c v, files_ok F -> separate (f_eaw F) -> nonempty (f_eaw F) -> (forall w, gives (f_eaw F) c w -> exists v, width_enum w v) ->
  (forall a u, alias (f_pva F) EAW a u -> exists a' e', In (a', e') width_aliases /\ a = lit a' /\ u = lit e') ->
  generated_props crlf F props -> sorted_by_first (load_generic (file_text st_text crlf (f_eaw F))) tbl ->
  api_eaw tbl c = Ok v -> same_width v (o_eaw (props c)).
Lemma eaw_demo_widths c w : gives (f_eaw F_demo) c w -> exists v, width_enum w v.
Proof.
  intros (l & Hl & _ & <-). cbn in Hl. destruct Hl as [E|[E|[E|[]]]]; injection E as <-; cbn [st_prop].
  - exists (lit "Narrow"), "Na"%string, "Narrow"%string. split; [cbn; tauto|auto].
  - exists (lit "Wide"), "W"%string, "Wide"%string. split; [cbn; tauto|auto].
  - exists (lit "FullWidth"), "F"%string, "FullWidth"%string. split; [cbn; tauto|auto].
Qed.
Lemma eaw_demo_aliases a u : alias (f_pva F_demo) EAW a u -> exists a' e', In (a', e') width_aliases /\ a = lit a' /\ u = lit e'.
Proof.
  intros H. apply aliases_in in H.
  assert (G : forall e, In e (aliases_of (f_pva F_demo) EAW) -> In e (map (fun p => (lit (fst p), lit (snd p))) width_aliases)).
  { intros e He. assert (K : forallb (fun e => existsb (fun e' => str_eqb (fst e) (fst e') && str_eqb (snd e) (snd e')) (map (fun p => (lit (fst p), lit (snd p))) width_aliases)) (aliases_of (f_pva F_demo) EAW) = true) by (vm_compute; reflexivity).
    rewrite forallb_forall in K. specialize (K e He). apply existsb_exists in K as (e' & He' & K). apply andb_true_iff in K as [K1 K2]. apply str_eqb_eq in K1, K2. destruct e, e'. cbn [fst snd] in *. subst. exact He'. }
  apply G, in_map_iff in H as ([a' e'] & E & Hin). injection E as <- <-. exists a', e'. auto.
Qed.
Lemma eaw_demo_separate : separate (f_eaw F_demo). Proof. apply separateb_ok. vm_compute. reflexivity. Qed.
Lemma eaw_demo_nonempty : nonempty (f_eaw F_demo). Proof. apply nonemptyb_ok. vm_compute. reflexivity. Qed.
Definition eaw_tbl : list prange := rsort (load_generic (file_text st_text true (f_eaw F_demo))).
Theorem C94_east_asian_width_refuted : ~ C94_width_statement.
Proof.
  intros H.
  assert (E1 : api_eaw eaw_tbl 0x300 = Ok (lit "Unspecified")) by (vm_compute; reflexivity).
  specialize (H true F_demo (out_record members_demo d_demo) eaw_tbl 0x300 _ F_demo_ok eaw_demo_separate eaw_demo_nonempty (eaw_demo_widths 0x300) eaw_demo_aliases
    (ex_intro _ d_demo (ex_intro _ members_demo (conj d_demo_parsed (conj members_demo_ok eq_refl)))) (rsort_ok _) E1).
  destruct H as (a & e & e' & H1 & _ & H2 & _). cbn [In width_names] in H1. repeat (destruct H1 as [H1|H1]; [injection H1 as <- <-; discriminate H2|]). destruct H1.
Qed.
Print Assumptions C94_east_asian_width_refuted.
(** C94 (partial): they agree for every code point the file lists; for the others they are Unspecified and Narrow. *)
Theorem C94_east_asian_width_partial : forall crlf crlf' F props tbl c v, files_ok F -> separate (f_eaw F) -> nonempty (f_eaw F) -> (forall w, gives (f_eaw F) c w -> exists v, width_enum w v) ->
  (forall w, gives (f_eaw F) c w -> exists u, alias (f_pva F) EAW w u) ->
  (forall a u, alias (f_pva F) EAW a u -> exists a' e', In (a', e') width_aliases /\ a = lit a' /\ u = lit e') ->
  generated_props crlf F props -> sorted_by_first (load_generic (file_text st_text crlf' (f_eaw F))) tbl ->
  api_eaw tbl c = Ok v ->
  ((exists w, gives (f_eaw F) c w) -> same_width v (o_eaw (props c))) /\
  ((forall w, ~ gives (f_eaw F) c w) -> v = lit "Unspecified" /\ o_eaw (props c) = lit "Narrow").
Proof.
  intros crlf crlf' F props tbl c v Hok Hs Hne Hw Hwa Hal Hp Ht Ev. pose proof (C76_values crlf F props Hok Hp c) as (_ & _ & _ & _ & V & _).
  assert (Hv : value_file (f_eaw F)). { destruct Hok as (_ & H & _). rewrite Forall_forall in H. apply H. cbn [In]. tauto. }
  destruct (C86_east_asian_width crlf' (f_eaw F) tbl c (proj1 Hv) Hs Hne Hw Ht) as (v' & E & G). rewrite Ev in E. injection E as <-. split.
  - intros [w Gw]. destruct G as [(w' & Gw' & He)|[Hno _]]; [|destruct (Hno w Gw)]. assert (w' = w) as -> by exact (proj2 Hv c w' w Gw' Gw). clear Gw'.
    destruct (Hwa w Gw) as [u Hu].
    assert (Eu : o_eaw (props c) = u).
    { destruct V as [(w' & Gw' & Hn)|[Hno _]]; [|exfalso; apply (Hno w u Gw); left; exact Hu]. assert (w' = w) as -> by exact (proj2 Hv c w' w Gw' Gw).
      assert (Hpva : pva_ok (f_pva F)) by apply Hok. assert (Henum : enum_ok (f_pva F) EAW []) by apply Hok.
      destruct Hn as [Ha|[Ew [a Ha]]]; [destruct Hpva as (_ & _ & Hun); exact (Hun EAW w _ _ ltac:(discriminate) Ha Hu)|]. destruct Henum as (_ & Henum & _). symmetry. exact (Henum w u a (o_eaw (props c)) Hu Ha Ew). }
    rewrite Eu. destruct He as (x & e & Hin & Ex & ->). destruct (Hal w u Hu) as (x' & e' & Hin' & Ex' & ->). rewrite Ex in Ex'.
    assert (x = x') as <-.
    { clear -Hin Hin' Ex'. unfold width_names in Hin. unfold width_aliases in Hin'. cbn [In] in Hin, Hin'.
      repeat (destruct Hin as [Hin|Hin]; [injection Hin as <- <-; repeat (destruct Hin' as [Hin'|Hin']; [injection Hin' as <- <-; try reflexivity; discriminate Ex'|]); destruct Hin'|]). destruct Hin. }
    exists x, e, e'. auto.
  - intros Hno. destruct G as [(w' & Gw' & _)|[_ ->]]; [destruct (Hno w' Gw')|]. split; [reflexivity|]. destruct V as [(w' & Gw' & _)|[_ E']]; [destruct (Hno w' Gw')|exact E'].
Qed.
Print Assumptions C94_east_asian_width_partial.

(** ** Cases that meet the hypotheses *)
Lemma demo_words f : all_data word_lineb f = true -> lines_ok word_line f.
Proof. exact (all_data_ok _ _ f word_lineb_ok). Qed.
Definition script_tbl : list prange := rsort (load_generic (file_text st_text true (f_scripts F_demo))).
Example C83_hypotheses : lines_ok word_line (f_scripts F_demo) /\ separate (f_scripts F_demo) /\ nonempty (f_scripts F_demo) /\
  sorted_by_first (load_generic (file_text st_text true (f_scripts F_demo))) script_tbl.
Proof. split; [apply demo_words; vm_compute; reflexivity|]. split; [apply separateb_ok; vm_compute; reflexivity|]. split; [apply nonemptyb_ok; vm_compute; reflexivity|apply rsort_ok]. Qed.
Example C83_demo : map (api_script script_tbl) [0x40; 0x41; 0x5A; 0x5B; 0x30; 0x36F; 0x110000] =
  map (fun s => Ok (lit s)) ["Unknown"; "Latin"; "Latin"; "Unknown"; "Common"; "Inherited"; "Unknown"]%string.
Proof. vm_compute. reflexivity. Qed.

Definition gc_loaded : list (str * list prange) * list prange :=
  match load_gc (load_pva (pva_text true (f_pre F2_demo) (f_pva F2_demo))) (file_text st_text true (f_gc F2_demo)) with Some r => r | None => ([], []) end.
Example C84_hypotheses : pva_ok pva_demo /\ lines_ok word_line (gc_file gc_pre_demo gc_secs_demo) /\ separate (gc_file gc_pre_demo gc_secs_demo) /\
  gc_sections_ok pva_demo gc_pre_demo gc_secs_demo /\
  load_gc (load_pva (pva_text true (f_pre F2_demo) (f_pva F2_demo))) (file_text st_text true (gc_file gc_pre_demo gc_secs_demo)) = Some (fst gc_loaded, snd gc_loaded) /\
  sorted_by_first (snd gc_loaded) (rsort (snd gc_loaded)).
Proof.
  split; [exact (proj1 F2_demo_ok)|]. split; [apply demo_words; vm_compute; reflexivity|]. split; [apply separateb_ok; vm_compute; reflexivity|].
  split; [apply gc_sections_okb_ok; vm_compute; reflexivity|]. split; [vm_compute; reflexivity|apply rsort_ok].
Qed.
Example C84_demo : map (api_gc_get (rsort (snd gc_loaded))) [0x41; 0xC0; 0x378; 0x37A; 0xAD; 0x301; 0x604] =
    map (fun s => Ok (lit s)) ["Uppercase_Letter"; "Uppercase_Letter"; "Unassigned"; "Unspecified"; "Format"; "Nonspacing_Mark"; "Format"]%string /\
  map (api_gc_contains (fst gc_loaded) (lit "Uppercase_Letter")) [0x40; 0x41; 0x5A; 0x5B; 0xC0; 0x301] = map (@Ok bool) [false; true; true; false; true; false].
Proof. split; vm_compute; reflexivity. Qed.
Example C94_general_category_hypotheses : files_ok F2_demo /\ f_gc F2_demo = gc_file gc_pre_demo gc_secs_demo /\ (exists props, generated_props true F2_demo props) /\
  exists a, gives (f_gc F2_demo) 0x604 a.
Proof.
  split; [exact F2_demo_ok|]. split; [reflexivity|]. split; [apply C81_generation_succeeds; exact F2_demo_ok|]. exists (lit "Cf").
  exists (mkSt (Span 0x600 0x605) 4 1 (lit "Cf") 1 (Some (lit "   [6] ARABIC NUMBER SIGN..ARABIC NUMBER MARK ABOVE"))).
  split; [unfold has; cbn; repeat ((left; reflexivity) || right)|]. split; [cbn; lia|reflexivity].
Qed.

Example C85_hypotheses : lines_ok core_line (f_core F_demo) /\ separate_values (f_core F_demo) /\ lines_ok word_line (f_emoji F_demo) /\ separate_values (f_emoji F_demo).
Proof.
  split; [apply (all_data_ok _ _ _ core_lineb_ok); vm_compute; reflexivity|]. split; [apply separate_valuesb_ok; vm_compute; reflexivity|].
  split; [apply demo_words; vm_compute; reflexivity|apply separate_valuesb_ok; vm_compute; reflexivity].
Qed.
Definition core_groups := gsort (fst (load_core (file_text st_text true (f_core F_demo)))).
Definition emoji_groups := gsort (load_emoji (file_text st_text true (f_emoji F_demo))).
Example C85_demo : map (api_core_contains core_groups (lit "Grapheme_Extend")) [0x2FF; 0x300; 0x94D; 0x94E] = map (@Ok bool) [false; true; true; false] /\
  api_core_contains core_groups (lit "Uppercase") 0x41 = Ok false /\
  match api_emoji emoji_groups (lit "Emoji_Presentation") with Some is => map is [0x23; 0x231A; 0x231B; 0x231C] | None => [] end = map (@Ok bool) [false; true; true; false] /\
  match api_emoji emoji_groups (lit "Emoji") with Some is => map is [0x23; 0x231A; 0x1F3FB] | None => [] end = map (@Ok bool) [true; true; false].
Proof. split; [vm_compute; reflexivity|]. split; [vm_compute; reflexivity|]. split; vm_compute; reflexivity. Qed.

Example C86_hypotheses : lines_ok word_line (f_eaw F_demo) /\ separate (f_eaw F_demo) /\ nonempty (f_eaw F_demo) /\
  (forall c w, gives (f_eaw F_demo) c w -> exists v, width_enum w v) /\ sorted_by_first (load_generic (file_text st_text true (f_eaw F_demo))) eaw_tbl.
Proof.
  split; [apply demo_words; vm_compute; reflexivity|]. split; [apply separateb_ok; vm_compute; reflexivity|]. split; [apply nonemptyb_ok; vm_compute; reflexivity|]. split; [exact eaw_demo_widths|apply rsort_ok].
Qed.
Example C86_demo : map (api_eaw eaw_tbl) [0x41; 0x4E00; 0xFF01; 0x300] = map (fun s => Ok (lit s)) ["Narrow"; "Wide"; "FullWidth"; "Unspecified"]%string.
Proof. vm_compute. reflexivity. Qed.
(** merging: adjacent ranges of the same width become one *)
Example C86_merge : merge_ranges None [(1, 2, lit "W"); (3, 9, lit "W"); (10, 11, lit "N"); (13, 14, lit "N")] = [(1, 9, lit "W"); (10, 11, lit "N"); (13, 14, lit "N")].
Proof. vm_compute. reflexivity. Qed.

Example C87_hypotheses : lines_ok word_line (f_gcb F_demo) /\ separate (f_gcb F_demo) /\ nonempty (f_gcb F_demo) /\ grouped_file GCB (f_gcb F_demo) /\
  groups_sorted (load_grouped (lit "Property") (file_text st_text true (f_gcb F_demo))) gcb_groups.
Proof.
  split; [apply demo_words; vm_compute; reflexivity|]. split; [apply separateb_ok; vm_compute; reflexivity|]. split; [apply nonemptyb_ok; vm_compute; reflexivity|]. split; [exact gcb_demo_grouped|apply gsort_ok].
Qed.
Example C87_demo : match api_grapheme gcb_groups GCB with Some g => map g [0x600; 0x605; 0x606; 0x1F1E6] | None => [] end =
  map (fun s => Ok (lit s)) ["Prepend"; "Prepend"; "Undefined"; "Regional_Indicator"]%string.
Proof. vm_compute. reflexivity. Qed.
Example C88_demo : map api_plane [0; 0xFFFF; 0x10000; 0xE0001; 0x10FFFF; 0x110000] =
  map (fun s => Ok (lit s)) ["Basic_Multilingual_Plane"; "Basic_Multilingual_Plane"; "Supplementary_Multilingual_Plane"; "Supplementary_Special_purpose_Plane";
    "Supplementary_Private_Use_Area_Plane"; "Unassigned"]%string.
Proof. vm_compute. reflexivity. Qed.

Example C89_hypotheses : lines_ok st_ok blocks_demo /\ ascending blocks_demo /\ exists l, has blocks_demo l /\ is_span (st_span l).
Proof.
  split; [apply (all_data_ok _ _ _ st_okb_ok); vm_compute; reflexivity|]. split; [apply ascendingb_ok; vm_compute; reflexivity|].
  eexists. split; [right; right; left; reflexivity|exact I].
Qed.
Example C89_demo : map (api_block (load_blocks (file_text st_text true blocks_demo))) [0x7F; 0x80; 0x100; 0x4E00] =
  map (fun s => Ok (lit s)) ["Basic_Latin"; "Latin_1_Supplement"; "Unspecified"; "CJK_Unified_Ideographs"]%string.
Proof. vm_compute. reflexivity. Qed.

Lemma sce_demo_lines l : has sce_demo l -> exists ws, sce_line l ws /\ Forall (fun w => exists v, alias pva2_demo SC w v) ws.
Proof.
  assert (G : forall w, existsb (fun e => str_eqb (fst e) w) (aliases_of pva2_demo SC) = true -> exists v, alias pva2_demo SC w v).
  { intros w H. apply existsb_exists in H as ([a v] & H & E). apply str_eqb_eq in E. cbn [fst] in E. subst a. exists v. now apply aliases_in. }
  assert (K : forall ws, forallb (fun w => existsb (fun e => str_eqb (fst e) w) (aliases_of pva2_demo SC)) ws = true -> Forall (fun w => exists v, alias pva2_demo SC w v) ws).
  { intros ws H. apply Forall_forall. intros w Hw. apply G. rewrite forallb_forall in H. exact (H w Hw). }
  intros H. cbn in H. destruct H as [H|[H|[H|[H|[H|[H|[]]]]]]]; try discriminate H; injection H as <-.
  - exists (map lit ["Deva"]%string). split; [apply sce_lineb_ok; vm_compute; reflexivity|apply K; vm_compute; reflexivity].
  - exists (map lit ["Beng"; "Deva"; "Gran"; "Knda"]%string). split; [apply sce_lineb_ok; vm_compute; reflexivity|apply K; vm_compute; reflexivity].
  - exists (map lit ["Beng"]%string). split; [apply sce_lineb_ok; vm_compute; reflexivity|apply K; vm_compute; reflexivity].
  - exists (map lit ["Gran"; "Deva"; "Knda"; "Beng"]%string). split; [apply sce_lineb_ok; vm_compute; reflexivity|apply K; vm_compute; reflexivity].
Qed.
Definition sces := rsort (load_sce (file_text st_text true sce_demo)).
Example C90_hypotheses : pva_ok pva2_demo /\ lines_ok (fun l => exists ws, sce_line l ws) sce_demo /\ separate sce_demo /\ nonempty sce_demo /\
  (forall c ws w, lists sce_demo c ws -> In w ws -> exists v, alias pva2_demo SC w v) /\ sorted_by_first (load_sce (file_text st_text true sce_demo)) sces.
Proof.
  split; [apply pva_okb_ok; vm_compute; reflexivity|]. split.
  { intros l Hl. destruct l as [a|s|s]; [destruct (sce_demo_lines a Hl) as (ws & H & _); exists ws; exact H|exact I|]. cbn in Hl. repeat (destruct Hl as [Hl|Hl]; [discriminate Hl|]). destruct Hl. }
  split; [apply separateb_ok; vm_compute; reflexivity|]. split; [apply nonemptyb_ok; vm_compute; reflexivity|]. split; [|apply rsort_ok].
  intros c ws w (l & Hl & _ & H) Hw. destruct (sce_demo_lines l Hl) as (ws' & H' & G). rewrite <- (P_UcdApi5.sce_tokens _ _ H) in Hw. rewrite (P_UcdApi5.sce_tokens _ _ H') in Hw. rewrite Forall_forall in G. exact (G w Hw).
Qed.
Example C90_demo : match api_script_extensions (load_pva (pva_text true [] pva2_demo)) sces with Some g => map g [0x1CCF; 0x1CD0; 0x1CD1; 0x951; 0x952; 0x953; 0x1CF7] | None => [] end =
  [Ok None; Ok (Some (map lit ["Bengali"; "Devanagari"; "Grantha"; "Kannada"]%string)); Ok (Some [lit "Devanagari"]); Ok (Some (map lit ["Bengali"; "Devanagari"; "Grantha"; "Kannada"]%string));
   Ok (Some (map lit ["Bengali"; "Devanagari"; "Grantha"; "Kannada"]%string)); Ok None; Ok (Some [lit "Bengali"])].
Proof. vm_compute. reflexivity. Qed.

Example C91_hypotheses : lines_ok flag_line udm_demo /\ one_line_each udm_demo /\ exists x, mirrored udm_demo x.
Proof.
  split.
  { apply (all_data_ok _ (fun u => ud_okb u && (str_eqb (ul_f9 u) (lit "Y") || str_eqb (ul_f9 u) (lit "N")))).
    - intros u H. apply andb_true_iff in H as [A B]. split; [now apply ud_okb_ok|]. apply orb_true_iff in B as [B|B]; apply str_eqb_eq in B; auto.
    - vm_compute. reflexivity. }
  split.
  { unfold one_line_each. cbn. repeat (constructor; [cbn; intuition discriminate|]). constructor. }
  exists 0x28. eexists. split; [left; reflexivity|]. split; reflexivity.
Qed.
Example C91_demo : load_mirrored (file_text ud_text true udm_demo) = [(0x28, 0x29); (0x3C, 0x3C); (0x3E, 0x3E)] /\
  map (api_is_mirrored (load_mirrored (file_text ud_text true udm_demo))) [0x27; 0x28; 0x29; 0x2A; 0x3C; 0x3D; 0x3E] = map (@Ok bool) [false; true; true; false; true; false; true].
Proof. split; vm_compute; reflexivity. Qed.

Lemma mir_demo_lines l : has mir_demo l -> exists c t, mirror_line l c t /\ mirrors mir_demo t c.
Proof.
  assert (K : forall l c t, st_okb l = true -> st_span l = One c -> (t <=? 0x10FFFF) = true -> str_eqb (st_prop l) (hexs t) = true -> mirror_line l c t).
  { intros x c t A B C D. split; [now apply st_okb_ok|]. split; [exact B|]. split; [now apply N.leb_le|now apply str_eqb_eq]. }
  assert (M : forall l c t, In (Data l) mir_demo -> mirror_line l c t -> mirrors mir_demo c t) by (intros x c t A B; exists x; auto).
  intros H. cbn in H. destruct H as [H|[H|[H|[H|[H|[H|[]]]]]]]; try discriminate H; injection H as <-.
  - exists 0x28, 0x29. split; [apply K; reflexivity|]. eapply M; [right; right; right; left; reflexivity|]. apply K; reflexivity.
  - exists 0x29, 0x28. split; [apply K; reflexivity|]. eapply M; [right; right; left; reflexivity|]. apply K; reflexivity.
  - exists 0x3C, 0x3E. split; [apply K; reflexivity|]. eapply M; [right; right; right; right; right; left; reflexivity|]. apply K; reflexivity.
  - exists 0x3E, 0x3C. split; [apply K; reflexivity|]. eapply M; [right; right; right; right; left; reflexivity|]. apply K; reflexivity.
Qed.
Example C92_hypotheses : mirror_file mir_demo /\ one_mirror_each mir_demo /\ forall a t, mirrors mir_demo a t -> mirrors mir_demo t a.
Proof.
  split. { intros l Hl. destruct l as [a|s|s]; [destruct (mir_demo_lines a Hl) as (c & t & H & _); exists c, t; exact H|exact I|]. cbn in Hl. repeat (destruct Hl as [Hl|Hl]; [try discriminate Hl; injection Hl as <-; constructor|]). destruct Hl. }
  split. { unfold one_mirror_each. cbn. repeat (constructor; [cbn; intuition discriminate|]). constructor. }
  intros a t (l & Hl & H). destruct (mir_demo_lines l Hl) as (c & u & H' & M).
  assert (Ea : a = c) by (destruct H as (_ & E & _), H' as (_ & E' & _); congruence).
  assert (Et : t = u). { destruct H as (_ & _ & Ht & E), H' as (_ & _ & Ht' & E'). rewrite <- (parse_hexs0 t Ht), <- (parse_hexs0 u Ht'). congruence. }
  subst a t. exact M.
Qed.
Example C92_demo : map (api_mirroring_glyph (load_mirroring (file_text st_text true mir_demo))) [0x28; 0x29; 0x2A; 0x3C; 0x3E] = [0x29; 0x28; 0x2A; 0x3E; 0x3C].
Proof. vm_compute. reflexivity. Qed.
Example C93_hypotheses : pva_ok pva2_demo /\ exists a v, alias pva2_demo (lit "Age") a v.
Proof. split; [apply pva_okb_ok; vm_compute; reflexivity|]. exists (lit "1.1"), (lit "V1_1"). apply aliases_in. left. reflexivity. Qed.
Example C93_demo : match api_make_age (load_pva (pva_text true [] pva2_demo)) with Some g => map g [lit "1.1"; lit "17.0"; lit "NA"; lit "17"; []] | None => [] end =
  [Some (lit "V1_1"); Some (lit "V17_0"); None; None; None].
Proof. vm_compute. reflexivity. Qed.
