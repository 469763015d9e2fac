(** C136: the functions of the generated ucd.cpp answer with the properties of the files it was generated from. *)
From Coq Require Import String Permutation Sorted Lia.
From Verif Require Import Base M_TableGen M_PropGen M_UcdApi M_Tables M_Emit M_EmitUcd Spec_Tables Spec_TableGen Spec_PropGen Spec_UcdApi Spec_Cpp Spec_EmitUcd Spec_EmitFiles
  P_Tables P_TableGen P_TableGen2 P_PropGen P_PropGen3 P_PropGen4 P_PropGen5 P_UcdApi P_UcdApi2 P_UcdApi3 P_UcdApi4 P_UcdApi5 P_UcdApi6 T_Tables T_UcdApi T_UcdApi2 P_Enums P_Enums2 P_Enums4
  T_EmitUcd P_EmitFiles.
Open Scope N_scope.

Lemma maps_ranges (us : list (str * list crange)) name (l : list prange) : In (name, l) (map without_comments us) -> In (name, intervals l) (map ranges_of us).
Proof. intros H. apply in_map_iff in H as (e & E & He). injection E as <- <-. apply in_map_iff. exists e. split; [reflexivity|exact He]. Qed.
Lemma get_in {V} (l : list (str * V)) k v : smap_get k l = Some v -> In (k, v) l.
Proof.
  induction l as [|[k' v'] l IH]; cbn [smap_get]; [discriminate|]. destruct (str_eqb_spec k k') as [->|]; [intros E; injection E as ->; left; reflexivity|right; auto].
Qed.
Section Answers.
Variables (crlf : bool) (F : ucd_files) (A : api_files) (u : ucd_src) (cpp : str).
Hypothesis Hok : files_ok F.
Hypothesis HA : api_files_ok F A.
Hypothesis Hl : loaded_api crlf F A u.
Variable al : list (str * str).
Hypothesis Hal : smap_get (lit "Script") (u_pva u) = Some al.
Hypothesis D : ucd_cpp_denotes cpp (api_of al u).

Lemma a_script : looks_up cpp (lit "Script") (lit "Prop<unicode::Script>") (lit "unicode::Script")
    (fun_text (lit "Script") (lit "script") (search_text (lit "Script") (lit "Script::Unknown"))) (lit "Unknown") (value_in (f_scripts F) (lit "Unknown")).
Proof.
  destruct D as (_ & _ & _ & _ & (T & X) & _). exists (map fst (u_scripts u)). split; [exact T|]. split; [exact X|]. intros c.
  destruct Hl as (_ & _ & _ & _ & S & _). destruct HA as (_ & _ & _ & (Sep & Ne) & _).
  exact (C83_script crlf (f_scripts F) _ c (value_lines F Hok (f_scripts F) (or_introl eq_refl)) Sep Ne S).
Qed.
Lemma a_gc : looks_up cpp (lit "General_Category") (lit "Prop<::unicode::General_Category>") (lit "::unicode::General_Category")
    (lit "General_Category get(char32_t value) noexcept { return search(tables::General_Category, value).value_or(General_Category::Unspecified); }") (lit "Unspecified")
    (fun c v => (exists a, gives (f_gc F) c a /\ alias (f_pva F) GC a v) \/ (forall a, ~ gives (f_gc F) c a) /\ v = lit "Unspecified").
Proof.
  destruct D as (_ & _ & (T & X) & _). exists (map fst (u_gcs u)). split; [exact T|]. split; [exact X|]. intros c.
  destruct Hl as (Ep & (l & E & S) & _). destruct HA as ((Ef & Ne & Gs & Sep) & _). pose proof (gc_lines F Hok) as Hf. destruct Hok as (Hpva & _).
  rewrite Ep, Ef in E. rewrite Ef in Hf, Sep |- *.
  exact (C84_get crlf (f_pre F) (f_pva F) (ap_pre A) (ap_secs A) _ l _ c Hpva Ne Hf Sep Gs E S).
Qed.
Lemma a_cats : exists names, forall name, (exists c a, gives (f_gc F) c a /\ alias (f_pva F) GC a name) -> In name names /\
     tests cpp name (switch_text (lit "General_Category") (lit "generalCategory") names (lit "case General_Category::Unspecified: return false;"))
       (fun c => exists a, gives (f_gc F) c a /\ alias (f_pva F) GC a name).
Proof.
  destruct D as (_ & _ & _ & (T & X) & _). exists (map fst (a_cats (api_of al u))). intros name (c0 & a0 & G0 & A0).
  destruct Hl as (Ep & (l & E & _) & _). destruct HA as ((Ef & Ne & Gs & Sep) & _). pose proof (gc_lines F Hok) as Hf. destruct Hok as (Hpva & _).
  rewrite Ep, Ef in E. rewrite Ef in Hf.
  assert (K : forall c, exists b, api_gc_contains (map without_comments (u_cats u)) name c = Ok b /\ (b = true <-> exists a, gives (f_gc F) c a /\ alias (f_pva F) GC a name)).
  { intros c. rewrite Ef. exact (C84_contains crlf (f_pre F) (f_pva F) (ap_pre A) (ap_secs A) _ l name c Hpva Ne Hf Gs E). }
  unfold api_gc_contains in K. destruct (smap_get name (map without_comments (u_cats u))) as [rs|] eqn:G.
  - pose proof (maps_ranges (u_cats u) name rs (get_in _ _ _ G)) as Hin. split; [apply (in_map fst) in Hin; exact Hin|].
    exists (intervals rs). split; [exact (T name (intervals rs) Hin)|]. split; [exact X|exact K].
  - destruct (K c0) as (b & Eb & Hb). injection Eb as <-. exfalso. assert (Y : false = true) by (apply Hb; exists a0; auto). discriminate Y.
Qed.
Lemma a_core : exists names, forall name, word name -> (exists c, gives (f_core F) c name) -> In name names /\
     tests cpp name (switch_text (lit "Core_Property") (lit "prop") names []) (fun c => gives (f_core F) c name).
Proof.
  destruct D as (_ & (T & X) & _). exists (map fst (Spec_EmitUcd.a_core (api_of al u))). intros name Hw (c0 & G0).
  destruct Hl as (_ & _ & S & _). destruct HA as (_ & Sep & _).
  assert (K : forall c, exists b, api_core_contains (map without_comments (u_core u)) name c = Ok b /\ (b = true <-> gives (f_core F) c name)).
  { intros c. exact (C85_core_properties crlf (f_core F) _ name c (core_lines F Hok) Sep S Hw). }
  unfold api_core_contains in K. destruct (smap_get name (map without_comments (u_core u))) as [rs|] eqn:G.
  - pose proof (maps_ranges (u_core u) name rs (get_in _ _ _ G)) as Hin. split; [apply (in_map fst) in Hin; exact Hin|].
    exists (intervals rs). split; [exact (T name (intervals rs) Hin)|]. split; [exact X|exact K].
  - destruct (K c0) as (b & Eb & Hb). injection Eb as <-. exfalso. assert (Y : false = true) by (apply Hb; exact G0). discriminate Y.
Qed.
Lemma a_emoji : forall name, (exists c, gives (f_emoji F) c name) ->
     tests cpp name (fun_text (lit "bool") (lit "is_" ++ map down name) (contains_call name)) (fun c => gives (f_emoji F) c name).
Proof.
  destruct D as (_ & _ & _ & _ & _ & _ & _ & _ & _ & T & _). intros name (c0 & G0).
  destruct Hl as (_ & _ & _ & S & _). destruct HA as (_ & _ & Sep & _).
  pose proof (C85_emoji_properties crlf (f_emoji F) _ name (emoji_lines F Hok) Sep S) as K. unfold api_emoji in K.
  destruct (smap_get name (map without_comments (u_emoji u))) as [rs|] eqn:G.
  - destruct (T name (intervals rs) (maps_ranges (u_emoji u) name rs (get_in _ _ _ G))) as [T1 T2].
    exists (intervals rs). split; [exact T1|]. split; [exact T2|exact K].
  - destruct (K c0 G0).
Qed.
Lemma a_width : looks_up cpp (lit "EastAsianWidth") (lit "Prop<::unicode::EastAsianWidth>") (lit "::unicode::EastAsianWidth")
    (fun_text (lit "EastAsianWidth") (lit "east_asian_width") (search_text (lit "EastAsianWidth") (lit "EastAsianWidth::Unspecified"))) (lit "Unspecified")
    (fun c v => (exists w, gives (f_eaw F) c w /\ width_enum w v) \/ (forall w, ~ gives (f_eaw F) c w) /\ v = lit "Unspecified").
Proof.
  destruct D as (_ & _ & _ & _ & _ & _ & _ & _ & (T & X) & _). eexists. split; [exact T|]. split; [exact X|]. intros c.
  destruct Hl as (_ & _ & _ & _ & _ & S & _). destruct HA as (_ & _ & _ & _ & (Sep & Ne & Hw) & _).
  exact (C86_east_asian_width crlf (f_eaw F) _ c (value_lines F Hok (f_eaw F) ltac:(cbn [In]; tauto)) Sep Ne (Hw c) S).
Qed.
Lemma a_break : looks_up cpp GCB (lit "Prop<::unicode::" ++ GCB ++ lit ">") (lit "::unicode::" ++ GCB)
    (fun_text GCB (lit "grapheme_cluster_break") (search_text GCB (GCB ++ lit "::Undefined"))) (lit "Undefined") (value_in (f_gcb F) (lit "Undefined")).
Proof.
  destruct D as (_ & _ & _ & _ & _ & _ & _ & T & _). destruct Hl as (_ & _ & _ & _ & _ & _ & S & _). destruct HA as (_ & _ & _ & _ & _ & (Sep & Ne & Gf) & _).
  destruct (C87_grapheme_cluster_break crlf (f_gcb F) _ (value_lines F Hok (f_gcb F) ltac:(cbn [In]; tauto)) Sep Ne Gf S) as (g & Eg & K).
  unfold api_grapheme in Eg. destruct (smap_get GCB (map without_comments (u_breaks u))) as [rs|] eqn:G; [|discriminate Eg]. injection Eg as <-.
  destruct (T GCB rs (get_in _ _ _ G)) as [T1 T2]. exists rs. split; [exact T1|]. split; [exact T2|exact K].
Qed.
Lemma a_block : looks_up cpp (lit "Block") (lit "Prop<::unicode::Block>") (lit "::unicode::Block")
    (fun_text (lit "Block") (lit "block") (search_text (lit "Block") (lit "::unicode::Block::Unspecified"))) (lit "Unspecified")
    (fun c v => (exists l, has (ap_blocks A) l /\ is_span (st_span l) /\ covers (st_span l) c /\ v = Spec_UcdApi.identifier (st_prop l)) \/
                (forall l, has (ap_blocks A) l -> is_span (st_span l) -> ~ covers (st_span l) c) /\ v = lit "Unspecified").
Proof.
  destruct D as (_ & _ & _ & _ & _ & _ & (T & X) & _). eexists. split; [exact T|]. split; [exact X|]. intros c.
  destruct Hl as (_ & _ & _ & _ & _ & _ & _ & _ & E & _). destruct HA as (_ & _ & _ & _ & _ & _ & _ & (Hf & Asc & Ex) & _).
  unfold api_of. cbn [a_blocks]. rewrite E. exact (C89_block crlf (ap_blocks A) c Hf Asc Ex).
Qed.
Lemma a_mirror : tests cpp (lit "Bidi_Mirrored") (fun_text (lit "bool") (lit "is_mirrored") (contains_call (lit "Bidi_Mirrored"))) (mirrored (ap_ud A)).
Proof.
  destruct D as (_ & _ & _ & _ & _ & _ & _ & _ & _ & _ & (T & X) & _). eexists. split; [exact T|]. split; [exact X|]. intros c.
  destruct Hl as (_ & _ & _ & _ & _ & _ & _ & _ & _ & E & _). destruct HA as (_ & _ & _ & _ & _ & _ & _ & _ & (Hf & One & Ex) & _).
  unfold api_of. cbn [a_mirrored]. rewrite E. exact (C91_is_mirrored crlf (ap_ud A) c Hf One Ex).
Qed.
Lemma a_glyph : exists l, has_table cpp Assigned (lit "std::pair<char32_t, char32_t>") (lit "Bidi_Mirroring_Glyph") (read_typed_pair (lit "std::pair<char32_t, char32_t>")) l /\
     contains_text cpp glyph_fun /\
     forall c, let glyph := match find_entry fst l c with Some e => snd e | None => c end in
       (forall t, mirrors (ap_mirror A) c t -> glyph = t) /\ ((forall t, ~ mirrors (ap_mirror A) c t) -> glyph = c).
Proof.
  destruct D as (_ & _ & _ & _ & _ & _ & _ & _ & _ & _ & _ & (T & X) & _). eexists. split; [exact T|]. split; [exact X|]. intros c.
  destruct Hl as (_ & _ & _ & _ & _ & _ & _ & _ & _ & _ & E). destruct HA as (_ & _ & _ & _ & _ & _ & _ & _ & _ & (Hf & One) & _).
  unfold api_of. cbn [a_glyphs]. rewrite E. exact (C92_mirroring_glyph crlf (ap_mirror A) c Hf One).
Qed.
Lemma a_sce : exists l, has_table cpp (Direct false) sce_type (lit "sce") (read_view sce_type) l /\ contains_text cpp sce_fun /\
     forall c, exists r, search l c = Ok r /\
       match r with
       | Some array => exists vs ws vs', has_table cpp Assigned (lit "unicode::Script") array (read_enum (lit "unicode::Script")) vs /\
                         lists (ap_sce A) c ws /\ Forall2 (alias (f_pva F) SC) ws vs' /\ Permutation vs' vs
       | None => forall ws, ~ lists (ap_sce A) c ws
       end.
Proof.
  destruct D as (_ & _ & _ & _ & _ & (T & TA & X) & _). 
  assert (Etbl : Spec_EmitUcd.a_sces (api_of al u) = map (fun r : sce_range => (fst r, sce_key (snd r))) (map fst (u_sces u))) by (symmetry; apply map_map).
  rewrite Etbl in T. unfold api_of in TA. cbn [a_sce_arrays] in TA. eexists. split; [exact T|]. split; [exact X|]. intros c.
  destruct Hl as (_ & _ & _ & _ & _ & _ & _ & Hs & _). destruct HA as (_ & _ & _ & _ & _ & _ & (Hf & Hsep & Hne & Hcov) & _).
  destruct (alias_list crlf F A u Hok Hl (lit "Script") al ltac:(discriminate) Hal) as [So Hget0].
  assert (Hget : forall a v, smap_get a al = Some v <-> alias (f_pva F) SC a v) by (intros a v; rewrite <- (smap_in _ _ _ So); apply Hget0).
  set (sces := map fst (u_sces u)) in *. set (f := ap_sce A) in *.
  rewrite load_sce_data in Hs by exact Hf.
  assert (Hst : Forall st_ok (data f)). { apply Forall_forall. intros l H. apply data_in in H. destruct (Hf _ H) as [ws K]. apply K. }
  assert (Hin : forall r, In r sces <-> exists l, has f l /\ r = (fst (range_of l []), ssort (tokens [] (st_prop l)))).
  { intros r. destruct Hs as [P _]. split.
    - intros H. apply (Permutation_in _ (Permutation_sym P)), in_map_iff in H as (l & <- & H). exists l. rewrite data_in. auto.
    - intros (l & H & ->). apply (Permutation_in _ P). apply (in_map (fun l => (fst (range_of l []), ssort (tokens [] (st_prop l))))). now apply data_in. }
  assert (Hwo : Forall (fun r : sce_range => Forall (without 95) (snd r)) sces).
  { apply Forall_forall. intros r Hr. apply Hin in Hr as (l & H & ->). cbn [snd]. destruct (Hf _ H) as [ws K]. rewrite (sce_tokens _ _ K).
    eapply Permutation_Forall; [symmetry; apply ssort_perm|]. destruct K as (_ & _ & _ & K). eapply Forall_impl; [|exact K]. cbn beta. tauto. }
  set (tbl := map (fun r : sce_range => (fst r, sce_key (snd r))) sces).
  assert (Ht : sorted_by_first (map (fun l => (fst (range_of l []), sce_key (ssort (tokens [] (st_prop l))))) (data f)) tbl).
  { destruct Hs as [P S1]. split.
    - unfold tbl. etransitivity; [|apply Permutation_map; exact P]. rewrite map_map. cbn [fst snd]. apply Permutation_refl.
    - unfold tbl. clear -S1. induction S1 as [|a l Hs IH Ha]; cbn [map]; constructor; [exact IH|]. apply Forall_map. exact Ha. }
  destruct (range_table (fun l => sce_key (ssort (tokens [] (st_prop l)))) (data f) tbl Hst Hsep Ht) as (Dj & _ & Hin').
  assert (Htne : tbl <> []).
  { destruct Hne as [l H]. intros E. pose proof (proj2 (Hin' (fst (range_of l []), sce_key (ssort (tokens [] (st_prop l)))))) as K. rewrite E in K. destruct K. exists l. split; [now apply data_in|reflexivity]. }
  destruct (C52_search_exact _ tbl c Htne Dj) as (r & E & H1 & H2). exists r. split; [exact E|]. destruct r as [key|].
  - destruct (H1 key eq_refl) as (a & b & Hr & Hcv). clear H1 H2. apply Hin' in Hr as (l & H & El). injection El as -> -> ->. apply data_in in H. destruct (Hf _ H) as [ws Hws].
    assert (Hli : lists f c ws). { exists l. split; [exact H|]. split; [exact (proj1 (covers_range l [] c) Hcv)|exact Hws]. }
    assert (Hr : In (fst (range_of l []), ssort (tokens [] (st_prop l))) sces) by (apply Hin; exists l; auto).
    pose proof (sce_arrays_get al sces _ Hwo Hr) as G. cbn [snd] in G. apply get_in in G.
    exists (sce_names al (ssort (tokens [] (st_prop l)))), ws, (sce_names al ws). split; [exact (TA _ _ G)|]. split; [exact Hli|]. rewrite (sce_tokens _ _ Hws). split.
    + unfold sce_names. assert (G' : forall w, In w ws -> exists v, alias (f_pva F) SC w v) by (intros w Hw; exact (Hcov c ws w Hli Hw)). clear -G' Hget.
      induction ws as [|w ws IH]; cbn [map]; constructor.
      * destruct (G' w (or_introl eq_refl)) as [v Hv]. apply Hget in Hv. rewrite Hv. now apply Hget.
      * apply IH. intros x Hx. apply G'. right. exact Hx.
    + unfold sce_names. apply Permutation_map. symmetry. apply ssort_perm.
  - intros ws (l & H & Hcv & _). apply (H2 eq_refl _ _ (sce_key (ssort (tokens [] (st_prop l))))) with (1 := proj2 (Hin' _) (ex_intro _ l (conj (proj1 (data_in f l) H) eq_refl))).
    exact (proj2 (covers_range l [] c) Hcv).
Qed.
Lemma a_age : exists l, has_table cpp Assigned (lit "std::pair<std::string_view, Age>") (lit "mappings") read_age l /\ contains_text cpp age_intro /\ contains_text cpp age_fun /\
     NoDup (map fst l) /\ forall s v, In (s, v) l <-> alias (f_pva F) AGE s v /\ v <> lit "Unassigned".
Proof.
  destruct D as (_ & _ & _ & _ & _ & _ & _ & _ & _ & _ & _ & _ & T). unfold api_of in T. cbn [a_ages] in T. destruct HA as (_ & _ & _ & _ & _ & _ & _ & _ & _ & _ & a0 & v0 & H0).
  destruct (smap_get (lit "Age") (u_pva u)) as [ages|] eqn:E.
  - destruct (alias_list crlf F A u Hok Hl (lit "Age") ages ltac:(discriminate) E) as [So Hget].
    specialize (T _ eq_refl) as (T1 & T2 & T3). eexists. split; [exact T1|]. split; [exact T2|]. split; [exact T3|]. split.
    + apply sorted_keys in So. clear -So. induction ages as [|e l IH]; cbn [filter map]; [constructor|]. cbn [map] in So. inversion_clear So as [|? ? N1 N2].
      destruct (negb _); [|exact (IH N2)]. cbn [map]. constructor; [|exact (IH N2)]. intros H. apply N1. apply in_map_iff in H as (x & <- & Hx). apply filter_In in Hx as [Hx _]. now apply in_map.
    + intros s v. rewrite filter_In, Hget. cbn [snd]. change (lit "Age") with AGE. destruct (str_eqb_spec v (lit "Unassigned")); cbn [negb]; intuition congruence.
  - exfalso. destruct Hl as (Ep & _). destruct Hok as (Hpva & _). destruct (load_pva_in crlf (f_pre F) (f_pva F) (lit "Age") Hpva ltac:(discriminate)) as [_ K].
    rewrite <- Ep, E in K. apply K in H0. destruct H0.
Qed.
Lemma all_answers : cpp_answers cpp F A.
Proof.
  split; [exact a_script|]. split; [exact a_gc|]. split; [exact a_cats|]. split; [exact a_core|]. split; [exact a_emoji|]. split; [exact a_width|]. split; [exact a_break|].
  split; [exact a_block|]. split; [exact a_mirror|]. split; [exact a_glyph|]. split; [exact a_sce|]. exact a_age.
Qed.
End Answers.

(** C136. *)
Theorem C136_ucd_cpp_answers : forall crlf F A u, files_ok F -> api_files_ok F A -> names_ok F A -> sizes_ok F A -> loaded_api crlf F A u -> comments_ok u ->
  exists cpp, ucd_cpp_text u = Some cpp /\ cpp_answers cpp F A.
Proof.
  intros crlf F A u Hok HA Hn Hs Hl Hc. destruct (smap_get (lit "Script") (u_pva u)) as [al|] eqn:Hal.
  - destruct (ucd_cpp_text u) as [cpp|] eqn:E; [|pose proof (parts_eq u al Hal) as P; congruence]. exists cpp. split; [reflexivity|].
    apply (all_answers crlf F A u cpp Hok HA Hl al Hal). apply (C131_text_denotes_partial u al cpp Hal E). exact (files_fit crlf F A u Hok HA Hn Hs Hl Hc).
  - exfalso. destruct HA as (_ & _ & _ & _ & _ & _ & (Hf & _ & (l & Hin) & Hcov) & _). destruct (Hf _ Hin) as [ws Hws]. pose proof Hws as (Hst & Hne & _).
    destruct ws as [|w ws]; [contradiction|]. destruct (Hcov (span_first (st_span l)) (w :: ws) w) as [v Hv].
    { exists l. split; [exact Hin|]. split; [exact (st_covers l Hst)|exact Hws]. } { left. reflexivity. }
    destruct Hl as (Ep & _). destruct Hok as (Hpva & _). destruct (load_pva_in crlf (f_pre F) (f_pva F) (lit "Script") Hpva ltac:(discriminate)) as [_ K].
    rewrite <- Ep, Hal in K. apply K in Hv. destruct Hv.
Qed.
Print Assumptions C136_ucd_cpp_answers.

(** ** The hypotheses are satisfiable: a small database, with the comments of the files left out. *)
From Verif Require Import TableGen_Demo PropGen_Demo UcdApi_Demo Enums_Demo T_UcdApi3 T_EmitEnums.
Definition A_demo : api_files := mkAp gc_pre_demo gc_secs_demo sce_demo blocks_demo udm_demo mir_demo.
Definition bare {T} (r : T) : T * str := (r, []).
Definition bare_group (e : str * list prange) : str * list crange := (fst e, map bare (snd e)).
Definition u_demo : ucd_src := let text f := file_text st_text true f in
  mkSrc (map bare_group (gsort (fst (load_core (text (f_core F3_demo)))))) (map bare (rsort (snd gc_loaded))) (map bare_group (fst gc_loaded))
    (map bare (rsort (load_generic (text (f_scripts F3_demo))))) (map bare (rsort (load_sce (text sce_demo)))) (load_pva (pva_text true (f_pre F3_demo) (f_pva F3_demo)))
    (load_blocks (text blocks_demo)) (map bare_group (gsort (load_grouped (lit "Property") (text (f_gcb F3_demo))))) (map bare (rsort (load_generic (text (f_eaw F3_demo)))))
    (map bare_group (gsort (load_emoji (text (f_emoji F3_demo))))) (load_mirrored (file_text ud_text true udm_demo)) (load_mirroring (text mir_demo)).
Lemma bare_fst {T} (l : list T) : map fst (map bare l) = l.
Proof. rewrite map_map. unfold bare. cbn [fst]. apply map_id. Qed.
Lemma bare_groups l : map without_comments (map bare_group l) = l.
Proof. rewrite map_map. rewrite <- (map_id l) at 2. apply map_ext. intros [k g]. unfold without_comments, bare_group. cbn [fst snd]. now rewrite bare_fst. Qed.
Lemma script_aliases_demo : exists al, smap_get (lit "Script") (u_pva u_demo) = Some al.
Proof. vm_compute. eexists. reflexivity. Qed.
Lemma pva3_sc a v : In (a, v) (aliases_of (f_pva F3_demo) SC) -> alias (f_pva F3_demo) SC a v.
Proof. apply aliases_in. Qed.
Lemma sce3_lines l : has sce_demo l -> exists ws, sce_line l ws /\ Forall (fun w => (exists v, alias (f_pva F3_demo) SC w v) /\ Spec_EmitUcd.identifier w) ws /\ (length ws <= 4)%nat.
Proof.
  assert (K : forall ws, forallb (fun w => existsb (fun e => str_eqb (fst e) w) (aliases_of (f_pva F3_demo) SC) && idb w) ws = true ->
    Forall (fun w => (exists v, alias (f_pva F3_demo) SC w v) /\ Spec_EmitUcd.identifier w) ws).
  { intros ws H. apply Forall_forall. intros w Hw. rewrite forallb_forall in H. specialize (H w Hw). apply andb_true_iff in H as [H I]. split; [|now apply idb_ok].
    apply existsb_exists in H as ([a v] & H & E). apply str_eqb_eq in E. cbn [fst] in E. subst a. exists v. now apply pva3_sc. }
  intros H. cbn in H. destruct H as [H|[H|[H|[H|[H|[H|[]]]]]]]; try discriminate H; injection H as <-.
  - exists (map lit ["Deva"]%string). split; [apply sce_lineb_ok; vm_compute; reflexivity|]. split; [apply K; vm_compute; reflexivity|cbn; lia].
  - exists (map lit ["Beng"; "Deva"; "Gran"; "Knda"]%string). split; [apply sce_lineb_ok; vm_compute; reflexivity|]. split; [apply K; vm_compute; reflexivity|cbn; lia].
  - exists (map lit ["Beng"]%string). split; [apply sce_lineb_ok; vm_compute; reflexivity|]. split; [apply K; vm_compute; reflexivity|cbn; lia].
  - exists (map lit ["Gran"; "Deva"; "Knda"; "Beng"]%string). split; [apply sce_lineb_ok; vm_compute; reflexivity|]. split; [apply K; vm_compute; reflexivity|cbn; lia].
Qed.
Lemma sce3_lists c ws : lists sce_demo c ws -> Forall (fun w => (exists v, alias (f_pva F3_demo) SC w v) /\ Spec_EmitUcd.identifier w) ws /\ (length ws <= 4)%nat.
Proof.
  intros (l & Hl & _ & H). destruct (sce3_lines l Hl) as (ws' & H' & G). assert (ws = ws') as -> by (rewrite <- (P_UcdApi5.sce_tokens _ _ H); symmetry; symmetry; now apply P_UcdApi5.sce_tokens). exact G.
Qed.
Lemma api_demo_ok : api_files_ok F3_demo A_demo.
Proof.
  split. { split; [reflexivity|]. split; [discriminate|]. split; [apply gc_sections_okb_ok; vm_compute; reflexivity|apply separateb_ok; vm_compute; reflexivity]. }
  split; [apply separate_valuesb_ok; vm_compute; reflexivity|]. split; [apply separate_valuesb_ok; vm_compute; reflexivity|].
  split. { split; [apply separateb_ok; vm_compute; reflexivity|apply nonemptyb_ok; vm_compute; reflexivity]. }
  split. { split; [apply separateb_ok; vm_compute; reflexivity|]. split; [apply nonemptyb_ok; vm_compute; reflexivity|exact eaw_demo_widths]. }
  split. { split; [apply separateb_ok; vm_compute; reflexivity|]. split; [apply nonemptyb_ok; vm_compute; reflexivity|exact gcb_demo_grouped]. }
  split. { destruct C90_hypotheses as (_ & H1 & H2 & H3 & _). split; [exact H1|]. split; [exact H2|]. split; [exact H3|].
           intros c ws w H Hw. destruct (sce3_lists c ws H) as [G _]. rewrite Forall_forall in G. exact (proj1 (G w Hw)). }
  split; [exact C89_hypotheses|]. split; [exact C91_hypotheses|]. split; [split; [exact (proj1 C92_hypotheses)|exact (proj1 (proj2 C92_hypotheses))]|exact F3_age].
Qed.
Lemma gives_id f c w : forallb idb (props_of f) = true -> gives f c w -> Spec_EmitUcd.identifier w.
Proof. intros H G. apply gives_prop in G. rewrite forallb_forall in H. apply idb_ok. now apply H. Qed.
Lemma names_demo_ok : names_ok F3_demo A_demo.
Proof.
  split; [intros c w; apply gives_id; vm_compute; reflexivity|].
  split. { intros c w G Hw. apply gives_prop in G.
           assert (H : forallb (fun p => idb p || existsb (N.eqb ch_semi) p) (props_of (f_core F3_demo)) = true) by (vm_compute; reflexivity).
           rewrite forallb_forall in H. specialize (H w G). apply orb_true_iff in H as [H|H]; [now apply idb_ok|]. apply existsb_exists in H as (x & Hx & E). apply N.eqb_eq in E. subst x.
           destruct Hw as (_ & _ & Hw & _). exact (False_rect _ (Hw Hx)). }
  split; [intros c w; apply gives_id; vm_compute; reflexivity|]. split; [intros c w; apply gives_id; vm_compute; reflexivity|].
  split. { intros prop a v Hp Ha. assert (H : forallb (fun p => forallb (fun e => idb (snd e)) (aliases_of (f_pva F3_demo) p)) [GC; SC; AGE] = true) by (vm_compute; reflexivity).
           rewrite forallb_forall in H. specialize (H prop Hp). rewrite forallb_forall in H. apply aliases_in in Ha. apply idb_ok. exact (H _ Ha). }
  split. { intros c ws H. destruct (sce3_lists c ws H) as [G _]. eapply Forall_impl; [|exact G]. cbn beta. tauto. }
  split. { intros l Hl _. apply PropGen_Demo.data_in in Hl. assert (H : forallb (fun l => idb (Spec_UcdApi.identifier (st_prop l))) (PropGen_Demo.data_of blocks_demo) = true) by (vm_compute; reflexivity).
           rewrite forallb_forall in H. apply idb_ok. exact (H l Hl). }
  intros a v Ha. apply aliases_in in Ha. assert (H : forallb (fun e => forallb (fun c => negb (existsb (N.eqb c) [34; 10; 92])) (fst e)) (aliases_of (f_pva F3_demo) AGE) = true) by (vm_compute; reflexivity).
  rewrite forallb_forall in H. specialize (H _ Ha). cbn [fst] in H. apply Forall_forall. intros c Hc. rewrite forallb_forall in H. specialize (H c Hc). cbn [existsb] in H. lia.
Qed.
Lemma sizes_demo_ok : sizes_ok F3_demo A_demo.
Proof.
  split; [repeat constructor; vm_compute; reflexivity|]. split; [vm_compute; reflexivity|].
  split; [intros c ws H; destruct (sce3_lists c ws H) as [_ G]; unfold few; lia|].
  intros al H ND. assert (L : (length al <= length (aliases_of (f_pva F3_demo) AGE))%nat).
  { rewrite <- (map_length fst al), <- (map_length fst (aliases_of _ _)). apply NoDup_incl_length; [exact ND|]. intros a Ha. apply in_map_iff in Ha as ([x v] & <- & Hx).
    apply H in Hx. apply aliases_in in Hx. apply (in_map fst _ _ Hx). }
  assert (E : (length (aliases_of (f_pva F3_demo) AGE) <= 1000)%nat) by (apply Nat.leb_le; vm_compute; reflexivity). unfold few. lia.
Qed.
Lemma loaded_demo : loaded_api true F3_demo A_demo u_demo.
Proof.
  unfold loaded_api, u_demo. cbn [u_core u_gcs u_cats u_scripts u_sces u_pva u_blocks u_breaks u_widths u_emoji u_mirrored u_glyphs ap_sce ap_blocks ap_ud ap_mirror A_demo].
  rewrite ?bare_groups, ?bare_fst. split; [reflexivity|]. split. { exists (snd gc_loaded). split; [vm_compute; reflexivity|apply rsort_ok]. }
  split; [apply gsort_ok|]. split; [apply gsort_ok|]. split; [apply rsort_ok|]. split; [apply rsort_ok|]. split; [apply gsort_ok|]. split; [apply rsort_ok|].
  split; [reflexivity|]. split; reflexivity.
Qed.
Lemma bare_ok {T} (l : list T) : Forall (fun r : T * str => one_line (snd r) /\ last (snd r) 0 <> 92) (map bare l).
Proof. apply Forall_map, Forall_forall. intros r _. split; [constructor|cbn; discriminate]. Qed.
Lemma bare_group_ok l : Forall (fun e : str * list crange => Forall (fun r => one_line (snd r) /\ last (snd r) 0 <> 92) (snd e)) (map bare_group l).
Proof. apply Forall_map, Forall_forall. intros e _. apply bare_ok. Qed.
Lemma comments_demo : comments_ok u_demo.
Proof.
  unfold comments_ok, u_demo. cbn [u_core u_gcs u_cats u_scripts u_sces u_pva u_blocks u_breaks u_widths u_emoji u_mirrored u_glyphs]. rewrite !Forall_app.
  split; [repeat split; apply bare_group_ok|]. split; [repeat split; apply bare_ok|apply bare_ok].
Qed.
Example C136_hypotheses : files_ok F3_demo /\ api_files_ok F3_demo A_demo /\ names_ok F3_demo A_demo /\ sizes_ok F3_demo A_demo /\ loaded_api true F3_demo A_demo u_demo /\ comments_ok u_demo.
Proof.
  split; [exact F3_demo_ok|]. split; [exact api_demo_ok|]. split; [exact names_demo_ok|]. split; [exact sizes_demo_ok|]. split; [exact loaded_demo|exact comments_demo].
Qed.
