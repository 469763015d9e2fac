(** C142: from the database files, through the printed text of all tables, to case queries and case conversion. *)
From Coq Require Import String Permutation Lia.
From Verif Require Import Base Spec_Utf M_Ucd M_TableGen M_PropGen M_UcdApi M_Tables M_Multistage M_Word M_Case M_Link M_LinkCase M_Emit M_EmitUcd M_EmitMs Spec_Tables Spec_TableGen Spec_PropGen Spec_UcdApi Spec_Multistage
  Spec_Grapheme Spec_Word Spec_Case Spec_Link Spec_LinkCase Spec_Cpp Spec_Emit Spec_EmitUcd Spec_EmitMs Spec_EmitGet Spec_EmitFiles Spec_EmitFiles2 Spec_EmitCase P_Case P_UcdApi P_EmitFiles T_PropGen T_UcdApi T_Link T_LinkCase T_EmitUcd T_EmitGet T_EmitFiles T_EmitFiles2.

Open Scope N_scope.

Lemma sectioned_files F A : api_files_ok F A -> sectioned F.
Proof. intros ((Ef & Ne & Gs & Sep) & _). exists (ap_pre A), (ap_secs A). auto. Qed.
(** the two texts give one library, and it is one of C128 and C129 *)
Lemma printed_case crlf F A us d members hash parts n1 n2 names : files_ok F -> api_files_ok F A -> names_ok F A -> sizes_ok F A -> loaded_api crlf F A us -> comments_ok us ->
  parsed crlf F d -> age_members (find_pva (pd_pva d) "Age") = Some members -> few_values 65536 (rec_cells members d) -> few_blocks 256 256 (rec_cells members d) -> value_names_ok F ->
  parts <> [] -> Forall Spec_EmitUcd.identifier parts -> n1 <> [] -> n2 <> [] ->
  exists g header impl names_file cpp u gcp gca, generate crec crec_eqb hash 256 256 65536 (rec_cells members d) = Ok g /\
    ms_files (qualified parts) (mkMs (g1 g) (g2 g) (map (print_rec members d) (g3 g)) n1 n2 names) = Some (header, impl, names_file) /\
    ucd_cpp_text us = Some cpp /\ case_library impl cpp u gcp gca /\ compiled_case crlf F u gcp gca.
Proof.
  intros Hok HA Hn Hs Hl Hc Hp Em Hv Hb Hnv H1 H2 H3 H4.
  destruct (C133_sources_answer crlf F d members hash parts n1 n2 names Hok Hp Em Hv Hb Hnv H1 H2 H3 H4) as (g & props & header & impl & names_file & Hg & Eg & Ef & (s1 & s2 & recs & T1 & T2 & T3 & HI)).
  destruct (C82_table crlf F d members hash Hok Hp Em Hv Hb) as (props' & g' & Hg' & Eg' & Hin & Hout). rewrite Eg in Eg'. injection Eg' as <-.
  destruct (C136_ucd_cpp_answers crlf F A us Hok HA Hn Hs Hl Hc) as (cpp & E & _).
  destruct (smap_get (lit "Script") (u_pva us)) as [al|] eqn:Hal; [|unfold ucd_cpp_text in E; rewrite Hal in E; discriminate].
  pose proof (C131_text_denotes_partial us al cpp Hal E (files_fit crlf F A us Hok HA Hn Hs Hl Hc)) as (_ & _ & (T & X) & _).
  unfold api_of in T. cbn [Spec_EmitUcd.a_gcs] in T. pose proof Hl as (Ep & (l & El & S) & _). rewrite Ep in El.
  exists g, header, impl, names_file, cpp, (runtime members d g), (runtime_gencat members d g), (api_gencat (map fst (u_gcs us))).
  split; [exact Eg|]. split; [exact Ef|]. split; [exact E|]. split.
  - split.
    + exists s1, s2, recs. split; [exact T1|]. split; [exact T2|]. split; [exact T3|]. intros c i.
      assert (Hi : i <= 0x10FFFF) by (unfold i; destruct (N.leb_spec c 0x10FFFF); lia).
      destruct (HI i Hi) as (b & k & E1 & E2 & E3). exists b, k, (props i). split; [exact E1|]. split; [exact E2|]. split; [exact E3|].
      assert (R : exists r, get 256 0x10FFFF g c = Ok r /\ print_rec members d r = props i).
      { rewrite (C81_deterministic crlf crlf F props props' Hok Hg Hg' i). unfold i. destruct (N.leb_spec c 0x10FFFF) as [L|L]; [exact (Hin c L)|exact (Hout c L)]. }
      destruct R as (r & Er & Pr). unfold runtime, runtime_gencat. rewrite Er, Pr. split; reflexivity.
    + exists (map fst (u_gcs us)). split; [exact T|]. split; [exact X|]. intros c.
      destruct HA as ((Efg & Ne & Gs & Sep) & _). pose proof (gc_lines F Hok) as Hf. assert (Hpva : pva_ok (f_pva F)) by exact (proj1 Hok). rewrite Efg in El, Hf, Sep.
      destruct (C84_get crlf (f_pre F) (f_pva F) (ap_pre A) (ap_secs A) _ l _ c Hpva Ne Hf Sep Gs El S) as (v & Ev & _). exists v. split; [exact Ev|]. unfold api_gencat. now rewrite Ev.
  - exists d, members, hash, g. do 3 eexists. repeat (split; [eassumption|]). split; [reflexivity|]. split; [reflexivity|]. split; [exact El|]. split; [exact S|reflexivity].
Qed.

(** C142.  The generator prints texts with which a library answers the case queries as the files say ... *)
Theorem C142_printed_queries : forall crlf F A us d members hash parts n1 n2 names, files_ok F -> api_files_ok F A -> names_ok F A -> sizes_ok F A -> loaded_api crlf F A us -> comments_ok us ->
  parsed crlf F d -> age_members (find_pva (pd_pva d) "Age") = Some members -> few_values 65536 (rec_cells members d) -> few_blocks 256 256 (rec_cells members d) -> value_names_ok F ->
  parts <> [] -> Forall Spec_EmitUcd.identifier parts -> n1 <> [] -> n2 <> [] ->
  exists g header impl names_file cpp u gcp gca, generate crec crec_eqb hash 256 256 65536 (rec_cells members d) = Ok g /\
    ms_files (qualified parts) (mkMs (g1 g) (g2 g) (map (print_rec members d) (g3 g)) n1 n2 names) = Some (header, impl, names_file) /\
    ucd_cpp_text us = Some cpp /\ case_library impl cpp u gcp gca /\
    (forall c, is_cased gca c = true <-> file_cased F c) /\
    forall c, (c <= 0x10FFFF -> (is_case_ignorable u gcp c = true <-> file_ignorable F c)) /\ (0x10FFFF < c -> is_case_ignorable u gcp c = is_case_ignorable u gcp 0).
Proof.
  intros crlf F A us d members hash parts n1 n2 names Hok HA Hn Hs Hl Hc Hp Em Hv Hb Hnv H1 H2 H3 H4.
  destruct (printed_case crlf F A us d members hash parts n1 n2 names Hok HA Hn Hs Hl Hc Hp Em Hv Hb Hnv H1 H2 H3 H4) as (g & header & impl & names_file & cpp & u & gcp & gca & Eg & Ef & E & L & C).
  exists g, header, impl, names_file, cpp, u, gcp, gca. repeat (split; [assumption|]). split; [exact (C128_is_cased crlf F u gcp gca Hok (sectioned_files F A HA) C)|].
  exact (C128_is_case_ignorable crlf F u gcp gca Hok C).
Qed.
Print Assumptions C142_printed_queries.
(** ... and, with the printed case_normalization_data.h, puts every text in title case word by word as the files say. *)
Theorem C142_printed_titlecase : forall crlf F A us d members hash parts n1 n2 names crlf' ud sc cf ex np text,
  files_ok F -> api_files_ok F A -> names_ok F A -> sizes_ok F A -> loaded_api crlf F A us -> comments_ok us ->
  parsed crlf F d -> age_members (find_pva (pd_pva d) "Age") = Some members -> few_values 65536 (rec_cells members d) -> few_blocks 256 256 (rec_cells members d) -> value_names_ok F ->
  parts <> [] -> Forall Spec_EmitUcd.identifier parts -> n1 <> [] -> n2 <> [] -> database_facts F ->
  case_files_ok ud sc cf -> norm_files_ok ud ex np -> printable_data ud cf -> ascii_agrees ud cf -> header_for crlf' ud sc cf ex np text ->
  exists g header impl names_file cpp u gcp gca tb, generate crec crec_eqb hash 256 256 65536 (rec_cells members d) = Ok g /\
    ms_files (qualified parts) (mkMs (g1 g) (g2 g) (map (print_rec members d) (g3 g)) n1 n2 names) = Some (header, impl, names_file) /\
    ucd_cpp_text us = Some cpp /\ case_library impl cpp u gcp gca /\ case_tables_in text tb /\ describes F u /\
    to_titlecase tb u gca [] = Ok [] /\
    forall t, t <> [] -> exists ws rs, partition_of t ws /\ (forall k, cut_at ws k <-> word_boundary_at u t k) /\
      Forall2 (file_titled F ud sc cf) ws rs /\ to_titlecase tb u gca t = Ok (concat rs).
Proof.
  intros crlf F A us d members hash parts n1 n2 names crlf' ud sc cf ex np text Hok HA Hn Hs Hl Hc Hp Em Hv Hb Hnv H1 H2 H3 H4 Hdf Hcf Hnf Hpr Ha Ht.
  destruct (printed_case crlf F A us d members hash parts n1 n2 names Hok HA Hn Hs Hl Hc Hp Em Hv Hb Hnv H1 H2 H3 H4) as (g & header & impl & names_file & cpp & u & gcp & gca & Eg & Ef & E & L & C).
  destruct (header_tables crlf' ud sc cf ex np text Hcf Hnf Hpr Ht) as (tb & _ & Gc & _ & Tc & _).
  destruct (C129_titlecase crlf crlf' F u gcp gca ud sc cf tb Hok (sectioned_files F A HA) Hdf C Hcf Ha Gc) as (D & T0 & T1).
  exists g, header, impl, names_file, cpp, u, gcp, gca, tb. repeat (split; [assumption|]). exact T1.
Qed.
Print Assumptions C142_printed_titlecase.
(** ... folds, upper- and lower-cases UTF-8 text, and compares without case, by the files. *)
Theorem C142_printed_conversion : forall crlf ud sc cf ex np text, case_files_ok ud sc cf -> norm_files_ok ud ex np -> printable_data ud cf -> ascii_agrees ud cf -> header_for crlf ud sc cf ex np text ->
  exists tb, case_tables_in text tb /\
    (maps_scalars ud sc cf -> forall i t, scalars t -> exists up lo fo, file_converted ud sc cf Upper t up /\ file_converted ud sc cf Lower t lo /\ file_converted ud sc cf Fold t fo /\
      to_uppercase8 tb i (utf8_text t) = Ok (utf8_text up) /\ to_lowercase8 tb i (utf8_text t) = Ok (utf8_text lo) /\ casefold8 tb i (utf8_text t) = Ok (utf8_text fo)) /\
    (forall a b, exists x y z e, file_converted ud sc cf Fold a x /\ file_converted ud sc cf Fold b y /\ casefold_compare tb a b = Ok z /\ casefold_equals tb a b = Ok e /\
      (e = true <-> x = y) /\ (z ?= 0)%Z = Spec_Utf.lex x y) /\
    (no_special_identity ud sc cf -> forall k c, exists b m, changes_when tb k c = Ok b /\ file_map ud sc cf k c m /\ (b = true <-> m <> [c])).
Proof.
  intros crlf ud sc cf ex np text Hcf Hnf Hpr Ha Ht. destruct (header_tables crlf ud sc cf ex np text Hcf Hnf Hpr Ht) as (tb & _ & Gc & _ & Tc & _). exists tb. split; [exact Tc|]. split; [|split].
  - intros Hm i t Hs. destruct (C129_utf8 crlf ud sc cf tb Hcf Ha Hm Gc i t Hs) as (up & lo & fo & A1 & A2 & A3 & _ & _ & _ & A4 & A5 & A6). exists up, lo, fo. auto 10.
  - exact (C129_compare crlf ud sc cf tb Hcf Ha Gc).
  - intros Hn. exact (C129_changes crlf ud sc cf tb Hcf Ha Hn Gc).
Qed.
Print Assumptions C142_printed_conversion.

(** ** The hypotheses are satisfiable: one small database for all of them. *)
From Verif Require Import P_TableGen P_TableGen2 P_PropGen P_UcdApi2 P_UcdApi3 P_UcdApi5 P_UcdApi6 P_PropGen9 TableGen_Demo PropGen_Demo UcdApi_Demo Enums_Demo Link_Demo LinkCase_Demo T_UcdApi2 T_UcdApi3 T_EmitEnums.
Local Open Scope string_scope.
Definition F4_demo : ucd_files := let F := F_case in
  mkF (f_pre F) (f_pva F ++ [mkSec (lit "Script") (lit "sc") [Blank []; pvl "sc" 1 "Beng" 34 "Bengali" ""; pvl "sc" 1 "Deva" 34 "Devanagari" ""; pvl "sc" 1 "Gran" 34 "Grantha" "";
         pvl "sc" 1 "Knda" 34 "Kannada" ""; pvl "sc" 1 "Latn" 34 "Latin" ""; Blank []]])
      (f_scripts F) (f_gc F) (f_core F) (f_isc F) (f_evs F) (f_age F) (Comment (Coq.Init.Datatypes.app (lit " Property:") (9%N :: GCB)) :: f_gcb F) (f_wb F) (f_eaw F) (f_emoji F) (f_hst F).
Local Close Scope string_scope.
Definition A4_demo : api_files := mkAp gc_pre_case gc_secs_case sce_demo blocks_demo udm_demo mir_demo.
Definition d4_demo : pdata := match sample_data true F4_demo with Some d => d | None => mkPd [] [] [] [] [] [] [] [] [] [] [] [] [] end.
Definition members4 : list str := match age_members (find_pva (pd_pva d4_demo) "Age") with Some m => m | None => [] end.
Definition gc_loaded4 : list (str * list prange) * list prange :=
  match load_gc (load_pva (pva_text true (f_pre F4_demo) (f_pva F4_demo))) (file_text st_text true (f_gc F4_demo)) with Some r => r | None => ([], []) end.
Lemma F4_age : exists a v, alias (f_pva F4_demo) AGE a v.
Proof. exists (lit "1.1"), (lit "V1_1"). apply aliases_in. vm_compute. tauto. Qed.
Lemma eaw_demo_widths4 c w : gives (f_eaw F4_demo) c w -> exists v, width_enum w v.
Proof.
  intros (l & Hl & _ & <-). cbn in Hl. destruct Hl as [E|[]]; injection E as <-; cbn [st_prop].
  exists (lit "Wide"), "W"%string, "Wide"%string. split; [cbn; tauto|auto].
Qed.
Lemma gcb_demo_grouped4 : grouped_file GCB (f_gcb F4_demo).
Proof.
  exists [], [9], (tl (f_gcb F4_demo)). split; [reflexivity|]. split; [reflexivity|]. split; [constructor; [right; left; reflexivity|constructor]|]. split; [apply wordb_ok; reflexivity|].
  intros q H. cbn in H. repeat (destruct H as [H|H]; [discriminate H|]). destruct H.
Qed.
Definition bare_group := T_EmitFiles.bare_group.
Definition u_demo4 : ucd_src := let text f := file_text st_text true f in
  mkSrc (map bare_group (gsort (fst (load_core (text (f_core F4_demo)))))) (map bare (rsort (snd gc_loaded4))) (map bare_group (fst gc_loaded4))
    (map bare (rsort (load_generic (text (f_scripts F4_demo))))) (map bare (rsort (load_sce (text sce_demo)))) (load_pva (pva_text true (f_pre F4_demo) (f_pva F4_demo)))
    (load_blocks (text blocks_demo)) (map bare_group (gsort (load_grouped (lit "Property") (text (f_gcb F4_demo))))) (map bare (rsort (load_generic (text (f_eaw F4_demo)))))
    (map bare_group (gsort (load_emoji (text (f_emoji F4_demo))))) (load_mirrored (file_text ud_text true udm_demo)) (load_mirroring (text mir_demo)).
Lemma pva3_sc4 a v : In (a, v) (aliases_of (f_pva F4_demo) SC) -> alias (f_pva F4_demo) SC a v.
Proof. apply aliases_in. Qed.
Lemma sce3_lines4 l : has sce_demo l -> exists ws, sce_line l ws /\ Forall (fun w => (exists v, alias (f_pva F4_demo) SC w v) /\ Spec_EmitUcd.identifier w) ws /\ (length ws <= 4)%nat.
Proof.
  assert (K : forall ws, forallb (fun w => existsb (fun e => str_eqb (fst e) w) (aliases_of (f_pva F4_demo) SC) && idb w) ws = true ->
    Forall (fun w => (exists v, alias (f_pva F4_demo) SC w v) /\ Spec_EmitUcd.identifier w) ws).
  { intros ws H. apply Forall_forall. intros w Hw. rewrite forallb_forall in H. specialize (H w Hw). apply andb_true_iff in H as [H I]. split; [|now apply idb_ok].
    apply existsb_exists in H as ([a v] & H & E). apply str_eqb_eq in E. cbn [fst] in E. subst a. exists v. now apply pva3_sc4. }
  intros H. cbn in H. destruct H as [H|[H|[H|[H|[H|[H|[]]]]]]]; try discriminate H; injection H as <-.
  - exists (map lit ["Deva"]%string). split; [apply sce_lineb_ok; vm_compute; reflexivity|]. split; [apply K; vm_compute; reflexivity|cbn; lia].
  - exists (map lit ["Beng"; "Deva"; "Gran"; "Knda"]%string). split; [apply sce_lineb_ok; vm_compute; reflexivity|]. split; [apply K; vm_compute; reflexivity|cbn; lia].
  - exists (map lit ["Beng"]%string). split; [apply sce_lineb_ok; vm_compute; reflexivity|]. split; [apply K; vm_compute; reflexivity|cbn; lia].
  - exists (map lit ["Gran"; "Deva"; "Knda"; "Beng"]%string). split; [apply sce_lineb_ok; vm_compute; reflexivity|]. split; [apply K; vm_compute; reflexivity|cbn; lia].
Qed.
Lemma sce3_lists4 c ws : lists sce_demo c ws -> Forall (fun w => (exists v, alias (f_pva F4_demo) SC w v) /\ Spec_EmitUcd.identifier w) ws /\ (length ws <= 4)%nat.
Proof.
  intros (l & Hl & _ & H). destruct (sce3_lines4 l Hl) as (ws' & H' & G). assert (ws = ws') as -> by (rewrite <- (P_UcdApi5.sce_tokens _ _ H); symmetry; symmetry; now apply P_UcdApi5.sce_tokens). exact G.
Qed.
Lemma api_demo_ok4 : api_files_ok F4_demo A4_demo.
Proof.
  split. { split; [reflexivity|]. split; [discriminate|]. split; [apply gc_sections_okb_ok; vm_compute; reflexivity|apply separateb_ok; vm_compute; reflexivity]. }
  split; [apply separate_valuesb_ok; vm_compute; reflexivity|]. split; [apply separate_valuesb_ok; vm_compute; reflexivity|].
  split. { split; [apply separateb_ok; vm_compute; reflexivity|apply nonemptyb_ok; vm_compute; reflexivity]. }
  split. { split; [apply separateb_ok; vm_compute; reflexivity|]. split; [apply nonemptyb_ok; vm_compute; reflexivity|exact eaw_demo_widths4]. }
  split. { split; [apply separateb_ok; vm_compute; reflexivity|]. split; [apply nonemptyb_ok; vm_compute; reflexivity|exact gcb_demo_grouped4]. }
  split. { destruct C90_hypotheses as (_ & H1 & H2 & H3 & _). split; [exact H1|]. split; [exact H2|]. split; [exact H3|].
           intros c ws w H Hw. destruct (sce3_lists4 c ws H) as [G _]. rewrite Forall_forall in G. exact (proj1 (G w Hw)). }
  split; [exact C89_hypotheses|]. split; [exact C91_hypotheses|]. split; [split; [exact (proj1 C92_hypotheses)|exact (proj1 (proj2 C92_hypotheses))]|exact F4_age].
Qed.
Lemma names_demo_ok4 : names_ok F4_demo A4_demo.
Proof.
  split; [intros c w; apply gives_id; vm_compute; reflexivity|].
  split. { intros c w G Hw. apply gives_prop in G.
           assert (H : forallb (fun p => idb p || existsb (N.eqb ch_semi) p) (props_of (f_core F4_demo)) = true) by (vm_compute; reflexivity).
           rewrite forallb_forall in H. specialize (H w G). apply orb_true_iff in H as [H|H]; [now apply idb_ok|]. apply existsb_exists in H as (x & Hx & E). apply N.eqb_eq in E. subst x.
           destruct Hw as (_ & _ & Hw & _). exact (False_rect _ (Hw Hx)). }
  split; [intros c w; apply gives_id; vm_compute; reflexivity|]. split; [intros c w; apply gives_id; vm_compute; reflexivity|].
  split. { intros prop a v Hp Ha. assert (H : forallb (fun p => forallb (fun e => idb (snd e)) (aliases_of (f_pva F4_demo) p)) [GC; SC; AGE] = true) by (vm_compute; reflexivity).
           rewrite forallb_forall in H. specialize (H prop Hp). rewrite forallb_forall in H. apply aliases_in in Ha. apply idb_ok. exact (H _ Ha). }
  split. { intros c ws H. destruct (sce3_lists4 c ws H) as [G _]. eapply Forall_impl; [|exact G]. cbn beta. tauto. }
  split. { intros l Hl _. apply PropGen_Demo.data_in in Hl. assert (H : forallb (fun l => idb (Spec_UcdApi.identifier (st_prop l))) (PropGen_Demo.data_of blocks_demo) = true) by (vm_compute; reflexivity).
           rewrite forallb_forall in H. apply idb_ok. exact (H l Hl). }
  intros a v Ha. apply aliases_in in Ha. assert (H : forallb (fun e => forallb (fun c => negb (existsb (N.eqb c) [34; 10; 92])) (fst e)) (aliases_of (f_pva F4_demo) AGE) = true) by (vm_compute; reflexivity).
  rewrite forallb_forall in H. specialize (H _ Ha). cbn [fst] in H. apply Forall_forall. intros c Hc. rewrite forallb_forall in H. specialize (H c Hc). cbn [existsb] in H. lia.
Qed.
Lemma sizes_demo_ok4 : sizes_ok F4_demo A4_demo.
Proof.
  split; [repeat constructor; vm_compute; reflexivity|]. split; [vm_compute; reflexivity|].
  split; [intros c ws H; destruct (sce3_lists4 c ws H) as [_ G]; unfold few; lia|].
  intros al H ND. assert (L : (length al <= length (aliases_of (f_pva F4_demo) AGE))%nat).
  { rewrite <- (map_length fst al), <- (map_length fst (aliases_of _ _)). apply NoDup_incl_length; [exact ND|]. intros a Ha. apply in_map_iff in Ha as ([x v] & <- & Hx).
    apply H in Hx. apply aliases_in in Hx. apply (in_map fst _ _ Hx). }
  assert (E : (length (aliases_of (f_pva F4_demo) AGE) <= 1000)%nat) by (apply Nat.leb_le; vm_compute; reflexivity). unfold few. lia.
Qed.
Lemma loaded_demo4 : loaded_api true F4_demo A4_demo u_demo4.
Proof.
  unfold loaded_api, u_demo4. cbn [u_core u_gcs u_cats u_scripts u_sces u_pva u_blocks u_breaks u_widths u_emoji u_mirrored u_glyphs ap_sce ap_blocks ap_ud ap_mirror A4_demo].
  rewrite ?bare_groups, ?bare_fst. split; [reflexivity|]. split. { exists (snd gc_loaded4). split; [vm_compute; reflexivity|apply rsort_ok]. }
  split; [apply gsort_ok|]. split; [apply gsort_ok|]. split; [apply rsort_ok|]. split; [apply rsort_ok|]. split; [apply gsort_ok|]. split; [apply rsort_ok|].
  split; [reflexivity|]. split; reflexivity.
Qed.
Lemma comments_demo4 : comments_ok u_demo4.
Proof.
  unfold comments_ok, u_demo4. cbn [u_core u_gcs u_cats u_scripts u_sces u_pva u_blocks u_breaks u_widths u_emoji u_mirrored u_glyphs]. rewrite !Forall_app.
  split; [repeat split; apply bare_group_ok|]. split; [repeat split; apply bare_ok|apply bare_ok].
Qed.

Example C142_hypotheses : files_ok F4_demo /\ api_files_ok F4_demo A4_demo /\ names_ok F4_demo A4_demo /\ sizes_ok F4_demo A4_demo /\ loaded_api true F4_demo A4_demo u_demo4 /\ comments_ok u_demo4 /\
  parsed true F4_demo d4_demo /\ age_members (find_pva (pd_pva d4_demo) "Age") = Some members4 /\ few_values 65536 (rec_cells members4 d4_demo) /\ few_blocks 256 256 (rec_cells members4 d4_demo) /\
  value_names_ok F4_demo /\ database_facts F4_demo /\
  case_files_ok udc_demo sc_demo cf_demo /\ norm_files_ok udc_demo [] [] /\ printable_data udc_demo cf_demo /\ ascii_agrees udc_demo cf_demo /\
  maps_scalars udc_demo sc_demo cf_demo /\ no_special_identity udc_demo sc_demo cf_demo /\ (exists text, header_for true udc_demo sc_demo cf_demo [] [] text) /\ file_cased F4_demo 0x41.
Proof.
  destruct (C82_few_ranges d4_demo members4) as [V B]; [apply Nat.leb_le; vm_compute; reflexivity|]. destruct C137_case_hypotheses as (K1 & K2 & K3 & K4 & K5).
  split; [apply files_okb_ok; vm_compute; reflexivity|]. split; [exact api_demo_ok4|]. split; [exact names_demo_ok4|]. split; [exact sizes_demo_ok4|]. split; [exact loaded_demo4|]. split; [exact comments_demo4|].
  split; [apply sample_parsed; vm_compute; reflexivity|]. split; [vm_compute; reflexivity|]. split; [exact V|]. split; [exact B|].
  split; [apply value_names_okb_ok; vm_compute; reflexivity|]. split; [apply factsb_ok; vm_compute; reflexivity|].
  split; [exact K1|]. split; [exact K2|]. split; [exact K3|]. split; [exact K4|]. split; [exact scalars_demo|]. split; [exact no_identity_demo|]. split; [exact K5|].
  apply Exists_cons_hd. exists (lit "Lu"). split.
  - exists (mkSt (Span 0x41 0x5A) 4 1 (lit "Lu") 1 (Some (lit "  [26] LATIN CAPITAL LETTER A..LATIN CAPITAL LETTER Z"))). split; [apply PropGen_Demo.data_in; left; reflexivity|].
    split; [split; vm_compute; discriminate|reflexivity].
  - apply aliases_in. vm_compute. tauto.
Qed.
