(** C139: ucd.h and ucd.cpp, generated from the same files, declare and define the same functions; the inline functions of ucd.h ask for the categories of the files. *)
From Coq Require Import String Permutation Sorted Lia.
From Verif Require Import Base M_TableGen M_PropGen M_UcdApi M_Emit M_EmitUcd M_EmitUcdH Spec_TableGen Spec_PropGen Spec_UcdApi Spec_Cpp Spec_EmitUcd Spec_EmitUcdH Spec_EmitFiles Spec_EmitFiles4
  P_TableGen P_TableGen8 P_PropGen P_PropGen2 P_PropGen5 P_UcdApi P_UcdApi2 P_UcdApi3 P_Enums2 T_UcdApi T_EmitUcd T_EmitUcdH P_EmitFiles T_EmitFiles.
Open Scope N_scope.

Section Header.
Variables (crlf : bool) (F : ucd_files) (A : api_files) (u : ucd_src).
Hypothesis Hok : files_ok F.
Hypothesis HA : api_files_ok F A.
Hypothesis Hl : loaded_api crlf F A u.

Lemma cats_names : file_categories F (map fst (u_cats u)).
Proof.
  destruct (gc_loaded crlf F A u Hok HA Hl) as (al & cats & Hm & Hget & Hcov & E & Hk). destruct Hl as (Ep & (l & E' & _) & _). rewrite E in E'. injection E' as Ec _.
  pose proof (gc_sorted _ _ _ _ E) as So. assert (Ek : map fst (u_cats u) = map fst cats) by (rewrite Ec, map_map; reflexivity).
  split; [rewrite Ek; now apply sorted_keys|]. intros name. rewrite Ek. destruct HA as ((Ef & Ne & (Hpre & Hh & Hnd & Hsec) & _) & _). split.
  - intros H. apply in_map_iff in H as ([k rs] & <- & H). cbn [fst] in *. apply (smap_in _ _ _ So) in H. rewrite Hk in H.
    destruct (sec_ranges al k (ap_secs A)) as [|r0 rs'] eqn:Er; [discriminate H|].
    assert (Hr0 : In r0 (sec_ranges al k (ap_secs A))) by (rewrite Er; left; reflexivity).
    destruct (sec_ranges_in _ _ _ _ Hr0) as (s & x & Hin & <- & Hx & _). destruct (Hsec s Hin) as (_ & _ & _ & _ & Ha).
    assert (Hst : has (f_gc F) x). { rewrite Ef. unfold has, gc_file. apply in_app_iff. right. apply in_flat_map. exists s. split; [exact Hin|right; exact Hx]. }
    exists (span_first (st_span x)), (st_prop x). split; [|exact (Ha x Hx)]. apply has_gives; [exact (proj1 (gc_lines F Hok _ Hst))|exact Hst].
  - intros (c & a & G & Al).
    rewrite Ef in G, E. rewrite Ep in E.
    destruct (C84_contains crlf (f_pre F) (f_pva F) (ap_pre A) (ap_secs A) cats _ name c (proj1 Hok) Ne (eq_rect _ (fun f => lines_ok word_line f) (gc_lines F Hok) _ Ef)
      (conj Hpre (conj Hh (conj Hnd Hsec))) E) as (b & Eb & Hb).
    assert (Y : b = true) by (apply Hb; exists a; auto). subst b. unfold api_gc_contains in Eb.
    destruct (smap_get name cats) as [rs|] eqn:G'; [|discriminate Eb]. apply get_in in G'. exact (in_map fst _ _ G').
Qed.
Lemma script_loaded : exists al, smap_get (lit "Script") (u_pva u) = Some al.
Proof.
  destruct (smap_get (lit "Script") (u_pva u)) as [al|] eqn:Hal; [exists al; reflexivity|]. exfalso.
  destruct HA as (_ & _ & _ & _ & _ & _ & (Hf & _ & (l & Hin) & Hcov) & _). destruct (Hf _ Hin) as [ws Hws]. pose proof Hws as (Hst & Hne & _).
  destruct ws as [|w ws]; [contradiction|]. destruct (Hcov (span_first (st_span l)) (w :: ws) w) as [v Hv].
  { exists l. split; [exact Hin|]. split; [exact (st_covers l Hst)|exact Hws]. } { left. reflexivity. }
  destruct Hl as (Ep & _). destruct Hok as (Hpva & _). destruct (load_pva_in crlf (f_pre F) (f_pva F) (lit "Script") Hpva ltac:(discriminate)) as [_ K].
  rewrite <- Ep, Hal in K. apply K in Hv. destruct Hv.
Qed.
Lemma ages_loaded : has_ages u = true.
Proof.
  unfold has_ages. destruct (smap_get (lit "Age") (u_pva u)) as [ages|] eqn:E; [reflexivity|]. exfalso.
  destruct HA as (_ & _ & _ & _ & _ & _ & _ & _ & _ & _ & a0 & v0 & H0).
  destruct Hl as (Ep & _). destruct Hok as (Hpva & _). destruct (load_pva_in crlf (f_pre F) (f_pva F) (lit "Age") Hpva ltac:(discriminate)) as [_ K].
  rewrite <- Ep, E in K. apply K in H0. destruct H0.
Qed.
Lemma break_loaded : In GCB (map fst (u_breaks u)).
Proof.
  destruct Hl as (_ & _ & _ & _ & _ & _ & S & _). destruct HA as (_ & _ & _ & _ & _ & (Sep & Ne & Gf) & _).
  destruct (C87_grapheme_cluster_break crlf (f_gcb F) _ (value_lines F Hok (f_gcb F) ltac:(cbn [In]; tauto)) Sep Ne Gf S) as (g & Eg & _).
  unfold api_grapheme in Eg. destruct (smap_get GCB (map without_comments (u_breaks u))) as [rs|] eqn:G; [|discriminate Eg]. apply get_in in G. apply (in_map fst) in G.
  rewrite map_map in G. exact G.
Qed.
Lemma emoji_loaded name c : gives (f_emoji F) c name -> In name (map fst (u_emoji u)).
Proof.
  intros G0. destruct Hl as (_ & _ & _ & S & _). destruct HA as (_ & _ & Sep & _).
  pose proof (C85_emoji_properties crlf (f_emoji F) _ name (emoji_lines F Hok) Sep S) as K. unfold api_emoji in K.
  destruct (smap_get name (map without_comments (u_emoji u))) as [rs|] eqn:G; [|destruct (K c G0)].
  apply get_in in G. apply (in_map fst) in G. rewrite map_map in G. exact G.
Qed.
End Header.

(** C139. *)
Theorem C139_ucd_h_follows : forall crlf F A u, files_ok F -> api_files_ok F A -> names_ok F A -> sizes_ok F A -> loaded_api crlf F A u -> comments_ok u ->
  exists header impl, ucd_h_text u = Some header /\ ucd_cpp_text u = Some impl /\
    (forall s, file_signature F s -> declared_in header s /\ defined_in impl s) /\
    exists cats, file_categories F cats /\ contains_text header (category_helpers cats).
Proof.
  intros crlf F A u Hok HA Hn Hs Hl Hc. destruct (script_loaded crlf F A u Hok HA Hl) as [al Hal].
  pose proof (files_fit crlf F A u Hok HA Hn Hs Hl Hc) as Fi.
  destruct (ucd_cpp_text u) as [impl|] eqn:Ei; [|pose proof (parts_eq u al Hal) as P; congruence].
  destruct (ucd_h_text u) as [header|] eqn:Eh; [|exfalso; unfold ucd_h_text in Eh; rewrite Hal in Eh; discriminate Eh].
  exists header, impl. split; [reflexivity|]. split; [reflexivity|]. split.
  - intros s H. apply (C135_declared_and_defined u header impl Eh Ei Fi). rewrite (ages_loaded crlf F A u Hok HA Hl). unfold signatures. destruct H as [H|(name & c & G & ->)].
    + unfold signatures in H. cbn [map app] in H. cbn [app In] in H |- *. rewrite !in_app_iff.
      repeat (destruct H as [H|H]; [tauto|]). destruct H as [H|[H|[]]].
      * do 10 right. left. rewrite <- H. apply (in_map (fun n => lookup_sig n (map down n))). exact (break_loaded crlf F A u Hok HA Hl).
      * do 10 right. right. right. left. exact H.
    + apply in_or_app; right; apply in_or_app; right; apply in_or_app; left. apply (in_map (fun n => lookup_sig (lit "bool") (lit "is_" ++ map down n))). exact (emoji_loaded crlf F A u Hok HA Hl name c G).
  - exists (map fst (u_cats u)). split; [exact (cats_names crlf F A u Hok HA Hl)|].
    destruct Fi as (_ & Fcats & Femoji & _ & _ & _ & _ & _ & Fbreaks & _).
    assert (K1 : Forall identifier (map fst (u_cats u))) by (apply Forall_map; eapply Forall_impl; [|exact Fcats]; intros e H; exact (proj1 H)).
    assert (K2 : Forall identifier (map fst (u_emoji u))) by (apply Forall_map; eapply Forall_impl; [|exact Femoji]; intros e H; exact (proj1 H)).
    assert (K3 : Forall identifier (map fst (u_breaks u))) by (apply Forall_map; eapply Forall_impl; [|exact Fbreaks]; intros e H; exact (proj1 H)).
    destruct (C135_header_denotes u header Eh (conj K1 (conj K3 K2))) as (_ & _ & H & _). exact H.
Qed.
Print Assumptions C139_ucd_h_follows.

(** the hypotheses are met; two functions of the interface *)
From Verif Require Import TableGen_Demo PropGen_Demo UcdApi_Demo Enums_Demo.
Example C139_hypotheses : (files_ok F3_demo /\ api_files_ok F3_demo A_demo /\ names_ok F3_demo A_demo /\ sizes_ok F3_demo A_demo /\ loaded_api true F3_demo A_demo u_demo /\ comments_ok u_demo) /\
  file_signature F3_demo (lit "Grapheme_Cluster_Break grapheme_cluster_break(char32_t codepoint) noexcept") /\
  exists name c, gives (f_emoji F3_demo) c name.
Proof.
  split; [exact C136_hypotheses|]. split; [left; vm_compute; tauto|].
  assert (H : exists l, In (Data l) (f_emoji F3_demo)) by (eexists; vm_compute; tauto).
  destruct H as [l H]. exists (st_prop l), (span_first (st_span l)). apply has_gives; [|exact H]. exact (proj1 (emoji_lines F3_demo F3_demo_ok _ H)).
Qed.
