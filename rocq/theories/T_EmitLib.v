(** C140: from the database files, through the printed text of the tables, to the library functions. *)
From Coq Require Import String Lia.
From Verif Require Import Base M_Ucd M_Grapheme M_Word M_Width M_Emoji M_TableGen M_PropGen M_Multistage M_Link M_Emit M_EmitUcd M_EmitMs Spec_TableGen Spec_PropGen Spec_Multistage Spec_Link Spec_Grapheme Spec_Word Spec_Width
  Spec_Cpp Spec_Emit Spec_EmitUcd Spec_EmitMs Spec_EmitGet Spec_EmitLib P_Link P_PropGen9 T_Grapheme T_Word T_Width T_PropGen T_Link T_EmitGet.
Open Scope N_scope.

Lemma library_gives crlf F d members hash parts n1 n2 names : files_ok F -> parsed crlf F d -> age_members (find_pva (pd_pva d) "Age") = Some members ->
  few_values 65536 (rec_cells members d) -> few_blocks 256 256 (rec_cells members d) -> value_names_ok F ->
  parts <> [] -> Forall Spec_EmitUcd.identifier parts -> n1 <> [] -> n2 <> [] ->
  exists g header impl names_file u e, generate crec crec_eqb hash 256 256 65536 (rec_cells members d) = Ok g /\
    ms_files (qualified parts) (mkMs (g1 g) (g2 g) (map (print_rec members d) (g3 g)) n1 n2 names) = Some (header, impl, names_file) /\
    library_of impl u e /\ describes F u /\ describes_ecat F e /\ forall c, 0x10FFFF < c -> u c = u 0 /\ e c = e 0.
Proof.
  intros Hok Hp Em Hv Hb Hn H1 H2 H3 H4.
  destruct (C133_sources_answer crlf F d members hash parts n1 n2 names Hok Hp Em Hv Hb Hn H1 H2 H3 H4) as (g & props & header & impl & names_file & Hg & Eg & Ef & (s1 & s2 & recs & T1 & T2 & T3 & HI)).
  set (low := fun c => if c <=? 0x10FFFF then c else 0).
  exists g, header, impl, names_file, (fun c => props_of (props (low c))), (fun c => ecat_of (o_esc (props (low c)))).
  split; [exact Eg|]. split; [exact Ef|]. assert (L : forall c, c <= 0x10FFFF -> low c = c) by (intros c Hc; unfold low; now rewrite (proj2 (N.leb_le _ _) Hc)).
  split.
  { exists s1, s2, recs. split; [exact T1|]. split; [exact T2|]. split; [exact T3|]. intros c i.
    assert (Hi : i <= 0x10FFFF) by (unfold i; destruct (N.leb_spec c 0x10FFFF); lia).
    destruct (HI i Hi) as (b & k & E1 & E2 & E3). exists b, k, (props i). repeat (split; [assumption|]). split; reflexivity. }
  split. { apply (describes_ext F _ (fun c => props_of (props c))); [exact (props_describe crlf F props Hok Hg)|]. intros c Hc. now rewrite L. }
  split. { intros c Hc n x I. rewrite L by exact Hc. exact (props_ecat crlf F props Hok Hg c Hc n x I). }
  intros c Hc. unfold low. rewrite (proj2 (N.leb_gt _ _) Hc). split; reflexivity.
Qed.

(** C140.  The generator prints tables with which a library has the properties of the files ... *)
Theorem C140_printed_library : forall crlf F d members hash parts n1 n2 names, files_ok F -> parsed crlf F d -> age_members (find_pva (pd_pva d) "Age") = Some members ->
  few_values 65536 (rec_cells members d) -> few_blocks 256 256 (rec_cells members d) -> value_names_ok F ->
  parts <> [] -> Forall Spec_EmitUcd.identifier parts -> n1 <> [] -> n2 <> [] ->
  exists g header impl names_file u e, generate crec crec_eqb hash 256 256 65536 (rec_cells members d) = Ok g /\
    ms_files (qualified parts) (mkMs (g1 g) (g2 g) (map (print_rec members d) (g3 g)) n1 n2 names) = Some (header, impl, names_file) /\
    library_of impl u e /\ describes F u /\ describes_ecat F e /\
    forall cl, (0 <= cluster_width u cl <= 2 * Z.of_nat (length cl))%Z.
Proof.
  intros crlf F d members hash parts n1 n2 names Hok Hp Em Hv Hb Hn H1 H2 H3 H4.
  destruct (library_gives crlf F d members hash parts n1 n2 names Hok Hp Em Hv Hb Hn H1 H2 H3 H4) as (g & header & impl & names_file & u & e & Eg & Ef & Lb & D & De & O).
  exists g, header, impl, names_file, u, e. repeat (split; [assumption|]). apply C25_width_bounded, (widths2 F u D). intros c Hc. apply (O c Hc).
Qed.
Print Assumptions C140_printed_library.
(** ... and cuts every text where UAX #29 says, clusters up to the two known deviations (C18). *)
Theorem C140_printed_segments_partial : forall crlf F d members hash parts n1 n2 names, files_ok F -> database_facts F -> parsed crlf F d -> age_members (find_pva (pd_pva d) "Age") = Some members ->
  few_values 65536 (rec_cells members d) -> few_blocks 256 256 (rec_cells members d) -> value_names_ok F ->
  parts <> [] -> Forall Spec_EmitUcd.identifier parts -> n1 <> [] -> n2 <> [] ->
  exists g header impl names_file u e, generate crec crec_eqb hash 256 256 65536 (rec_cells members d) = Ok g /\
    ms_files (qualified parts) (mkMs (g1 g) (g2 g) (map (print_rec members d) (g3 g)) n1 n2 names) = Some (header, impl, names_file) /\
    library_of impl u e /\ describes F u /\
    (forall text cl, text <> [] -> no_double_zwj u text -> no_prepend_ri u text -> grapheme_clusters u text = Ok cl ->
       forall k, cut_at cl k <-> boundary_in (uax29_boundary u) text k) /\
    (forall text ws, text <> [] -> word_segments u text = Ok ws -> forall k, cut_at ws k <-> word_boundary_at u text k).
Proof.
  intros crlf F d members hash parts n1 n2 names Hok Hf Hp Em Hv Hb Hn H1 H2 H3 H4.
  destruct (library_gives crlf F d members hash parts n1 n2 names Hok Hp Em Hv Hb Hn H1 H2 H3 H4) as (g & header & impl & names_file & u & e & Eg & Ef & Lb & D & De & O).
  assert (O' : forall c, 0x10FFFF < c -> u c = u 0) by (intros c Hc; apply (O c Hc)).
  exists g, header, impl, names_file, u, e. repeat (split; [assumption|]). split.
  - intros text cl Hne K1 K2 H. exact (C18_uax29_partial u (grapheme_facts F u D O' Hf) text cl Hne K1 K2 H).
  - intros text ws Hne H. exact (C23_words_uax29 u (word_facts F u D O' Hf) text ws Hne H).
Qed.
Print Assumptions C140_printed_segments_partial.

(** The hypotheses are met by a small database. *)
From Verif Require Import Link_Demo.
Example C140_hypotheses : files_ok F_link /\ database_facts F_link /\ parsed true F_link d_link /\ age_members (find_pva (pd_pva d_link) "Age") = Some members_link /\
  few_values 65536 (rec_cells members_link d_link) /\ few_blocks 256 256 (rec_cells members_link d_link) /\ value_names_ok F_link.
Proof.
  destruct (C82_few_ranges d_link members_link) as [V B]; [apply Nat.leb_le; vm_compute; reflexivity|].
  split; [exact F_link_ok|]. split; [exact F_link_facts|]. split; [exact d_link_parsed|]. split; [exact members_link_ok|]. split; [exact V|]. split; [exact B|].
  apply value_names_okb_ok. vm_compute. reflexivity.
Qed.
