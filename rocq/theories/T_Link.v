(** C116, C117: from the database files, through the table generator and the generated table, to the library functions. *)
From Coq Require Import String.
From Verif Require Import Base M_Ucd M_TableGen M_PropGen M_Multistage M_Emoji M_Link Spec_TableGen Spec_PropGen Spec_Multistage Spec_Link
  P_PropGen9 T_PropGen P_Link Link_Demo Spec_Grapheme Spec_Word Spec_Width Spec_Scan Spec_Utf M_Grapheme M_Word M_Width M_Convert M_Scan
  T_Grapheme T_Word T_Width.
Open Scope N_scope.

(** [u] and [e] are the property lookups of a library whose tables were generated from the files [F]: some order left by the sorts, some hash
    function, and table sizes within the index types. *)
Definition compiled (crlf : bool) (F : ucd_files) (u : ucd) (e : N -> ecat) : Prop :=
  exists d members hash g, parsed crlf F d /\ age_members (find_pva (pd_pva d) "Age") = Some members /\
    few_values 65536 (rec_cells members d) /\ few_blocks 256 256 (rec_cells members d) /\
    generate crec crec_eqb hash 256 256 65536 (rec_cells members d) = Ok g /\ u = runtime members d g /\ e = runtime_ecat members d g.

Lemma compiled_props crlf F u e : files_ok F -> compiled crlf F u e -> exists props, generated_props crlf F props /\
  (forall c, c <= 0x10FFFF -> u c = props_of (props c) /\ e c = ecat_of (o_esc (props c))) /\
  (forall c, 0x10FFFF < c -> u c = props_of (props 0) /\ e c = ecat_of (o_esc (props 0))).
Proof.
  intros Hok (d & members & hash & g & Hp & Em & Hv & Hb & Eg & -> & ->).
  destruct (C82_table crlf F d members hash Hok Hp Em Hv Hb) as (props & g' & Hg & Eg' & Hin & Hout).
  rewrite Eg in Eg'. injection Eg' as <-. exists props. split; [exact Hg|]. unfold runtime, runtime_ecat. split; intros c Hc.
  - destruct (Hin c Hc) as (r & -> & <-). split; reflexivity.
  - destruct (Hout c Hc) as (r & -> & <-). split; reflexivity.
Qed.
Lemma describes_ext F u v : describes F v -> (forall c, c <= 0x10FFFF -> u c = v c) -> describes F u.
Proof. intros D E c Hc. rewrite (E c Hc). apply (D c Hc). Qed.

(** C116.  Every property the library reads, for every code point, is the one the files give. *)
Theorem C116_library_reads_files : forall crlf F u e, files_ok F -> compiled crlf F u e ->
  describes F u /\ describes_ecat F e /\ (forall c, 0x10FFFF < c -> u c = u 0 /\ e c = e 0).
Proof.
  intros crlf F u e Hok Hc. destruct (compiled_props crlf F u e Hok Hc) as (props & Hg & Hin & Hout).
  split; [|split].
  - apply (describes_ext F u (fun c => props_of (props c))); [exact (props_describe crlf F props Hok Hg)|intros c H; apply (Hin c H)].
  - intros c H n x I. rewrite (proj2 (Hin c H)). exact (props_ecat crlf F props Hok Hg c H n x I).
  - intros c H. destruct (Hout c H) as [-> ->]. destruct (Hin 0 ltac:(lia)) as [-> ->]. split; reflexivity.
Qed.
Print Assumptions C116_library_reads_files.
(** ... and the files determine it. *)
Theorem C116_determined : forall F u v, describes F u -> describes F v -> forall c, c <= 0x10FFFF -> u c = v c.
Proof. exact describes_unique. Qed.
Print Assumptions C116_determined.
(** Two builds from the same files, whatever their line endings, hash function and sort, have the same properties. *)
Theorem C116_builds_agree : forall crlf crlf' F u e u' e', files_ok F -> compiled crlf F u e -> compiled crlf' F u' e' ->
  forall c, u c = u' c /\ e c = e' c.
Proof.
  intros crlf crlf' F u e u' e' Hok H H'. destruct (compiled_props crlf F u e Hok H) as (p & Hg & I & O).
  destruct (compiled_props crlf' F u' e' Hok H') as (p' & Hg' & I' & O'). pose proof (C81_deterministic crlf crlf' F p p' Hok Hg Hg') as E.
  intros c. destruct (N.le_gt_cases c 0x10FFFF) as [L|L].
  - destruct (I c L) as [-> ->]. destruct (I' c L) as [-> ->]. rewrite E. split; reflexivity.
  - destruct (O c L) as [-> ->]. destruct (O' c L) as [-> ->]. rewrite E. split; reflexivity.
Qed.
Print Assumptions C116_builds_agree.
(** There is such a build when the ranges in the files are few enough. *)
Theorem C116_builds : forall crlf F d members, files_ok F -> parsed crlf F d -> age_members (find_pva (pd_pva d) "Age") = Some members ->
  few_values 65536 (rec_cells members d) -> few_blocks 256 256 (rec_cells members d) -> exists u e, compiled crlf F u e.
Proof.
  intros crlf F d members Hok Hp Em Hv Hb. destruct (C82_table crlf F d members (fun _ => 0) Hok Hp Em Hv Hb) as (_ & g & _ & Eg & _).
  exists (runtime members d g), (runtime_ecat members d g), d, members, (fun _ => 0), g. repeat (split; [assumption|]). split; reflexivity.
Qed.
Print Assumptions C116_builds.

(** C117.  With files that have the general facts of the Unicode Character Database, the property assignment meets the hypotheses of the
    theorems about segmentation, width and scanning. *)
Theorem C117_hypotheses : forall crlf F u e, files_ok F -> database_facts F -> compiled crlf F u e ->
  ucd_grapheme_ok u /\ ucd_word_ok u /\ ucd_width_ok u /\ widths_le2 u /\ ucd_scan_ok u.
Proof.
  intros crlf F u e Hok Hf Hc. destruct (C116_library_reads_files crlf F u e Hok Hc) as (D & _ & O).
  assert (O' : forall c, 0x10FFFF < c -> u c = u 0) by (intros c H; apply (O c H)).
  split; [exact (grapheme_facts F u D O' Hf)|]. split; [exact (word_facts F u D O' Hf)|]. split; [exact (width_facts F u D O' Hf)|].
  split; [exact (widths2 F u D O')|exact (scan_facts F u D O' Hf)].
Qed.
Print Assumptions C117_hypotheses.
(** widths need no fact about the data *)
Theorem C117_widths : forall crlf F u e, files_ok F -> compiled crlf F u e -> forall cl, (0 <= cluster_width u cl <= 2 * Z.of_nat (length cl))%Z.
Proof.
  intros crlf F u e Hok Hc. destruct (C116_library_reads_files crlf F u e Hok Hc) as (D & _ & O). apply C25_width_bounded.
  apply (widths2 F u D). intros c H. apply (O c H).
Qed.
Print Assumptions C117_widths.
(** From the files to the segments: words are cut where UAX #29 says, clusters too except for the two known deviations (C18), with the
    properties the files give. *)
Theorem C117_segments_partial : forall crlf F u e, files_ok F -> database_facts F -> compiled crlf F u e ->
  describes F u /\
  (forall text cl, text <> [] -> no_double_zwj u text -> no_prepend_ri u text -> grapheme_clusters u text = Ok cl ->
     forall k, cut_at cl k <-> boundary_in (uax29_boundary u) text k) /\
  (forall text ws, text <> [] -> word_segments u text = Ok ws -> forall k, cut_at ws k <-> word_boundary_at u text k).
Proof.
  intros crlf F u e Hok Hf Hc. destruct (C117_hypotheses crlf F u e Hok Hf Hc) as (G & W & _).
  split; [apply (C116_library_reads_files crlf F u e Hok Hc)|]. split.
  - intros text cl Hne H1 H2 H. exact (C18_uax29_partial u G text cl Hne H1 H2 H).
  - intros text ws Hne H. exact (C23_words_uax29 u W text ws Hne H).
Qed.
Print Assumptions C117_segments_partial.

Definition d_link : pdata := match sample_data true F_link with Some d => d | None => mkPd [] [] [] [] [] [] [] [] [] [] [] [] [] end.
Definition members_link : list str := match age_members (find_pva (pd_pva d_link) "Age") with Some m => m | None => [] end.
Lemma d_link_parsed : parsed true F_link d_link.
Proof. apply sample_parsed. vm_compute. reflexivity. Qed.
Lemma members_link_ok : age_members (find_pva (pd_pva d_link) "Age") = Some members_link.
Proof. vm_compute. reflexivity. Qed.
(** files with UCD lines that meet all hypotheses, and the properties in the library generated from them *)
Definition u_link : ucd := fun c => props_of (out_record members_link d_link c).
Example C117_demo : files_ok F_link /\ database_facts F_link /\ exists u e, compiled true F_link u e /\ forall c, c <= 0x10FFFF -> u c = u_link c.
Proof.
  split; [exact F_link_ok|]. split; [exact F_link_facts|].
  destruct (C82_few_ranges d_link members_link) as [V B]; [apply Nat.leb_le; vm_compute; reflexivity|].
  destruct (C116_builds true F_link d_link members_link F_link_ok d_link_parsed members_link_ok V B) as (u & e & C). exists u, e. split; [exact C|].
  destruct (compiled_props true F_link u e F_link_ok C) as (p & Hg & I & O).
  assert (E : forall c, p c = out_record members_link d_link c).
  { apply (C81_deterministic true true F_link p (out_record members_link d_link) F_link_ok Hg). exists d_link, members_link.
    split; [exact d_link_parsed|]. split; [exact members_link_ok|reflexivity]. }
  intros c H. unfold u_link. rewrite <- E. apply (I c H).
Qed.
Example C117_demo_values :
  grapheme_clusters u_link [0x61; 0x301; 0xD; 0xA; 0x231A; 0x200D; 0x231A; 0x915; 0x94D; 0x915; 0x1F1E9; 0x1F1EA; 0x1F1EB] =
    Ok [[0x61; 0x301]; [0xD; 0xA]; [0x231A; 0x200D; 0x231A]; [0x915; 0x94D; 0x915]; [0x1F1E9; 0x1F1EA]; [0x1F1EB]] /\
  word_segments u_link [0x61; 0x62; 0x20; 0x63] = Ok [[0x61; 0x62]; [0x20]; [0x63]] /\
  cluster_width u_link [0x231A] = 2%Z /\ cluster_width u_link [0x61; 0x301] = 1%Z.
Proof. vm_compute. repeat split. Qed.
