(** Theorems about the table generator: C70 - C75. *)
From Coq Require Import Ascii String Permutation Sorted.
From Verif Require Import Base M_Tables M_Normalize M_Case M_TableGen Spec_Tables Spec_Case Spec_Normalize Spec_TableGen
  P_Tables P_TableGen P_TableGen2 P_TableGen3 P_TableGen4 P_TableGen5 P_TableGen6 P_TableGen7 P_TableGen8 TableGen_Demo.
Open Scope N_scope.

(** The format of the lines: exact lines of the Unicode Character Database. *)
Example format_unicode_data : file_text ud_text false ud_demo = map lit [
  "0041;LATIN CAPITAL LETTER A;Lu;0;L;;;;;N;;;;0061;"; "0061;LATIN SMALL LETTER A;Ll;0;L;;;;;N;;;0041;;0041";
  "00C5;LATIN CAPITAL LETTER A WITH RING ABOVE;Lu;0;L;0041 030A;;;;N;LATIN CAPITAL LETTER A RING;;;00E5;";
  "0300;COMBINING GRAVE ACCENT;Mn;230;NSM;;;;;N;NON-SPACING GRAVE;;;;"; "0301;COMBINING ACUTE ACCENT;Mn;230;NSM;;;;;N;NON-SPACING ACUTE;;;;";
  "0308;COMBINING DIAERESIS;Mn;230;NSM;;;;;N;NON-SPACING DIAERESIS;;;;"; "030A;COMBINING RING ABOVE;Mn;230;NSM;;;;;N;NON-SPACING RING ABOVE;;;;";
  "0340;COMBINING GRAVE TONE MARK;Mn;230;NSM;0300;;;;N;NON-SPACING GRAVE TONE MARK;;;;";
  "0344;COMBINING GREEK DIALYTIKA TONOS;Mn;230;NSM;0308 0301;;;;N;GREEK NON-SPACING DIAERESIS TONOS;;;;";
  "0958;DEVANAGARI LETTER QA;Lo;0;L;0915 093C;;;;N;;;;;"; "AC00;<Hangul Syllable, First>;Lo;0;L;;;;;N;;;;;";
  "D7A3;<Hangul Syllable, Last>;Lo;0;L;;;;;N;;;;;"; "FB00;LATIN SMALL LIGATURE FF;Ll;0;L;<compat> 0066 0066;;;;N;;;;;" ]%string.
Proof. vm_compute. reflexivity. Qed.
Example format_normalization_props : file_text ex_text false ex_demo ++ file_text np_text false np_demo = map lit [
  "# CompositionExclusions-15.1.0.txt"; ""; "0958    #  DEVANAGARI LETTER QA"; "# Derived Property: Full_Composition_Exclusion";
  "0340..0341    ; Full_Composition_Exclusion # Mn   [2] COMBINING GRAVE TONE MARK..COMBINING ACUTE TONE MARK";
  "0344          ; Full_Composition_Exclusion # Mn       COMBINING GREEK DIALYTIKA TONOS";
  "0958          ; Full_Composition_Exclusion # Lo       DEVANAGARI LETTER QA"; "";
  "00C5          ; NFD_QC; N # L&       LATIN CAPITAL LETTER A WITH RING ABOVE";
  "0340..0341    ; NFC_QC; N # Mn   [2] COMBINING GRAVE TONE MARK..COMBINING ACUTE TONE MARK";
  "0300..0304    ; NFC_QC; M # Mn   [5] COMBINING GRAVE ACCENT..COMBINING MACRON" ]%string.
Proof. vm_compute. reflexivity. Qed.
Example format_case : map (line_text sc_text) sc_demo ++ skipn 25 (map (line_text cf_text) cf_demo) = map lit [
  "# The German es-zed is special--the normal mapping is to SS."; "00DF; 00DF; 0053 0073; 0053 0053; # LATIN SMALL LETTER SHARP S"; "";
  "03A3; 03C2; 03A3; 03A3; Final_Sigma; # GREEK CAPITAL LETTER SIGMA";
  "005A; C; 007A; # LATIN CAPITAL LETTER Z"; "0049; T; 0131; # LATIN CAPITAL LETTER I"; "00DF; F; 0073 0073; # LATIN SMALL LETTER SHARP S";
  "1E9E; F; 0073 0073; # LATIN CAPITAL LETTER SHARP S"; "1E9E; S; 00DF; # LATIN CAPITAL LETTER SHARP S" ]%string.
Proof. vm_compute. reflexivity. Qed.

(** C70.  is_full_composition_exclusion(c) holds exactly for the code points to which the files give Full_Composition_Exclusion. *)
Definition C70_statement : Prop := forall crlf ud ex np tb,
  norm_files_ok ud ex np -> norm_data_ok ud ex np -> exclusions_derived ud ex np -> composites_unique ud ex np -> generated_norm crlf ud ex np tb ->
  forall c, is_full_composition_exclusion tb c = true <-> listed ex c \/ assigns np FCE None c.
Theorem C70_full_composition_exclusion_refuted : ~ C70_statement.
Proof.
  intros H. pose proof (proj2 (H true _ _ _ _ norm_demo_ok norm_demo_data norm_demo_derived demo_composites_unique tb_demo_generated 0x340)) as G.
  assert (E : is_full_composition_exclusion tb_demo 0x340 = false) by (vm_compute; reflexivity). rewrite E in G. discriminate G.
  right. eexists. split; [right; left; reflexivity|]. split; [reflexivity|split; [reflexivity|]]. cbn [nl_span covers]. lia.
Qed.
Print Assumptions C70_full_composition_exclusion_refuted.
(** C70, what holds: the function reproduces CompositionExclusions.txt and those Full_Composition_Exclusion lines that carry no comment. *)
Theorem C70_loaded_partial : forall crlf ud ex np tb, norm_files_ok ud ex np -> generated_norm crlf ud ex np tb ->
  forall c, is_full_composition_exclusion tb c = true <-> listed ex c \/ bare_exclusion np c.
Proof. intros crlf ud ex np tb Hf Hg c. apply (gen_excluded crlf ud ex np Hf tb Hg). Qed.
Print Assumptions C70_loaded_partial.
(** C70: the lost lines do not change any normalization: tables generated from the same files with the comments of the
    Full_Composition_Exclusion lines removed, where the statement above holds, normalize every text alike. *)
Theorem C70_normalization_unaffected : forall crlf ud ex np tb tb',
  norm_files_ok ud ex np -> norm_data_ok ud ex np -> exclusions_derived ud ex np -> composites_unique ud ex np ->
  generated_norm crlf ud ex np tb -> generated_norm crlf ud ex (map uncomment np) tb' ->
  (forall c, assigns np FCE None c -> is_full_composition_exclusion tb' c = true) /\
  forall fuel text form, normalize tb fuel text form = normalize tb' fuel text form.
Proof.
  intros crlf ud ex np tb tb' Hf Hd Hx Hu Hg Hg'. split.
  - intros c [n [Hn [Hp [_ Hc]]]]. apply (gen_excluded crlf ud ex _ (files' ud ex np Hf) tb' Hg'). right. apply bare_uncomment. eauto.
  - intros. exact (normalize_same crlf ud ex np Hf Hd Hx Hu tb tb' Hg Hg' fuel text form).
Qed.
Print Assumptions C70_normalization_unaffected.
Example C70_hypotheses : norm_files_ok ud_demo ex_demo np_demo /\ norm_data_ok ud_demo ex_demo np_demo /\ exclusions_derived ud_demo ex_demo np_demo /\
  composites_unique ud_demo ex_demo np_demo /\ generated_norm true ud_demo ex_demo np_demo tb_demo.
Proof.
  split; [exact norm_demo_ok|split; [exact norm_demo_data|split; [exact norm_demo_derived|split; [exact demo_composites_unique|exact tb_demo_generated]]]].
Qed.

(** C71.  The quick-check functions give every code point the value DerivedNormalizationProps.txt gives it. *)
Theorem C71_quick_check : forall crlf ud ex np tb, norm_files_ok ud ex np -> generated_norm crlf ud ex np tb ->
  forall form c v, cp_quick_check tb form c = v <-> qc_file np form c v.
Proof.
  intros crlf ud ex np tb Hf Hg form c v. pose proof (gen_qc crlf ud ex np Hf tb Hg form c) as H. split; [intros <-; exact H|].
  intros G. exact (qc_file_fun np form c _ _ H G).
Qed.
Print Assumptions C71_quick_check.
Example C71_demo : map (cp_quick_check tb_demo NFC) [0x41; 0x340; 0x341; 0x300; 0x304; 0x305; 0xC5] = [Yes; No; No; Maybe; Maybe; Yes; Yes] /\
  map (cp_quick_check tb_demo NFD) [0x41; 0xC5] = [Yes; No].
Proof. split; vm_compute; reflexivity. Qed.

(** C72.  Combining class, decompositions and composition reproduce UnicodeData.txt: a listed code point has the class and mappings of its
    line, others class 0 and no decomposition; two code points compose to the code point whose canonical decomposition they are, unless it
    is excluded.  (Hangul is algorithmic, C36.) *)
Theorem C72_unicode_data : forall crlf ud ex np tb, norm_files_ok ud ex np -> generated_norm crlf ud ex np tb ->
  (forall u, has ud u -> canonical_combining_class tb (ul_cp u) = ul_ccc u /\
     (is_hangul_syllable (ul_cp u) = false ->
        canonical_decomposition tb (ul_cp u) = match ul_dec u with Some (None, l) => l | _ => [] end /\
        compatibility_decomposition tb (ul_cp u) = match ul_dec u with Some (_, l) => l | None => [] end)) /\
  (forall c, (forall u, has ud u -> ul_cp u <> c) -> canonical_combining_class tb c = 0 /\
     (is_hangul_syllable c = false -> canonical_decomposition tb c = [] /\ compatibility_decomposition tb c = [])) /\
  (composites_unique ud ex np -> forall a b c, is_hangul_l_jamo a = false -> is_hangul_syllable a = false -> c <> 0 ->
     (try_compose tb a b = c <-> composite ud ex np a b c)).
Proof.
  intros crlf ud ex np tb Hf Hg. split; [|split].
  - intros u Hu. split; [apply (gen_ccc crlf ud ex np Hf tb Hg u Hu)|]. intros Hh.
    split; [apply (gen_canon crlf ud ex np Hf tb Hg u Hu Hh)|apply (gen_compat crlf ud ex np Hf tb Hg u Hu Hh)].
  - intros c Hc. split; [apply (gen_ccc_none crlf ud ex np Hf tb Hg c Hc)|]. intros Hh. apply (gen_dec_none crlf ud ex np Hf tb Hg c Hc Hh).
  - intros Hu a b c Ha Hs Hc. apply (gen_try_compose crlf ud ex np Hf tb Hg a b Hu Ha Hs c Hc).
Qed.
Print Assumptions C72_unicode_data.
(** C72.  Tables generated from such data meet the conditions under which the normalization theorems hold. *)
Theorem C72_ready : forall crlf ud ex np tb, norm_files_ok ud ex np -> norm_data_ok ud ex np -> composites_unique ud ex np -> generated_norm crlf ud ex np tb ->
  acyclic tb /\ jamos_plain tb /\ comp_consistent tb /\ comp_starters tb /\ StronglySorted pair_lt (t_comp tb).
Proof.
  intros crlf ud ex np tb Hf Hd Hu Hg. destruct (data_ready crlf ud ex np Hf tb Hg Hd) as [A [B [C D]]]. 
  split; [exact A|split; [exact B|split; [exact C|split; [exact D|]]]]. apply (gen_comp_sorted crlf ud ex np Hf tb Hg Hu).
Qed.
Print Assumptions C72_ready.
Example C72_demo : canonical_combining_class tb_demo 0x344 = 230 /\ canonical_decomposition tb_demo 0xC5 = [0x41; 0x30A] /\
  canonical_decomposition tb_demo 0xFB00 = [] /\ compatibility_decomposition tb_demo 0xFB00 = [0x66; 0x66] /\
  try_compose tb_demo 0x41 0x30A = 0xC5 /\ try_compose tb_demo 0x915 0x93C = 0.
Proof. split; [|split; [|split; [|split; [|split]]]]; vm_compute; reflexivity. Qed.

(** C73.  The generated case tables are ready for the case mapping theorems, and the functions map every code point as the files say:
    SpecialCasing.txt (unconditional lines), else UnicodeData.txt; CaseFolding.txt with statuses C and F (C and S for simple folding). *)
Theorem C73_case_tables : forall crlf ud sc cf tb, case_files_ok ud sc cf -> ascii_agrees ud cf -> generated_case crlf ud sc cf tb ->
  tables_ok tb /\ forall k,
  (forall c s, simple_of tb k c = s <-> file_simple_map ud cf k c s) /\
  (forall c, exists m, full_of tb k c = Ok m /\ file_map ud sc cf k c (emit c m)) /\
  (forall t, exists rs, convert_of tb k t = Ok (concat rs) /\ Forall2 (file_map ud sc cf k) t rs) /\
  (forall c m m', file_map ud sc cf k c m -> file_map ud sc cf k c m' -> m = m').
Proof.
  intros crlf ud sc cf tb Hf Ha Hg. split; [apply (case_ready crlf ud sc cf Hf tb Hg)|]. intros k. split; [|split; [|split]].
  - intros c s. pose proof (case_simple crlf ud sc cf Hf tb Hg Ha k c) as H. split; [intros <-; exact H|].
    intros G. exact (simple_map_one crlf ud sc cf Hf tb Hg k c _ _ H G).
  - apply (case_full crlf ud sc cf Hf tb Hg Ha).
  - apply (case_convert crlf ud sc cf Hf tb Hg Ha).
  - apply (file_map_fun crlf ud sc cf Hf tb Hg Ha).
Qed.
Print Assumptions C73_case_tables.
Example C73_hypotheses : case_files_ok udc_demo sc_demo cf_demo /\ ascii_agrees udc_demo cf_demo.
Proof. split; [exact case_demo_ok|exact case_demo_ascii]. Qed.
Example C73_demo : forall tb, generated_case true udc_demo sc_demo cf_demo tb ->
  map (full_uppercase tb) [0x61; 0xDF; 0x1C5] = [Ok [0x41]; Ok [0x53; 0x53]; Ok [0x1C4]] /\
  map (full_casefold tb) [0x41; 0xDF; 0x1E9E; 0x49] = [Ok [0x61]; Ok [0x73; 0x73]; Ok [0x73; 0x73]; Ok [0x69]] /\ simple_casefold tb 0x1E9E = 0xDF.
Proof. intros tb ->. split; [|split]; vm_compute; reflexivity. Qed.

(** C74.  Whatever the bytes of a line in the common format, an accepted range is ordered and inside the Unicode code space, and the
    property is a substring without comment or surrounding white space; well-formed lines yield exactly their range and property;
    comments, @-lines and blank lines yield nothing. *)
Theorem C74_safe : forall line first last prop, parse_standard_line line = Some (first, last, prop) ->
  first <= last /\ last <= 0x10FFFF /\ clean prop /\ without ch_hash prop /\ (forall c, In c prop -> In c line).
Proof. exact standard_safe. Qed.
Print Assumptions C74_safe.
Theorem C74_exact : forall (l : stline) (crlf : bool), st_ok l ->
  parse_standard_line (st_text l ++ if crlf then [ch_cr] else []) = Some (span_first (st_span l), span_last (st_span l), st_prop l).
Proof. intros l crlf. exact (standard_exact l crlf). Qed.
Print Assumptions C74_exact.
Theorem C74_skipped : forall (s : str) (crlf : bool), let e := if crlf then [ch_cr] else [] in
  parse_standard_line ((ch_hash :: s) ++ e) = None /\ parse_standard_line ((ch_at :: s) ++ e) = None /\ (Forall white s -> parse_standard_line (s ++ e) = None).
Proof. intros s crlf. exact (standard_skip crlf s). Qed.
Print Assumptions C74_skipped.
Definition st_latin : stline := mkSt (Span 0x41 0x5A) 4 1 (lit "Latin") 1 (Some (lit " L&  [26] LATIN CAPITAL LETTER A..LATIN CAPITAL LETTER Z")).
Example C74_format : st_text st_latin = lit "0041..005A    ; Latin # L&  [26] LATIN CAPITAL LETTER A..LATIN CAPITAL LETTER Z" /\ st_ok st_latin /\
  parse_standard_line (lit "110000..110001 ; Latin") = None /\ parse_standard_line (lit "005A..0041 ; Latin") = None.
Proof.
  split; [vm_compute; reflexivity|]. split; [|split; vm_compute; reflexivity].
  split; [cbn; lia|]. split; [apply cleanb_ok; vm_compute; reflexivity|]. split; [apply withoutb_ok; vm_compute; reflexivity|].
  intros q [= <-]. apply withoutb_ok. vm_compute. reflexivity.
Qed.

(** C75.  The name of every code point is the one DerivedName.txt gives it (whatever order std::sort leaves equal code points in). *)
Definition C75_statement : Prop := forall crlf f names, lines_ok st_ok f -> st_disjoint f ->
  Permutation names (load_names (file_text st_text crlf f)) ->
  forall l c, has f l -> covers (st_span l) c -> assign_names names c = derived_name (st_prop l) c.
Definition st_cjk : stline := mkSt (Span 0x3400 0x4DBF) 4 1 (lit "CJK UNIFIED IDEOGRAPH-*") 0 None.
Theorem C75_names_refuted : ~ C75_statement.
Proof.
  intros H.
  assert (Hok : lines_ok st_ok ([Data st_cjk] : list (fline stline))).
  { intros l [<-|[]]. split; [cbn; lia|]. split; [apply cleanb_ok; vm_compute; reflexivity|]. split; [apply withoutb_ok; vm_compute; reflexivity|]. intros q G0. discriminate G0. }
  assert (Hdis : st_disjoint [Data st_cjk]).
  { intros a b c Ha Hb _ _. unfold has in Ha, Hb. cbn [In] in Ha, Hb. destruct Ha as [Ha|[]], Hb as [Hb|[]]. congruence. }
  specialize (H false [Data st_cjk] _ Hok Hdis (Permutation_refl _) st_cjk 0x3400 (or_introl eq_refl)).
  assert (Hc : covers (st_span st_cjk) 0x3400) by (cbn; lia). specialize (H Hc).
  assert (E : assign_names (load_names (file_text st_text false [Data st_cjk])) 0x3400 = st_prop st_cjk).
  { apply assign_names_spec.
    - intros nm nm' G G'. apply names_in in G, G'; try exact Hok. destruct G as [a [Ha [_ <-]]], G' as [b [Hb [_ <-]]].
      unfold has in Ha, Hb. cbn [In] in Ha, Hb. destruct Ha as [Ha|[]], Hb as [Hb|[]]. congruence.
    - apply names_in; [exact Hok|]. exists st_cjk. split; [left; reflexivity|split; [exact Hc|reflexivity]]. }
  rewrite E in H. revert H. vm_compute. discriminate.
Qed.
Print Assumptions C75_names_refuted.
(** C75, what holds: the name stored is the text of the line; it is right for every line without a final *; code points in no line have
    the empty name. *)
Theorem C75_names_partial : forall crlf f names, lines_ok st_ok f -> st_disjoint f ->
  Permutation names (load_names (file_text st_text crlf f)) ->
  (forall l c, has f l -> covers (st_span l) c -> assign_names names c = st_prop l /\
     ((forall r, st_prop l <> r ++ [ch_star]) -> assign_names names c = derived_name (st_prop l) c)) /\
  (forall c, (forall l, has f l -> ~ covers (st_span l) c) -> assign_names names c = []).
Proof.
  intros crlf f names Hok Hdis Hp.
  assert (Hin : forall c nm, In (c, nm) names <-> exists l, has f l /\ covers (st_span l) c /\ st_prop l = nm).
  { intros c nm. rewrite <- (names_in crlf f c nm Hok). split; intros H; [apply (Permutation_in _ Hp), H|apply (Permutation_in _ (Permutation_sym Hp)), H]. }
  assert (Hu : forall c nm nm', In (c, nm) names -> In (c, nm') names -> nm = nm').
  { intros c nm nm' H G. apply Hin in H, G. destruct H as [a [Ha [Ca <-]]], G as [b [Hb [Cb <-]]]. rewrite (Hdis a b c Ha Hb Ca Cb). reflexivity. }
  split.
  - intros l c Hl Hc. assert (E : assign_names names c = st_prop l) by (apply (assign_names_spec names c (Hu c)), Hin; eauto).
    split; [exact E|]. intros Hs. rewrite E. unfold derived_name. destruct (rev (st_prop l)) as [|x r] eqn:Er; [reflexivity|].
    destruct (N.eqb_spec x ch_star) as [->|]; [|reflexivity]. exfalso. apply (Hs (rev r)). apply (f_equal (@rev N)) in Er. rewrite rev_involutive in Er. exact Er.
  - intros c Hc. apply (assign_names_spec names c (Hu c)). intros nm H. apply Hin in H. destruct H as [l [Hl [Hcc _]]]. exact (Hc l Hl Hcc).
Qed.
Print Assumptions C75_names_partial.
Example C75_format : st_text st_cjk = lit "3400..4DBF    ; CJK UNIFIED IDEOGRAPH-*" /\ derived_name (st_prop st_cjk) 0x3400 = lit "CJK UNIFIED IDEOGRAPH-3400".
Proof. split; vm_compute; reflexivity. Qed.
