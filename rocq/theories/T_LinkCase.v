(** C128, C129: from the database files to the case queries and case conversion. *)
From Coq Require Import String ZArith Permutation Sorted.
From Verif Require Import Base Spec_Utf M_Convert M_Ucd M_Tables M_TableGen M_PropGen M_Multistage Spec_Multistage M_UcdApi M_Word M_Case M_Link M_LinkCase M_Emoji Spec_Tables Spec_TableGen
  Spec_PropGen Spec_UcdApi Spec_Grapheme Spec_Word Spec_Case Spec_Link Spec_LinkCase P_Utf8 P_TableGen P_TableGen6 P_PropGen P_PropGen9 P_Case Link_Demo TableGen_Demo PropGen_Demo UcdApi_Demo LinkCase_Demo T_Word T_Case T_TableGen T_PropGen T_UcdApi T_Link.
Open Scope N_scope.

(** a library generated from the files: [u] the properties, [gcp] the general category in the property table, [gca] that of
    general_category::get *)
Definition compiled_case (crlf : bool) (F : ucd_files) (u : ucd) (gcp gca : N -> gencat) : Prop :=
  exists d members hash g cats l tbl, parsed crlf F d /\ age_members (find_pva (pd_pva d) "Age") = Some members /\
    few_values 65536 (rec_cells members d) /\ few_blocks 256 256 (rec_cells members d) /\
    generate crec crec_eqb hash 256 256 65536 (rec_cells members d) = Ok g /\ u = runtime members d g /\ gcp = runtime_gencat members d g /\
    load_gc (load_pva (pva_text crlf (f_pre F) (f_pva F))) (file_text st_text crlf (f_gc F)) = Some (cats, l) /\ sorted_by_first l tbl /\ gca = api_gencat tbl.
Lemma case_compiled crlf F u gcp gca : compiled_case crlf F u gcp gca -> exists e, compiled crlf F u e.
Proof.
  intros (d & members & hash & g & cats & l & tbl & A & B & C & D & E & H & _). exists (runtime_ecat members d g). exists d, members, hash, g. auto 10.
Qed.
Definition gencat_names : list (string * gencat) :=
  [("Uppercase_Letter", Lu); ("Lowercase_Letter", Ll); ("Titlecase_Letter", Lt); ("Nonspacing_Mark", Mn); ("Enclosing_Mark", Me); ("Format", Cf);
   ("Modifier_Letter", Lm); ("Modifier_Symbol", Sk)]%string.
Lemma gencat_spec s n x : In (n, x) gencat_names -> (gencat_of s = x <-> s = lit n).
Proof.
  intros H. unfold gencat_of, is_named. split.
  - intros G. unfold gencat_names in H. cbn [In] in H.
    repeat (destruct (str_eqb s (lit _)) eqn:?E in G; [match goal with E : str_eqb s (lit ?m) = true |- _ => apply str_eqb_eq in E; subst s x;
      repeat (destruct H as [H|H]; [injection H; intros; try discriminate; subst n; reflexivity|]); destruct H end|]).
    subst x. exfalso. repeat (destruct H as [H|H]; [discriminate|]). destruct H.
  - intros ->. unfold gencat_names in H. cbn [In] in H. repeat (destruct H as [H|H]; [injection H as <- <-; reflexivity|]). destruct H.
Qed.
Lemma gc_category F c n x : In (n, x) gencat_names -> (gc_value F c (lit n) <-> category F c n).
Proof.
  intros H. unfold gc_value, category. split; [|left; assumption]. intros [G|[(_ & E & _)|(_ & E & _)]]; [exact G| |];
    exfalso; apply lit_inj in E; unfold gencat_names in H; cbn [In] in H; repeat (destruct H as [H|H]; [congruence|]); exact H.
Qed.
Lemma api_names crlf F u gcp gca : files_ok F -> sectioned F -> compiled_case crlf F u gcp gca -> forall n x c, In (n, x) gencat_names -> (gca c = x <-> category F c n).
Proof.
  intros Hok (pre & secs & Ef & Hne & Hs & Hsep) (d & members & hash & g & cats & l & tbl & _ & _ & _ & _ & _ & _ & _ & Hl & Ht & ->) n x c Hn.
  assert (Hf : lines_ok word_line (f_gc F)). { destruct Hok as (_ & H & _). inversion_clear H as [|? ? _ H1]. inversion_clear H1 as [|? ? [H2 _] _]. exact H2. }
  assert (Hpva : pva_ok (f_pva F)) by apply Hok. rewrite Ef in Hf, Hsep, Hl.
  destruct (C84_get crlf (f_pre F) (f_pva F) pre secs cats l tbl c Hpva Hne Hf Hsep Hs Hl Ht) as (v & E & V). rewrite <- Ef in V. unfold api_gencat. rewrite E.
  rewrite (gencat_spec v n x Hn). unfold category. split.
  - intros ->. destruct V as [V|[_ V]]; [exact V|]. exfalso. apply lit_inj in V. subst n. unfold gencat_names in Hn. cbn [In] in Hn. repeat (destruct Hn as [Hn|Hn]; [discriminate|]). exact Hn.
  - intros C. apply (proj1 (proj2 (C76_values_unique F c v (lit n) Hok))); [|left; exact C]. destruct V as [V|[V _]]; [left; exact V|]. destruct C as (a & Ca & _). destruct (V a Ca).
Qed.
Lemma props_names crlf F u gcp gca : files_ok F -> compiled_case crlf F u gcp gca -> forall n x c, c <= 0x10FFFF -> In (n, x) gencat_names -> (gcp c = x <-> category F c n).
Proof.
  intros Hok (d & members & hash & g & cats & l & tbl & Hp & Em & Hv & Hb & Eg & _ & -> & _) n x c Hc Hn.
  destruct (C82_table crlf F d members hash Hok Hp Em Hv Hb) as (props & g' & Hg & Eg' & Hin & _). rewrite Eg in Eg'. injection Eg' as <-.
  unfold runtime_gencat. destruct (Hin c Hc) as (r & -> & ->). rewrite (gencat_spec _ n x Hn), <- (gc_category F c n x Hn).
  pose proof (proj1 (proj2 (C76_values crlf F props Hok Hg c))) as V. split; [intros <-; exact V|]. intros G.
  exact (proj1 (proj2 (C76_values_unique F c _ _ Hok)) V G).
Qed.

(** C128.  is_cased holds of exactly the upper case, lower case and title case letters of DerivedGeneralCategory.txt. *)
Theorem C128_is_cased : forall crlf F u gcp gca, files_ok F -> sectioned F -> compiled_case crlf F u gcp gca -> forall c, is_cased gca c = true <-> file_cased F c.
Proof.
  intros crlf F u gcp gca Hok Hs Hc c. pose proof (fun n x => api_names crlf F u gcp gca Hok Hs Hc n x c) as A. unfold file_cased. rewrite Exists_exists.
  rewrite is_cased_spec. unfold cased_letter. split.
  - intros G. assert (X : gca c = Lu \/ gca c = Ll \/ gca c = Lt) by (destruct (gca c); auto; discriminate). destruct X as [E|[E|E]].
    + exists "Uppercase_Letter"%string. split; [cbn; auto|]. apply (A _ Lu); [cbn; auto|exact E].
    + exists "Lowercase_Letter"%string. split; [cbn; auto|]. apply (A _ Ll); [cbn; auto|exact E].
    + exists "Titlecase_Letter"%string. split; [cbn; auto|]. apply (A _ Lt); [cbn; auto|exact E].
  - intros (n & Hn & C). cbn [In] in Hn. destruct Hn as [<-|[<-|[<-|[]]]].
    + rewrite (proj2 (A "Uppercase_Letter"%string Lu ltac:(cbn; auto)) C). reflexivity.
    + rewrite (proj2 (A "Lowercase_Letter"%string Ll ltac:(cbn; auto)) C). reflexivity.
    + rewrite (proj2 (A "Titlecase_Letter"%string Lt ltac:(cbn; auto)) C). reflexivity.
Qed.
(** C128.  is_case_ignorable holds of exactly the code points D136 of the Unicode Standard names; beyond U+10FFFF it answers as for U+0000. *)
Theorem C128_is_case_ignorable : forall crlf F u gcp gca, files_ok F -> compiled_case crlf F u gcp gca -> forall c,
  (c <= 0x10FFFF -> (is_case_ignorable u gcp c = true <-> file_ignorable F c)) /\ (0x10FFFF < c -> is_case_ignorable u gcp c = is_case_ignorable u gcp 0).
Proof.
  intros crlf F u gcp gca Hok Hc c. destruct (case_compiled _ _ _ _ _ Hc) as (e & He). destruct (C116_library_reads_files crlf F u e Hok He) as (Hd & _ & Ho). split; intros Hb.
  - pose proof (fun n x => props_names crlf F u gcp gca Hok Hc n x c Hb) as A. destruct (Hd c Hb) as (_ & _ & W & _).
    unfold file_ignorable. rewrite !Exists_exists. unfold is_case_ignorable. rewrite !orb_true_iff. split.
    + intros G. assert (B : forall a b, gencat_beq a b = true -> a = b) by (intros a b; apply internal_gencat_dec_bl).
      assert (B2 : forall a b, wbc_beq a b = true -> a = b) by (intros a b; apply internal_wbc_dec_bl).
      destruct G as [[[[[[[G|G]|G]|G]|G]|G]|G]|G]; try (apply B in G); try (apply B2 in G).
      * right. exists "Nonspacing_Mark"%string. split; [cbn; auto 10|]. apply (A _ Mn); [cbn; auto 10|exact G].
      * right. exists "Enclosing_Mark"%string. split; [cbn; auto 10|]. apply (A _ Me); [cbn; auto 10|exact G].
      * right. exists "Format"%string. split; [cbn; auto 10|]. apply (A _ Cf); [cbn; auto 10|exact G].
      * right. exists "Modifier_Letter"%string. split; [cbn; auto 10|]. apply (A _ Lm); [cbn; auto 10|exact G].
      * right. exists "Modifier_Symbol"%string. split; [cbn; auto 10|]. apply (A _ Sk); [cbn; auto 10|exact G].
      * left. exists "MidLetter"%string. split; [cbn; auto 10|]. apply (W _ WMidLetter); [cbn; auto 20|exact G].
      * left. exists "MidNumLet"%string. split; [cbn; auto 10|]. apply (W _ WMidNumLet); [cbn; auto 20|exact G].
      * left. exists "Single_Quote"%string. split; [cbn; auto 10|]. apply (W _ WSingleQuote); [cbn; auto 20|exact G].
    + intros [(n & Hn & C)|(n & Hn & C)]; cbn [In] in Hn.
      * destruct Hn as [<-|[<-|[<-|[]]]].
        -- rewrite (proj2 (W "MidLetter"%string WMidLetter ltac:(cbn; auto 20)) C). cbn. tauto.
        -- rewrite (proj2 (W "MidNumLet"%string WMidNumLet ltac:(cbn; auto 20)) C). cbn. tauto.
        -- rewrite (proj2 (W "Single_Quote"%string WSingleQuote ltac:(cbn; auto 20)) C). cbn. tauto.
      * destruct Hn as [<-|[<-|[<-|[<-|[<-|[]]]]]].
        -- rewrite (proj2 (A "Nonspacing_Mark"%string Mn ltac:(cbn; auto 20)) C). cbn. tauto.
        -- rewrite (proj2 (A "Enclosing_Mark"%string Me ltac:(cbn; auto 20)) C). cbn. tauto.
        -- rewrite (proj2 (A "Format"%string Cf ltac:(cbn; auto 20)) C). cbn. tauto.
        -- rewrite (proj2 (A "Modifier_Letter"%string Lm ltac:(cbn; auto 20)) C). cbn. tauto.
        -- rewrite (proj2 (A "Modifier_Symbol"%string Sk ltac:(cbn; auto 20)) C). cbn. tauto.
  - assert (G : gcp c = gcp 0).
    { destruct Hc as (d & members & hash & g & cats & l & tbl & Hp & Em & Hv & Hb2 & Eg & _ & -> & _).
      destruct (C82_table crlf F d members hash Hok Hp Em Hv Hb2) as (props & g' & Hg & Eg' & Hin & Hout). rewrite Eg in Eg'. injection Eg' as <-.
      unfold runtime_gencat. destruct (Hout c Hb) as (r & -> & ->). destruct (Hin 0 ltac:(lia)) as (r0 & -> & ->). reflexivity. }
    unfold is_case_ignorable. rewrite G. destruct (Ho c Hb) as [-> _]. reflexivity.
Qed.
Print Assumptions C128_is_cased.
Print Assumptions C128_is_case_ignorable.

(** ** C129 *)
Section Files.
Context (crlf crlf' : bool) (F : ucd_files) (u : ucd) (gcp gca : N -> gencat) (ud : list (fline udline)) (sc : list (fline scline)) (cf : list (fline cfline)) (tb : case_tables).
Context (Hok : files_ok F) (Hs : sectioned F) (Hc : compiled_case crlf F u gcp gca) (Hf : case_files_ok ud sc cf) (Ha : ascii_agrees ud cf) (Hg : generated_case crlf' ud sc cf tb).
Lemma cased_file c : cased_letter gca c = true <-> file_cased F c.
Proof. rewrite <- is_cased_spec. exact (C128_is_cased crlf F u gcp gca Hok Hs Hc c). Qed.
Lemma uncased_file c : cased_letter gca c = false <-> ~ file_cased F c.
Proof. rewrite <- cased_file. destruct (cased_letter gca c); split; congruence. Qed.
Lemma uncased_list l : Forall (fun c => cased_letter gca c = false) l -> Forall (fun c => ~ file_cased F c) l.
Proof. apply Forall_impl. intros c. apply uncased_file. Qed.
Lemma rest_file c r : rest_map tb (cased_letter gca) c r -> file_rest F ud sc cf c r.
Proof.
  unfold rest_map, file_rest. destruct (cased_letter gca c) eqn:E.
  - intros H. left. split; [apply cased_file, E|]. exact (proj1 (char_map_file crlf' ud sc cf Hf tb Hg Ha Lower c r) H).
  - intros ->. right. split; [apply uncased_file, E|reflexivity].
Qed.
Lemma titled_file w r : titled tb (cased_letter gca) w r -> file_titled F ud sc cf w r.
Proof.
  intros [[A ->]|(pre & c & post & t & ls & -> & A & B & C & D & ->)].
  - left. split; [apply uncased_list, A|reflexivity].
  - right. exists pre, c, post, t, ls. split; [reflexivity|]. split; [apply uncased_list, A|]. split; [apply cased_file, B|].
    split; [exact (proj1 (char_map_file crlf' ud sc cf Hf tb Hg Ha Title c t) C)|]. split; [|reflexivity].
    clear - D Hok Hs Hc Hf Ha Hg. induction D as [|x y l m H _ IH]; constructor; [exact (rest_file x y H)|exact IH].
Qed.
Lemma titles_file ws rs : Forall2 (titled tb (cased_letter gca)) ws rs -> Forall2 (file_titled F ud sc cf) ws rs.
Proof. induction 1; constructor; auto using titled_file. Qed.
Lemma convert_file k t r : convert_of tb k t = Ok r <-> file_converted ud sc cf k t r.
Proof.
  rewrite (C46_characterwise tb (case_ready crlf' ud sc cf Hf tb Hg) k t r). unfold file_converted.
  assert (E : forall rs, Forall2 (char_map tb k) t rs <-> Forall2 (file_map ud sc cf k) t rs).
  { intros rs. split; intros H; induction H; constructor; auto; [apply (char_map_file crlf' ud sc cf Hf tb Hg Ha)|apply (char_map_file crlf' ud sc cf Hf tb Hg Ha)]; assumption. }
  split; intros (rs & A & B); exists rs; (split; [apply E, A|exact B]).
Qed.
End Files.

(** C129.  to_titlecase cuts the text at the word boundaries of UAX #29 and converts each word as the files say. *)
Theorem C129_titlecase : forall crlf crlf' F u gcp gca ud sc cf tb, files_ok F -> sectioned F -> database_facts F -> compiled_case crlf F u gcp gca ->
  case_files_ok ud sc cf -> ascii_agrees ud cf -> generated_case crlf' ud sc cf tb ->
  describes F u /\ to_titlecase tb u gca [] = Ok [] /\
  forall text, text <> [] -> exists ws rs, partition_of text ws /\ (forall k, cut_at ws k <-> word_boundary_at u text k) /\
    Forall2 (file_titled F ud sc cf) ws rs /\ to_titlecase tb u gca text = Ok (concat rs).
Proof.
  intros crlf crlf' F u gcp gca ud sc cf tb Hok Hs Hdf Hc Hf Ha Hg. destruct (case_compiled _ _ _ _ _ Hc) as (e & He).
  destruct (C117_segments_partial crlf F u e Hok Hdf He) as (Hd & _ & Hw). pose proof (case_ready crlf' ud sc cf Hf tb Hg) as OK.
  split; [exact Hd|]. split; [apply (C49_uncased_unchanged tb OK u gca []); constructor|].
  intros text Hne. destruct (C49_total tb OK u gca text) as (r & Er & _). pose proof Er as Er'. apply (C49_titlecase tb OK) in Er'. destruct Er' as (ws & rs & Ew & Ft & ->).
  exists ws, rs. destruct (C22_words_partition u text) as (ws' & Ew' & Hp & _). rewrite Ew in Ew'. injection Ew' as <-.
  split; [exact (Hp Hne)|]. split; [exact (Hw text ws Hne Ew)|]. split; [|exact Er].
  exact (titles_file crlf crlf' F u gcp gca ud sc cf tb Hok Hs Hc Hf Ha Hg ws rs Ft).
Qed.
(** C129.  Upper casing, lower casing and folding, of UTF-32 and of UTF-8, give the result the files define. *)
Theorem C129_utf8 : forall crlf ud sc cf tb, case_files_ok ud sc cf -> ascii_agrees ud cf -> maps_scalars ud sc cf -> generated_case crlf ud sc cf tb ->
  forall i t, scalars t -> exists up lo fo, file_converted ud sc cf Upper t up /\ file_converted ud sc cf Lower t lo /\ file_converted ud sc cf Fold t fo /\
    to_uppercase tb t = Ok up /\ to_lowercase tb t = Ok lo /\ casefold tb t = Ok fo /\
    to_uppercase8 tb i (utf8_text t) = Ok (utf8_text up) /\ to_lowercase8 tb i (utf8_text t) = Ok (utf8_text lo) /\ casefold8 tb i (utf8_text t) = Ok (utf8_text fo).
Proof.
  intros crlf ud sc cf tb Hf Ha Hm Hg i t Ht. pose proof (case_ready crlf ud sc cf Hf tb Hg) as OK.
  assert (Hcs : case_scalars tb).
  { intros k. destruct (Hm k) as [A B]. split.
    - intros c s H. apply (A c). exact (proj1 (proj2 (simple_in crlf ud sc cf Hf tb Hg k) c s) H).
    - intros c m H. apply (B c). exact (proj1 (proj1 (proj2 (full_in crlf ud sc cf Hf tb Hg k) c m) H)). }
  destruct (C73_case_tables crlf ud sc cf tb Hf Ha Hg) as [_ K].
  destruct (K Upper) as (_ & _ & U & _), (K Lower) as (_ & _ & L & _), (K Fold) as (_ & _ & G & _).
  destruct (U t) as (us & U1 & U2), (L t) as (ls & L1 & L2), (G t) as (gs & G1 & G2).
  exists (concat us), (concat ls), (concat gs). split; [exists us; auto|]. split; [exists ls; auto|]. split; [exists gs; auto|].
  split; [exact U1|]. split; [exact L1|]. split; [exact G1|].
  split; [apply (proj1 (C47_case tb OK Hcs i t _ Ht)); eexists; split; [exact U1|reflexivity]|].
  split; [apply (proj1 (proj2 (C47_case tb OK Hcs i t _ Ht))); eexists; split; [exact L1|reflexivity]|].
  apply (proj2 (proj2 (C47_case tb OK Hcs i t _ Ht))); eexists; split; [exact G1|reflexivity].
Qed.
(** C129.  Case-insensitive equality is equality of the folded texts, comparison is their order. *)
Theorem C129_compare : forall crlf ud sc cf tb, case_files_ok ud sc cf -> ascii_agrees ud cf -> generated_case crlf ud sc cf tb ->
  forall a b, exists x y z e, file_converted ud sc cf Fold a x /\ file_converted ud sc cf Fold b y /\ casefold_compare tb a b = Ok z /\ casefold_equals tb a b = Ok e /\
    (e = true <-> x = y) /\ (z ?= 0)%Z = lex x y.
Proof.
  intros crlf ud sc cf tb Hf Ha Hg a b. pose proof (case_ready crlf ud sc cf Hf tb Hg) as OK.
  destruct (C73_case_tables crlf ud sc cf tb Hf Ha Hg) as [_ K]. destruct (K Fold) as (_ & _ & G & _). destruct (G a) as (xs & A1 & A2), (G b) as (ys & B1 & B2).
  destruct (C48_total tb OK a b) as (z & Ez). assert (Ee : exists e, casefold_equals tb a b = Ok e) by (unfold casefold_equals; rewrite Ez; cbn [bindR]; eexists; reflexivity).
  destruct Ee as (e & Ee). exists (concat xs), (concat ys), z, e. split; [exists xs; auto|]. split; [exists ys; auto|]. split; [exact Ez|]. split; [exact Ee|].
  split; [|exact (C48_sign tb OK a b _ _ z A1 B1 Ez)]. destruct (C48_equals tb OK a b e Ee) as [E _]. rewrite E. cbn [convert_of] in A1, B1. rewrite A1, B1. split; congruence.
Qed.
(** C129.  changes_when_*() tell whether the mapping of the files is not the code point itself. *)
Theorem C129_changes : forall crlf ud sc cf tb, case_files_ok ud sc cf -> ascii_agrees ud cf -> no_special_identity ud sc cf -> generated_case crlf ud sc cf tb ->
  forall k c, exists b m, changes_when tb k c = Ok b /\ file_map ud sc cf k c m /\ (b = true <-> m <> [c]).
Proof.
  intros crlf ud sc cf tb Hf Ha Hn Hg k c. pose proof (case_ready crlf ud sc cf Hf tb Hg) as OK.
  assert (NI : no_identities tb).
  { intros k' c' H. apply (proj2 (full_in crlf ud sc cf Hf tb Hg k')) in H. destruct H as [Hsp H]. destruct (Hn k' c' Hsp) as [K S1].
    destruct H as [H|H]; [exact (K H)|]. apply H. f_equal. exact (simple_map_one crlf ud sc cf Hf tb Hg k' c' _ _ S1 (simple_or_self_file crlf ud sc cf Hf tb Hg k' c')). }
  destruct (changes_spec tb OK NI k c) as (b & m & E & H & Hb). exists b, m. split; [exact E|]. split; [|exact Hb].
  exact (proj1 (char_map_file crlf ud sc cf Hf tb Hg Ha k c m) H).
Qed.
(** C129.  Converting a second time changes nothing, if the files map their own results to themselves. *)
Theorem C129_idempotent : forall crlf ud sc cf tb k, case_files_ok ud sc cf -> ascii_agrees ud cf -> maps_closed ud sc cf k -> generated_case crlf ud sc cf tb ->
  forall t, exists r, file_converted ud sc cf k t r /\ convert_of tb k t = Ok r /\ convert_of tb k r = Ok r.
Proof.
  intros crlf ud sc cf tb k Hf Ha Hm Hg t. pose proof (case_ready crlf ud sc cf Hf tb Hg) as OK.
  destruct (C73_case_tables crlf ud sc cf tb Hf Ha Hg) as [_ K]. destruct (K k) as (_ & _ & G & _). destruct (G t) as (rs & A & B).
  exists (concat rs). split; [exists rs; auto|]. split; [exact A|]. refine (C67_idempotent tb OK k _ t _ A).
  intros c m x Hc Hx. apply (char_map_file crlf ud sc cf Hf tb Hg Ha). apply (Hm c m x); [|exact Hx]. apply (char_map_file crlf ud sc cf Hf tb Hg Ha). exact Hc.
Qed.
Print Assumptions C129_titlecase.
Print Assumptions C129_utf8.
Print Assumptions C129_compare.
Print Assumptions C129_changes.
Print Assumptions C129_idempotent.

(** files with UCD lines that meet all hypotheses *)
Definition d_case : pdata := match sample_data true F_case with Some d => d | None => mkPd [] [] [] [] [] [] [] [] [] [] [] [] [] end.
Definition members_case : list str := match age_members (find_pva (pd_pva d_case) "Age") with Some m => m | None => [] end.
Definition gc_case := match load_gc (load_pva (pva_text true (f_pre F_case) (f_pva F_case))) (file_text st_text true (f_gc F_case)) with Some x => x | None => ([], []) end.
Definition u_case : ucd := fun c => props_of (out_record members_case d_case c).
Definition gca_case : N -> gencat := api_gencat (rsort (snd gc_case)).
Example C129_hypotheses : files_ok F_case /\ sectioned F_case /\ database_facts F_case /\ (exists u gcp, compiled_case true F_case u gcp gca_case /\ forall c, c <= 0x10FFFF -> u c = u_case c) /\
  case_files_ok udc_demo sc_demo cf_demo /\ ascii_agrees udc_demo cf_demo /\ maps_scalars udc_demo sc_demo cf_demo /\ no_special_identity udc_demo sc_demo cf_demo /\
  maps_closed udc_demo sc_demo cf_demo Upper /\ maps_closed udc_demo sc_demo cf_demo Lower /\ maps_closed udc_demo sc_demo cf_demo Fold /\ generated_case true udc_demo sc_demo cf_demo tb_case.
Proof.
  split; [exact F_case_ok|]. split; [exact F_case_sectioned|]. split; [exact F_case_facts|]. split.
  - assert (Hp : parsed true F_case d_case) by (apply sample_parsed; vm_compute; reflexivity).
    assert (Em : age_members (find_pva (pd_pva d_case) "Age") = Some members_case) by (vm_compute; reflexivity).
    destruct (C82_few_ranges d_case members_case) as [V B]; [apply Nat.leb_le; vm_compute; reflexivity|].
    destruct (C82_table true F_case d_case members_case (fun _ => 0) F_case_ok Hp Em V B) as (props & g & Hg & Eg & Hin & _).
    assert (Cc : compiled_case true F_case (runtime members_case d_case g) (runtime_gencat members_case d_case g) gca_case).
    { exists d_case, members_case, (fun _ => 0), g, (fst gc_case), (snd gc_case), (rsort (snd gc_case)).
      split; [exact Hp|]. split; [exact Em|]. split; [exact V|]. split; [exact B|]. split; [exact Eg|]. split; [reflexivity|]. split; [reflexivity|].
      split; [vm_compute; reflexivity|]. split; [apply rsort_ok|reflexivity]. }
    exists (runtime members_case d_case g), (runtime_gencat members_case d_case g). split; [exact Cc|].
    intros c Hc. unfold runtime, u_case. destruct (Hin c Hc) as (r & -> & ->).
    rewrite (C81_deterministic true true F_case props (out_record members_case d_case) F_case_ok Hg); [reflexivity|]. exists d_case, members_case. auto.
  - split; [exact case_demo_ok|]. split; [exact case_demo_ascii|]. split; [exact scalars_demo|]. split; [exact no_identity_demo|].
    destruct closed_demo as (A & B & C). split; [exact A|]. split; [exact B|]. split; [exact C|exact tb_case_gen].
Qed.
(** "heLLO 'sTRA\u00DFe' \u00DFA" *)
Example C129_demo : to_titlecase tb_case u_case gca_case [0x68; 0x65; 0x4C; 0x4C; 0x4F; 0x20; 0x27; 0x73; 0x54; 0x52; 0x41; 0xDF; 0x65; 0x27; 0x20; 0xDF; 0x41] =
    Ok [0x48; 0x65; 0x6C; 0x6C; 0x6F; 0x20; 0x27; 0x53; 0x74; 0x72; 0x61; 0xDF; 0x65; 0x27; 0x20; 0x53; 0x73; 0x61] /\
  map (is_cased gca_case) [0x41; 0x1C5; 0x31; 0x2B0] = [true; true; false; false] /\
  map (is_case_ignorable u_case (fun c => gencat_of (o_gc (out_record members_case d_case c)))) [0x27; 0x2E; 0x3A; 0x5E; 0x301; 0x2B0; 0xAD; 0x41] = [true; true; true; true; true; true; true; false] /\
  changes_when tb_case Title 0x1C5 = Ok false /\ casefold_equals tb_case [0x1E9E] [0x53; 0x73] = Ok true.
Proof. vm_compute. repeat split. Qed.
