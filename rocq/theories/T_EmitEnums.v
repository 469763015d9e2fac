(** C134: the compiler reads in ucd_enums.h, ucd_ostream.h and ucd_fmt.h the enumerations, the output operators and the formatters. *)
From Coq Require Import String Lia.
From Verif Require Import Base M_TableGen M_PropGen M_UcdApi M_Enums Spec_TableGen Spec_PropGen Spec_UcdApi Spec_Enums Spec_Cpp Spec_Emit Spec_EmitUcd Spec_EmitMs Spec_EmitEnums
  M_Emit M_EmitUcd M_EmitMs M_EmitEnums P_TableGen P_PropGen P_PropGen4 P_PropGen6 P_PropGen7 P_PropGen8 P_UcdApi P_UcdApi5 P_Enums P_Enums2 P_Emit P_Emit2 P_Emit3 P_Emit4 P_EmitUcd P_EmitUcd2 P_EmitUcd4 P_EmitMs P_EmitEnums
  T_Emit T_EmitMs T_EmitGet T_Enums TableGen_Demo PropGen_Demo UcdApi_Demo Enums_Demo.
Open Scope N_scope.

Definition enum_fits (e : enum_def) : Prop := Spec_EmitUcd.identifier (e_name e) /\ few (e_members e) /\ Forall spellable (e_members e).

(** ** One enumeration *)
Lemma bits_cases n : n < 2 ^ 64 -> width_ok (minimal_uint n) /\ n < 2 ^ minimal_uint n /\ forall b, In b [8; 16; 32; 64] -> n < 2 ^ b -> minimal_uint n <= b.
Proof.
  intros H. unfold minimal_uint. destruct (N.ltb_spec n (2 ^ 8)); [|destruct (N.ltb_spec n (2 ^ 16)); [|destruct (N.ltb_spec n (2 ^ 32))]];
    (split; [cbn; tauto|split; [assumption|]]); intros b [<-|[<-|[<-|[<-|[]]]]] Hb; try (apply N.leb_le; reflexivity);
    exfalso; apply (N.lt_irrefl n); eapply N.lt_le_trans; eassumption.
Qed.
Lemma declared_values e : declared e = values (e_members e). Proof. reflexivity. Qed.
Lemma cases_texts e : switch_cases e = texts (e_members e). Proof. reflexivity. Qed.
Lemma values_ok ms : few ms -> Forall spellable ms -> Forall (fun x => Spec_EmitUcd.identifier (fst x) /\ snd x < N.of_nat (length ms)) (values ms).
Proof.
  intros Hs H. apply Forall_forall. intros [x v] Hx. unfold values in Hx.
  pose proof (in_combine_l _ _ _ _ Hx) as A. pose proof (in_combine_r _ _ _ _ Hx) as B. cbn [fst snd].
  apply in_map_iff in A as (m & <- & Hm). apply in_map_iff in B as (i & <- & Hi). apply in_seq in Hi. rewrite Forall_forall in H.
  split; [exact (proj1 (H m Hm))|lia].
Qed.
Lemma texts_ok ms : Forall spellable ms -> Forall case_ok (texts ms).
Proof. intros H. unfold texts. apply Forall_map. eapply Forall_impl; [|exact H]. intros m Hm. exact Hm. Qed.
Lemma fits_class e : enum_fits e -> local_enum (enum_class e) (e_name e) (e_bits e) (declared e).
Proof.
  intros (Hn & Hf & Hm). destruct (bits_cases _ Hf) as (W & L & _). pose proof (values_ok _ Hf Hm) as V.
  apply class_local; [exact Hn|exact W| |].
  - eapply Forall_impl; [|exact V]. intros x [A B]. split; [exact A|]. eapply N.lt_trans; [exact B|exact Hf].
  - eapply Forall_impl; [|exact V]. intros x [_ B]. eapply N.lt_trans; [exact B|exact L].
Qed.
Lemma fits_os e : enum_fits e -> holds_text (enum_ostream_text e) (ostream_function (e_name e) (texts (e_members e))).
Proof. intros (Hn & Hf & Hm). exact (ostream_holds _ Hn _ (texts_ok _ Hm)). Qed.
Lemma fits_fmt e : enum_fits e -> holds_text (enum_format_text e) (formatter_class (e_name e) (texts (e_members e))).
Proof. intros (Hn & Hf & Hm). rewrite format_text_eq. exact (format_holds _ Hn _ (texts_ok _ Hm)). Qed.

(** ** The files *)
Definition enums_start : str := license_header ++ lit "#pragma once" ++ nl ++ nl ++ lit "#include <cstdint>" ++ nl ++ nl.
Definition ostream_start : str := license_header ++ lit "#pragma once" ++ nl ++ nl ++ lit "#include <libunicode/ucd.h>" ++ nl ++ nl ++ lit "#include <ostream>" ++ nl ++ nl.
Definition fmt_start : str := license_header ++ lit "#pragma once" ++ nl ++ nl ++ lit "#include <libunicode/ucd_enums.h>" ++ nl ++ nl ++ lit "#include <format>" ++ nl ++ nl.
Definition open_ns : str := lit "namespace unicode" ++ nl ++ lit "{" ++ nl ++ nl.
Definition close_ns : str := lit "} // namespace unicode" ++ nl.
Lemma start1 : sound enums_start. Proof. eexists. lits. Qed.
Lemma start2 : sound ostream_start. Proof. eexists. lits. Qed.
Lemma start3 : sound fmt_start. Proof. eexists. lits. Qed.
Lemma open_sound : holds_text open_ns (lit "namespace unicode {"). Proof. eapply holds_self; lits. Qed.
Lemma close_sound' : sound close_ns. Proof. eexists. lits. Qed.
Lemma enums_h_eq enums : enums_h enums = enums_start ++ open_ns ++ flat_map enum_class enums ++ close_ns.
Proof. unfold enums_h, enums_start, open_ns, close_ns. rewrite <- ?app_assoc. reflexivity. Qed.
Lemma ostream_h_eq enums : ostream_h enums = ostream_start ++ open_ns ++ flat_map enum_ostream_text enums ++ close_ns.
Proof. unfold ostream_h, ostream_start, open_ns, close_ns. rewrite <- ?app_assoc. reflexivity. Qed.
Lemma fmt_h_eq enums : fmt_h enums = fmt_start ++ flat_map enum_format_text enums ++ [].
Proof. unfold fmt_h, fmt_start. rewrite app_nil_r, <- ?app_assoc. reflexivity. Qed.
Lemma nil_sound : sound []. Proof. exists []. apply piece_nil. Qed.
Section files.
  Variable enums : list enum_def.
  Hypothesis H : Forall enum_fits enums.
  Lemma sound1 e : In e enums -> sound (enum_class e).
  Proof. intros He. rewrite Forall_forall in H. exact (local_enum_sound _ _ _ _ (fits_class e (H e He))). Qed.
  Lemma sound2 e : In e enums -> sound (enum_ostream_text e).
  Proof. intros He. rewrite Forall_forall in H. exact (holds_sound _ _ (fits_os e (H e He))). Qed.
  Lemma sound3 e : In e enums -> sound (enum_format_text e).
  Proof. intros He. rewrite Forall_forall in H. exact (holds_sound _ _ (fits_fmt e (H e He))). Qed.
  Lemma enums_ns : in_unicode (enums_h enums).
  Proof.
    rewrite enums_h_eq. apply holds_in; [exact start1|exact open_sound|]. apply sound_app; [|exact close_sound']. apply flat_sound. exact sound1.
  Qed.
  Lemma ostream_ns : in_unicode (ostream_h enums).
  Proof.
    rewrite ostream_h_eq. apply holds_in; [exact start2|exact open_sound|]. apply sound_app; [|exact close_sound']. apply flat_sound. exact sound2.
  Qed.
  Lemma in_headers e : In e enums -> enum_in_headers (enums_h enums) (ostream_h enums) (fmt_h enums) (e_name e) (e_members e).
  Proof.
    intros He. pose proof H as H'. rewrite Forall_forall in H'. specialize (H' e He). pose proof H' as (Hn & Hf & Hm).
    pose proof (holds_sound _ _ open_sound) as O. split; [|split].
    - exists (e_bits e). split; [exact (bits_cases _ Hf)|]. rewrite enums_h_eq. destruct (flat_in enum_class enums e He sound1) as (a & b & E & A & B). rewrite E.
      pose proof (local_enum_in (enums_start ++ open_ns ++ a) _ (b ++ close_ns) _ _ _ (sound_app _ _ start1 (sound_app _ _ O A)) (fits_class e H') (sound_app _ _ B close_sound')) as X.
      rewrite <- ?app_assoc in X. rewrite <- ?app_assoc. exact X.
    - rewrite ostream_h_eq. destruct (flat_in enum_ostream_text enums e He sound2) as (a & b & E & A & B). rewrite E.
      pose proof (holds_in (ostream_start ++ open_ns ++ a) _ (b ++ close_ns) _ (sound_app _ _ start2 (sound_app _ _ O A)) (fits_os e H') (sound_app _ _ B close_sound')) as X.
      rewrite <- ?app_assoc in X. rewrite <- ?app_assoc. exact X.
    - rewrite fmt_h_eq. destruct (flat_in enum_format_text enums e He sound3) as (a & b & E & A & B). rewrite E.
      pose proof (holds_in (fmt_start ++ a) _ (b ++ []) _ (sound_app _ _ start3 A) (fits_fmt e H') (sound_app _ _ B nil_sound)) as X.
      rewrite <- ?app_assoc in X. rewrite <- ?app_assoc. exact X.
  Qed.
End files.

(** ** The names come from the files *)
Definition idb (s : str) : bool := match s with [] => false | _ => forallb word_char s end.
Lemma idb_ok s : idb s = true -> Spec_EmitUcd.identifier s.
Proof. exact (ident_c s). Qed.
Lemma word_text s : Forall (fun c => word_char c = true) s -> text_ok s.
Proof. apply Forall_impl. intros c Hc. repeat split; intros ->; discriminate Hc. Qed.
Lemma plain_ident s : Spec_EmitUcd.identifier s -> spellable s.
Proof.
  intros [Hn Hw]. split; [|exact (word_text s Hw)]. unfold Spec_UcdApi.identifier. split; [intros E; apply map_eq_nil in E; exact (Hn E)|].
  apply Forall_map. eapply Forall_impl; [|exact Hw]. intros c Hc. cbv beta. destruct ((c =? 32) || (c =? 45)); [reflexivity|exact Hc].
Qed.
Ltac spell := apply plain_ident, idb_ok; vm_compute; reflexivity.
Lemma core_word crlf F B d enums : files_ok F -> generated_enums crlf F B d enums -> forall k, In k (map fst (pd_core d)) -> exists c, gives (f_core F) c k /\ word k.
Proof.
  intros Hok Hg k H. destruct (Hparsed crlf F B d enums Hg) as (_ & _ & _ & Hco & _). rewrite <- (reordered_keys _ _ Hco) in H. apply in_map_iff in H as ([k' rs] & <- & H). cbn [fst].
  pose proof (core_keys (Spec_TableGen.file_text st_text crlf (f_core F))) as K. rewrite Forall_forall in K. specialize (K _ H). cbn [snd] in K. destruct rs as [|r rs]; [contradiction|].
  destruct (load_core_in crlf (f_core F) (core_ok F Hok)) as (_ & _ & G & _). destruct (proj1 (G k' r)) as (l & Hl & Hw & E & _).
  { exists (r :: rs). split; [exact H|left; reflexivity]. }
  exists (span_first (st_span l)). split; [|rewrite <- E; exact Hw]. exists l. split; [exact Hl|]. split; [|exact E]. destruct (core_ok F Hok _ Hl) as [[Hs _] _]. destruct (st_span l); cbn in *; lia.
Qed.
Section names.
  Variables (crlf : bool) (F : ucd_files) (B : list (fline stline)) (d : pdata) (enums : list enum_def).
  Hypothesis Hok : files_ok F.
  Hypothesis HB : lines_ok st_ok B.
  Hypothesis Hd : distinct_names F B.
  Hypothesis Hg : generated_enums crlf F B d enums.
  Hypothesis Hs : spellable_names F B.
  Hypothesis Hf : forall e, In e enums -> few (e_members e).
  Lemma names_fit : Forall enum_fits enums.
  Proof.
    apply Forall_forall. intros e He. pose proof (Hf e He) as Few. destruct Hs as (Sa & Ss & Sc & Sb).
    assert (G : Spec_EmitUcd.identifier (e_name e) /\ Forall spellable (e_members e)).
    2:{ destruct G. repeat split; try assumption; apply H. }
    clear Few. destruct (enums_eq crlf F B d enums Hok Hg) as (age & E & Hage & _). rewrite E in He. clear E.
    apply in_app_or in He. destruct He as [He|He].
    { destruct He as [<-|[]]. split; [apply idb_ok; vm_compute; reflexivity|]. cbn [e_members].
      assert (A : forallb idb (map sanitize (sset_of (map r_prop planes))) = true) by (vm_compute; reflexivity).
      apply Forall_forall. intros m Hm. rewrite forallb_forall in A. apply plain_ident, idb_ok, A, Hm. }
    apply in_app_or in He. destruct He as [He|He].
    { destruct (Hage e He) as (members & -> & Em). split; [apply idb_ok; vm_compute; reflexivity|]. cbn [e_members]. unfold age_members in Em.
      destruct (versions (find_pva (pd_pva d) "Age")) as [l|] eqn:El; [|discriminate Em]. injection Em as <-.
      destruct (versions_nodup _ _ El (age_snd_nodup crlf F B d enums Hok Hg Hd)) as [_ Hin].
      apply Forall_cons; [spell|]. apply Forall_forall. intros s Hx. apply (Permutation.Permutation_in _ (Permutation.Permutation_map snd (vsort_perm l))) in Hx.
      destruct (Hin s Hx) as [H1 _]. apply in_map_iff in H1 as ([a s'] & <- & H1). apply (age_alias crlf F B d enums Hok Hg) in H1. exact (proj2 (Sa _ _ _ H1)). }
    apply in_app_or in He. destruct He as [He|He].
    { apply in_flat_map in He as ([prop vals] & Hin & He). destruct (pva_entry crlf F B d enums Hok Hg prop vals Hin) as (_ & _ & Hal).
      unfold pva_enum in He. destruct vals as [|[a0 v0] r]; [destruct He|]. destruct (is_boolean ((a0, v0) :: r) || elsewhere prop); [destruct He|].
      destruct He as [<-|[]]. cbn [e_name e_members]. split.
      - exact (proj1 (Sa prop a0 v0 (proj1 (Hal a0 v0) (or_introl eq_refl)))).
      - apply Forall_app. split; [destruct (str_eqb prop (lit "Grapheme_Cluster_Break")); [apply Forall_cons; [spell|constructor]|constructor]|].
        apply Forall_forall. intros v Hv. apply (proj1 (ssort_in _ _)) in Hv. apply in_map_iff in Hv as ([a v'] & <- & Hv). exact (proj2 (Sa prop a v' (proj1 (Hal a v') Hv))). }
    destruct He as [<-|[<-|[<-|[<-|[<-|[]]]]]]; (split; [apply idb_ok; vm_compute; reflexivity|]); cbn [e_members].
    - apply Forall_forall. intros k Hk. destruct (core_word crlf F B d enums Hok Hg k Hk) as (c & Hc & Hw). exact (Sc c k Hc Hw).
    - apply Forall_cons; [spell|]. apply Forall_forall. intros s Hx. apply (proj1 (sset_in _ _)) in Hx. apply in_map_iff in Hx as (r & <- & Hr).
      destruct (gc_prop crlf F d Hok (Hparsed crlf F B d enums Hg) r Hr) as (c & a & _ & Ha). exact (proj2 (Sa _ _ _ Ha)).
    - apply Forall_app. split; [apply Forall_cons; [spell|]; apply Forall_cons; [spell|]; apply Forall_cons; [spell|constructor]|].
      apply Forall_forall. intros s Hx. apply filter_In in Hx as [Hx _]. destruct (script_in crlf F B d enums Hok Hg s Hx) as (c & Hc). exact (Ss c s Hc).
    - apply Forall_cons; [spell|]. apply Forall_forall. intros s Hx. apply in_map_iff in Hx as (t & <- & Ht). apply (proj1 (sset_in _ _)) in Ht.
      apply (block_in crlf B HB) in Ht as (l & Hl & _ & <-). apply plain_ident. exact (Sb l Hl).
    - apply Forall_forall. intros m Hm. assert (A : forallb idb (map lit ["Ambiguous"; "FullWidth"; "HalfWidth"; "Neutral"; "Narrow"; "Wide"; "Unspecified"]%string) = true) by (vm_compute; reflexivity).
      rewrite forallb_forall in A. apply plain_ident, idb_ok, A, Hm.
  Qed.
End names.

(** C134. The headers generated from the files: every enumeration, over the shortest type, without two enumerators of the same name, its operator<< and
    its std::formatter. *)
Theorem C134_headers : forall crlf F B d enums, files_ok F -> lines_ok st_ok B -> distinct_names F B -> generated_enums crlf F B d enums ->
  spellable_names F B -> (forall e, In e enums -> few (e_members e)) ->
  in_unicode (enums_h enums) /\ in_unicode (ostream_h enums) /\ NoDup (map e_name enums) /\
  forall e, In e enums -> NoDup (map fst (values (e_members e))) /\ enum_in_headers (enums_h enums) (ostream_h enums) (fmt_h enums) (e_name e) (e_members e).
Proof.
  intros crlf F B d enums Hok HB Hd Hg Hs Hf. pose proof (names_fit crlf F B d enums Hok HB Hd Hg Hs Hf) as H.
  destruct (C95_compiles crlf F B d enums Hok HB Hd Hg) as [Hn Hc].
  split; [exact (enums_ns enums H)|]. split; [exact (ostream_ns enums H)|]. split; [exact Hn|].
  intros e He. split; [exact (Hc e He)|exact (in_headers enums H e He)].
Qed.
Print Assumptions C134_headers.
(** C134. So every enumerator that a record of the property table names has a value in ucd_enums.h. *)
Theorem C134_records_compile : forall crlf F B d enums members c, files_ok F -> lines_ok st_ok B -> distinct_names F B -> plain_names F -> (exists a v, alias (f_pva F) AGE a v) ->
  generated_enums crlf F B d enums -> spellable_names F B -> (forall e, In e enums -> few (e_members e)) ->
  age_members (find_pva (pd_pva d) "Age") = Some members ->
  forall ty name, In (ty, name) (record_refs (out_record members d c)) ->
  exists bits vals v, defines_enum (enums_h enums) ty bits vals /\ In (name, v) vals /\ NoDup (map fst vals).
Proof.
  intros crlf F B d enums members c Hok HB Hd Hpl Hex Hg Hs Hf Em ty name Hr.
  destruct (C97_property_table crlf F B d enums members c Hok Hpl Hex Hg Em ty name Hr) as (e & He & <- & Hi).
  destruct (C134_headers crlf F B d enums Hok HB Hd Hg Hs Hf) as (_ & _ & _ & H). destruct (H e He) as (Hn & (bits & _ & D) & _).
  apply in_map_iff in Hi as ([x v] & <- & Hv). exists bits, (values (e_members e)), v. split; [exact D|]. split; [exact Hv|exact Hn].
Qed.
Print Assumptions C134_records_compile.

(** The hypotheses are met by the demonstration database. *)
Definition spellb (s : str) : bool := idb (sanitize s) && forallb (fun c => negb (c =? 34) && negb (c =? 10) && negb (c =? 92)) s.
Lemma spellb_ok s : spellb s = true -> spellable s.
Proof.
  unfold spellb. intros H. apply andb_true_iff in H as [H1 H2]. split; [exact (idb_ok _ H1)|]. rewrite forallb_forall in H2. apply Forall_forall. intros c Hc.
  specialize (H2 c Hc). apply andb_true_iff in H2 as [H2 H3]. apply andb_true_iff in H2 as [H2 H4]. apply negb_true_iff in H2, H3, H4. apply N.eqb_neq in H2, H3, H4. auto.
Qed.
Definition spellable_namesb (F : ucd_files) (B : list (fline stline)) : bool :=
  forallb (fun s => idb (sec_name s) && forallb (fun l => spellb (pv_full l)) (lines_of (sec_body s))) (f_pva F) &&
  forallb (fun l => spellb (st_prop l)) (lines_of (f_scripts F)) && forallb (fun l => existsb blank (st_prop l) || spellb (st_prop l)) (lines_of (f_core F)) &&
  forallb (fun l => idb (sanitize (st_prop l))) (lines_of B).
Lemma word_blank w c : word w -> In c w -> blank c = true -> False.
Proof.
  intros (_ & H & _) Hc B. unfold no_white in H. rewrite Forall_forall in H. apply (H c Hc). unfold blank in B. rewrite !Bool.orb_true_iff, !N.eqb_eq in B.
  unfold white. tauto.
Qed.
Lemma spellable_namesb_ok F B : spellable_namesb F B = true -> spellable_names F B.
Proof.
  unfold spellable_namesb. intros H. apply andb_true_iff in H as [H HB]. apply andb_true_iff in H as [H HC]. apply andb_true_iff in H as [HA HS].
  rewrite forallb_forall in HA, HS, HC, HB. split; [|split; [|split]].
  - intros prop a v (s & l & Hs & <- & Hl & _ & <-). specialize (HA s Hs). apply andb_true_iff in HA as [X Y]. rewrite forallb_forall in Y.
    split; [exact (idb_ok _ X)|]. apply spellb_ok. exact (Y l (has_lines _ _ Hl)).
  - intros c w (l & Hl & _ & <-). apply spellb_ok. exact (HS l (has_lines _ _ Hl)).
  - intros c w (l & Hl & _ & <-) Hw. apply spellb_ok. specialize (HC l (has_lines _ _ Hl)). apply orb_true_iff in HC as [X|X]; [|exact X].
    apply existsb_exists in X as (c0 & Hc & X). exfalso. exact (word_blank _ _ Hw Hc X).
  - intros l Hl. apply idb_ok. exact (HB l (has_lines _ _ Hl)).
Qed.
Example C134_hypotheses : spellable_names F3_demo blocks_demo /\ (forall e, In e enums_demo -> few (e_members e)) /\
  forall e, In e enums_demo -> enum_in_headers (enums_h enums_demo) (ostream_h enums_demo) (fmt_h enums_demo) (e_name e) (e_members e).
Proof.
  assert (A : spellable_names F3_demo blocks_demo) by (apply spellable_namesb_ok; vm_compute; reflexivity). split; [exact A|].
  assert (B : forall e, In e enums_demo -> few (e_members e)).
  { assert (X : forallb (fun e => N.of_nat (length (e_members e)) <? 2 ^ 64) enums_demo = true) by (vm_compute; reflexivity).
    rewrite forallb_forall in X. intros e He. apply N.ltb_lt. exact (X e He). }
  split; [exact B|]. destruct C95_hypotheses as (H1 & H2 & H3 & _ & H5 & _). intros e He.
  exact (proj2 (proj2 (proj2 (proj2 (C134_headers true F3_demo blocks_demo d3_demo enums_demo H1 H2 H3 H5 A B))) e He)).
Qed.
(** the printed text of one of them *)
Example C134_text : enum_class block_enum =
  lit "enum class Block: uint8_t" ++ nl ++ lit "{" ++ nl ++ lit "    Unspecified = 0," ++ nl ++ lit "    Basic_Latin = 1," ++ nl ++ lit "    CJK_Unified_Ideographs = 2," ++ nl
  ++ lit "    Latin_1_Supplement = 3," ++ nl ++ lit "};" ++ nl ++ nl.
Proof. vm_compute. reflexivity. Qed.
