(** Theorems about the generated enumerations: C95 to C97. *)
From Coq Require Import Ascii String Permutation.
From Verif Require Import Base M_TableGen M_PropGen M_UcdApi M_Enums Spec_TableGen Spec_PropGen Spec_UcdApi Spec_Enums
  P_TableGen P_PropGen P_PropGen6 P_PropGen8 P_Enums P_Enums2 P_Enums3 P_Enums4 P_Enums5 T_PropGen TableGen_Demo PropGen_Demo UcdApi_Demo Enums_Demo.
Open Scope N_scope.

Lemma identifier_sanitize s : identifier s = sanitize s.
Proof. reflexivity. Qed.

(** C95.  All generated enumerations and switches compile (no enumerator is declared twice, no two types have the same name) as long as the files
    do not give two values of one property the same spelling. *)
Theorem C95_compiles : forall crlf F B d enums, files_ok F -> lines_ok st_ok B -> distinct_names F B -> generated_enums crlf F B d enums ->
  NoDup (map e_name enums) /\ forall e, In e enums -> compiles e.
Proof.
  intros crlf F B d enums Hok HB Hd Hg. split; [exact (names_differ crlf F B d enums Hok Hg Hd)|].
  apply Forall_forall. exact (all_compile crlf F B d enums Hok Hg Hd HB).
Qed.
Print Assumptions C95_compiles.
(** C95.  In each of them the i-th member has the value i, which the underlying type can hold, and operator<< and std::format give its name back. *)
Theorem C95_round_trip : forall crlf F B d enums e i m, files_ok F -> lines_ok st_ok B -> distinct_names F B -> generated_enums crlf F B d enums ->
  In e enums -> N.of_nat (length (e_members e)) < 2 ^ 64 -> nth_error (e_members e) i = Some m ->
  let v := N.of_nat i in
  enum_value e (identifier m) = Some v /\ v < 2 ^ e_bits e /\ enum_ostream e v = m /\ enum_format e v = m.
Proof.
  intros crlf F B d enums e i m Hok HB Hd Hg He Hlen Hi v. subst v. destruct (C95_compiles crlf F B d enums Hok HB Hd Hg) as [_ Hc]. specialize (Hc e He).
  split; [rewrite identifier_sanitize; now apply value_nth|]. split.
  - pose proof (bits_hold e Hlen) as Hb. assert (i < length (e_members e))%nat by (apply nth_error_Some; congruence). lia.
  - unfold enum_ostream, enum_format. rewrite (switch_all e _ Hc), Nat2N.id, Hi. auto.
Qed.
Print Assumptions C95_round_trip.
(** C95.  Any other value of the underlying type is printed as its number in parentheses, and formatted as the empty string. *)
Theorem C95_other_values : forall crlf F B d enums e v, files_ok F -> lines_ok st_ok B -> distinct_names F B -> generated_enums crlf F B d enums ->
  In e enums -> N.of_nat (length (e_members e)) <= v -> v < 2 ^ 32 ->
  enum_ostream e v = lit "(" ++ decs v ++ lit ")" /\ enum_format e v = [].
Proof.
  intros crlf F B d enums e v Hok HB Hd Hg He Hlen Hv. destruct (C95_compiles crlf F B d enums Hok HB Hd Hg) as [_ Hc]. specialize (Hc e He).
  assert (E : switch e (switch_cases e) v = None). { rewrite (switch_all e _ Hc). apply nth_error_None. lia. }
  unfold enum_ostream, enum_format. rewrite E. split; [|reflexivity]. rewrite N.mod_small by exact Hv. rewrite put_decs by exact Hv. reflexivity.
Qed.
Print Assumptions C95_other_values.
(** C95.  Different enumerators print differently. *)
Theorem C95_distinct : forall crlf F B d enums e v v', files_ok F -> lines_ok st_ok B -> distinct_names F B -> generated_enums crlf F B d enums ->
  In e enums -> v < N.of_nat (length (e_members e)) -> v' < N.of_nat (length (e_members e)) -> v <> v' -> enum_ostream e v <> enum_ostream e v' /\ enum_format e v <> enum_format e v'.
Proof.
  intros crlf F B d enums e v v' Hok HB Hd Hg He Hv Hv' Hne. destruct (C95_compiles crlf F B d enums Hok HB Hd Hg) as [_ Hc]. specialize (Hc e He).
  unfold enum_ostream, enum_format. rewrite !(switch_all e _ Hc).
  destruct (nth_error (e_members e) (N.to_nat v)) as [m|] eqn:E1; [|apply nth_error_None in E1; lia].
  destruct (nth_error (e_members e) (N.to_nat v')) as [m'|] eqn:E2; [|apply nth_error_None in E2; lia].
  assert (K : m <> m'); [|auto]. intros <-. apply Hne. apply N2Nat.inj.
  unfold compiles in Hc. rewrite declared_fst in Hc. apply NoDup_map_inv in Hc. rewrite NoDup_nth_error in Hc. apply Hc; [lia|congruence].
Qed.
Print Assumptions C95_distinct.

(** C96.  Comparing two Age values compares the versions; Unassigned is before all of them.  (std::string order would put V10_0 before V2_0.) *)
Theorem C96_age_order : forall crlf F B d enums, files_ok F -> lines_ok st_ok B -> distinct_names F B -> (exists a v, alias (f_pva F) AGE a v) ->
  generated_enums crlf F B d enums ->
  enumerator enums AGE (lit "Unassigned") 0 /\
  forall x y x' y' v v', x < 1000 -> y < 1000 -> x' < 1000 -> y' < 1000 ->
    enumerator enums AGE (version_name x y) v -> enumerator enums AGE (version_name x' y') v' -> 0 < v /\ (v < v' <-> earlier x y x' y').
Proof. intros crlf F B d enums Hok HB Hd Hex Hg. exact (age_order crlf F B d enums Hok Hg Hd Hex). Qed.
Print Assumptions C96_age_order.
(** C96.  So codepoint_properties::age of two code points of different versions compare like the versions in which DerivedAge.txt says they
    were assigned, and the code points it does not list are below all others. *)
Theorem C96_codepoint_age : forall crlf F B d enums props c c', files_ok F -> lines_ok st_ok B -> distinct_names F B -> (exists a v, alias (f_pva F) AGE a v) ->
  generated_enums crlf F B d enums -> generated_props crlf F props ->
  exists v v', enumerator enums AGE (o_age (props c)) v /\ enumerator enums AGE (o_age (props c')) v' /\
    (forall a a' x y x' y', gives (f_age F) c a -> gives (f_age F) c' a' -> alias (f_pva F) AGE a (version_name x y) -> alias (f_pva F) AGE a' (version_name x' y') ->
       x < 1000 -> y < 1000 -> x' < 1000 -> y' < 1000 -> (v < v' <-> earlier x y x' y')) /\
    (forall a x y, (forall w, ~ gives (f_age F) c w) -> gives (f_age F) c' a -> alias (f_pva F) AGE a (version_name x y) -> x < 1000 -> y < 1000 -> v < v').
Proof.
  intros crlf F B d enums props c c' Hok HB Hd Hex Hg Hpr.
  assert (Hval : forall c, age_value F c (o_age (props c))).
  { intros c0. destruct (C76_values crlf F props Hok Hpr c0) as (_ & _ & _ & _ & _ & _ & H). exact H. }
  assert (Hun : forall c v v', age_value F c v -> age_value F c v' -> v = v') by (intros c0 v v'; apply (C76_values_unique F c0 v v' Hok)).
  assert (Hl : forall c, o_age (props c) = lit "Unassigned" \/ has_value (f_pva F) AGE (o_age (props c))).
  { intros c0. destruct (Hval c0) as [(a & _ & Ha)|[_ E]]; [right; exists a; exact Ha|left; exact E]. }
  destruct (age_listed crlf F B d enums Hok Hg Hd Hex _ (Hl c)) as [v Hv]. destruct (age_listed crlf F B d enums Hok Hg Hd Hex _ (Hl c')) as [v' Hv'].
  destruct (C96_age_order crlf F B d enums Hok HB Hd Hex Hg) as [H0 Hord]. exists v, v'. split; [exact Hv|]. split; [exact Hv'|]. split.
  - intros a a' x y x' y' Ha Ha' Hx Hx' L1 L2 L3 L4.
    assert (E : o_age (props c) = version_name x y) by (apply (Hun c); [apply Hval|left; eauto]).
    assert (E' : o_age (props c') = version_name x' y') by (apply (Hun c'); [apply Hval|left; eauto]).
    rewrite E in Hv. rewrite E' in Hv'. apply (Hord x y x' y' v v'); assumption.
  - intros a x y Hno Ha Hx L1 L2.
    assert (E : o_age (props c) = lit "Unassigned") by (apply (Hun c); [apply Hval|right; split; [intros w u Hw; destruct (Hno w Hw)|reflexivity]]).
    assert (E' : o_age (props c') = version_name x y) by (apply (Hun c'); [apply Hval|left; eauto]).
    rewrite E in Hv. rewrite E' in Hv'. destruct (age_enum crlf F B d enums Hok Hg Hd Hex) as (members & _ & Hn & He).
    apply He in Hv. apply He in H0. assert (v = 0) as ->.
    { apply N2Nat.inj. rewrite NoDup_nth_error in Hn. apply Hn; [apply nth_error_Some; congruence|congruence]. }
    exact (proj1 (Hord x y x y v' v' L1 L2 L1 L2 Hv' Hv')).
Qed.
Print Assumptions C96_codepoint_age.

(** C97.  The generated property table names only declared enumerators. *)
Theorem C97_property_table : forall crlf F B d enums members c, files_ok F -> plain_names F -> (exists a v, alias (f_pva F) AGE a v) ->
  generated_enums crlf F B d enums -> age_members (find_pva (pd_pva d) "Age") = Some members ->
  forall ty id, In (ty, id) (record_refs (out_record members d c)) -> declares enums ty id.
Proof. intros crlf F B d enums members c Hok Hpl Hex Hg Em. exact (record_declared crlf F B d enums Hok Hg Hpl members c Em Hex). Qed.
Print Assumptions C97_property_table.
(** C97.  ucd.h and ucd.cpp name only declared enumerators. *)
Theorem C97_ucd_api : forall crlf F B X d enums pre secs cats cats' gl al sces blocks,
  files_ok F -> plain_names F -> (exists a v, alias (f_pva F) AGE a v) -> uses_names F X -> f_gc F = gc_file pre secs -> gc_sections_ok (f_pva F) pre secs -> lines_ok st_ok B ->
  generated_enums crlf F B d enums ->
  load_gc (pd_pva d) (file_text st_text crlf (f_gc F)) = Some (cats, gl) -> reordered cats cats' -> smap_get (lit "Script") (pd_pva d) = Some al ->
  Permutation sces (load_sce (file_text st_text crlf X)) -> Permutation blocks (load_blocks (file_text st_text crlf B)) ->
  forall ty id, In (ty, id) (ucd_refs (pd_core d) (pd_gc d) cats' (pd_scripts d) al sces blocks (pd_gcb d) (pd_eaw d) (find_pva (pd_pva d) "Age")) -> declares enums ty id.
Proof.
  intros crlf F B X d enums pre secs cats cats' gl al sces blocks Hok Hpl Hex Hu Ef Hgs HB Hg El Hre Hal Hs Hb.
  exact (ucd_declared crlf F B d enums Hok Hg Hpl X al _ pre secs cats cats' gl sces blocks Hex Hu Ef Hgs HB El Hre Hal Hs Hb eq_refl).
Qed.
Print Assumptions C97_ucd_api.

(** the hypotheses are met *)
Example C95_hypotheses : files_ok F3_demo /\ lines_ok st_ok blocks_demo /\ distinct_names F3_demo blocks_demo /\ (exists a v, alias (f_pva F3_demo) AGE a v) /\
  generated_enums true F3_demo blocks_demo d3_demo enums_demo /\ plain_names F3_demo /\ uses_names F3_demo sce_demo /\ (exists props, generated_props true F3_demo props) /\
  f_gc F3_demo = gc_file gc_pre_demo gc_secs_demo /\ gc_sections_ok (f_pva F3_demo) gc_pre_demo gc_secs_demo /\ map e_name enums_demo = map lit
    ["Plane"; "Age"; "East_Asian_Width"; "Grapheme_Cluster_Break"; "Indic_Conjunct_Break"; "Word_Break"; "Core_Property"; "General_Category"; "Script"; "Block"; "EastAsianWidth"]%string.
Proof.
  split; [exact F3_demo_ok|]. split; [exact blocks_demo_ok|]. split; [exact F3_distinct|]. split; [exact F3_age|]. split; [exact enums_demo_ok|]. split; [exact F3_plain|].
  split; [exact F3_uses|]. split; [apply C81_generation_succeeds; exact F3_demo_ok|]. split; [reflexivity|]. split; [apply gc_sections_okb_ok; vm_compute; reflexivity|]. vm_compute. reflexivity.
Qed.
Definition block_enum : enum_def := nth 9 enums_demo (mkE [] []).
Example C95_demo : In block_enum enums_demo /\ map (enum_ostream block_enum) [0; 1; 3; 4; 200] = map lit ["Unspecified"; "Basic_Latin"; "Latin_1_Supplement"; "(4)"; "(200)"]%string /\
  enum_value block_enum (lit "Latin_1_Supplement") = Some 3 /\ e_bits block_enum = 8.
Proof. split; [apply nth_In; vm_compute; lia|]. split; [vm_compute; reflexivity|]. split; vm_compute; reflexivity. Qed.
Example C96_demo : age_members (map (fun p => (lit (fst p), lit (snd p))) [("1.1", "V1_1"); ("10.0", "V10_0"); ("2.0", "V2_0"); ("2.1", "V2_1"); ("NA", "Unassigned")]%string) =
  Some (map lit ["Unassigned"; "V1_1"; "V2_0"; "V2_1"; "V10_0"]%string) /\ enumerator enums_demo AGE (version_name 3 0) 2 /\ enumerator enums_demo AGE (version_name 6 0) 3.
Proof.
  split; [vm_compute; reflexivity|].
  assert (H : forall i m, nth_error (e_members (nth 1 enums_demo (mkE [] []))) i = Some m -> enumerator enums_demo AGE (identifier m) (N.of_nat i)).
  { intros i m Hi. exists (nth 1 enums_demo (mkE [] [])). split; [apply nth_In; vm_compute; lia|]. split; [vm_compute; reflexivity|]. rewrite identifier_sanitize. generalize dependent (nth 1 enums_demo (mkE [] [])). intros e Hi. apply declared_in. exists i, m. split; [exact Hi|]. split; reflexivity. }
  assert (E : forall x y, identifier (version_name x y) = version_name x y) by (intros x y; rewrite identifier_sanitize; apply sanitize_version).
  pose proof (H 2%nat (version_name 3 0)) as H2. pose proof (H 3%nat (version_name 6 0)) as H3. rewrite E in H2, H3. change (N.of_nat 2) with 2 in H2. change (N.of_nat 3) with 3 in H3.
  split; [apply H2|apply H3]; vm_compute; reflexivity.
Qed.
Lemma listed (p : str * str) l : existsb (fun q => str_eqb (fst q) (fst p) && str_eqb (snd q) (snd p)) l = true -> In p l.
Proof.
  intros H. apply existsb_exists in H as ([a b] & Hq & E). apply andb_true_iff in E as [E1 E2]. apply str_eqb_eq in E1. apply str_eqb_eq in E2. destruct p. cbn [fst snd] in *. subst. exact Hq.
Qed.
Definition gc3_loaded : list (str * list prange) * list prange :=
  match load_gc (pd_pva d3_demo) (file_text st_text true (f_gc F3_demo)) with Some r => r | None => ([], []) end.
(** the entry of U+0902 in the property table, and some of the names in ucd.cpp *)
Example C97_demo : record_refs (out_record members_demo d3_demo 0x902) =
    map (fun p => (lit (fst p), lit (snd p))) [("Script", "Devanagari"); ("Grapheme_Cluster_Break", "Other"); ("East_Asian_Width", "Narrow"); ("General_Category", "Unassigned");
      ("Age", "Unassigned"); ("Indic_Conjunct_Break", "None"); ("Word_Break", "Other")]%string /\
  let cats := fst gc3_loaded in let gl := snd gc3_loaded in let al := find_pva (pd_pva d3_demo) "Script" in
    load_gc (pd_pva d3_demo) (file_text st_text true (f_gc F3_demo)) = Some (cats, gl) /\ smap_get (lit "Script") (pd_pva d3_demo) = Some al /\
    In (lit "Script", lit "Grantha") (ucd_refs (pd_core d3_demo) (pd_gc d3_demo) cats (pd_scripts d3_demo) al (load_sce (file_text st_text true sce_demo))
      (load_blocks (file_text st_text true blocks_demo)) (pd_gcb d3_demo) (pd_eaw d3_demo) (find_pva (pd_pva d3_demo) "Age")).
Proof.
  split; [vm_compute; reflexivity|]. cbv zeta. split; [vm_compute; reflexivity|]. split; [vm_compute; reflexivity|]. apply listed. vm_compute. reflexivity.
Qed.
