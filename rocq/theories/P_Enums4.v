(** Proofs about the generated enumerations, part 4: every enumerator the generated sources name is declared. *)
From Coq Require Import Ascii String Permutation Sorted.
From Verif Require Import Base M_TableGen M_PropGen M_UcdApi M_Enums Spec_TableGen Spec_PropGen Spec_UcdApi Spec_Enums
  P_TableGen P_TableGen2 P_PropGen P_PropGen2 P_PropGen3 P_PropGen4 P_PropGen5 P_PropGen6 P_PropGen7 P_PropGen8 P_UcdApi P_UcdApi2 P_UcdApi3 P_UcdApi5 P_Enums P_Enums2 P_Enums3.
Open Scope N_scope.

Lemma declares_member enums e (m : str) : In e enums -> In m (e_members e) -> sanitize m = m -> declares enums (e_name e) m.
Proof. intros He Hm Hs. exists e. split; [exact He|]. split; [reflexivity|]. rewrite declared_fst. apply in_map_iff. eauto. Qed.
Lemma sanitize_version x y : sanitize (version_name x y) = version_name x y.
Proof.
  assert (K : forall n, sanitize (decs n) = decs n).
  { intros n. apply sanitize_plain.
    - eapply Forall_impl; [|apply decs_chars]. intros c Hc Hw. unfold numchar in Hc. unfold white in Hw. lia.
    - unfold without. intros H. revert H. apply num_not; [apply decs_chars|unfold numchar; lia]. }
  unfold version_name, sanitize in *. rewrite !map_app. rewrite !K. reflexivity.
Qed.

Section Refs.
Variables (crlf : bool) (F : ucd_files) (B : list (fline stline)) (d : pdata) (enums : list enum_def).
Hypothesis Hok : files_ok F.
Hypothesis Hg : generated_enums crlf F B d enums.
Hypothesis Hpl : plain_names F.
Let Hp : parsed crlf F d := Hparsed crlf F B d enums Hg.

Lemma alias_word prop a v : alias (f_pva F) prop a v -> word v /\ word a.
Proof.
  intros (s & l & Hs & _ & Hl & <- & <-). destruct Hok as ((_ & Hsec & _) & _). destruct (Hsec s Hs) as (_ & Hb & _). destruct (Hb _ Hl) as (_ & A & V & _). auto.
Qed.
Lemma alias_plain prop a v : In prop [GC; GCB; EAW; INCB; WB] -> alias (f_pva F) prop a v -> sanitize v = v.
Proof.
  intros Hin Ha. destruct (alias_word prop a v Ha) as [(_ & W & _) _]. apply sanitize_plain; [exact W|]. destruct Hpl as (_ & _ & P). exact (P prop a v Hin Ha).
Qed.
Lemma gives_plain_script c w : gives (f_scripts F) c w -> sanitize w = w.
Proof.
  intros Hw. pose proof Hw as (l & Hl & _ & E). destruct (ok_file F Hok (f_scripts F)) as [Hf _]; [cbn; tauto|]. destruct (Hf _ Hl) as [_ (_ & W & _)]. rewrite E in W.
  apply sanitize_plain; [exact W|]. destruct Hpl as (P & _). exact (P c w Hw).
Qed.

(** the enumerations by name *)
Lemma in_core : In (mkE (lit "Core_Property") (map fst (pd_core d))) enums.
Proof. destruct (enums_eq crlf F B d enums Hok Hg) as (age & E & _). rewrite E. rewrite !in_app_iff. right. right. right. left. reflexivity. Qed.
Lemma in_gc : In (mkE (lit "General_Category") (lit "Unspecified" :: sset_of (map r_prop (pd_gc d)))) enums.
Proof. destruct (enums_eq crlf F B d enums Hok Hg) as (age & E & _). rewrite E. rewrite !in_app_iff. right. right. right. right. left. reflexivity. Qed.
Lemma in_script : In (mkE (lit "Script") (map lit ["Invalid"; "Unknown"; "Common"]%string ++ filter (fun s => negb (str_eqb s (lit "Common"))) (sset_of (map r_prop (pd_scripts d))))) enums.
Proof. destruct (enums_eq crlf F B d enums Hok Hg) as (age & E & _). rewrite E. rewrite !in_app_iff. right. right. right. right. right. left. reflexivity. Qed.
Lemma in_block : In (mkE (lit "Block") (lit "Unspecified" :: map sanitize (sset_of (map r_prop (load_blocks (file_text st_text crlf B)))))) enums.
Proof. destruct (enums_eq crlf F B d enums Hok Hg) as (age & E & _). rewrite E. rewrite !in_app_iff. right. right. right. right. right. right. left. reflexivity. Qed.
Lemma in_width : In (mkE (lit "EastAsianWidth") (map lit ["Ambiguous"; "FullWidth"; "HalfWidth"; "Neutral"; "Narrow"; "Wide"; "Unspecified"]%string)) enums.
Proof. destruct (enums_eq crlf F B d enums Hok Hg) as (age & E & _). rewrite E. rewrite !in_app_iff. right. right. right. right. right. right. right. left. reflexivity. Qed.
Lemma in_plane : In (mkE (lit "Plane") (map sanitize (sset_of (map r_prop planes)))) enums.
Proof. destruct (enums_eq crlf F B d enums Hok Hg) as (age & E & _). rewrite E. rewrite !in_app_iff. left. left. reflexivity. Qed.

Lemma script_declared c w : gives (f_scripts F) c w -> declares enums (lit "Script") w.
Proof.
  intros Hw. apply (declares_member _ _ w in_script); [|exact (gives_plain_script c w Hw)]. cbn [e_members]. rewrite in_app_iff.
  destruct (str_eqb_spec w (lit "Common")) as [->|Nc]; [left; cbn [map In]; auto|]. right. apply filter_In. split.
  - apply sset_in. apply (reads_gives _ _ (r_scripts crlf F d Hok Hp)) in Hw as (r & Hr & _ & <-). now apply in_map.
  - destruct (str_eqb_spec w (lit "Common")); [contradiction|reflexivity].
Qed.
Lemma unknown_declared : declares enums (lit "Script") (lit "Unknown").
Proof. apply (declares_member _ _ _ in_script); [|reflexivity]. cbn [e_members]. apply in_app_iff. left. cbn [map In]. auto. Qed.
Lemma gc_declared v : (exists c a, gives (f_gc F) c a /\ alias (f_pva F) GC a v) -> declares enums (lit "General_Category") v.
Proof.
  intros (c & a & Hc & Ha). apply (declares_member _ _ v in_gc); [|apply (alias_plain GC a v); [cbn [In]; auto|exact Ha]]. cbn [e_members]. right. apply sset_in.
  destruct (proj2 (gc_has crlf F d Hok Hp c v)) as (r & Hr & _ & <-); [exists a; auto|]. now apply in_map.
Qed.
Lemma unspecified_declared : declares enums (lit "General_Category") (lit "Unspecified").
Proof. apply (declares_member _ _ _ in_gc); [|reflexivity]. left. reflexivity. Qed.
Lemma pva_declared prop other : In prop [GCB; EAW; INCB; WB] -> has_value (f_pva F) prop other -> other <> lit "Yes" -> other <> lit "No" ->
  forall v, (has_value (f_pva F) prop v \/ (prop = GCB /\ v = lit "Undefined")) -> declares enums prop v.
Proof.
  intros Hin [a0 Ha0] Ny Nn v Hv.
  assert (Hnb : prop <> lit "Block") by (cbn [In] in Hin; destruct Hin as [<-|[<-|[<-|[<-|[]]]]]; discriminate).
  destruct (pva_found crlf F B d enums Hok Hg prop a0 other Hnb Ha0) as (values & Hvs & H0). destruct (pva_entry crlf F B d enums Hok Hg prop values Hvs) as (_ & Hs & Hal).
  assert (Eb : is_boolean values = false).
  { destruct (is_boolean values) eqn:E; [|reflexivity]. exfalso. unfold is_boolean in E. apply andb_true_iff in E as [E En]. apply andb_true_iff in E as [El Ey].
    apply Nat.eqb_eq in El. destruct values as [|[x1 y1] [|[x2 y2] [|? ?]]]; try discriminate El. cbn [map snd existsb] in Ey, En.
    rewrite orb_false_r in Ey, En. apply orb_true_iff in Ey. apply orb_true_iff in En. rewrite !str_eqb_eq in Ey. rewrite !str_eqb_eq in En.
    destruct H0 as [H0|[H0|[]]]; injection H0 as _ H0; subst other.
    - destruct Ey as [Ey|Ey]; [congruence|]. destruct En as [En|En]; [congruence|]. rewrite <- En in Ey. discriminate Ey.
    - destruct Ey as [Ey|Ey]; [|congruence]. destruct En as [En|En]; [|congruence]. rewrite <- En in Ey. discriminate Ey. }
  assert (Ee : elsewhere prop = false) by (cbn [In] in Hin; destruct Hin as [<-|[<-|[<-|[<-|[]]]]]; reflexivity).
  assert (He : In (mkE prop ((if str_eqb prop (lit "Grapheme_Cluster_Break") then [lit "Undefined"] else []) ++ ssort (map snd values))) enums).
  { destruct (enums_eq crlf F B d enums Hok Hg) as (age & E & _). rewrite E. rewrite !in_app_iff. right. right. left. apply in_flat_map. exists (prop, values). split; [exact Hvs|].
    unfold pva_enum. destruct values as [|x values]; [destruct H0|]. rewrite Eb, Ee. left. reflexivity. }
  destruct Hv as [[a Ha]|[-> ->]].
  - apply (declares_member _ _ v He); [|apply (alias_plain prop a v); [cbn [In] in *; tauto|exact Ha]]. cbn [e_members]. apply in_app_iff. right. apply ssort_in.
    apply in_map_iff. exists (a, v). split; [reflexivity|]. now apply Hal.
  - apply (declares_member _ _ _ He); [|reflexivity]. left. reflexivity.
Qed.
Lemma age_declared s : (exists a v, alias (f_pva F) AGE a v) -> s = lit "Unassigned" \/ has_value (f_pva F) AGE s -> declares enums (lit "Age") s.
Proof.
  intros Hex Hv. destruct (enums_eq crlf F B d enums Hok Hg) as (age & E & _ & _ & Hm). destruct (Hm Hex) as (members & Em & Ea).
  destruct (age_members_ok crlf F d Hok Hp) as (members' & Em' & _ & Hmem & _). rewrite Em in Em'. injection Em' as <-.
  assert (Hin : In (mkE (lit "Age") members) enums) by (rewrite E, Ea; rewrite !in_app_iff; right; left; left; reflexivity).
  apply (declares_member _ _ s Hin); [apply Hmem; exact Hv|]. destruct Hv as [->|[a Ha]]; [reflexivity|].
  assert (G : s = lit "Unassigned" \/ exists x y, s = version_name x y /\ x < 1000 /\ y < 1000) by (apply Hok in Ha; exact Ha).
  destruct G as [->|(x & y & -> & _)]; [reflexivity|apply sanitize_version].
Qed.
Lemma valued_has prop G dflt v : has_value (f_pva F) prop dflt -> valued F prop G dflt v -> has_value (f_pva F) prop v.
Proof. intros Hd [(w & _ & [Ha|[-> Ha]])|[_ ->]]; [exists w; exact Ha|exact Ha|exact Hd]. Qed.

Lemma record_declared members x : age_members (find_pva (pd_pva d) "Age") = Some members -> (exists a v, alias (f_pva F) AGE a v) ->
  forall ty id, In (ty, id) (record_refs (out_record members d x)) -> declares enums ty id.
Proof.
  intros Em Hex ty id Hin. unfold record_refs, refs in Hin. cbn [map app In out_record o_script o_gcb o_eaw o_gc o_age o_incb o_wb] in Hin.
  assert (HH : has_value (f_pva F) GCB (lit "Other") /\ has_value (f_pva F) EAW (lit "Narrow") /\ has_value (f_pva F) INCB (lit "None") /\ has_value (f_pva F) WB (lit "Other")).
  { destruct Hok as (_ & _ & _ & _ & _ & _ & _ & _ & _ & _ & _ & _ & _ & _ & V1 & _ & V2 & _ & _ & V3 & V4 & _). auto. }
  destruct HH as (V1 & V2 & V3 & V4).
  destruct Hin as [E|[E|[E|[E|[E|[E|[E|[]]]]]]]]; injection E as <- <-.
  - destruct (script_field crlf F d Hok Hp x "Unknown") as [Hs|[_ Hs]]; [exact (script_declared x _ Hs)|]. rewrite Hs. exact unknown_declared.
  - destruct (gcb_field crlf F d Hok Hp x) as (v & V & Ev & _). rewrite Ev. apply (pva_declared GCB (lit "Other")); [cbn; tauto|exact V1|discriminate|discriminate|].
    left. exact (valued_has _ _ _ _ V1 V).
  - destruct (eaw_field crlf F d Hok Hp x) as (v & V & Ev & _). rewrite Ev. apply (pva_declared EAW (lit "Narrow")); [cbn; tauto|exact V2|discriminate|discriminate|].
    left. exact (valued_has _ _ _ _ V2 V).
  - destruct (gc_field crlf F d Hok Hp x "Unspecified") as [(a & Ha)|[(_ & E & c & a & Ha)|(_ & E & _)]].
    + apply gc_declared. exists x, a. exact Ha.
    + apply gc_declared. exists c, a. exact Ha.
    + rewrite E. exact unspecified_declared.
  - apply age_declared; [exact Hex|]. destruct (age_field crlf F d Hok Hp members x "Unassigned" Em) as [(a & _ & Ha)|[_ E]]; [right; exists a; exact Ha|left; exact E].
  - destruct (incb_field crlf F d Hok Hp x) as (v & V & Ev). rewrite Ev. apply (pva_declared INCB (lit "None")); [cbn; tauto|exact V3|discriminate|discriminate|].
    left. exact (valued_has _ _ _ _ V3 V).
  - destruct (wb_field crlf F d Hok Hp x) as (v & V & Ev). rewrite Ev. apply (pva_declared WB (lit "Other")); [cbn; tauto|exact V4|discriminate|discriminate|].
    left. exact (valued_has _ _ _ _ V4 V).
Qed.

(** ** ucd.h and ucd.cpp *)
Lemma sce_arrays_in al (sces : list sce_range) g : In g (sce_arrays al sces) -> exists r, In r sces /\ snd g = sce_names al (snd r).
Proof.
  unfold sce_arrays. assert (K : forall done, In g (fold_left (fun done r => match smap_get (sce_key (snd r)) done with Some _ => done | None => done ++ [(sce_key (snd r), sce_names al (snd r))] end) sces done) ->
    In g done \/ exists r, In r sces /\ snd g = sce_names al (snd r)).
  { induction sces as [|r l IH]; intros done H; [auto|]. cbn [fold_left] in H. apply IH in H as [H|(r' & Hr & E)]; [|right; exists r'; split; [right; exact Hr|exact E]].
    destruct (smap_get (sce_key (snd r)) done); [auto|]. apply in_app_or in H as [H|[<-|[]]]; [auto|]. right. exists r. split; [left; reflexivity|reflexivity]. }
  intros H. apply K in H as [[]|H]. exact H.
Qed.
Lemma in_get {V} (l : list (str * V)) k v : In (k, v) l -> smap_get k l <> None.
Proof.
  induction l as [|[k' v'] l IH]; intros H; [destruct H|]. cbn [smap_get]. destruct (str_eqb_spec k k') as [->|Nk]; [discriminate|].
  destruct H as [H|H]; [injection H as -> ->; destruct (Nk eq_refl)|exact (IH H)].
Qed.
Lemma load_grouped_keys name f g : lines_ok word_line f -> grouped_file name f -> In g (load_grouped (lit "Property") (file_text st_text crlf f)) ->
  fst g = name /\ forall r, In r (snd g) -> exists c, gives f c (r_prop r).
Proof.
  intros Hf Hgf Hin. split.
  - destruct g as [k rs]. apply in_get in Hin. cbn [fst]. destruct (str_eqb_spec k name) as [->|Nk]; [reflexivity|]. exfalso. apply Hin.
    destruct Hgf as (pre & sep & body & E & Hpre & Hsep & Hn & Hc). unfold load_grouped. rewrite E in Hf |- *. apply lines_app in Hf as [Hf1 Hf2]. apply lines_cons in Hf2 as [_ Hf2].
    rewrite file_text_app, fold_left_app.
    destruct (grouped_body crlf [] pre Hf1 (fun q Hq => Hc q (in_or_app _ _ _ (or_introl Hq))) []) as (m1 & E1 & H1).
    assert (G1 : forall k, smap_get k m1 = None). { intros k'. rewrite H1, Hpre. now destruct (str_eqb k' []). }
    change (lit "Property") with PROP.
    match goal with |- context [fold_left (load_grouped_line PROP) (file_text st_text crlf pre) ?z] => replace (fold_left (load_grouped_line PROP) (file_text st_text crlf pre) z) with (([] : str), m1) by (symmetry; exact E1) end.
    rewrite file_text_cons. cbn [fold_left]. cbn [line_text]. rewrite grouped_header by assumption. rewrite G1.
    destruct (grouped_body crlf name body Hf2 (fun q Hq => Hc q (in_or_app _ _ _ (or_intror Hq))) (smap_set name [] m1)) as (m2 & E2 & H2).
    rewrite E2. cbn [snd]. rewrite H2, smap_get_set. destruct (str_eqb_spec k name); [contradiction|]. rewrite G1. reflexivity.
  - intros r Hr. destruct (proj1 (load_grouped_in crlf (lit "Property") f Hf r)) as (l & Hl & ->).
    { unfold ungroup. apply in_concat. exists (snd g). split; [now apply in_map|exact Hr]. }
    exists (span_first (st_span l)). exists l. split; [exact Hl|]. split; [|reflexivity]. destruct (Hf _ Hl) as [[Hs _] _]. destruct (st_span l); cbn in *; lia.
Qed.
Lemma cats_keys (al : list (str * str)) pre secs cats l k : smap_get GC (pd_pva d) = Some al -> f_gc F = gc_file pre secs -> gc_sections_ok (f_pva F) pre secs ->
  load_gc (pd_pva d) (file_text st_text crlf (f_gc F)) = Some (cats, l) -> In k (map fst cats) -> exists c a, gives (f_gc F) c a /\ alias (f_pva F) GC a k.
Proof.
  intros Hal Ef (Hpre & Hh & Hnd & Hs) El Hin.
  assert (Hf : lines_ok word_line (f_gc F)) by (apply (ok_file F Hok); cbn; tauto).
  assert (Hcov : forall x, has (f_gc F) x -> gives (f_gc F) (span_first (st_span x)) (st_prop x)).
  { intros x Hx. exists x. split; [exact Hx|]. split; [|reflexivity]. destruct (Hf _ Hx) as [[Hsp _] _]. destruct (st_span x); cbn in *; lia. }
  rewrite Ef in El, Hf. destruct (load_gc_get crlf al (pd_pva d) pre secs Hal Hf Hpre Hh) as (cats' & El' & Hget).
  { intros s Hin'. destruct (Hs s Hin') as (A & A1 & _ & A2 & _). auto. }
  { intros x Hx. rewrite <- Ef in Hx. assert (Hv : exists v, alias (f_pva F) GC (st_prop x) v).
    { destruct Hok as (_ & _ & _ & _ & _ & _ & _ & Hc & _). exact (Hc _ _ (Hcov x Hx)). }
    destruct Hv as [v Hv]. exists v. assert (G := proj2 (al_get crlf F d Hok Hp "General_Category" (st_prop x) v ltac:(discriminate)) Hv).
    unfold find_pva in G. change (lit "General_Category") with GC in G. rewrite Hal in G. exact G. }
  rewrite El in El'. injection El' as <- _. apply in_map_iff in Hin as ([k' rs] & <- & Hin). cbn [fst] in *. apply in_get in Hin. rewrite Hget in Hin.
  unfold sec_ranges in Hin. destruct (flat_map _ secs) as [|r rest] eqn:Er; [destruct (Hin eq_refl)|].
  assert (Hr : In r (r :: rest)) by (left; reflexivity). rewrite <- Er in Hr. apply in_flat_map in Hr as (s & Hsin & Hr).
  destruct (str_eqb_spec k' (gs_name s)) as [->|]; [|destruct Hr]. apply in_map_iff in Hr as (x & _ & Hx). apply data_in in Hx.
  destruct (Hs s Hsin) as (_ & _ & _ & _ & Ha).
  exists (span_first (st_span x)), (st_prop x). split; [|exact (Ha x Hx)]. apply Hcov. rewrite Ef. unfold has, gc_file. apply in_app_iff. right. apply in_flat_map.
  exists s. split; [exact Hsin|]. right. exact Hx.
Qed.
Lemma width_name_in s : In (width_name s) (map lit ["Ambiguous"; "FullWidth"; "HalfWidth"; "Neutral"; "Narrow"; "Wide"; "Unspecified"]%string).
Proof. unfold width_name. cbn [map In]. repeat (destruct (str_eqb s _); [tauto|]). tauto. Qed.
Lemma ucd_declared X (al ages : list (str * str)) pre secs cats cats' gl sces blocks :
  (exists a v, alias (f_pva F) AGE a v) -> uses_names F X -> f_gc F = gc_file pre secs -> gc_sections_ok (f_pva F) pre secs -> lines_ok st_ok B ->
  load_gc (pd_pva d) (file_text st_text crlf (f_gc F)) = Some (cats, gl) -> reordered cats cats' ->
  smap_get (lit "Script") (pd_pva d) = Some al -> Permutation sces (load_sce (file_text st_text crlf X)) ->
  Permutation blocks (load_blocks (file_text st_text crlf B)) -> ages = find_pva (pd_pva d) "Age" ->
  forall ty id, In (ty, id) (ucd_refs (pd_core d) (pd_gc d) cats' (pd_scripts d) al sces blocks (pd_gcb d) (pd_eaw d) ages) -> declares enums ty id.
Proof.
  intros Hex (Hgr & Hgv & Hsl & Hsc) Ef Hgs HB El Hre Hal Hsp Hbp -> ty id Hin. unfold ucd_refs in Hin. rewrite !in_app_iff in Hin.
  assert (Hal' : exists al, smap_get GC (pd_pva d) = Some al). { unfold load_gc in El. change (lit "General_Category") with GC in El. destruct (smap_get GC (pd_pva d)) as [al'|]; [eauto|discriminate]. }
  destruct Hal' as [galiases Hgal].
  destruct Hin as [H|[H|[H|[H|[H|[H|[H|H]]]]]]].
  - unfold refs in H. apply in_map_iff in H as (x & E & Hx). injection E as <- <-. apply (declares_member _ _ _ in_plane); cbn [e_members].
    + revert Hx. generalize x. apply Forall_forall. repeat (apply Forall_cons; [vm_compute; tauto|]). apply Forall_nil.
    + destruct Hx as [<-|Hx]; [reflexivity|]. apply in_map_iff in Hx as (p & <- & _). apply sanitize_idem.
  - unfold refs in H. apply in_map_iff in H as (x & E & Hx). injection E as <- <-. apply (declares_member _ _ _ in_core); [exact Hx|].
    destruct (core_in crlf F B d enums Hok Hg x Hx) as [c Hc]. apply sanitize_plain; [|destruct Hpl as (_ & P & _); exact (P c x Hc)].
    apply in_map_iff in Hx as ([k rs] & <- & Hk). cbn [fst].
    assert (Hrs : exists r, In r rs). { pose proof (core_keys (file_text st_text crlf (f_core F))) as K. destruct Hp as (_ & _ & _ & Hco & _). revert K Hk. unfold reordered in Hco. clear -Hco.
      induction Hco as [|a b m m' [E1 E2] Hm IH]; intros K Hin; [destruct Hin|]. inversion_clear K as [|? ? K1 K2]. destruct Hin as [->|Hin]; [|exact (IH K2 Hin)].
      cbn [snd] in E2. destruct rs as [|r rs]; [destruct K1; now apply Permutation_sym, Permutation_nil in E2|]. exists r. left. reflexivity. }
    destruct Hrs as [r Hr]. destruct (proj1 (core_gin crlf F d Hok Hp k r)) as (l & _ & (_ & W & _) & <- & _); [exists rs; auto|]. exact W.
  - unfold refs in H. apply in_map_iff in H as (x & E & Hx). injection E as <- <-. destruct Hx as [<-|Hx]; [exact unspecified_declared|]. apply gc_declared.
    apply in_app_or in Hx as [Hx|Hx].
    + apply in_map_iff in Hx as (r & <- & Hr). destruct (gc_prop crlf F d Hok Hp r Hr) as (c & a & Ha). exists c, a. exact Ha.
    + rewrite <- (reordered_keys _ _ Hre) in Hx. exact (cats_keys galiases pre secs cats gl x Hgal Ef Hgs El Hx).
  - unfold refs in H. apply in_map_iff in H as (x & E & Hx). injection E as <- <-. destruct Hx as [<-|Hx]; [exact unknown_declared|]. apply in_app_or in Hx as [Hx|Hx].
    + apply in_map_iff in Hx as (r & <- & Hr).
      destruct (reads_word _ (f_scripts F) (proj1 (ok_file F Hok (f_scripts F) ltac:(cbn; tauto))) (r_scripts crlf F d Hok Hp) r Hr) as (c & Hc & _). exact (script_declared c _ Hc).
    + apply in_flat_map in Hx as (g & Hgin & Hx). apply sce_arrays_in in Hgin as (r & Hr & Es). rewrite Es in Hx. unfold sce_names in Hx.
      apply in_map_iff in Hx as (w & Ew & Hw). apply (Permutation_in _ Hsp) in Hr. rewrite load_sce_data in Hr by exact Hsl.
      apply in_map_iff in Hr as (l & <- & Hl). apply data_in in Hl. cbn [snd] in Hw. apply (proj1 (ssort_in _ _)) in Hw.
      destruct (Hsl _ Hl) as [ws Hws]. rewrite (sce_tokens l ws Hws) in Hw.
      destruct (Hsc (span_first (st_span l)) ws w) as (v & c' & Hv & Hc').
      { exists l. split; [exact Hl|]. split; [|exact Hws]. destruct Hws as [[Hs _] _]. destruct (st_span l); cbn in *; lia. }
      { exact Hw. }
      assert (G := proj2 (al_get crlf F d Hok Hp "Script" w v ltac:(discriminate)) Hv). unfold find_pva in G. rewrite Hal in G. rewrite G in Ew. subst x.
      exact (script_declared c' v Hc').
  - unfold refs in H. apply in_map_iff in H as (x & E & Hx). injection E as <- <-. apply (declares_member _ _ _ in_block); cbn [e_members].
    + destruct Hx as [<-|Hx]; [left; reflexivity|]. right. apply in_map_iff in Hx as (b & <- & Hb). apply in_map. apply sset_in. apply in_map. exact (Permutation_in _ Hbp Hb).
    + destruct Hx as [<-|Hx]; [reflexivity|]. apply in_map_iff in Hx as (b & <- & _). apply sanitize_idem.
  - apply in_flat_map in H as (g' & Hg' & H). destruct Hp as (_ & _ & _ & _ & _ & _ & _ & _ & Hgb & _).
    assert (Hk : exists g, In g (load_grouped (lit "Property") (file_text st_text crlf (f_gcb F))) /\ fst g = fst g' /\ Permutation (snd g) (snd g')).
    { revert Hgb Hg'. unfold reordered. generalize (load_grouped (lit "Property") (file_text st_text crlf (f_gcb F))). generalize (pd_gcb d). intros m' m Hm. induction Hm as [|a b m m' [E1 E2] Hm IH]; intros Hin; [destruct Hin|].
      destruct Hin as [<-|Hin]; [exists a; split; [left; reflexivity|auto]|]. destruct (IH Hin) as (g & A & A'). exists g. split; [right; exact A|exact A']. }
    destruct Hk as (g & Hgin & E1 & E2). destruct (load_grouped_keys GCB (f_gcb F) g) as [K1 K2]; [apply (ok_file F Hok); cbn; tauto|exact Hgr|exact Hgin|].
    assert (V1 : has_value (f_pva F) GCB (lit "Other")) by (destruct Hok as (_ & _ & _ & _ & _ & _ & _ & _ & _ & _ & _ & _ & _ & _ & V1 & _); exact V1).
    destruct H as [H|H].
    + injection H as <- <-. rewrite <- E1, K1. apply (pva_declared GCB (lit "Other")); [cbn; tauto|exact V1|discriminate|discriminate|right; auto].
    + apply in_map_iff in H as (r & E & Hr). injection E as <- <-. rewrite <- E1, K1. apply (pva_declared GCB (lit "Other")); [cbn; tauto|exact V1|discriminate|discriminate|left].
      destruct (K2 r (Permutation_in _ (Permutation_sym E2) Hr)) as [c Hc]. exact (Hgv c _ Hc).
  - unfold refs in H. apply in_map_iff in H as (x & E & Hx). injection E as <- <-.
    assert (Hx' : In x (map lit ["Ambiguous"; "FullWidth"; "HalfWidth"; "Neutral"; "Narrow"; "Wide"; "Unspecified"]%string)).
    { apply in_app_or in Hx as [Hx|Hx]; [exact Hx|]. apply in_map_iff in Hx as (r & <- & _). apply width_name_in. }
    apply (declares_member _ _ _ in_width); [exact Hx'|]. cbn [map In] in Hx'. repeat (destruct Hx' as [<-|Hx']; [reflexivity|]). destruct Hx'.
  - unfold refs in H. apply in_map_iff in H as (x & E & Hx). injection E as <- <-. apply filter_In in Hx as [Hx _]. apply in_map_iff in Hx as ([a v] & <- & Hv). cbn [snd].
    apply age_declared; [exact Hex|]. right. exists a. apply (al_of crlf F d Hok Hp "Age"); [discriminate|exact Hv].
Qed.
End Refs.
