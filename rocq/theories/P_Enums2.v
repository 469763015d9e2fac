(** Proofs about the generated enumerations, part 2: the enumerations of a database. *)
From Coq Require Import Ascii String Permutation Sorted.
From Verif Require Import Base M_TableGen M_PropGen M_UcdApi M_Enums Spec_TableGen Spec_PropGen Spec_UcdApi Spec_Enums P_TableGen P_TableGen2 P_TableGen3 P_TableGen8
  P_PropGen P_PropGen2 P_PropGen3 P_PropGen4 P_PropGen5 P_PropGen6 P_PropGen7 P_PropGen8 P_UcdApi P_UcdApi5 P_Enums.
Open Scope N_scope.

(** ** The map of PropertyValueAliases.txt *)
Definition pva_inv (m : pva) : Prop := ssorted m /\ smap_get (lit "Block") m = None.
Lemma load_pva_step st line : pva_inv (snd st) -> pva_inv (snd (load_pva_line st line)).
Proof.
  destruct st as [cur m]. cbn [snd]. intros [Hs Hb]. unfold load_pva_line. cbv zeta. destruct (trim line) as [|c r]; [split; assumption|].
  assert (A : forall p v, blacklisted p = false -> pva_inv (smap_set p v m)).
  { intros p v Hp. split; [now apply smap_set_sorted|]. rewrite smap_get_set. destruct (str_eqb_spec (lit "Block") p) as [<-|]; [discriminate Hp|exact Hb]. }
  destruct (starts_with (lit "# ") (c :: r)).
  - destruct (find_sub (lit " (") _) as [pos|]; [|split; assumption]. destruct (match rev _ with [] => false | x :: _ => x =? 41 end); [|split; assumption].
    cbn [snd]. destruct (blacklisted _) eqn:E; [split; assumption|now apply A].
  - destruct (c =? ch_hash); [split; assumption|]. destruct (_ <? 3)%nat; [split; assumption|]. destruct (blacklisted cur) eqn:E; [split; assumption|].
    cbn [snd]. now apply A.
Qed.
Lemma load_pva_inv lines : pva_inv (load_pva lines).
Proof.
  unfold load_pva. assert (G : forall lines st, pva_inv (snd st) -> pva_inv (snd (fold_left load_pva_line lines st))).
  { clear. induction lines as [|l lines IH]; intros st H; [exact H|]. cbn [fold_left]. apply IH. now apply load_pva_step. }
  apply G. split; [constructor|reflexivity].
Qed.
(** ** The keys of the map of core properties *)
Lemma core_keys lines : Forall (fun g => snd g <> []) (fst (load_core lines)).
Proof.
  unfold load_core. assert (G : forall lines st, Forall (fun g : str * list prange => snd g <> []) (fst st) -> Forall (fun g : str * list prange => snd g <> []) (fst (fold_left load_core_line lines st))).
  { clear. induction lines as [|l lines IH]; intros [core incb] H; [exact H|]. cbn [fold_left]. apply IH. unfold load_core_line.
    destruct (parse_standard_line l) as [[[a b] p]|]; [|exact H]. destruct (find_char ch_semi p); [destruct (str_eqb _ _); exact H|]. cbn [fst] in *.
    apply Forall_forall. intros [k r] Hin. unfold push in Hin. apply smap_set_in in Hin as [[-> ->]|Hin]; [|rewrite Forall_forall in H; exact (H _ Hin)].
    cbn [snd]. intros E. apply app_eq_nil in E as [_ E]. discriminate. }
  apply G. constructor.
Qed.
Lemma reordered_keys m m' : reordered m m' -> map fst m = map fst m'.
Proof. induction 1 as [|g g' m m' [E _] _ IH]; [reflexivity|]. cbn [map]. rewrite E, IH. reflexivity. Qed.
Lemma sorted_keys {V} (m : list (str * V)) : ssorted m -> NoDup (map fst m).
Proof.
  induction 1 as [|g m Hs IH Hf]; cbn [map]; constructor; [|exact IH]. intros H. apply in_map_iff in H as (g' & E & Hg'). rewrite Forall_forall in Hf.
  specialize (Hf g' Hg'). cbv beta in Hf. rewrite E in Hf. exact (slt_irrefl _ Hf).
Qed.

Section Db.
Variables (crlf : bool) (F : ucd_files) (B : list (fline stline)) (d : pdata) (enums : list enum_def).
Hypothesis Hok : files_ok F.
Hypothesis Hg : generated_enums crlf F B d enums.
Lemma Hparsed : parsed crlf F d. Proof. apply Hg. Qed.
Lemma pva_entry prop values : In (prop, values) (pd_pva d) -> prop <> lit "Block" /\ ssorted values /\ forall a v, In (a, v) values <-> alias (f_pva F) prop a v.
Proof.
  intros H. destruct Hparsed as (E & _). destruct (load_pva_inv (pva_text crlf (f_pre F) (f_pva F))) as [Hs Hb]. rewrite E in H.
  apply (smap_in _ _ _ Hs) in H. assert (Hn : prop <> lit "Block") by (intros ->; congruence). split; [exact Hn|].
  pose proof (load_pva_in crlf (f_pre F) (f_pva F) prop (proj1 Hok) Hn) as G. cbv zeta in G. rewrite H in G. exact G.
Qed.
Lemma pva_found prop a v : prop <> lit "Block" -> alias (f_pva F) prop a v -> exists values, In (prop, values) (pd_pva d) /\ In (a, v) values.
Proof.
  intros Hn Ha. destruct Hparsed as (E & _). destruct (load_pva_inv (pva_text crlf (f_pre F) (f_pva F))) as [Hs Hb]. rewrite E.
  pose proof (load_pva_in crlf (f_pre F) (f_pva F) prop (proj1 Hok) Hn) as [_ G]. apply G in Ha.
  destruct (smap_get prop _) as [values|] eqn:Eg; [|destruct Ha]. exists values. split; [now apply smap_get_in|exact Ha].
Qed.
Lemma age_found : find_pva (pd_pva d) "Age" = match smap_get (lit "Age") (pd_pva d) with Some l => l | None => [] end.
Proof. reflexivity. Qed.
(** the enumerations *)
Lemma enums_eq : exists age, enums =
  [mkE (lit "Plane") (map sanitize (sset_of (map r_prop planes)))] ++ age ++ flat_map pva_enum (pd_pva d) ++
  [mkE (lit "Core_Property") (map fst (pd_core d));
   mkE (lit "General_Category") (lit "Unspecified" :: sset_of (map r_prop (pd_gc d)));
   mkE (lit "Script") (map lit ["Invalid"; "Unknown"; "Common"]%string ++ filter (fun s => negb (str_eqb s (lit "Common"))) (sset_of (map r_prop (pd_scripts d))));
   mkE (lit "Block") (lit "Unspecified" :: map sanitize (sset_of (map r_prop (load_blocks (file_text st_text crlf B)))));
   mkE (lit "EastAsianWidth") (map lit ["Ambiguous"; "FullWidth"; "HalfWidth"; "Neutral"; "Narrow"; "Wide"; "Unspecified"]%string)] /\
  (forall e, In e age -> exists members, e = mkE (lit "Age") members /\ age_members (find_pva (pd_pva d) "Age") = Some members) /\
  (age = [] \/ exists e, age = [e]) /\
  ((exists a v, alias (f_pva F) AGE a v) -> exists members, age_members (find_pva (pd_pva d) "Age") = Some members /\ age = [mkE (lit "Age") members]).
Proof.
  destruct Hg as [_ E]. unfold collect_enums in E. rewrite age_found. destruct (smap_get (lit "Age") (pd_pva d)) as [[|x values]|] eqn:Ea.
  - assert (E0 := f_equal (fun o => match o with Some x => x | None => [] end) E). cbv beta iota in E0. exists []. split; [symmetry; exact E0|]. split; [intros e []|]. split; [auto|]. intros (a & v & Hv).
    destruct (pva_found AGE a v ltac:(discriminate) Hv) as (values & H1 & H2). exfalso.
    destruct Hparsed as (Ep & _). destruct (load_pva_inv (pva_text crlf (f_pre F) (f_pva F))) as [Hs _]. rewrite <- Ep in Hs. apply (smap_in _ _ _ Hs) in H1.
    unfold AGE in H1. rewrite Ea in H1. injection H1 as <-. destruct H2.
  - destruct (age_members (x :: values)) as [l|] eqn:El; [|discriminate]. assert (E0 := f_equal (fun o => match o with Some x => x | None => [] end) E). cbv beta iota in E0. exists [mkE (lit "Age") l]. split; [symmetry; exact E0|]. split; [|split; [eauto|]].
    + intros e [<-|[]]. exists l. split; reflexivity.
    + intros _. exists l. split; reflexivity.
  - assert (E0 := f_equal (fun o => match o with Some x => x | None => [] end) E). cbv beta iota in E0. exists []. split; [symmetry; exact E0|]. split; [intros e []|]. split; [auto|]. intros (a & v & Hv).
    destruct (pva_found AGE a v ltac:(discriminate) Hv) as (values & H1 & H2). exfalso.
    destruct Hparsed as (Ep & _). destruct (load_pva_inv (pva_text crlf (f_pre F) (f_pva F))) as [Hs _]. rewrite <- Ep in Hs. apply (smap_in _ _ _ Hs) in H1.
    unfold AGE in H1. congruence.
Qed.

(** ** No enumerator twice *)
Hypothesis Hd : distinct_names F B.
Lemma pva_compiles prop values : In (prop, values) (pd_pva d) -> Forall compiles (pva_enum (prop, values)).
Proof.
  intros Hin. destruct (pva_entry prop values Hin) as (Hn & Hs & Hal). unfold pva_enum. destruct values as [|x values]; [constructor|].
  destruct (is_boolean (x :: values) || elsewhere prop); [constructor|]. constructor; [|constructor]. unfold compiles. rewrite declared_fst. cbn [e_members].
  set (vs := x :: values) in *. rewrite map_app.
  assert (Hnd : NoDup (map sanitize (ssort (map snd vs)))).
  { apply (Permutation_NoDup (l := map sanitize (map snd vs))); [apply Permutation_map, Permutation_sym, ssort_perm|]. rewrite map_map. apply nodup_map.
    - apply (NoDup_map_inv fst), (sorted_keys vs Hs).
    - intros [a v] [a' v'] H H' E. cbn [snd] in E. apply Hal in H. apply Hal in H'. destruct Hd as (H1 & _). assert (a = a') as <- by exact (H1 prop a a' v v' Hn H H' E).
      f_equal. destruct Hok as ((_ & _ & U) & _). exact (U prop a v v' Hn H H'). }
  apply nodup_app; [destruct (str_eqb prop _); repeat constructor; intros []|exact Hnd|].
  intros y Hy. destruct (str_eqb_spec prop (lit "Grapheme_Cluster_Break")) as [->|]; [|destruct Hy]. destruct Hy as [<-|[]]. intros H.
  apply in_map_iff in H as (v & E & Hv). apply (proj1 (ssort_in _ _)) in Hv. apply in_map_iff in Hv as ([a v'] & <- & Hv). apply Hal in Hv.
  destruct Hd as (_ & _ & _ & _ & H5 & _). exact (H5 a v' Hv E).
Qed.
Lemma versions_nodup : forall al l, versions al = Some l -> NoDup (map snd al) -> NoDup (map snd l) /\ forall s, In s (map snd l) -> In s (map snd al) /\ s <> lit "Unassigned".
Proof.
  induction al as [|[a s] al IH]; intros l E Hn; cbn [versions] in E; [injection E as <-; split; [constructor|intros s []]|].
  destruct (versions al) as [l'|]; [|discriminate]. cbn [map snd] in Hn. inversion_clear Hn as [|? ? Hs Hn']. destruct (IH l' eq_refl Hn') as [A C].
  destruct (str_eqb_spec s (lit "Unassigned")) as [->|Ns].
  - injection E as <-. split; [exact A|]. intros t Ht. destruct (C t Ht) as [C1 C2]. split; [right; exact C1|exact C2].
  - destruct (parse_version s) as [v|]; [|discriminate]. injection E as <-. cbn [map snd]. split.
    + constructor; [|exact A]. intros H. destruct Hs. now apply C.
    + intros t [<-|Ht]; [split; [left; reflexivity|exact Ns]|]. destruct (C t Ht) as [C1 C2]. split; [right; exact C1|exact C2].
Qed.
Lemma age_alias (a v : str) : In (a, v) (find_pva (pd_pva d) "Age") <-> alias (f_pva F) AGE a v.
Proof. destruct (al_of crlf F d Hok Hparsed "Age") as [_ H]; [discriminate|]. apply H. Qed.
Lemma age_snd_nodup : NoDup (map snd (find_pva (pd_pva d) "Age")).
Proof.
  apply nodup_map.
  - apply (NoDup_map_inv fst). apply sorted_keys. apply (al_of crlf F d Hok Hparsed "Age"). discriminate.
  - intros [a v] [a' v'] H H' E. cbn [snd] in E. subst v'. apply age_alias in H. apply age_alias in H'. destruct Hd as (H1 & _).
    f_equal. apply (H1 AGE a a' v v); [discriminate|exact H|exact H'|reflexivity].
Qed.
Lemma age_compiles members : age_members (find_pva (pd_pva d) "Age") = Some members -> NoDup members /\ compiles (mkE (lit "Age") members).
Proof.
  intros E. unfold age_members in E. destruct (versions (find_pva (pd_pva d) "Age")) as [l|] eqn:El; [|discriminate]. injection E as <-.
  destruct (versions_nodup _ _ El age_snd_nodup) as [Hn Hin].
  assert (Hp : Permutation (map snd (fold_right vinsert [] l)) (map snd l)) by apply Permutation_map, vsort_perm.
  assert (Hnd : NoDup (lit "Unassigned" :: map snd (fold_right vinsert [] l))).
  { constructor; [|exact (Permutation_NoDup (Permutation_sym Hp) Hn)]. intros H. apply (Permutation_in _ Hp) in H. apply Hin in H as [_ H]. apply H. reflexivity. }
  split; [exact Hnd|]. unfold compiles. rewrite declared_fst. cbn [e_members]. apply nodup_map; [exact Hnd|].
  assert (Hv : forall s, In s (map snd (fold_right vinsert [] l)) -> exists a x y, alias (f_pva F) AGE a s /\ s = version_name x y).
  { intros s Hs. apply (Permutation_in _ Hp) in Hs. destruct (Hin s Hs) as [H1 H2]. apply in_map_iff in H1 as ([a s'] & <- & H1). cbn [snd] in *.
    apply age_alias in H1. destruct (age_al crlf F d Hok Hparsed a s' (proj2 (age_alias a s') H1)) as [->|(x & y & -> & _)]; [destruct (H2 eq_refl)|]. exists a, x, y. auto. }
  assert (Hu : forall x y, sanitize (version_name x y) <> sanitize (lit "Unassigned")) by (intros x y; discriminate).
  intros s t [<-|Hs] [<-|Ht] E; [reflexivity| | |].
  - destruct (Hv t Ht) as (a & x & y & _ & ->). destruct (Hu x y (eq_sym E)).
  - destruct (Hv s Hs) as (a & x & y & _ & ->). destruct (Hu x y E).
  - destruct (Hv s Hs) as (a & x & y & Ha & _). destruct (Hv t Ht) as (a' & x' & y' & Ha' & _). destruct Hd as (H1 & _).
    assert (a = a') as <- by (apply (H1 AGE a a' s t); [discriminate|exact Ha|exact Ha'|exact E]). destruct Hok as ((_ & _ & U) & _). apply (U AGE a s t); [discriminate|exact Ha|exact Ha'].
Qed.
Lemma sset_nodup l : NoDup (sset_of l). Proof. apply sorted_nodup, sset_of_spec. Qed.
Lemma sset_in l x : In x (sset_of l) <-> In x l. Proof. apply sset_of_spec. Qed.
Lemma gc_compiles : compiles (mkE (lit "General_Category") (lit "Unspecified" :: sset_of (map r_prop (pd_gc d)))).
Proof.
  assert (Hv : forall s, In s (sset_of (map r_prop (pd_gc d))) -> exists a, alias (f_pva F) GC a s).
  { intros s Hs. apply (proj1 (sset_in _ _)) in Hs. apply in_map_iff in Hs as (r & <- & Hr). destruct (gc_prop crlf F d Hok Hparsed r Hr) as (c & a & _ & Ha). eauto. }
  destruct Hd as (H1 & _ & _ & H4 & _). unfold compiles. rewrite declared_fst. cbn [e_members map]. constructor.
  - intros H. apply in_map_iff in H as (s & E & Hs). destruct (Hv s Hs) as [a Ha]. exact (H4 a s Ha E).
  - apply nodup_map; [apply sset_nodup|]. intros s t Hs Ht E. destruct (Hv s Hs) as [a Ha]. destruct (Hv t Ht) as [a' Ha'].
    assert (a = a') as <- by (apply (H1 GC a a' s t); [discriminate|exact Ha|exact Ha'|exact E]). destruct Hok as ((_ & _ & U) & _). apply (U GC a s t); [discriminate|exact Ha|exact Ha'].
Qed.
Lemma script_in s : In s (sset_of (map r_prop (pd_scripts d))) -> exists c, gives (f_scripts F) c s.
Proof.
  intros Hs. apply (proj1 (sset_in _ _)) in Hs. apply in_map_iff in Hs as (r & <- & Hr).
  destruct (reads_word _ (f_scripts F) (proj1 (ok_file F Hok (f_scripts F) ltac:(cbn; tauto))) (r_scripts crlf F d Hok Hparsed) r Hr) as (c & Hc & _). eauto.
Qed.
Lemma script_compiles : compiles (mkE (lit "Script") (map lit ["Invalid"; "Unknown"; "Common"]%string ++ filter (fun s => negb (str_eqb s (lit "Common"))) (sset_of (map r_prop (pd_scripts d))))).
Proof.
  destruct Hd as (_ & H2 & H3 & _). unfold compiles. rewrite declared_fst. cbn [e_members]. rewrite map_app. apply nodup_app.
  - repeat (constructor; [intros H; cbn in H; repeat (destruct H as [H|H]; [discriminate H|]); destruct H|]). constructor.
  - apply nodup_map; [apply NoDup_filter, sset_nodup|]. intros s t Hs Ht E. apply filter_In in Hs as [Hs _]. apply filter_In in Ht as [Ht _].
    destruct (script_in s Hs) as [c Hc]. destruct (script_in t Ht) as [c' Hc']. exact (H3 c s c' t Hc Hc' E).
  - intros s Hs H. apply in_map_iff in H as (t & E & Ht). apply filter_In in Ht as [Ht Hne]. destruct (script_in t Ht) as [c Hc].
    destruct (H2 c t Hc) as (A & A' & A''). cbn [map In] in Hs. destruct Hs as [<-|[<-|[<-|[]]]].
    + exact (A E). + exact (A' E). + rewrite (A'' E) in Hne. discriminate Hne.
Qed.
Hypothesis HB : lines_ok st_ok B.
Lemma block_in s : In s (map r_prop (load_blocks (file_text st_text crlf B))) <-> exists l, has B l /\ is_span (st_span l) /\ st_prop l = s.
Proof.
  rewrite load_blocks_data by exact HB. rewrite map_map, in_map_iff. split.
  - intros (l & <- & Hl). apply filter_In in Hl as [Hl Hs]. exists l. split; [now apply P_UcdApi.data_in|]. split; [|reflexivity]. unfold spanb, is_span in *. destruct (st_span l); [discriminate|exact I].
  - intros (l & Hl & Hs & <-). exists l. split; [reflexivity|]. apply filter_In. split; [now apply P_UcdApi.data_in|]. unfold spanb, is_span in *. destruct (st_span l); [destruct Hs|reflexivity].
Qed.
Lemma block_compiles : compiles (mkE (lit "Block") (lit "Unspecified" :: map sanitize (sset_of (map r_prop (load_blocks (file_text st_text crlf B)))))).
Proof.
  destruct Hd as (_ & _ & _ & _ & _ & H6 & H7 & _). unfold compiles. rewrite declared_fst. cbn [e_members map]. rewrite map_map.
  rewrite (map_ext _ sanitize) by apply sanitize_idem. constructor.
  - intros H. apply in_map_iff in H as (s & E & Hs). apply (proj1 (sset_in _ _)), block_in in Hs as (l & Hl & _ & <-). exact (H6 l Hl E).
  - apply nodup_map; [apply sset_nodup|]. intros s t Hs Ht E. apply (proj1 (sset_in _ _)), block_in in Hs as (l & Hl & _ & <-). apply (proj1 (sset_in _ _)), block_in in Ht as (l' & Hl' & _ & <-).
    exact (H7 l l' Hl Hl' E).
Qed.
Lemma core_in k : In k (map fst (pd_core d)) -> exists c, gives (f_core F) c k.
Proof.
  intros H. destruct Hparsed as (_ & _ & _ & Hco & _). rewrite <- (reordered_keys _ _ Hco) in H. apply in_map_iff in H as ([k' rs] & <- & H). cbn [fst].
  pose proof (core_keys (file_text st_text crlf (f_core F))) as K. rewrite Forall_forall in K. specialize (K _ H). cbn [snd] in K. destruct rs as [|r rs]; [contradiction|].
  destruct (load_core_in crlf (f_core F) (core_ok F Hok)) as (_ & _ & G & _). destruct (proj1 (G k' r)) as (l & Hl & Hw & E & _).
  { exists (r :: rs). split; [exact H|left; reflexivity]. }
  exists (span_first (st_span l)). exists l. split; [exact Hl|]. split; [|exact E]. destruct (core_ok F Hok _ Hl) as [[Hs _] _]. destruct (st_span l); cbn in *; lia.
Qed.
Lemma core_compiles : compiles (mkE (lit "Core_Property") (map fst (pd_core d))).
Proof.
  unfold compiles. rewrite declared_fst. cbn [e_members]. apply nodup_map.
  - destruct Hparsed as (_ & _ & _ & Hco & _). rewrite <- (reordered_keys _ _ Hco). apply sorted_keys. apply (load_core_in crlf (f_core F) (core_ok F Hok)).
  - intros s t Hs Ht E. destruct (core_in s Hs) as [c Hc]. destruct (core_in t Ht) as [c' Hc']. destruct Hd as (_ & _ & _ & _ & _ & _ & _ & H8 & _). exact (H8 c s c' t Hc Hc' E).
Qed.
Lemma nodupb_ok (l : list str) : (fix nd l := match l with [] => true | x :: r => negb (existsb (str_eqb x) r) && nd r end) l = true -> NoDup l.
Proof.
  induction l as [|x l IH]; intros H; constructor; apply andb_true_iff in H as [H1 H2].
  - intros Hin. apply negb_true_iff in H1. assert (E : existsb (str_eqb x) l = true) by (apply existsb_exists; exists x; split; [exact Hin|apply str_eqb_refl]). congruence.
  - auto.
Qed.
Lemma all_compile : Forall compiles enums.
Proof.
  destruct enums_eq as (age & Een & Hage & _). rewrite Een. repeat (apply Forall_app; split).
  - constructor; [|constructor]. unfold compiles. apply nodupb_ok. vm_compute. reflexivity.
  - apply Forall_forall. intros e He. destruct (Hage e He) as (members & -> & E). now apply age_compiles.
  - apply Forall_forall. intros e He. apply in_flat_map in He as ([prop values] & Hin & He). pose proof (pva_compiles prop values Hin) as G. rewrite Forall_forall in G. exact (G e He).
  - constructor; [exact core_compiles|]. constructor; [exact gc_compiles|]. constructor; [exact script_compiles|]. constructor; [exact block_compiles|]. constructor; [|constructor].
    unfold compiles. apply nodupb_ok. vm_compute. reflexivity.
Qed.
Lemma pva_enum_names : forall m, ssorted m -> map e_name (flat_map pva_enum m) = map fst (filter (fun e => match pva_enum e with [] => false | _ => true end) m).
Proof.
  intros m _. induction m as [|[p vs] m IH]; [reflexivity|]. cbn [flat_map filter]. rewrite map_app, IH. unfold pva_enum at 1 3. destruct vs as [|x vs]; [reflexivity|].
  destruct (is_boolean (x :: vs) || elsewhere p); reflexivity.
Qed.
Lemma names_differ : NoDup (map e_name enums).
Proof.
  destruct enums_eq as (age & Een & Hage & Hlen & _). rewrite Een, !map_app.
  assert (Hs : ssorted (pd_pva d)). { destruct Hparsed as (E & _). rewrite E. apply load_pva_inv. }
  assert (Hp : forall n, In n (map e_name (flat_map pva_enum (pd_pva d))) -> ~ In n (map lit ["Plane"; "Age"; "Core_Property"; "General_Category"; "Script"; "Block"; "EastAsianWidth"]%string)).
  { intros n Hn. apply in_map_iff in Hn as (e & <- & He). apply in_flat_map in He as ([prop values] & Hin & He). destruct (pva_entry prop values Hin) as (Hb & _ & Hal).
    unfold pva_enum in He. destruct values as [|[a v] values]; [destruct He|]. assert (Ha : alias (f_pva F) prop a v) by (apply Hal; left; reflexivity).
    destruct (is_boolean _); [destruct He|]. cbn [orb] in He. destruct (elsewhere prop) eqn:Ee; [destruct He|]. destruct He as [<-|[]]. cbn [e_name].
    destruct Ha as (s & l & Hsec & Hname & _). destruct Hd as (_ & _ & _ & _ & _ & _ & _ & _ & H9). specialize (H9 s Hsec). rewrite Hname in H9. cbn [map In] in H9 |- *.
    unfold elsewhere in Ee. intros [E|[E|[E|[E|[E|[E|[E|[]]]]]]]].
    - apply H9. auto. - rewrite <- E in Ee. discriminate Ee. - apply H9. auto. - rewrite <- E in Ee. discriminate Ee. - rewrite <- E in Ee. discriminate Ee.
    - congruence. - rewrite <- E in Ee. discriminate Ee. }
  assert (Hnd : NoDup (map e_name (flat_map pva_enum (pd_pva d)))).
  { rewrite pva_enum_names by exact Hs. apply (sorted_keys (filter _ (pd_pva d))). clear -Hs. induction Hs as [|g m Hs IH Hf]; cbn [filter]; [constructor|].
    destruct (match pva_enum g with [] => false | _ :: _ => true end); [|exact IH]. constructor; [exact IH|]. apply Forall_forall. intros x Hx. apply filter_In in Hx as [Hx _].
    rewrite Forall_forall in Hf. exact (Hf x Hx). }
  assert (Hage' : map e_name age = [] \/ map e_name age = [lit "Age"]).
  { destruct Hlen as [->|[e ->]]; [auto|]. right. destruct (Hage e (or_introl eq_refl)) as (m & -> & _). reflexivity. }
  cbn [map app e_name]. constructor.
  - intros H. apply in_app_or in H as [H|H].
    + destruct Hage' as [E|E]; rewrite E in H; [destruct H|destruct H as [H|[]]; discriminate H].
    + apply in_app_or in H as [H|H]; [apply (Hp _ H); left; reflexivity|]. cbn [In] in H. repeat (destruct H as [H|H]; [discriminate H|]). destruct H.
  - apply nodup_app.
    + destruct Hage' as [E|E]; rewrite E; repeat constructor. intros [].
    + apply nodup_app; [exact Hnd|apply nodupb_ok; vm_compute; reflexivity|]. intros n Hn H. apply (Hp n Hn). cbn [map In] in H |- *. tauto.
    + intros n Hn H. assert (n = lit "Age") as ->. { destruct Hage' as [E|E]; rewrite E in Hn; [destruct Hn|destruct Hn as [Hn|[]]; auto]. }
      apply in_app_or in H as [H|H]; [apply (Hp _ H); right; left; reflexivity|]. cbn [In] in H. repeat (destruct H as [H|H]; [discriminate H|]). destruct H.
Qed.
End Db.
