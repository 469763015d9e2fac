(** C138: every enumerator that ucd.cpp names has a value in ucd_enums.h. *)
From Coq Require Import String Permutation Sorted Lia.

From Verif Require Import Base M_TableGen M_PropGen M_UcdApi M_Emit M_EmitUcd M_Enums M_EmitEnums Spec_TableGen Spec_PropGen Spec_UcdApi Spec_Enums Spec_Cpp Spec_EmitUcd Spec_EmitEnums Spec_EmitFiles Spec_EmitFiles3
  P_TableGen P_PropGen P_PropGen2 P_PropGen5 P_UcdApi P_UcdApi3 P_Enums P_Enums2 P_Enums4 T_UcdApi T_Enums T_EmitUcd P_EmitFiles T_EmitFiles T_EmitEnums.
Open Scope N_scope.

Lemma groups_keys m m' : groups_sorted m m' -> map fst m' = map fst m.
Proof. induction 1 as [|[k1 l1] [k2 l2] m m' [E P] _ IH]; [reflexivity|]. cbn [map fst snd] in *. subst. now rewrite IH. Qed.
Lemma reordered_forth m m' k l : reordered m m' -> In (k, l) m -> exists l', In (k, l') m' /\ Permutation l l'.
Proof.
  induction 1 as [|[k1 l1] [k2 l2] m m' [E P] _ IH]; intros H; [destruct H|]. cbn [fst snd] in E, P. destruct H as [H|H].
  - injection H as <- <-. exists l2. rewrite E. split; [left; reflexivity|exact P].
  - destruct (IH H) as (l' & A & B). exists l'. split; [right; exact A|exact B].
Qed.
Lemma reordered_refl m : reordered m m.
Proof. unfold reordered. induction m as [|a m IH]; constructor; [split; reflexivity|exact IH]. Qed.
Lemma ranges_keys (us : list (str * list crange)) : map fst (map ranges_of us) = map fst (map without_comments us).
Proof. rewrite !map_map. reflexivity. Qed.
Lemma refs_in ty l i : In i l -> In (lit ty, i) (refs ty l).
Proof. intros H. unfold refs. now apply (in_map (fun i => (lit ty, i))). Qed.

Section Names.
Variables (crlf : bool) (F : ucd_files) (A : api_files) (u : ucd_src) (d : pdata) (enums : list enum_def).
Hypothesis Hok : files_ok F.
Hypothesis HA : api_files_ok F A.
Hypothesis Hl : loaded_api crlf F A u.
Hypothesis Hd : distinct_names F (ap_blocks A).
Hypothesis Hpl : plain_names F.
Hypothesis Hu : uses_names F (ap_sce A).
Hypothesis Hg : generated_enums crlf F (ap_blocks A) d enums.
Variable al : list (str * str).
Hypothesis Hal : smap_get (lit "Script") (u_pva u) = Some al.

Lemma blocks_ok : lines_ok st_ok (ap_blocks A).
Proof. destruct HA as (_ & _ & _ & _ & _ & _ & _ & (H & _) & _). exact H. Qed.
Lemma same_pva : u_pva u = pd_pva d.
Proof. destruct Hl as (-> & _), Hg as ((-> & _) & _). reflexivity. Qed.

Lemma named_declared ty id : names_in (api_of al u) ty id -> declares enums ty id.
Proof.
  intros Hn. destruct HA as ((Ef & _ & Hgs & _) & _ & _ & _ & _ & _ & _ & (HB & _) & _ & _ & Hex).
  pose proof same_pva as Ep. pose proof Hg as ((_ & Psc & (m0 & l0 & El0 & Pgc) & Rcore & _ & _ & _ & _ & Rgcb & _) & _).
  destruct Hl as (_ & (l & El & Sgc) & Score & _ & Ssc & _ & Sbr & Ssce & Ebl & _).
  rewrite Ep in El, Hal. rewrite El in El0. injection El0 as <- <-.
  assert (Psce : Permutation (map fst (u_sces u)) (load_sce (file_text st_text crlf (ap_sce A)))) by (symmetry; exact (proj1 Ssce)).
  assert (Pbl : Permutation (u_blocks u) (load_blocks (file_text st_text crlf (ap_blocks A)))) by (rewrite Ebl; apply Permutation_refl).
  assert (K := C97_ucd_api crlf F (ap_blocks A) (ap_sce A) d enums (ap_pre A) (ap_secs A) _ _ l al (map fst (u_sces u)) (u_blocks u) Hok Hpl Hex Hu Ef Hgs HB Hg
    El (reordered_refl _) Hal Psce Pbl).
  destruct Hn as [(-> & Hn)|[(-> & x & Hn)|[(-> & Hn)|[(-> & Hn)|[(-> & Hn)|[(x & Hx & Hn)|[(-> & Hn)|(-> & x & s & Hx & Hn)]]]]]]].
  - apply K. unfold ucd_refs. rewrite !in_app_iff. left. apply refs_in. destruct Hn as [->|(b & e & p & Hp & ->)]; [left; reflexivity|]. right.
    apply in_map_iff. exists (b, e, p). split; [symmetry; exact (identifier_sanitize p)|exact Hp].
  - apply K. unfold ucd_refs. rewrite !in_app_iff. right; left. apply refs_in.
    assert (X : In id (map fst (map without_comments (u_core u)))) by (rewrite <- ranges_keys; exact (in_map fst _ _ Hn)).
    rewrite (groups_keys _ _ Score) in X. rewrite (reordered_keys _ _ Rcore) in X. exact X.
  - apply K. unfold ucd_refs. rewrite !in_app_iff. right; right; left. apply refs_in. destruct Hn as [->|[(b & e & Hn)|(x & Hn)]]; [left; reflexivity| |]; right; apply in_or_app.
    + left. apply in_map_iff. exists (b, e, id). split; [reflexivity|]. apply (Permutation_in _ (Permutation_sym Pgc)). exact (sorted_in _ _ _ Sgc Hn).
    + right. rewrite <- ranges_keys. exact (in_map fst _ _ Hn).
  - apply K. unfold ucd_refs. rewrite !in_app_iff. right; right; right; left. apply refs_in. destruct Hn as [->|[(b & e & Hn)|(x & vs & Hn & Hi)]]; [left; reflexivity| |]; right; apply in_or_app.
    + left. apply in_map_iff. exists (b, e, id). split; [reflexivity|]. apply (Permutation_in _ (Permutation_sym Psc)). exact (sorted_in _ _ _ Ssc Hn).
    + right. apply in_flat_map. exists (x, vs). split; [exact Hn|exact Hi].
  - apply K. unfold ucd_refs. rewrite !in_app_iff. right; right; right; right; left. apply refs_in. destruct Hn as [->|(b & e & Hn)]; [left; reflexivity|]. right.
    apply in_map_iff in Hn as (r & E & Hr). injection E as _ <-. apply in_map_iff. exists r. split; [reflexivity|exact Hr].
  - apply K. unfold ucd_refs. rewrite !in_app_iff. right; right; right; right; right; left.
    assert (Hx' : In (ty, x) (map without_comments (u_breaks u))) by exact Hx.
    destruct (sorted_groups_in _ _ _ _ Sbr Hx') as (l1 & H1 & S1). destruct (reordered_forth _ _ _ _ Rgcb H1) as (l2 & H2 & P2).
    apply in_flat_map. exists (ty, l2). split; [exact H2|]. cbn [fst snd]. destruct Hn as [->|(b & e & Hn)]; [left; reflexivity|]. right.
    apply in_map_iff. exists (b, e, id). split; [reflexivity|]. apply (Permutation_in _ P2). exact (sorted_in _ _ _ S1 Hn).
  - apply K. unfold ucd_refs. rewrite !in_app_iff. right; right; right; right; right; right; left. apply refs_in. apply in_or_app. left.
    destruct Hn as [->|(b & e & Hn)]; [cbn [map In]; tauto|]. apply in_map_iff in Hn as (r & E & _). injection E as _ <-. apply width_name_in.
  - apply K. unfold ucd_refs. rewrite !in_app_iff. right; right; right; right; right; right; right. apply refs_in.
    unfold api_of in Hx. cbn [a_ages] in Hx. rewrite Ep in Hx. unfold find_pva. destruct (smap_get (lit "Age") (pd_pva d)) as [ages|]; [|discriminate Hx]. injection Hx as <-.
    apply filter_In in Hn as [Hn Hs]. apply filter_In. split; [exact (in_map snd _ _ Hn)|exact Hs].
Qed.
End Names.

(** C138.  ucd.cpp and ucd_enums.h are generated from the same files: every enumerator that the former names is defined in the latter, with one value. *)
Theorem C138_ucd_cpp_compiles : forall crlf F A u d enums, files_ok F -> api_files_ok F A -> names_ok F A -> sizes_ok F A -> loaded_api crlf F A u -> comments_ok u ->
  generated_enums crlf F (ap_blocks A) d enums -> distinct_names F (ap_blocks A) -> plain_names F -> uses_names F (ap_sce A) -> spellable_names F (ap_blocks A) ->
  (forall e, In e enums -> few (e_members e)) ->
  exists cpp a, ucd_cpp_text u = Some cpp /\ ucd_cpp_denotes cpp a /\
    forall ty id, names_in a ty id -> exists bits vals v, defines_enum (enums_h enums) ty bits vals /\ In (id, v) vals /\ NoDup (map fst vals).
Proof.
  intros crlf F A u d enums Hok HA Hn Hs Hl Hc Hg Hd Hpl Hu Hsp Hf.
  destruct (C136_ucd_cpp_answers crlf F A u Hok HA Hn Hs Hl Hc) as (cpp & E & _).
  destruct (smap_get (lit "Script") (u_pva u)) as [al|] eqn:Hal.
  - exists cpp, (api_of al u). split; [exact E|]. split; [exact (C131_text_denotes_partial u al cpp Hal E (files_fit crlf F A u Hok HA Hn Hs Hl Hc))|].
    intros ty id H. destruct (named_declared crlf F A u d enums Hok HA Hl Hpl Hu Hg al Hal ty id H) as (e & He & <- & Hi).
    destruct (C134_headers crlf F (ap_blocks A) d enums Hok (blocks_ok F A HA) Hd Hg Hsp Hf) as (_ & _ & _ & K). destruct (K e He) as (Hnd & (bits & _ & D) & _).
    apply in_map_iff in Hi as ([x v] & <- & Hv). exists bits, (values (e_members e)), v. split; [exact D|]. split; [exact Hv|exact Hnd].
  - exfalso. unfold ucd_cpp_text in E. rewrite Hal in E. discriminate E.
Qed.
Print Assumptions C138_ucd_cpp_compiles.

From Verif Require Import TableGen_Demo PropGen_Demo UcdApi_Demo Enums_Demo.
(** the hypotheses are met; one of the names *)
Example C138_hypotheses : (files_ok F3_demo /\ api_files_ok F3_demo A_demo /\ names_ok F3_demo A_demo /\ sizes_ok F3_demo A_demo /\ loaded_api true F3_demo A_demo u_demo /\ comments_ok u_demo) /\
  generated_enums true F3_demo (ap_blocks A_demo) d3_demo enums_demo /\ distinct_names F3_demo (ap_blocks A_demo) /\ plain_names F3_demo /\ uses_names F3_demo (ap_sce A_demo) /\
  spellable_names F3_demo (ap_blocks A_demo) /\ (forall e, In e enums_demo -> few (e_members e)) /\
  exists al, smap_get (lit "Script") (u_pva u_demo) = Some al /\ names_in (api_of al u_demo) (lit "Block") (lit "Latin_1_Supplement").
Proof.
  destruct C134_hypotheses as (S1 & S2 & _). split; [exact C136_hypotheses|]. split; [exact enums_demo_ok|]. split; [exact F3_distinct|]. split; [exact F3_plain|]. split; [exact F3_uses|].
  split; [exact S1|]. split; [exact S2|]. destruct script_aliases_demo as [al Hal]. exists al. split; [exact Hal|]. right; right; right; right; left. split; [reflexivity|]. right.
  exists 0x80, 0xFF. vm_compute. tauto.
Qed.
