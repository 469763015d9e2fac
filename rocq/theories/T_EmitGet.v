(** C133: the generated sources, compiled and indexed as the library does, give every code point the properties of the UCD files. *)
From Coq Require Import String Lia.
From Verif Require Import Base M_TableGen M_PropGen M_Multistage Spec_Multistage Spec_TableGen Spec_PropGen P_PropGen8 P_PropGen9 PropGen_Demo T_Multistage T_PropGen
  Spec_Cpp Spec_Emit Spec_EmitUcd Spec_EmitMs Spec_EmitGet M_Emit M_EmitUcd M_EmitMs P_TableGen P_Emit
  P_Emit2 P_Emit3 P_Emit4 P_EmitUcd P_EmitUcd2 P_EmitUcd3 P_EmitUcd4 P_EmitMs T_Emit T_EmitMs P_EmitGet.
Open Scope N_scope.

(** ** The text of codepoint_properties_data.cpp, whatever type stage2 gets *)
Section impl.
  Variables (ns : str) (t2 : str) (b2 : N) (m : ms_src) (impl : str).
  Hypothesis Hns : exists v ts, piece LStart ns (LWord v) ts.
  Hypothesis Hq : quiet ns.
  Hypothesis H1 : bytes_ok (m_s1 m).
  Hypothesis H2 : few (m_s2 m) /\ Forall (fun x => x < 2 ^ b2) (m_s2 m).
  Hypothesis Ht : type_of_width b2 t2.
  Hypothesis H3 : few (m_recs m) /\ Forall record_ok (m_recs m).
  Definition impl_sections : list str :=
    [ms_impl_head; open_namespace ns; stage_text t8 (lit "stage1") false (m_s1 m); stage_text t2 (lit "stage2") true (m_s2 m); props_text (m_recs m); close_namespace ns].
  Hypothesis Hi : impl = concat impl_sections.
  Lemma g_s1 : local_array (stage_text t8 (lit "stage1") false (m_s1 m)) (Direct true) t8 (lit "stage1") (map (fun x => IExpr [wd x]) (m_s1 m)) /\
    all_some (unsigned 8) (map (fun x => IExpr [wd x]) (m_s1 m)) = Some (m_s1 m).
  Proof. destruct H1 as (_ & S & V). apply stage_local; [left; split; reflexivity|wlit|discriminate|exact S|exact V]. Qed.
  Lemma g_s2 : local_array (stage_text t2 (lit "stage2") true (m_s2 m)) (Direct true) t2 (lit "stage2") (map (fun x => IExpr [wd x]) (m_s2 m)) /\
    all_some (unsigned b2) (map (fun x => IExpr [wd x]) (m_s2 m)) = Some (m_s2 m).
  Proof. destruct H2 as (S & V). apply stage_local; [exact Ht|wlit|discriminate|exact S|exact V]. Qed.
  Lemma g_recs : local_array (props_text (m_recs m)) (Direct true) (lit "codepoint_properties") (lit "properties") (map rec_val (m_recs m)) /\
    all_some read_record (map rec_val (m_recs m)) = Some (m_recs m).
  Proof. destruct H3 as (S & V). apply props_local; assumption. Qed.
  Lemma sections_sound : Forall sound impl_sections.
  Proof.
    unfold impl_sections. exact (Forall_cons _ i_head_s (Forall_cons _ (holds_sound _ _ (open_text ns Hns)) (Forall_cons _ (local_sound _ _ _ _ _ (proj1 g_s1)) (Forall_cons _ (local_sound _ _ _ _ _ (proj1 g_s2))
      (Forall_cons _ (local_sound _ _ _ _ _ (proj1 g_recs)) (Forall_cons _ (close_sound ns Hq) (Forall_nil _))))))).
  Qed.
  Ltac here := unfold impl_sections; repeat first [apply in_eq | apply in_cons].
  Lemma impl_tables : has_table impl (Direct true) (lit "uint8_t") (lit "stage1") (unsigned 8) (m_s1 m) /\
    has_table impl (Direct true) t2 (lit "stage2") (unsigned b2) (m_s2 m) /\
    has_table impl (Direct true) (lit "codepoint_properties") (lit "properties") read_record (m_recs m).
  Proof.
    split; [|split]; eapply (file_table impl_sections impl sections_sound Hi).
    - shelve. - exact (proj1 g_s1). - exact (proj2 g_s1).
    - shelve. - exact (proj1 g_s2). - exact (proj2 g_s2).
    - shelve. - exact (proj1 g_recs). - exact (proj2 g_recs).
    Unshelve. all: here.
  Qed.
End impl.
Lemma some_type l : l <> [] -> exists t, minimum_type l = Some t.
Proof. destruct l as [|x r]; [congruence|]. intros _. cbn [minimum_type]. eexists. reflexivity. Qed.
Lemma stage2_type l : l <> [] -> Forall (fun x => x < 65536) l ->
  exists t b, minimum_type l = Some t /\ type_of_width b t /\ Forall (fun x => x < 2 ^ b) l /\ (t = lit "uint8_t" /\ b = 8 \/ t = lit "uint16_t" /\ b = 16).
Proof.
  intros Hn H. assert (Dec : forall x, {x < 2 ^ 8} + {~ x < 2 ^ 8}) by (intros x; destruct (x <? 2 ^ 8) eqn:E; [left; apply N.ltb_lt; exact E|right; apply N.ltb_ge in E; apply N.le_ngt; exact E]).
  destruct (Forall_Exists_dec (fun x => x < 2 ^ 8) Dec l) as [B|E].
  - exists (lit "uint8_t"), 8. split; [apply byte_type; assumption|]. split; [left; split; reflexivity|]. split; [exact B|left; split; reflexivity].
  - apply Exists_exists in E as (x & Hx & Hl). exists (lit "uint16_t"), 16. split.
    + apply (word_type l x Hx); [change (2 ^ 8) with 256 in Hl; lia|exact H].
    + split; [right; split; reflexivity|]. split; [exact H|right; split; reflexivity].
Qed.

(** ** The records *)
Lemma ident_alias F prop w v : value_names_ok F -> In prop [GC; GCB; WB; EAW; INCB; AGE] -> names_value (f_pva F) prop w v -> identifier v.
Proof. intros [_ A] Hp [H|[_ (a & H)]]; exact (A prop _ v Hp H). Qed.
Lemma valued_ident F prop G dflt v : value_names_ok F -> In prop [GC; GCB; WB; EAW; INCB; AGE] -> identifier dflt -> valued F prop G dflt v -> identifier v.
Proof. intros A Hp Hd [(w & _ & H)|[_ ->]]; [exact (ident_alias F prop w v A Hp H)|exact Hd]. Qed.
Lemma first_match_in {V} (rules : list (Prop * V)) dflt v : first_match rules dflt v -> In v (dflt :: map snd rules).
Proof.
  induction rules as [|[P x] r IH]; cbn [first_match map snd]; [intros ->; left; reflexivity|]. intros [[_ ->]|[_ H]]; [right; left; reflexivity|].
  destruct (IH H) as [E|E]; [left; exact E|right; right; exact E].
Qed.
Lemma generated_ok crlf F props c : files_ok F -> value_names_ok F -> generated_props crlf F props -> record_ok (props c).
Proof.
  intros Hok A G. pose proof (C76_values crlf F props Hok G c) as (V1 & V2 & V3 & V4 & V5 & V6 & V7). pose proof (C78_width crlf F props Hok G c) as W.
  pose proof (C79_emoji_segmentation_category crlf F props Hok G c) as E. pose proof (C77_flags crlf F props Hok G c) as Fl. cbv zeta in Fl.
  destruct Fl as (_ & _ & _ & _ & _ & _ & _ & _ & F1 & _ & F2).
  assert (P : forall x, In x [GC; GCB; WB; EAW; INCB; AGE] -> In x [GC; GCB; WB; EAW; INCB; AGE]) by auto. cbn [In] in P.
  split; [|split; [exact F1|split; [change (2 ^ 8) with 256; lia|]]].
  - apply first_match_in in W. cbn [map snd In width_rules] in W. change (2 ^ 8) with 256. lia.
  - apply Forall_cons. { destruct V1 as [V1|[_ ->]]; [exact (proj1 A c _ V1)|ident]. }
    apply Forall_cons. { eapply (valued_ident F GCB); [exact A|apply P; tauto| |exact V3]. ident. }
    apply Forall_cons. { eapply (valued_ident F EAW); [exact A|apply P; tauto| |exact V5]. ident. }
    apply Forall_cons. { destruct V2 as [(a & _ & V2)|[(_ & -> & _)|(_ & -> & _)]]; [exact (proj2 A GC a _ ltac:(apply P; tauto) V2)|ident|ident]. }
    apply Forall_cons. { apply first_match_in in E. cbn [map snd esc_rules] in E. revert E. generalize (o_esc (props c)). intros s E.
      repeat (destruct E as [<-|E]; [ident|]). destruct E. }
    apply Forall_cons. { destruct V7 as [(a & _ & V7)|[_ ->]]; [exact (proj2 A AGE a _ ltac:(apply P; tauto) V7)|ident]. }
    apply Forall_cons. { eapply (valued_ident F INCB); [exact A|apply P; tauto| |exact V6]. ident. }
    apply Forall_cons. { eapply (valued_ident F WB); [exact A|apply P; tauto| |exact V4]. ident. }
    apply Forall_nil.
Qed.

Lemma files_some ns m t2 u1 u2 : m_s1 m <> [] -> Forall (fun x => x < 2 ^ 8) (m_s1 m) -> minimum_type (m_s2 m) = Some t2 -> minimum_type (m_n1 m) = Some u1 -> minimum_type (m_n2 m) = Some u2 ->
  exists header impl names_file, ms_files ns m = Some (header, impl, names_file) /\ impl = concat (impl_sections ns t2 m).
Proof.
  intros Hn H T2 U1 U2. unfold ms_files, write_stage. rewrite (byte_type (m_s1 m) Hn H), T2, U1, U2. eexists. eexists. eexists. split; [reflexivity|].
  unfold impl_sections. cbn [concat]. rewrite app_nil_r. reflexivity.
Qed.
(** reading through the stages *)
Lemma get_indices {A} (g : gen A) c r : c <= 0x10FFFF -> get 256 0x10FFFF g c = Ok r -> exists b i, nth_error (g1 g) (N.to_nat (c / 256)) = Some b /\
  nth_error (g2 g) (N.to_nat (b * 256 + c mod 256)) = Some i /\ nth_error (g3 g) (N.to_nat i) = Some r.
Proof.
  intros Hc Hr. unfold get in Hr. destruct (N.leb_spec c 0x10FFFF) as [_|C]; [|clear -Hc C; lia]. unfold unsafe_get, at_n in Hr. change (N.of_nat 256) with 256 in Hr.
  destruct (nth_error (g1 g) (N.to_nat (c / 256))) as [b|] eqn:E1; [|discriminate Hr]. cbn [bindR] in Hr.
  destruct (nth_error (g2 g) (N.to_nat (b * 256 + c mod 256))) as [i|] eqn:E2; [|discriminate Hr]. cbn [bindR] in Hr.
  destruct (nth_error (g3 g) (N.to_nat i)) as [r'|] eqn:E3; [|discriminate Hr]. injection Hr as ->. exists b, i. auto.
Qed.
Lemma blocks_count members d : length (rec_cells members d) = (N.to_nat 4352 * 256)%nat.
Proof. rewrite P_PropGen9.cells_length. exact block_count. Qed.
Lemma blocks_pos : (0 < N.to_nat 4352)%nat.
Proof. apply Nat.neq_0_lt_0. intros E. apply (f_equal N.of_nat) in E. rewrite N2Nat.id in E. discriminate E. Qed.
Lemma stage1_ok (l : list N) : length l = N.to_nat 4352 -> Forall (fun x => x < 256) l -> bytes_ok l.
Proof.
  intros L R. split; [|split; [|exact R]].
  - intros ->. pose proof blocks_pos as P. cbn [length] in L. rewrite <- L in P. exact (Nat.nlt_0_r _ P).
  - unfold few. rewrite L, N2Nat.id. reflexivity.
Qed.

Lemma cells_in members d x : In x (rec_cells members d) -> exists c, fst x = rec_at members d c.
Proof.
  unfold rec_cells. generalize (seq 0 (N.to_nat 0x110000)). intros l H. apply in_map_iff in H as (i & <- & _). exists (N.of_nat i). reflexivity.
Qed.
Lemma records_ok crlf F d members (l : list crec) : files_ok F -> value_names_ok F -> generated_props crlf F (out_record members d) -> N.of_nat (length l) <= 65536 ->
  (forall v, In v l -> exists c, In c (rec_cells members d) /\ fst c = v) -> few (map (print_rec members d) l) /\ Forall record_ok (map (print_rec members d) l).
Proof.
  intros Hok Hnames G L R. split.
  - unfold few. rewrite map_length. eapply N.le_lt_trans; [exact L|reflexivity].
  - apply Forall_forall. intros r Hr. apply in_map_iff in Hr as (x & <- & Hx). destruct (R x Hx) as (c & Hc & <-).
    destruct (cells_in members d c Hc) as (k & ->). rewrite print_at. exact (generated_ok crlf F _ k Hok Hnames G).
Qed.
Lemma stage2_few (l : list N) : N.of_nat (length l) <= 256 * N.of_nat 256 -> few l.
Proof. intros L. unfold few. eapply N.le_lt_trans; [exact L|reflexivity]. Qed.

(** C133.  [g]: what support::generate computes; [n1 n2 names]: any stages and names of the table of names. *)
Theorem C133_sources_answer : forall crlf F d members hash parts n1 n2 names, files_ok F -> parsed crlf F d -> age_members (find_pva (pd_pva d) "Age") = Some members ->
  few_values 65536 (rec_cells members d) -> few_blocks 256 256 (rec_cells members d) -> value_names_ok F ->
  parts <> [] -> Forall identifier parts -> n1 <> [] -> n2 <> [] ->
  exists g props header impl names_file, generated_props crlf F props /\ generate crec crec_eqb hash 256 256 65536 (rec_cells members d) = Ok g /\
    ms_files (qualified parts) (mkMs (g1 g) (g2 g) (map (print_rec members d) (g3 g)) n1 n2 names) = Some (header, impl, names_file) /\
    source_answers impl props.
Proof.
  intros crlf F d members hash parts n1 n2 names Hok Hp Em Hv Hb Hnames Hparts Hids Hn1 Hn2.
  assert (G : generated_props crlf F (out_record members d)) by (exists d, members; auto).
  destruct (stage_ranges crec crec_eqb hash 256 256 65536 (rec_cells members d) (N.to_nat 4352) (Nat.lt_0_succ _) blocks_pos (blocks_count members d)
    crec_eq_ok Hv Hb) as (g & Eg & (L1 & R1) & (N2 & L2 & R2) & (L3 & R3)).
  destruct (C82_table crlf F d members hash Hok Hp Em Hv Hb) as (props & g' & Gp & Eg' & Hin & _). rewrite Eg in Eg'. injection Eg' as <-.
  set (m := mkMs (g1 g) (g2 g) (map (print_rec members d) (g3 g)) n1 n2 names).
  destruct (stage2_type (g2 g) N2 R2) as (t2 & b2 & T2 & W2 & B2 & C2). destruct (some_type n1 Hn1) as (u1 & U1). destruct (some_type n2 Hn2) as (u2 & U2).
  pose proof (stage1_ok (g1 g) L1 R1) as B1.
  pose proof (records_ok crlf F d members (g3 g) Hok Hnames G L3 R3) as Recs.
  pose proof (files_some (qualified parts) m t2 u1 u2 (proj1 B1) (proj2 (proj2 B1)) T2 U1 U2) as X.
  destruct X as (header & impl & nf & Ef & Ei). exists g, props, header, impl, nf. split; [exact Gp|]. split; [exact Eg|]. split; [exact Ef|].
  assert (F2 : few (m_s2 m) /\ Forall (fun x => x < 2 ^ b2) (m_s2 m)) by (split; [exact (stage2_few (g2 g) L2)|exact B2]).
  destruct (impl_tables (qualified parts) t2 b2 m impl (qualified_piece parts Hparts Hids) (qualified_quiet parts Hids) B1 F2 W2 Recs Ei) as (T1 & T2' & T3).
  exists (m_s1 m), (m_s2 m), (m_recs m). split; [exact T1|]. split.
  { destruct C2 as [[-> ->]|[-> ->]]; [left|right]; exact T2'. }
  split; [exact T3|]. intros c Hc. destruct (Hin c Hc) as (r & Hr & Pr). subst m. cbn [m_s1 m_s2 m_recs].
  destruct (get_indices g c r Hc Hr) as (b & i & E1 & E2 & E3).
  exists b, i. split; [exact E1|]. split; [exact E2|]. rewrite (map_nth_error _ _ _ E3), Pr. reflexivity.
Qed.
Print Assumptions C133_sources_answer.

(** The hypotheses are met by the demonstration database. *)
Definition identb (s : str) : bool := match s with [] => false | _ => forallb word_char s end.
Definition lines_of {A} (f : list (fline A)) : list A := flat_map (fun l => match l with Data x => [x] | _ => [] end) f.
Lemma has_lines {A} (f : list (fline A)) x : has f x -> In x (lines_of f).
Proof. unfold has, lines_of. intros H. apply in_flat_map. exists (Data x). split; [exact H|left; reflexivity]. Qed.
Definition value_names_okb (F : ucd_files) : bool :=
  forallb (fun l => identb (st_prop l)) (lines_of (f_scripts F)) &&
  forallb (fun s => negb (existsb (str_eqb (sec_name s)) [GC; GCB; WB; EAW; INCB; AGE]) || forallb (fun l => identb (pv_full l)) (lines_of (sec_body s))) (f_pva F).
Lemma value_names_okb_ok F : value_names_okb F = true -> value_names_ok F.
Proof.
  unfold value_names_okb. intros H. apply andb_true_iff in H. destruct H as [H1 H2]. split.
  - intros c w (l & Hl & _ & <-). rewrite forallb_forall in H1. apply ident_c. exact (H1 l (has_lines _ _ Hl)).
  - intros prop a v Hp (s & l & Hs & <- & Hl & _ & <-). rewrite forallb_forall in H2. pose proof (H2 s Hs) as X. apply orb_true_iff in X. destruct X as [X|X].
    + apply negb_true_iff in X. assert (Y : existsb (str_eqb (sec_name s)) [GC; GCB; WB; EAW; INCB; AGE] = true).
      { apply existsb_exists. exists (sec_name s). split; [exact Hp|apply str_eqb_refl]. }
      rewrite X in Y. discriminate Y.
    + rewrite forallb_forall in X. apply ident_c. exact (X l (has_lines _ _ Hl)).
Qed.
Example C133_hypotheses : value_names_ok F_demo /\ exists props impl, generated_props true F_demo props /\ source_answers impl props.
Proof.
  assert (A : value_names_ok F_demo) by (apply value_names_okb_ok; vm_compute; reflexivity). split; [exact A|].
  destruct C82_hypotheses as (H1 & H2 & H3 & H4 & H5).
  destruct (C133_sources_answer true F_demo d_demo members_demo (fun _ => 0) ns_parts [0] [0] [] H1 H2 H3 H4 H5 A ltac:(discriminate) ns_ok ltac:(discriminate) ltac:(discriminate))
    as (g & props & h & impl & nf & G & _ & _ & S). exists props, impl. split; assumption.
Qed.
