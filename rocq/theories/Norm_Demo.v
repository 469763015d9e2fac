(** A small excerpt of the UCD normalization data, with proofs that it meets the hypotheses used in T_Normalize. *)
From Verif Require Import Base M_Tables M_Normalize Spec_Tables P_Tables Spec_Normalize P_Order P_Normalize P_Hangul P_Compose P_Stream.
Open Scope N_scope.

Fixpoint sortedb {A} (lt : A -> A -> bool) (l : list A) : bool :=
  match l with
  | x :: ((y :: _) as r) => lt x y && sortedb lt r
  | _ => true
  end.
Lemma sortedb_ok {A} (lt : A -> A -> bool) (P : A -> A -> Prop) l :
  (forall x y, lt x y = true -> P x y) -> (forall x y z, P x y -> P y z -> P x z) -> sortedb lt l = true -> StronglySorted P l.
Proof.
  intros H Ht Hs. apply Sorted_StronglySorted; [exact Ht|]. induction l as [|x l IH]; [constructor|].
  destruct l as [|y l]; [repeat constructor|]. cbn [sortedb] in Hs. apply andb_true_iff in Hs. destruct Hs as [H1 H2].
  constructor; [apply IH, H2|]. constructor. apply H, H1.
Qed.
Lemma sortedN_ok l : sortedb N.ltb l = true -> strictly_sorted (fun x => x) l.
Proof. apply sortedb_ok; intros; lia. Qed.

Definition nrange (a n : N) : list N := map (fun i => a + N.of_nat i) (seq 0 (N.to_nat n)).
Lemma in_nrange a n c : In c (nrange a n) <-> a <= c < a + n.
Proof.
  unfold nrange. rewrite in_map_iff. split.
  - intros [i [<- Hi]]. apply in_seq in Hi. lia.
  - intros H. exists (N.to_nat (c - a)). split; [lia|]. apply in_seq. lia.
Qed.

Definition d_ccc : list (N * N) :=
  [(0x300, 230); (0x301, 230); (0x307, 230); (0x308, 230); (0x30A, 230); (0x323, 220); (0x327, 202); (0x332, 220);
   (0x340, 230); (0x344, 230); (0x93C, 7); (0xF71, 129); (0xF72, 130); (0xF74, 132); (0x3099, 8)].
Definition d_canon : list (N * list N) :=
  [(0xC0, [0x41; 0x300]); (0xC1, [0x41; 0x301]); (0xC5, [0x41; 0x30A]); (0x340, [0x300]); (0x344, [0x308; 0x301]);
   (0x958, [0x915; 0x93C]); (0xF73, [0xF71; 0xF72]); (0x1E61, [0x73; 0x307]); (0x1E9B, [0x17F; 0x307]); (0x212B, [0xC5]);
   (0x304C, [0x304B; 0x3099])].
Definition d_compat : list (N * list N) := [(0xA0, [0x20]); (0x17F, [0x73]); (0xFB01, [0x66; 0x69]); (0xFF9E, [0x3099])].
Definition d_comp : list (N * N * N) :=
  [(0x41, 0x300, 0xC0); (0x41, 0x301, 0xC1); (0x41, 0x30A, 0xC5); (0x73, 0x307, 0x1E61); (0x17F, 0x307, 0x1E9B);
   (0x308, 0x301, 0x344); (0xF71, 0xF72, 0xF73); (0x304B, 0x3099, 0x304C)].
(** The generator loads only CompositionExclusions.txt (see C70), so non-starter decompositions stay in the composition table. *)
Definition d_excl : list N := [0x958].
Definition d_nfc_no : list N := [0x340; 0x344; 0x958; 0xF73; 0x212B].
Definition d_maybe : list N := [0x300; 0x301; 0x307; 0x308; 0x30A; 0x93C] ++ nrange 0x1161 21 ++ nrange 0x11A8 27 ++ [0x3099].
Definition d_nfkc_no : list N := [0xA0; 0x17F; 0x340; 0x344; 0x958; 0xF73; 0x1E9B; 0x212B; 0xFB01; 0xFF9E].
Definition d_nfd_lo : list N := map fst d_canon.
Definition d_nfkd_lo : list N := [0xA0; 0xC0; 0xC1; 0xC5; 0x17F; 0x340; 0x344; 0x958; 0xF73; 0x1E61; 0x1E9B; 0x212B; 0x304C].
Definition d_nfkd_hi : list N := [0xFB01; 0xFF9E].
Definition ndemo : norm_tables :=
  {| t_ccc := d_ccc; t_canon := d_canon; t_compat := d_compat; t_comp := d_comp; t_excl := d_excl;
     t_nfc_no := d_nfc_no; t_nfc_maybe := d_maybe; t_nfkc_no := d_nfkc_no; t_nfkc_maybe := d_maybe;
     t_nfd_no := d_nfd_lo ++ nrange 0xAC00 11172; t_nfkd_no := d_nfkd_lo ++ nrange 0xAC00 11172 ++ d_nfkd_hi |}.

Lemma find_nil tbl cp : find_decomposition tbl cp <> [] -> In cp (map fst tbl).
Proof.
  unfold find_decomposition. destruct (find_entry fst tbl cp) as [e|] eqn:E; [|congruence]. intros _.
  apply find_entry_sound in E. destruct E as [H <-]. apply in_map, H.
Qed.
Lemma ndemo_canon c : canonical_decomposition ndemo c <> [] -> is_hangul_syllable c = true \/ In c (map fst d_canon).
Proof.
  unfold canonical_decomposition. destruct (is_hangul_syllable c); [auto|]. intros H. right. apply find_nil, H.
Qed.
Lemma ndemo_compat c : compatibility_decomposition ndemo c <> [] -> is_hangul_syllable c = true \/ In c (map fst d_canon ++ map fst d_compat).
Proof.
  unfold compatibility_decomposition. destruct (canonical_decomposition ndemo c) eqn:E.
  - intros H. right. apply in_or_app. right. apply find_nil, H.
  - intros _. destruct (ndemo_canon c) as [H|H]; [congruence|auto|]. right. apply in_or_app. left. exact H.
Qed.
(** sources, in the order of the two tables *)
Definition d_sources : list N := Eval vm_compute in map fst d_canon ++ map fst d_compat.
Lemma nil_dec (l : list N) : {l = []} + {l <> []}.
Proof. destruct l; [left; reflexivity|right; discriminate]. Qed.

Definition rank_demo (c : N) : nat :=
  if is_hangul_syllable c then 1%nat
  else if existsb (N.eqb c) [0x212B; 0x1E9B] then 2%nat else if existsb (N.eqb c) d_sources then 1%nat else 0%nat.
Lemma existsb_in c l : In c l <-> existsb (N.eqb c) l = true.
Proof. rewrite existsb_exists. split; [intros H; exists c; split; [exact H|apply N.eqb_refl]|intros [x [H E]]; apply N.eqb_eq in E; congruence]. Qed.

Lemma ndemo_rank c x : In x (compatibility_decomposition ndemo c) -> (rank_demo x < rank_demo c)%nat.
Proof.
  intros Hx. destruct (is_hangul_syllable c) eqn:Hc.
  - assert (Hxj : In x (hangul_decompose c)).
    { unfold compatibility_decomposition, canonical_decomposition in Hx. rewrite Hc in Hx.
      destruct (hangul_decompose c) eqn:E; [|exact Hx].
      destruct (hangul_step ndemo true c Hc) as [_ Hn]. congruence. }
    apply hangul_jamos in Hxj.
    assert (Hr : 0x1100 <= x < 0x11C3).
    { unfold is_hangul_l_jamo, is_hangul_v_jamo, is_hangul_t_jamo, LBase, LCount, VBase, VCount, TBase, TCount in Hxj. lia. }
    assert (rank_demo c = 1%nat) as -> by (unfold rank_demo; rewrite Hc; reflexivity).
    assert (rank_demo x = 0%nat) as ->; [|lia].
    unfold rank_demo. assert (is_hangul_syllable x = false) as -> by (unfold is_hangul_syllable, SBase, SCount; lia).
    assert (G : forall l, forallb (fun y => (y <? 0x1100) || (0x11C3 <=? y)) l = true -> existsb (N.eqb x) l = false).
    { intros l Hl. destruct (existsb (N.eqb x) l) eqn:E; [|reflexivity]. apply existsb_in in E.
      rewrite forallb_forall in Hl. specialize (Hl x E). lia. }
    rewrite (G [0x212B; 0x1E9B]) by reflexivity. rewrite (G d_sources) by reflexivity. reflexivity.
  - assert (Hin : In c d_sources).
    { destruct (ndemo_compat c) as [H|H]; [destruct (compatibility_decomposition ndemo c); [destruct Hx|discriminate]|congruence|exact H]. }
    assert (G : forallb (fun c => forallb (fun x => (rank_demo x <? rank_demo c)%nat) (compatibility_decomposition ndemo c)) d_sources = true)
      by (vm_compute; reflexivity).
    rewrite forallb_forall in G. specialize (G c Hin). rewrite forallb_forall in G. apply Nat.ltb_lt, G, Hx.
Qed.
Lemma ndemo_acyclic : acyclic ndemo.
Proof. exists rank_demo. exact ndemo_rank. Qed.

Lemma ndemo_jamos : jamos_plain ndemo.
Proof.
  intros c Hc. destruct (nil_dec (compatibility_decomposition ndemo c)) as [H|H]; [exact H|exfalso].
  apply ndemo_compat in H.
  assert (Hr : 0x1100 <= c < 0x11C3).
  { unfold is_hangul_l_jamo, is_hangul_v_jamo, is_hangul_t_jamo, LBase, LCount, VBase, VCount, TBase, TCount in Hc. lia. }
  destruct H as [H|H]; [unfold is_hangul_syllable, SBase, SCount in H; lia|].
  assert (G : forallb (fun y => (y <? 0x1100) || (0x11C3 <=? y)) d_sources = true) by reflexivity.
  rewrite forallb_forall in G. specialize (G c H). lia.
Qed.

Lemma ccc_in tb c : canonical_combining_class tb c <> 0 -> In c (map fst (t_ccc tb)).
Proof.
  intros Hc. unfold canonical_combining_class in Hc. destruct (find_entry fst (t_ccc tb) c) as [e|] eqn:E; [|congruence].
  apply find_entry_sound in E. destruct E as [H <-]. apply in_map, H.
Qed.
Lemma ndemo_ccc_in c : canonical_combining_class ndemo c <> 0 -> In c (map fst d_ccc).
Proof. exact (ccc_in ndemo c). Qed.
Lemma ndemo_uniform : forall c x, canonical_combining_class ndemo c <> 0 -> In x (compatibility_decomposition ndemo c) ->
  canonical_combining_class ndemo x = canonical_combining_class ndemo c.
Proof.
  intros c x Hc Hx.
  pose proof (ndemo_ccc_in c Hc) as Hin.
  assert (G : forallb (fun c => forallb (fun x => canonical_combining_class ndemo x =? canonical_combining_class ndemo c)
     (compatibility_decomposition ndemo c)) (map fst d_ccc) = true) by (vm_compute; reflexivity).
  rewrite forallb_forall in G. specialize (G c Hin). rewrite forallb_forall in G. apply N.eqb_eq, G, Hx.
Qed.

Lemma ndemo_consistent : comp_consistent ndemo.
Proof.
  intros a b c H.
  assert (G : forallb (fun e => let '(a, b, c) := e in list_eqb (canonical_decomposition ndemo c) [a; b]) d_comp = true)
    by (vm_compute; reflexivity).
  rewrite forallb_forall in G. apply list_eqb_spec. exact (G _ H).
Qed.
Lemma forallb3 (p : N -> N -> N -> bool) l : forallb (fun e => let '(a, b, c) := e in p a b c) l = true ->
  forall a b c, In (a, b, c) l -> p a b c = true.
Proof. intros H a b c Hin. rewrite forallb_forall in H. exact (H (a, b, c) Hin). Qed.
Lemma ndemo_comp_starters : forallb (fun e => let '(a, b, c) := e in
  implb (canonical_combining_class ndemo a =? 0) (canonical_combining_class ndemo c =? 0)) d_comp = true.
Proof. vm_compute. reflexivity. Qed.
Lemma implb_elim a b : implb a b = true -> a = true -> b = true.
Proof. intros H ->. exact H. Qed.
Lemma ndemo_starters : comp_starters ndemo.
Proof.
  split.
  - intros a b c H Ha. apply N.eqb_eq.
    apply (implb_elim _ _ (forallb3 (fun a b c => implb (canonical_combining_class ndemo a =? 0) (canonical_combining_class ndemo c =? 0)) _ ndemo_comp_starters a b c H)).
    rewrite Ha. reflexivity.
  - intros c H. destruct (N.eq_dec (canonical_combining_class ndemo c) 0) as [E|E]; [exact E|exfalso].
    apply ndemo_ccc_in in E.
    assert (G : forallb (fun y => y <? 0xAC00) (map fst d_ccc) = true) by reflexivity.
    rewrite forallb_forall in G. specialize (G c E). unfold is_hangul_syllable, SBase, SCount in H. lia.
Qed.

Lemma nrange_sorted a n : strictly_sorted (fun x => x) (nrange a n).
Proof.
  unfold nrange, strictly_sorted. generalize (N.to_nat n) as k, 0%nat as i. clear n. induction k as [|k IH]; intros i; cbn [seq map]; constructor.
  - apply IH.
  - apply Forall_forall. intros x Hx. apply in_map_iff in Hx. destruct Hx as [j [<- Hj]]. apply in_seq in Hj. lia.
Qed.
Lemma sorted_app_N l1 l2 : strictly_sorted (fun x => x) l1 -> strictly_sorted (fun x => x) l2 ->
  (forall x y, In x l1 -> In y l2 -> x < y) -> strictly_sorted (fun x => x) (l1 ++ l2).
Proof.
  intros H1 H2 H. induction H1 as [|x l Hs IH Hx]; [exact H2|]. cbn [app]. constructor.
  - apply IH. intros; apply H; [right|]; assumption.
  - apply Forall_app. split; [exact Hx|]. apply Forall_forall. intros y Hy. apply H; [left; reflexivity|exact Hy].
Qed.
Lemma ndemo_nfd_sorted : strictly_sorted (fun x => x) (t_nfd_no ndemo).
Proof.
  cbn [t_nfd_no ndemo]. apply sorted_app_N; [apply sortedN_ok; reflexivity|apply nrange_sorted|].
  intros x y Hx Hy. apply in_nrange in Hy.
  assert (G : forallb (fun x => x <? 0xAC00) d_nfd_lo = true) by reflexivity.
  rewrite forallb_forall in G. specialize (G x Hx). lia.
Qed.
Lemma ndemo_nfkd_sorted : strictly_sorted (fun x => x) (t_nfkd_no ndemo).
Proof.
  cbn [t_nfkd_no ndemo]. apply sorted_app_N; [apply sortedN_ok; reflexivity|apply sorted_app_N; [apply nrange_sorted|apply sortedN_ok; reflexivity|]|].
  - intros x y Hx Hy. apply in_nrange in Hx.
    assert (G : forallb (fun x => 0xD7A4 <=? x) d_nfkd_hi = true) by reflexivity.
    rewrite forallb_forall in G. specialize (G y Hy). lia.
  - intros x y Hx Hy.
    assert (G : forallb (fun x => x <? 0xAC00) d_nfkd_lo = true) by reflexivity.
    rewrite forallb_forall in G. specialize (G x Hx).
    apply in_app_iff in Hy. destruct Hy as [Hy|Hy]; [apply in_nrange in Hy; lia|].
    assert (G2 : forallb (fun x => 0xD7A4 <=? x) d_nfkd_hi = true) by reflexivity.
    rewrite forallb_forall in G2. specialize (G2 y Hy). lia.
Qed.

Lemma ndemo_qc_decomp : qc_decomp_exact ndemo.
Proof.
  split; intros c.
  - unfold nfd_quick_check. rewrite negb_false_iff, (binary_search_exact _ c ndemo_nfd_sorted). cbn [t_nfd_no ndemo].
    rewrite in_app_iff, in_nrange. split.
    + intros [H|H].
      * assert (G : forallb (fun c => negb (list_eqb (canonical_decomposition ndemo c) [])) d_nfd_lo = true) by (vm_compute; reflexivity).
        rewrite forallb_forall in G. specialize (G c H). intros E. rewrite E in G. discriminate.
      * assert (Hh : is_hangul_syllable c = true) by (unfold is_hangul_syllable, SBase, SCount; lia).
        destruct (hangul_step ndemo false c Hh) as [E1 E2]. cbn [step_of] in E1. congruence.
    + intros H. apply ndemo_canon in H. destruct H as [H|H]; [right|left; exact H].
      unfold is_hangul_syllable, SBase, SCount in H. lia.
  - unfold nfkd_quick_check. rewrite negb_false_iff, (binary_search_exact _ c ndemo_nfkd_sorted). cbn [t_nfkd_no ndemo].
    rewrite !in_app_iff, in_nrange. split.
    + intros [H|[H|H]].
      * assert (G : forallb (fun c => negb (list_eqb (compatibility_decomposition ndemo c) [])) d_nfkd_lo = true) by (vm_compute; reflexivity).
        rewrite forallb_forall in G. specialize (G c H). intros E. rewrite E in G. discriminate.
      * assert (Hh : is_hangul_syllable c = true) by (unfold is_hangul_syllable, SBase, SCount; lia).
        destruct (hangul_step ndemo true c Hh) as [E1 E2]. cbn [step_of] in E1. congruence.
      * assert (G : forallb (fun c => negb (list_eqb (compatibility_decomposition ndemo c) [])) d_nfkd_hi = true) by (vm_compute; reflexivity).
        rewrite forallb_forall in G. specialize (G c H). intros E. rewrite E in G. discriminate.
    + intros H. apply ndemo_compat in H. destruct H as [H|H]; [right; left; unfold is_hangul_syllable, SBase, SCount in H; lia|].
      assert (G : forallb (fun c => existsb (N.eqb c) (d_nfkd_lo ++ d_nfkd_hi)) d_sources = true) by (vm_compute; reflexivity).
      rewrite forallb_forall in G. specialize (G c H). apply existsb_in in G. apply in_app_iff in G. tauto.
Qed.

(** what try_compose can return *)
Lemma ndemo_try a b c : try_compose ndemo a b = c -> c <> 0 -> is_hangul_syllable c = true \/ In (a, b, c) d_comp.
Proof.
  intros H Hc.
  assert (Htab : comp_search (t_comp ndemo) a b = c -> In (a, b, c) d_comp).
  { intros E. destruct (comp_search_sound _ _ _ _ E); [contradiction|assumption]. }
  unfold try_compose in H. destruct (is_hangul_l_jamo a) eqn:El.
  - destruct (is_hangul_v_jamo b) eqn:Hv; [|right; apply Htab, H].
    left. destruct (LV_decompose a b El Hv) as [_ E2]. rewrite H in E2. exact E2.
  - destruct (is_hangul_syllable a) eqn:Hs; [|right; apply Htab, H].
    destruct (((a - SBase) mod TCount =? 0) && ((TBase <=? b) && (b <? TBase + TCount))) eqn:E; [|right; apply Htab, H].
    left. apply andb_true_iff in E. destruct E as [E1 E2]. apply N.eqb_eq in E1.
    destruct (N.eq_dec b TBase) as [->|Hne].
    + rewrite N.sub_diag, N.add_0_r in H. subst c. exact Hs.
    + destruct (LVT_decompose a b Hs E1) as [_ F2]; [lia|]. rewrite H in F2. exact F2.
Qed.

Lemma d_excl_sorted : strictly_sorted (fun x => x) d_excl.
Proof. apply sortedN_ok. reflexivity. Qed.

(** second elements of the demo's compositions are all NFC/NFKC Maybe *)
Lemma ndemo_never_second c : ~ In c (map (fun e => snd (fst e)) d_comp) -> is_hangul_v_jamo c = false ->
  is_hangul_t_jamo c = false -> c <> TBase -> never_second ndemo c.
Proof.
  intros Hc Hv Ht Hb a. left.
  assert (Htab : comp_search (t_comp ndemo) a c = 0).
  { destruct (comp_search_sound (t_comp ndemo) a c _ eq_refl) as [E|E]; [exact E|exfalso].
    apply Hc. change c with (snd (fst (a, c, comp_search (t_comp ndemo) a c))). apply (in_map (fun e => snd (fst e))), E. }
  unfold try_compose. rewrite Hv. destruct (is_hangul_l_jamo a); [exact Htab|].
  destruct (is_hangul_syllable a); [|exact Htab].
  destruct (((a - SBase) mod TCount =? 0) && ((TBase <=? c) && (c <? TBase + TCount))) eqn:E; [|exact Htab].
  exfalso. unfold is_hangul_t_jamo, TBase, TCount in *. lia.
Qed.

Lemma demo_D k c : full_decomposition (step_of ndemo k) c (D ndemo rank_demo k c).
Proof. apply D_full; [exact ndemo_rank|exact ndemo_jamos]. Qed.

Lemma ndemo_nfc_comp : forallb (fun e => let '(a, b, c) := e in
  implb (existsb (N.eqb c) d_nfc_no) (negb (canonical_combining_class ndemo a =? 0))) d_comp = true.
Proof. vm_compute. reflexivity. Qed.
Lemma ndemo_nfkc_comp : forallb (fun e => let '(a, b, c) := e in
  implb (existsb (N.eqb c) d_nfkc_no) (implb (canonical_combining_class ndemo a =? 0) (a =? 0x17F))) d_comp = true.
Proof. vm_compute. reflexivity. Qed.
(** No code points of the demo cannot be recomposed. *)
Lemma ndemo_no c form : composes form = true -> cp_quick_check ndemo form c = No -> ~ recomposes ndemo (use_compat form) c.
Proof.
  intros Hf Hq.
  assert (Hd : forall k c, recomposes ndemo k c -> step_of ndemo k c = [] \/ is_composition_exclusion ndemo c = false /\
     (is_hangul_syllable c = true \/ exists a b, In (a, b, c) d_comp /\ canonical_combining_class ndemo a = 0 /\ recomposes ndemo k a)).
  { intros k c' H. inversion H; subst; [left; assumption|right]. split; [assumption|].
    match goal with H0 : try_compose _ _ _ <> 0 |- _ => destruct (ndemo_try _ _ _ eq_refl H0) as [E|E] end; [left; exact E|right; eauto 6]. }
  destruct form; try discriminate Hf; cbn [cp_quick_check use_compat] in Hq |- *.
  - unfold nfc_quick_check in Hq. destruct (binary_search (t_nfc_no ndemo) c) eqn:E; [|destruct (binary_search (t_nfc_maybe ndemo) c); discriminate].
    apply (binary_search_exact (t_nfc_no ndemo) c) in E; [|apply sortedN_ok; reflexivity].
    intros Hr. apply Hd in Hr. destruct Hr as [H|[H Hr]].
    + assert (G : forallb (fun c => negb (list_eqb (step_of ndemo false c) [])) d_nfc_no = true) by (vm_compute; reflexivity).
      rewrite forallb_forall in G. specialize (G c E). rewrite H in G. discriminate.
    + destruct Hr as [Hr|[a [b [Hr [Ha _]]]]].
      * assert (G2 : forallb (fun c => negb (is_hangul_syllable c)) d_nfc_no = true) by reflexivity.
        rewrite forallb_forall in G2. specialize (G2 c E). rewrite Hr in G2. discriminate.
      * pose proof (forallb3 (fun a b c => implb (existsb (N.eqb c) d_nfc_no) (negb (canonical_combining_class ndemo a =? 0))) _ ndemo_nfc_comp a b c Hr) as G2.
        cbv beta in G2. apply (fun h => implb_elim _ _ h (proj1 (existsb_in _ _) E)) in G2. apply negb_true_iff, N.eqb_neq in G2. contradiction.
  - unfold nfkc_quick_check in Hq. destruct (binary_search (t_nfkc_no ndemo) c) eqn:E; [|destruct (binary_search (t_nfkc_maybe ndemo) c); discriminate].
    apply (binary_search_exact (t_nfkc_no ndemo) c) in E; [|apply sortedN_ok; reflexivity].
    assert (Gs : forallb (fun c => negb (list_eqb (step_of ndemo true c) [])) d_nfkc_no = true) by (vm_compute; reflexivity).
    rewrite forallb_forall in Gs. pose proof (Gs c E) as G.
    intros Hr. apply Hd in Hr. destruct Hr as [H|[_ [H|[a [b [H [Ha0 Ha]]]]]]].
    + rewrite H in G. discriminate.
    + assert (G2 : forallb (fun c => negb (is_hangul_syllable c)) d_nfkc_no = true) by reflexivity.
      rewrite forallb_forall in G2. specialize (G2 c E). rewrite H in G2. discriminate.
    + pose proof (forallb3 (fun a b c => implb (existsb (N.eqb c) d_nfkc_no) (implb (canonical_combining_class ndemo a =? 0) (a =? 0x17F))) _ ndemo_nfkc_comp a b c H) as G2.
      cbv beta in G2. apply (fun h => implb_elim _ _ h (proj1 (existsb_in _ _) E)) in G2. apply (fun h => implb_elim _ _ h (proj2 (N.eqb_eq _ _) Ha0)) in G2.
      apply N.eqb_eq in G2. subst a.
      apply Hd in Ha. destruct Ha as [Ha|[_ [Ha|[a [b' [Ha _]]]]]]; [vm_compute in Ha; discriminate|vm_compute in Ha; discriminate|].
      cbn in Ha. repeat (destruct Ha as [Ha|Ha]; [inversion Ha|]). exact Ha.
Qed.

Lemma in_map_fst {A B} (x : A) (l : list (A * B)) : In x (map fst l) <-> exists b, In (x, b) l.
Proof. rewrite in_map_iff. split; [intros [[a b] [<- H]]; exists b; exact H|intros [b H]; exists (x, b); auto]. Qed.

(** Shape of the demo's full decompositions: starter first unless 0F73, FF9E or a mark. *)
Lemma ndemo_first k c : canonical_combining_class ndemo c = 0 -> c <> 0xF73 -> c <> 0xFF9E ->
  exists h l, full_decomposition (step_of ndemo k) c (h :: l) /\ canonical_combining_class ndemo h = 0.
Proof.
  intros Hc H1 H2. pose proof (demo_D k c) as Hd.
  destruct (is_hangul_syllable c) eqn:Hh.
  - rewrite (D_raw ndemo rank_demo ndemo_rank), Hh in Hd.
    destruct (hangul_decompose c) as [|h l] eqn:E; [destruct (hangul_step ndemo k c Hh); congruence|].
    exists h, l. split; [exact Hd|].
    destruct (N.eq_dec (canonical_combining_class ndemo h) 0) as [E0|E0]; [exact E0|exfalso].
    apply ndemo_ccc_in in E0. pose proof (hangul_jamos c h) as Hj. rewrite E in Hj. specialize (Hj (or_introl eq_refl)).
    assert (G : forallb (fun y => negb (is_hangul_l_jamo y) && negb (is_hangul_v_jamo y) && negb (is_hangul_t_jamo y)) (map fst d_ccc) = true) by reflexivity.
    rewrite forallb_forall in G. specialize (G h E0). destruct (is_hangul_l_jamo h), (is_hangul_v_jamo h), (is_hangul_t_jamo h); cbn in G; intuition discriminate.
  - destruct (nil_dec (step_of ndemo k c)) as [E|E].
    + rewrite (D_fixed ndemo rank_demo ndemo_rank k c E) in Hd. exists c, []. auto.
    + assert (Hin : In c d_sources).
      { destruct (ndemo_compat c) as [H|H]; [|congruence|exact H].
        destruct k; [exact E|]. cbn [step_of] in E. unfold compatibility_decomposition.
        destruct (canonical_decomposition ndemo c); [congruence|discriminate]. }
      assert (G : forallb (fun c => match D ndemo rank_demo k c with h :: _ => canonical_combining_class ndemo h =? 0 | [] => false end
         || negb (canonical_combining_class ndemo c =? 0) || (c =? 0xF73) || (c =? 0xFF9E)) d_sources = true)
        by (destruct k; vm_compute; reflexivity).
      rewrite forallb_forall in G. specialize (G c Hin). rewrite Hc in G. change (0 =? 0) with true in G.
      destruct (D ndemo rank_demo k c) as [|h l]; [cbn in G; lia|]. exists h, l. split; [exact Hd|]. cbn in G. lia.
Qed.

Lemma bs_true_in l c : strictly_sorted (fun x => x) l -> In c l -> binary_search l c = true.
Proof. intros H. apply (binary_search_exact l c H). Qed.

Lemma ndemo_qc_no form : composes form = true -> qc_no_exact ndemo form.
Proof.
  intros Hf. split; [intros c; apply ndemo_no, Hf|]. intros c Hc. split.
  - intros Hm. apply ndemo_ccc_in in Hm.
    assert (G : forallb (fun c => match cp_quick_check ndemo form c with No => true | _ => list_eqb (step_of ndemo (use_compat form) c) [] end) (map fst d_ccc) = true)
      by (destruct form; try discriminate; vm_compute; reflexivity).
    rewrite forallb_forall in G. specialize (G c Hm). destruct (cp_quick_check ndemo form c); [|congruence|]; apply list_eqb_spec, G.
  - intros Hz. destruct (N.eq_dec c 0xF73) as [->|H1]; [destruct form; try discriminate; exfalso; apply Hc; reflexivity|].
    destruct (N.eq_dec c 0xFF9E) as [->|H2].
    + destruct form; try discriminate; [|exfalso; apply Hc; reflexivity].
      exists 0xFF9E, []. split; [exact (demo_D false 0xFF9E)|reflexivity].
    + apply ndemo_first; assumption.
Qed.
