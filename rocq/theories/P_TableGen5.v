(** Consequences for normalization and case mapping. *)
From Coq Require Import Ascii String Permutation Sorted.
From Verif Require Import Base M_Tables M_Normalize M_Case M_TableGen Spec_Tables Spec_TableGen Spec_Case Spec_Normalize P_Tables P_Case P_Compose P_Order P_Normalize P_Hangul
  P_TableGen P_TableGen2 P_TableGen3 P_TableGen4.
Open Scope N_scope.

Section Files.
Variables (crlf : bool) (ud : list (fline udline)) (ex : list (fline exline)) (np : list (fline npline)).
Hypothesis Hfiles : norm_files_ok ud ex np.
Variable tb : norm_tables.
Hypothesis Hgen : generated_norm crlf ud ex np tb.

Lemma has_line c : (exists u, has ud u /\ ul_cp u = c) \/ (forall u, has ud u -> ul_cp u <> c).
Proof.
  clear - ud. unfold has. induction ud as [|l f IH]; [right; intros u []|]. destruct IH as [[u [H E]]|H]; [left; exists u; split; [right; exact H|exact E]|].
  destruct l as [u|s|s]; [|right; intros u [X|X]; [discriminate|exact (H u X)]|right; intros u [X|X]; [discriminate|exact (H u X)]].
  destruct (N.eq_dec (ul_cp u) c) as [E|E]; [left; exists u; split; [left; reflexivity|exact E]|].
  right. intros v [X|X]; [inversion X; subst; exact E|exact (H v X)].
Qed.
Lemma starter_ccc c : starter ud c <-> canonical_combining_class tb c = 0.
Proof.
  split.
  - intros H. destruct (has_line c) as [[u [Hu <-]]|Hn]; [|apply (gen_ccc_none crlf ud ex np Hfiles tb Hgen), Hn].
    rewrite (gen_ccc crlf ud ex np Hfiles tb Hgen u Hu). apply H; auto.
  - intros H u Hu <-. rewrite <- (gen_ccc crlf ud ex np Hfiles tb Hgen u Hu). exact H.
Qed.
Lemma step_line c l : is_hangul_syllable c = false -> compatibility_decomposition tb c = l -> l <> [] -> exists u t, has ud u /\ ul_cp u = c /\ ul_dec u = Some (t, l).
Proof.
  intros Hh E Hne. destruct (has_line c) as [[u [Hu <-]]|Hn].
  - rewrite (gen_compat crlf ud ex np Hfiles tb Hgen u Hu Hh) in E. exists u. destruct (ul_dec u) as [[t l']|]; [|congruence]. exists t. subst. auto.
  - destruct (gen_dec_none crlf ud ex np Hfiles tb Hgen c Hn Hh) as [_ E']. congruence.
Qed.
Lemma data_ready : norm_data_ok ud ex np -> acyclic tb /\ jamos_plain tb /\ comp_consistent tb /\ comp_starters tb.
Proof.
  intros [D1 [D2 [[rank D3] D4]]].
  assert (Hjh : forall c, is_hangul_l_jamo c = true \/ is_hangul_v_jamo c = true \/ is_hangul_t_jamo c = true -> is_hangul_syllable c = false).
  { intros c. unfold is_hangul_l_jamo, is_hangul_v_jamo, is_hangul_t_jamo, is_hangul_syllable, LBase, VBase, TBase, SBase, LCount, VCount, TCount, SCount. lia. }
  assert (J : jamos_plain tb).
  { intros c Hc. pose proof (Hjh c Hc) as Hh. destruct (compatibility_decomposition tb c) as [|x l] eqn:E; [reflexivity|].
    destruct (step_line c (x :: l) Hh E) as [u [t [Hu [Hcp Hd]]]]; [discriminate|]. subst c. rewrite (D2 u Hu Hc) in Hd. discriminate. }
  split; [|split; [exact J|split]].
  - exists (fun c => if is_hangul_l_jamo c || is_hangul_v_jamo c || is_hangul_t_jamo c then 0%nat else S (rank c)). intros c x Hx.
    destruct (is_hangul_syllable c) eqn:Hh.
    + assert (Ec : compatibility_decomposition tb c = hangul_decompose c).
      { unfold compatibility_decomposition, canonical_decomposition. rewrite Hh. destruct (hangul_decompose c) eqn:E; [|reflexivity].
        unfold hangul_decompose in E. rewrite Hh in E. cbn [negb] in E. destruct (0 <? (c - SBase) mod TCount); discriminate E. }
      rewrite Ec in Hx. pose proof (hangul_jamos c x Hx) as Hj.
      assert (Hcj : is_hangul_l_jamo c || is_hangul_v_jamo c || is_hangul_t_jamo c = false).
      { destruct (is_hangul_l_jamo c || is_hangul_v_jamo c || is_hangul_t_jamo c) eqn:E; [|reflexivity].
        apply orb_true_iff in E. rewrite orb_true_iff in E. rewrite Hjh in Hh; [discriminate|tauto]. }
      rewrite Hcj. destruct Hj as [->|[->| ->]]; rewrite ?orb_true_r; cbn [orb]; lia.
    + destruct (step_line c _ Hh eq_refl) as [u [t [Hu [Hcp Hd]]]]; [intros E; rewrite E in Hx; destruct Hx|]. subst c.
      pose proof (D3 u t _ x Hu Hd Hx) as Hr.
      assert (Hcj : is_hangul_l_jamo (ul_cp u) || is_hangul_v_jamo (ul_cp u) || is_hangul_t_jamo (ul_cp u) = false).
      { destruct (is_hangul_l_jamo (ul_cp u) || is_hangul_v_jamo (ul_cp u) || is_hangul_t_jamo (ul_cp u)) eqn:E; [|reflexivity].
        apply orb_true_iff in E. rewrite orb_true_iff in E. rewrite (D2 u Hu) in Hd; [discriminate|tauto]. }
      cbv beta. rewrite Hcj. clear - Hr. destruct (is_hangul_l_jamo x || is_hangul_v_jamo x || is_hangul_t_jamo x); lia.
  - intros a b c H. apply (tcomp_in crlf ud ex np Hfiles tb Hgen) in H. destruct H as [[u [Hu [<- Hd]]] _].
    rewrite (gen_canon crlf ud ex np Hfiles tb Hgen u Hu); [rewrite Hd; reflexivity|].
    destruct (is_hangul_syllable (ul_cp u)) eqn:E; [|reflexivity]. destruct (D1 u Hu E) as [X _]. congruence.
  - split.
    + intros a b c H Ha. apply (tcomp_in crlf ud ex np Hfiles tb Hgen) in H. apply starter_ccc. apply (D4 a b c H). apply starter_ccc, Ha.
    + intros c Hh. apply starter_ccc. intros u Hu <-. apply (D1 u Hu Hh).
Qed.
Lemma gen_excluded c : is_composition_exclusion tb c = true <-> listed ex c \/ bare_exclusion np c.
Proof.
  destruct Hfiles as [_ [_ [He Hn]]]. destruct (excl_set crlf ex np He Hn) as [A B].
  unfold is_composition_exclusion. destruct Hgen as [s [_ [_ ->]]]. cbn [gen_norm t_excl]. rewrite binary_search_exact by exact A. apply B.
Qed.
End Files.

(** ** Loading the commented exclusions would not change normalization *)
Lemma loop_same tb tb' : (forall c, canonical_combining_class tb c = canonical_combining_class tb' c) -> comp_starters tb ->
  (forall st cp, canonical_combining_class tb st = 0 -> try_compose tb st cp = try_compose tb' st cp) ->
  (forall st cp, canonical_combining_class tb st = 0 -> try_compose tb st cp <> 0 -> is_composition_exclusion tb (try_compose tb st cp) = is_composition_exclusion tb' (try_compose tb st cp)) ->
  forall text rr st last, canonical_combining_class tb st = 0 -> compose_loop tb text rr st last = compose_loop tb' text rr st last.
Proof.
  intros Hc Hs Ht He. induction text as [|cp rest IH]; intros rr st last Hst; [reflexivity|]. cbn [compose_loop]. rewrite <- Hc, <- Ht by exact Hst.
  set (composed := if (last <? canonical_combining_class tb cp) || (last =? 0) then try_compose tb st cp else 0).
  assert (E : negb (composed =? 0) && negb (is_composition_exclusion tb composed) = negb (composed =? 0) && negb (is_composition_exclusion tb' composed)).
  { destruct (N.eqb_spec composed 0) as [|Hne]; [reflexivity|]. cbn [negb andb]. f_equal. subst composed.
    destruct ((last <? canonical_combining_class tb cp) || (last =? 0)); [apply He; assumption|congruence]. }
  rewrite <- E. destruct (negb (composed =? 0) && negb (is_composition_exclusion tb composed)) eqn:G.
  - apply IH. apply andb_true_iff in G. destruct G as [G _]. apply negb_true_iff, N.eqb_neq in G. subst composed.
    destruct ((last <? canonical_combining_class tb cp) || (last =? 0)); [|congruence]. apply (try_compose_starter tb Hs st cp _ eq_refl G Hst).
  - destruct (N.eqb_spec (canonical_combining_class tb cp) 0); apply IH; assumption.
Qed.
Lemma has_uncomment np n : has (map uncomment np) n <-> exists n0, has np n0 /\ Data n = uncomment (Data n0).
Proof.
  unfold has. rewrite in_map_iff. split.
  - intros [[n0|s|s] [E H]]; try discriminate. exists n0. split; [exact H|congruence].
  - intros [n0 [H E]]. exists (Data n0). split; [congruence|exact H].
Qed.
Lemma uncomment_ok np : lines_ok np_ok np -> lines_ok np_ok (map uncomment np).
Proof.
  intros H l Hl. apply in_map_iff in Hl. destruct Hl as [l0 [<- Hl]]. specialize (H l0 Hl). destruct l0 as [n|s|s]; cbn [uncomment]; [|exact I|exact H].
  destruct (str_eqb (nl_prop n) FCE); exact H.
Qed.
Lemma bare_uncomment np c : bare_exclusion (map uncomment np) c <-> exists n, has np n /\ nl_prop n = FCE /\ covers (nl_span n) c.
Proof.
  unfold bare_exclusion. split.
  - intros [n [H [Hp [_ Hc]]]]. apply has_uncomment in H. destruct H as [n0 [H0 E]]. exists n0. cbn [uncomment] in E. injection E as E. split; [exact H0|].
    destruct (str_eqb (nl_prop n0) FCE) eqn:Es; subst n; cbn in Hp, Hc; auto.
  - intros [n [H [Hp Hc]]]. exists (mkNl (nl_span n) (nl_gap n) (nl_prop n) (nl_value n) (nl_gap' n) None). cbn. split; [|auto].
    apply has_uncomment. exists n. split; [exact H|]. cbn [uncomment]. rewrite Hp, str_eqb_refl. reflexivity.
Qed.
Lemma bare_weaker np c : bare_exclusion np c -> bare_exclusion (map uncomment np) c.
Proof. intros [n [H [Hp [_ Hc]]]]. apply bare_uncomment. eauto. Qed.

Section Unaffected.
Variables (crlf : bool) (ud : list (fline udline)) (ex : list (fline exline)) (np : list (fline npline)).
Hypothesis Hfiles : norm_files_ok ud ex np.
Hypothesis Hdata : norm_data_ok ud ex np.
Hypothesis Hder : exclusions_derived ud ex np.
Hypothesis Huniq : composites_unique ud ex np.
Variables tb tb' : norm_tables.
Hypothesis Hgen : generated_norm crlf ud ex np tb.
Hypothesis Hgen' : generated_norm crlf ud ex (map uncomment np) tb'.
Lemma files' : norm_files_ok ud ex (map uncomment np).
Proof. destruct Hfiles as [A [B [C D]]]. repeat split; try assumption. apply uncomment_ok, D. Qed.
Lemma uniq' : composites_unique ud ex (map uncomment np).
Proof.
  intros a b c c' [H1 [H2 H3]] [G1 [G2 G3]]. apply (Huniq a b); (split; [assumption|split; [assumption|]]); intros X; [apply H3|apply G3]; apply bare_weaker, X.
Qed.
Lemma composite_starter a b c : starter ud a -> composite ud ex np a b c <-> composite ud ex (map uncomment np) a b c.
Proof.
  intros Hs. split; intros [H1 [H2 H3]]; (split; [exact H1|split; [exact H2|]]).
  - intros X. apply bare_uncomment in X. destruct X as [n [Hn [Hp Hc]]]. destruct (Hder n c Hn Hp Hc) as [G|[_ G]]; [contradiction|].
    destruct H1 as [u [Hu [Hcp Hd]]]. exact (G u a b Hu Hcp Hd Hs).
  - intros X. apply H3, bare_weaker, X.
Qed.
Lemma search_same a b : canonical_combining_class tb a = 0 -> comp_search (t_comp tb) a b = comp_search (t_comp tb') a b.
Proof.
  intros Ha. apply (starter_ccc crlf ud ex np Hfiles tb Hgen) in Ha.
  assert (Hin : forall c, In (a, b, c) (t_comp tb) <-> In (a, b, c) (t_comp tb')).
  { intros c. rewrite (tcomp_in crlf ud ex np Hfiles tb Hgen), (tcomp_in crlf ud ex _ files' tb' Hgen'). apply composite_starter, Ha. }
  pose proof (gen_comp_sorted crlf ud ex np Hfiles tb Hgen Huniq) as S1. pose proof (gen_comp_sorted crlf ud ex _ files' tb' Hgen' uniq') as S2.
  destruct (comp_search_sound (t_comp tb) a b _ eq_refl) as [E|E].
  - destruct (comp_search_sound (t_comp tb') a b _ eq_refl) as [E'|E']; [congruence|]. apply Hin in E'. rewrite (comp_search_complete _ _ _ _ S1 E'). reflexivity.
  - apply Hin in E. rewrite (comp_search_complete _ _ _ _ S2 E). reflexivity.
Qed.
Lemma tb'_ccc c : canonical_combining_class tb c = canonical_combining_class tb' c.
Proof. unfold canonical_combining_class. rewrite (tb_ccc_eq crlf ud ex np tb Hgen), (tb_ccc_eq crlf ud ex _ tb' Hgen'). reflexivity. Qed.
Lemma hangul_not_excluded c : is_hangul_syllable c = true -> is_composition_exclusion tb c = is_composition_exclusion tb' c.
Proof.
  intros Hh. pose proof (gen_excluded crlf ud ex np Hfiles tb Hgen c) as E1. pose proof (gen_excluded crlf ud ex _ files' tb' Hgen' c) as E2.
  rewrite bare_uncomment in E2.
  destruct (is_composition_exclusion tb c) eqn:X1, (is_composition_exclusion tb' c) eqn:X2; try reflexivity; exfalso.
  - assert (X : false = true); [|discriminate]. apply E2. destruct (proj1 E1 eq_refl) as [G|[n [A [B [_ D]]]]]; [left; exact G|right; eauto].
  - assert (X : false = true); [|discriminate]. apply E1. destruct (proj1 E2 eq_refl) as [G|[n [A [B D]]]]; [left; exact G|].
    destruct (Hder n c A B D) as [G|[G _]]; [left; exact G|congruence].
Qed.
Lemma normalize_same fuel text form : normalize tb fuel text form = normalize tb' fuel text form.
Proof.
  destruct (data_ready crlf ud ex np Hfiles tb Hgen Hdata) as [_ [_ [_ Hst]]].
  assert (Ht : forall st cp, canonical_combining_class tb st = 0 -> try_compose tb st cp = try_compose tb' st cp).
  { intros st cp Hs. unfold try_compose. rewrite (search_same st cp Hs). reflexivity. }
  assert (He : forall st cp, canonical_combining_class tb st = 0 -> try_compose tb st cp <> 0 ->
     is_composition_exclusion tb (try_compose tb st cp) = is_composition_exclusion tb' (try_compose tb st cp)).
  { intros st cp Hs Hne.
    assert (Htab : try_compose tb st cp = comp_search (t_comp tb) st cp -> is_composition_exclusion tb (try_compose tb st cp) = is_composition_exclusion tb' (try_compose tb st cp)).
    { intros E. rewrite E in Hne |- *. destruct (comp_search_sound (t_comp tb) st cp _ eq_refl) as [X|X]; [contradiction|].
      apply (tcomp_in crlf ud ex np Hfiles tb Hgen) in X.
      pose proof (proj1 (composite_starter _ _ _ (proj2 (starter_ccc crlf ud ex np Hfiles tb Hgen st) Hs)) X) as X'.
      destruct X as [_ [N1 N2]], X' as [_ [_ N3]].
      pose proof (gen_excluded crlf ud ex np Hfiles tb Hgen (comp_search (t_comp tb) st cp)) as E1.
      pose proof (gen_excluded crlf ud ex _ files' tb' Hgen' (comp_search (t_comp tb) st cp)) as E2.
      destruct (is_composition_exclusion tb _); [destruct (proj1 E1 eq_refl); contradiction|].
      destruct (is_composition_exclusion tb' _); [destruct (proj1 E2 eq_refl); contradiction|reflexivity]. }
    unfold try_compose in Htab, Hne |- *. destruct (is_hangul_l_jamo st) eqn:Hl.
    - destruct (is_hangul_v_jamo cp) eqn:Hv; [|apply Htab; reflexivity]. apply hangul_not_excluded. apply (LV_decompose st cp Hl Hv).
    - destruct (is_hangul_syllable st) eqn:Hh; [|apply Htab; reflexivity].
      destruct (((st - SBase) mod TCount =? 0) && ((TBase <=? cp) && (cp <? TBase + TCount))) eqn:E; [|apply Htab; reflexivity].
      apply hangul_not_excluded. apply andb_true_iff in E. destruct E as [E1 E2]. apply N.eqb_eq in E1. destruct (N.eq_dec cp TBase) as [->|Hcp].
      + rewrite N.sub_diag, N.add_0_r. exact Hh.
      + destruct (LVT_decompose st cp Hh E1) as [_ F2]; [lia|exact F2]. }
  assert (Hdec : forall compat t, decompose_all tb fuel compat t = decompose_all tb' fuel compat t).
  { destruct Hgen as [s [_ [_ ->]]]. destruct Hgen' as [s' [_ [_ ->]]]. intros compat t. reflexivity. }
  assert (Hord : forall t, canonical_order tb t = canonical_order tb' t).
  { clear - Hgen Hgen'. destruct Hgen as [s [_ [_ ->]]]. destruct Hgen' as [s' [_ [_ ->]]]. intros t. reflexivity. }
  assert (Hcomp : forall t, compose tb t = compose tb' t).
  { intros t. unfold compose. generalize (@nil N) as rr. induction t as [|cp t IH]; intros rr; [reflexivity|]. cbn [compose_lead]. rewrite <- tb'_ccc.
    destruct (N.eqb_spec (canonical_combining_class tb cp) 0); cbn [negb]; [|apply IH]. apply loop_same; try assumption. apply tb'_ccc. }
  unfold normalize. destruct text as [|c0 text]; [reflexivity|]. rewrite Hdec. destruct (decompose_all tb' fuel (use_compat form) (c0 :: text)); [|reflexivity|reflexivity].
  cbn [bindR]. rewrite Hord, Hcomp. reflexivity.
Qed.
End Unaffected.
