(** C42, C43: quick_check and is_normalized for the composing forms, exactly. *)
From Coq Require Import Sorted Permutation.
From Verif Require Import Base M_Tables M_Normalize Spec_Tables Spec_Normalize P_Tables P_Order P_Normalize P_Hangul P_Compose P_Compose2 P_Stream P_QcYes
  Norm_Demo T_Normalize T_Compose.
Open Scope N_scope.

(** C42. When quick_check answers Yes, the text is its own composition by the algorithm of the Standard: the answer is right. *)
Theorem C42_yes_is_standard : forall tb, acyclic tb -> jamos_plain tb -> comp_ready tb -> comp_starters tb ->
  forall formC formD, (formC = NFC /\ formD = NFD) \/ (formC = NFKC /\ formD = NFKD) -> qc_yes_exact tb formC ->
  forall s n, ~ In TBase s -> normalizes tb formD s n -> ~ In TBase n -> quick_check tb s formC = Yes ->
  recomposed tb [] n s /\ (forall t, recomposed tb [] n t -> t = s).
Proof.
  intros tb [rank Hr] Hj HR Hst fc fd Hf Hq s n Hb Hn Hbn Hy. apply (normalizes_NF tb rank Hr) in Hn.
  assert (E : exists k, use_compat fc = k /\ use_compat fd = k /\ composes fc = true /\ composes fd = false).
  { destruct Hf as [[-> ->]|[-> ->]]; eexists; repeat split; reflexivity. }
  destruct E as [k [E1 [E2 [E3 E4]]]]. unfold NF in Hn. rewrite E2, E4 in Hn.
  assert (G : recomposed tb [] n s).
  { subst n. subst k. apply (yes_recomposed tb HR Hst rank fc).
    - pose proof (qc_loop_yes tb fc s Yes 0 Hy) as Hall. rewrite Forall_forall in Hall. apply Forall_forall. intros c Hc.
      destruct (Hq c (Hall c Hc)) as (Q1 & Q2); [intros ->; contradiction|]. split.
      + intros Hz. destruct (Q1 Hz) as (A & B). split; [|exact B]. apply (D_fixed tb rank Hr); exact A.
      + intros Hz. destruct (Q2 Hz) as (Hself & h & l & Fd & Hh & Hnh). exists h, l.
        pose proof (full_D tb rank Hr Hj _ _ _ Fd) as ED.
        split; [symmetry; exact ED|]. split; [exact Hh|]. split; [exact Hnh|].
        apply (normalizes_NF tb rank Hr) in Hself. unfold NF in Hself. cbn [flat_map] in Hself. rewrite app_nil_r, E3, <- ED in Hself. symmetry. exact Hself.
    - destruct (qc_loop_ok tb fc s Yes 0) as (_ & S0 & _); [unfold quick_check in Hy; congruence|exact S0].
    - exact Hbn. }
  split; [exact G|]. intros t T. exact (recomposed_fun tb HR n Hbn [] t s T G).
Qed.
(** What normalize then returns is the text with its starters displaced behind their marks: Yes is right about the text, and agrees with
    the library's own normalize exactly when no mark follows a starter. *)
Theorem C42_yes_exact_partial : forall tb, acyclic tb -> jamos_plain tb -> comp_ready tb -> comp_starters tb ->
  forall formC formD, (formC = NFC /\ formD = NFD) \/ (formC = NFKC /\ formD = NFKD) -> qc_yes_exact tb formC ->
  forall s n, ~ In TBase s -> normalizes tb formD s n -> ~ In TBase n -> quick_check tb s formC = Yes ->
  normalizes tb formC s (displaced tb s) /\
  (normalizes tb formC s s <-> exists marks starters, s = marks ++ starters /\
     Forall (fun x => canonical_combining_class tb x <> 0) marks /\ Forall (fun x => canonical_combining_class tb x = 0) starters).
Proof.
  intros tb Ha Hj HR Hst fc fd Hf Hq s n Hb Hn Hbn Hy.
  destruct (C42_yes_is_standard tb Ha Hj HR Hst fc fd Hf Hq s n Hb Hn Hbn Hy) as (G & _).
  destruct (C40_exact_partial tb Ha HR Hst fc fd Hf s n Hn Hbn) as (t & _ & T2 & T3 & T4).
  rewrite <- (T2 s G) in T3, T4. split; [exact T3|exact T4].
Qed.
(** C43, the same for is_normalized: true is wrong about the library's normalize exactly when quick_check decided it and a mark follows a
    starter; by the Standard true is right in that case too. *)
Theorem C43_true_exact_partial : forall tb, acyclic tb -> jamos_plain tb -> comp_ready tb -> comp_starters tb ->
  forall formC formD, (formC = NFC /\ formD = NFD) \/ (formC = NFKC /\ formD = NFKD) -> qc_yes_exact tb formC ->
  forall s n, ~ In TBase s -> normalizes tb formD s n -> ~ In TBase n -> normalized_check tb formC s true ->
  (normalizes tb formC s s <-> quick_check tb s formC = Maybe \/ exists marks starters, s = marks ++ starters /\
     Forall (fun x => canonical_combining_class tb x <> 0) marks /\ Forall (fun x => canonical_combining_class tb x = 0) starters) /\
  (quick_check tb s formC = Yes -> recomposed tb [] n s).
Proof.
  intros tb Ha Hj HR Hst fc fd Hf Hq s n Hb Hn Hbn [fuel Hc]. split.
  - unfold is_normalized in Hc. destruct (quick_check tb s fc) eqn:Eq.
    + destruct (C42_yes_exact_partial tb Ha Hj HR Hst fc fd Hf Hq s n Hb Hn Hbn Eq) as (_ & H). rewrite H. split; [right; assumption|].
      intros [F|F]; [discriminate|exact F].
    + discriminate.
    + split; [left; reflexivity|]. intros _. destruct (normalize tb fuel s fc) as [x| |] eqn:En; try discriminate. cbn [bindR] in Hc.
      injection Hc as Hc. apply list_eqb_spec in Hc. subst x. exists fuel. exact En.
  - intros Hy. apply (C42_yes_is_standard tb Ha Hj HR Hst fc fd Hf Hq s n Hb Hn Hbn Hy).
Qed.
Print Assumptions C42_yes_is_standard.
Print Assumptions C42_yes_exact_partial.
Print Assumptions C43_true_exact_partial.

(** ** The excerpt of the UCD meets the hypothesis *)
Lemma loop_try tb d l st : try_compose tb st d <> 0 -> is_composition_exclusion tb (try_compose tb st d) = false ->
  compose_loop tb (d :: l) [] st 0 = compose_loop tb l [] (try_compose tb st d) 0.
Proof.
  intros H1 H2. rewrite loop_cons. cbv zeta. change (0 =? 0) with true. rewrite orb_true_r, H2.
  destruct (N.eqb_spec (try_compose tb st d) 0); [contradiction|]. reflexivity.
Qed.
Lemma hangul_self tb c : comp_starters tb -> (forall x, is_hangul_syllable x = true -> is_composition_exclusion tb x = false) ->
  (forall x, In x (hangul_decompose c) -> canonical_combining_class tb x = 0) -> is_hangul_syllable c = true ->
  compose tb (canonical_order tb (hangul_decompose c)) = [c].
Proof.
  intros Hst Hx Hz Hc. rewrite canonical_order_id.
  2:{ intros p x y q E. assert (I : In y (hangul_decompose c)) by (rewrite E; apply in_or_app; right; right; left; reflexivity). rewrite (Hz y I). lia. }
  assert (NZ : forall x, is_hangul_syllable x = true -> x <> 0) by (intros x Q ->; discriminate Q).
  destruct (compose_decompose c Hc) as (l & v & [[E G]|(t & E & T0 & G)]).
  - assert (Hl : is_hangul_l_jamo l = true) by (destruct (is_hangul_l_jamo l) eqn:Q; [reflexivity|]; rewrite (compose_rejects l v 0 (or_introl Q)) in G; subst c; discriminate Hc).
    assert (Hv : is_hangul_v_jamo v = true) by (destruct (is_hangul_v_jamo v) eqn:Q; [reflexivity|]; rewrite (compose_rejects l v 0 (or_intror (or_introl Q))) in G; subst c; discriminate Hc).
    destruct (LV_decompose l v Hl Hv) as [F1 F2].
    assert (Et : try_compose tb l v = c) by (unfold try_compose; rewrite Hl, Hv; apply hangul_inj; [exact F2|congruence]).
    rewrite E. unfold compose. rewrite lead_cons. rewrite (Hz l) by (rewrite E; left; reflexivity). change (0 =? 0) with true. cbv iota.
    rewrite loop_try by (rewrite Et; auto). rewrite Et. reflexivity.
  - assert (Hl : is_hangul_l_jamo l = true) by (destruct (is_hangul_l_jamo l) eqn:Q; [reflexivity|]; rewrite (compose_rejects l v t (or_introl Q)) in G; subst c; discriminate Hc).
    assert (Hv : is_hangul_v_jamo v = true) by (destruct (is_hangul_v_jamo v) eqn:Q; [reflexivity|]; rewrite (compose_rejects l v t (or_intror (or_introl Q))) in G; subst c; discriminate Hc).
    assert (Ht : is_hangul_t_jamo t = true) by (destruct (is_hangul_t_jamo t) eqn:Q; [reflexivity|]; rewrite (compose_rejects l v t (or_intror (or_intror (conj T0 Q)))) in G; subst c; discriminate Hc).
    destruct (LV_decompose l v Hl Hv) as [F1 F2]. set (lv := SBase + ((l - LBase) * VCount + (v - VBase)) * TCount) in *.
    assert (Et : try_compose tb l v = lv) by (unfold try_compose; rewrite Hl, Hv; reflexivity).
    destruct (hangul_LV_mod tb lv l v F1) as [_ Hm].
    assert (Hr : TBase < t < TBase + TCount) by (unfold is_hangul_t_jamo in Ht; lia).
    destruct (LVT_decompose lv t F2 Hm Hr) as [K1 K2].
    assert (Et2 : try_compose tb lv t = c).
    { unfold try_compose. destruct (is_hangul_l_jamo lv) eqn:Q; [apply (jamo_not_hangul tb) in Q; congruence|]. rewrite F2, Hm. change (0 =? 0) with true.
      replace ((TBase <=? t) && (t <? TBase + TCount)) with true by (symmetry; lia). cbn [andb]. apply hangul_inj; [exact K2|]. rewrite K1, F1, E. reflexivity. }
    rewrite E. unfold compose. rewrite lead_cons. rewrite (Hz l) by (rewrite E; left; reflexivity). change (0 =? 0) with true. cbv iota.
    rewrite loop_try by (rewrite Et; auto). rewrite Et. rewrite loop_try by (rewrite Et2; auto). rewrite Et2. reflexivity.
Qed.
Lemma never_second_joins tb c : never_second tb c -> never_joins tb c.
Proof. intros H a _. apply H. Qed.
(** No starter of the excerpt composes with a code point that is not Maybe. *)
Lemma ndemo_joins c : binary_search d_maybe c = false -> c <> TBase -> never_joins ndemo c.
Proof.
  intros Hm Hb a Ha. left. destruct (N.eq_dec (try_compose ndemo a c) 0) as [E|E]; [exact E|exfalso].
  assert (Hin : ~ In c d_maybe).
  { intros Q. rewrite (bs_true_in d_maybe c) in Hm; [discriminate|apply sortedN_ok; vm_compute; reflexivity|exact Q]. }
  assert (Hv : is_hangul_v_jamo c = false).
  { destruct (is_hangul_v_jamo c) eqn:Q; [|reflexivity]. exfalso. apply Hin. unfold d_maybe. apply in_or_app. right. apply in_or_app. left.
    apply in_nrange. unfold is_hangul_v_jamo, VBase, VCount in Q. lia. }
  assert (Ht : is_hangul_t_jamo c = false).
  { destruct (is_hangul_t_jamo c) eqn:Q; [|reflexivity]. exfalso. apply Hin. unfold d_maybe. apply in_or_app. right. apply in_or_app. right. apply in_or_app. left.
    apply in_nrange. unfold is_hangul_t_jamo, TBase, TCount in Q. lia. }
  assert (Htab : In (a, c, try_compose ndemo a c) d_comp).
  { assert (Es : try_compose ndemo a c = comp_search d_comp a c).
    { unfold try_compose. rewrite Hv. destruct (is_hangul_l_jamo a); [reflexivity|]. destruct (is_hangul_syllable a); [|reflexivity].
      replace (((a - SBase) mod TCount =? 0) && ((TBase <=? c) && (c <? TBase + TCount))) with false; [reflexivity|].
      symmetry. apply andb_false_iff. right. unfold is_hangul_t_jamo in Ht. unfold TBase, TCount in *. lia. }
    destruct (comp_search_sound d_comp a c _ (eq_sym Es)); [contradiction|assumption]. }
  assert (G : forallb (fun e => let '(a, b, c) := e in negb (canonical_combining_class ndemo a =? 0) || existsb (N.eqb b) d_maybe) d_comp = true) by (vm_compute; reflexivity).
  pose proof (forallb3 (fun a b c => negb (canonical_combining_class ndemo a =? 0) || existsb (N.eqb b) d_maybe) _ G a c _ Htab) as K. cbv beta in K.
  rewrite Ha in K. change (negb (0 =? 0)) with false in K. cbn [orb] in K. apply existsb_in in K. contradiction.
Qed.
Lemma ndemo_plain_jamo x : is_hangul_l_jamo x = true \/ is_hangul_v_jamo x = true \/ is_hangul_t_jamo x = true -> canonical_combining_class ndemo x = 0.
Proof.
  intros H. destruct (N.eq_dec (canonical_combining_class ndemo x) 0) as [E|E]; [exact E|exfalso]. apply ndemo_ccc_in in E.
  assert (G : forallb (fun y => negb (is_hangul_l_jamo y) && negb (is_hangul_v_jamo y) && negb (is_hangul_t_jamo y)) (map fst d_ccc) = true) by reflexivity.
  rewrite forallb_forall in G. specialize (G x E). destruct (is_hangul_l_jamo x), (is_hangul_v_jamo x), (is_hangul_t_jamo x); cbn in G; intuition discriminate.
Qed.
Definition yes_row (form : nform) (c : N) : bool :=
  match cp_quick_check ndemo form c with
  | Yes => match D ndemo rank_demo (use_compat form) c with
           | h :: l => negb (h =? TBase) && negb (binary_search d_maybe h) && (canonical_combining_class ndemo h =? 0)
                       && (canonical_combining_class ndemo c =? 0) && list_eqb (NF ndemo rank_demo form [c]) [c]
           | [] => false end
  | _ => true
  end.
Lemma ndemo_yes_maybe form c : composing form -> cp_quick_check ndemo form c = Yes -> binary_search d_maybe c = false.
Proof.
  intros [->| ->] H; cbn [cp_quick_check] in H; unfold nfc_quick_check, nfkc_quick_check in H; cbn [t_nfc_no t_nfkc_no t_nfc_maybe t_nfkc_maybe ndemo] in H.
  - destruct (binary_search d_nfc_no c); [discriminate|]. destruct (binary_search d_maybe c); [discriminate|reflexivity].
  - destruct (binary_search d_nfkc_no c); [discriminate|]. destruct (binary_search d_maybe c); [discriminate|reflexivity].
Qed.
Lemma ndemo_qc_yes form : composing form -> qc_yes_exact ndemo form.
Proof.
  intros Hf c Hy Hb. pose proof (ndemo_yes_maybe form c Hf Hy) as Hm. set (k := use_compat form).
  destruct (is_hangul_syllable c) eqn:Hh.
  - assert (Hc0 : canonical_combining_class ndemo c = 0) by (apply (proj2 ndemo_starters), Hh).
    split; [intros Q; contradiction|]. intros _.
    assert (Ed : D ndemo rank_demo k c = hangul_decompose c) by (rewrite (D_raw ndemo rank_demo ndemo_rank), Hh; reflexivity).
    split.
    + apply (normalizes_NF ndemo rank_demo ndemo_rank). unfold NF. fold k. cbn [flat_map]. rewrite app_nil_r, Ed.
      assert (Ec : composes form = true) by (destruct Hf as [->| ->]; reflexivity). rewrite Ec. symmetry. apply hangul_self; [exact ndemo_starters| | |exact Hh].
      * apply (cr_hangul ndemo ndemo_comp_ready).
      * intros x Hx. apply hangul_jamos in Hx. apply ndemo_plain_jamo, Hx.
    + pose proof (demo_D k c) as Hd. rewrite Ed in Hd.
      destruct (compose_decompose c Hh) as (l & v & Q).
      assert (Q' : exists r, hangul_decompose c = l :: r /\ is_hangul_l_jamo l = true).
      { destruct Q as [[E G]|(t & E & T0 & G)]; (eexists; split; [exact E|]); (destruct (is_hangul_l_jamo l) eqn:Q; [reflexivity|]);
          rewrite (compose_rejects l v _ (or_introl Q)) in G; subst c; discriminate Hh. }
      destruct Q' as (r & E & Hl). rewrite E in Hd. exists l, r. split; [exact Hd|]. split; [apply ndemo_plain_jamo; auto|].
      apply ndemo_joins; [|intros ->; discriminate Hl]. destruct (binary_search d_maybe l) eqn:B; [exfalso|reflexivity].
      apply (binary_search_exact d_maybe l) in B; [|apply sortedN_ok; vm_compute; reflexivity].
      assert (G : forallb (fun y => negb (is_hangul_l_jamo y)) d_maybe = true) by (vm_compute; reflexivity).
      rewrite forallb_forall in G. specialize (G l B). rewrite Hl in G. discriminate.
  - destruct (existsb (N.eqb c) d_sources) eqn:Hs.
    + assert (Hin : In c d_sources) by (apply existsb_in, Hs).
      assert (G : forallb (yes_row form) d_sources = true) by (destruct Hf as [->| ->]; vm_compute; reflexivity).
      rewrite forallb_forall in G. specialize (G c Hin). unfold yes_row in G. rewrite Hy in G. fold k in G.
      pose proof (demo_D k c) as Hd. destruct (D ndemo rank_demo k c) as [|h l]; [discriminate|].
      do 4 (apply andb_true_iff in G; let K := fresh "K" in destruct G as [G K]). apply negb_true_iff in G, K2. apply N.eqb_eq in K0, K1. apply N.eqb_neq in G.
      split; [intros Q; contradiction|]. intros _. split.
      * apply (normalizes_NF ndemo rank_demo ndemo_rank). symmetry. apply list_eqb_spec, K.
      * exists h, l. split; [exact Hd|]. split; [exact K1|]. apply ndemo_joins; assumption.
    + assert (Es : step_of ndemo k c = []).
      { destruct (nil_dec (step_of ndemo k c)) as [E|E]; [exact E|exfalso].
        assert (Hin : In c d_sources).
        { destruct (ndemo_compat c) as [H|H]; [|congruence|exact H]. destruct k; [exact E|]. cbn [step_of] in E. unfold compatibility_decomposition.
          destruct (canonical_decomposition ndemo c); [congruence|discriminate]. }
        apply existsb_in in Hin. congruence. }
      assert (Hj : never_joins ndemo c) by (apply ndemo_joins; assumption).
      split; [auto|]. intros Hc0. split.
      * apply (normalizes_NF ndemo rank_demo ndemo_rank). unfold NF. fold k. cbn [flat_map]. rewrite (D_fixed ndemo rank_demo ndemo_rank k c Es). cbn [app].
        rewrite canonical_order_id by (intros p x y q E; destruct p as [|? [|]]; discriminate).
        destruct (composes form); [|reflexivity]. unfold compose. rewrite lead_cons. destruct (_ =? 0); reflexivity.
      * exists c, []. split; [|split; assumption]. pose proof (demo_D k c) as Hd. rewrite (D_fixed ndemo rank_demo ndemo_rank k c Es) in Hd. exact Hd.
Qed.
(** q U+0332, U+00C5 U+0332 and a syllable: all Yes, already in NFC, returned with the marks in front. *)
Example C42_yes_demo : qc_yes_exact ndemo NFC /\ qc_yes_exact ndemo NFKC /\
  quick_check ndemo [0x71; 0x332; 0xC5; 0x332; 0xD55C] NFC = Yes /\
  recomposed ndemo [] [0x71; 0x332; 0x41; 0x332; 0x30A; 0x1112; 0x1161; 0x11AB] [0x71; 0x332; 0xC5; 0x332; 0xD55C] /\
  normalizes ndemo NFC [0x71; 0x332; 0xC5; 0x332; 0xD55C] [0x332; 0x71; 0x332; 0xC5; 0xD55C].
Proof.
  split; [apply ndemo_qc_yes; left; reflexivity|]. split; [apply ndemo_qc_yes; right; reflexivity|]. split; [vm_compute; reflexivity|].
  split; [|exists 5%nat; vm_compute; reflexivity].
  apply (C42_yes_is_standard ndemo ndemo_acyclic ndemo_jamos ndemo_comp_ready ndemo_starters NFC NFD ltac:(left; auto) (ndemo_qc_yes NFC (or_introl eq_refl))).
  - unfold TBase. cbn [In]. intros H. repeat (destruct H as [H|H]; [discriminate H|]). exact H.
  - exists 5%nat. vm_compute. reflexivity.
  - unfold TBase. cbn [In]. intros H. repeat (destruct H as [H|H]; [discriminate H|]). exact H.
  - vm_compute. reflexivity.
Qed.
