(** Proofs about compose() and the composed forms. *)
From Verif Require Import Base M_Tables M_Normalize Spec_Tables P_Tables Spec_Normalize P_Order P_Normalize P_Hangul.
From Coq Require Import Relations Sorted Permutation.
Open Scope N_scope.

Ltac setc := match goal with |- context [if (?l <? ?c) || (?l =? 0) then ?x else 0] =>
  set (composed := if (l <? c) || (l =? 0) then x else 0) in * end.

Section Compose.
Variable tb : norm_tables.
Let ccc := canonical_combining_class tb.

Lemma loop_acc text : forall rr st last, compose_loop tb text rr st last = rev rr ++ compose_loop tb text [] st last.
Proof.
  induction text as [|cp rest IH]; intros rr st last; cbn [compose_loop]; [cbn; reflexivity|].
  setc. destruct (negb _ && negb _); [apply IH|].
  clearbody composed. destruct (canonical_combining_class tb cp =? 0); rewrite IH, (IH [_]); cbn [rev]; rewrite <- app_assoc; reflexivity.
Qed.
Lemma lead_acc text : forall rr, compose_lead tb text rr = rev rr ++ compose_lead tb text [].
Proof.
  induction text as [|cp rest IH]; intros rr; cbn [compose_lead]; [rewrite app_nil_r; reflexivity|].
  destruct (negb _); [rewrite IH, (IH [cp]); cbn [rev]; rewrite <- app_assoc; reflexivity|apply loop_acc].
Qed.

(** one iteration, without accumulator *)
Lemma loop_cons cp rest st last : compose_loop tb (cp :: rest) [] st last =
  let composed := if (last <? ccc cp) || (last =? 0) then try_compose tb st cp else 0 in
  if negb (composed =? 0) && negb (is_composition_exclusion tb composed) then compose_loop tb rest [] composed last
  else if ccc cp =? 0 then st :: compose_loop tb rest [] cp 0
  else cp :: compose_loop tb rest [] st (ccc cp).
Proof.
  cbn [compose_loop]. change (canonical_combining_class tb) with ccc.
  setc. destruct (negb _ && negb _); [reflexivity|].
  destruct (ccc cp =? 0); rewrite loop_acc; reflexivity.
Qed.
Lemma lead_cons cp rest : compose_lead tb (cp :: rest) [] =
  if ccc cp =? 0 then compose_loop tb rest [] cp 0 else cp :: compose_lead tb rest [].
Proof.
  cbn [compose_lead]. change (canonical_combining_class tb) with ccc.
  destruct (ccc cp =? 0); cbn [negb]; [reflexivity|]. rewrite lead_acc. reflexivity.
Qed.

(** ** A starter that never composes backwards splits the composition *)
Lemma loop_split X s Y : ccc s = 0 -> never_second tb s -> forall st last,
  compose_loop tb (X ++ s :: Y) [] st last = compose_loop tb X [] st last ++ compose_loop tb Y [] s 0.
Proof.
  intros Hs Hn. induction X as [|x X IH]; intros st last.
  - cbn [app]. rewrite loop_cons. cbn zeta.
    assert (E : negb ((if (last <? ccc s) || (last =? 0) then try_compose tb st s else 0) =? 0) &&
                negb (is_composition_exclusion tb (if (last <? ccc s) || (last =? 0) then try_compose tb st s else 0)) = false).
    { destruct ((last <? ccc s) || (last =? 0)); [|reflexivity]. destruct (Hn st) as [->| ->]; [reflexivity|].
      destruct (negb _); reflexivity. }
    rewrite E, Hs. reflexivity.
  - cbn [app]. rewrite !loop_cons. cbn zeta. setc.
    destruct (negb _ && negb _); [apply IH|]. destruct (ccc x =? 0); rewrite IH; reflexivity.
Qed.
Lemma compose_split X s Y : ccc s = 0 -> never_second tb s -> compose tb (X ++ s :: Y) = compose tb X ++ compose tb (s :: Y).
Proof.
  intros Hs Hn. unfold compose. induction X as [|x X IH]; [reflexivity|]. cbn [app]. rewrite lead_cons, (lead_cons x X).
  destruct (ccc x =? 0).
  - rewrite (loop_split X s Y Hs Hn). rewrite (lead_cons s Y), Hs. reflexivity.
  - rewrite IH. reflexivity.
Qed.

(** ** What composition does to content *)
Variable rank : N -> nat.
Hypothesis Hrank : forall c x, In x (compatibility_decomposition tb c) -> (rank x < rank c)%nat.
Hypothesis Hjamo : jamos_plain tb.
Notation D := (D tb rank).
Notation NF := (NF tb rank).

Lemma step_canon k c l : canonical_decomposition tb c = l -> l <> [] -> step_of tb k c = l.
Proof.
  intros H Hl. unfold step_of. destruct k; [|exact H]. unfold compatibility_decomposition. rewrite H.
  destruct l; [congruence|reflexivity].
Qed.

Hypothesis Hcons : comp_consistent tb.

Lemma D_hangul k c : is_hangul_syllable c = true -> D k c = hangul_decompose c.
Proof. intros H. rewrite (D_raw tb rank Hrank). rewrite H. reflexivity. Qed.

Lemma try_compose_D k a b c : try_compose tb a b = c -> c <> 0 -> b <> TBase -> step_of tb k b = [] -> D k c = D k a ++ [b].
Proof.
  intros H Hc Hb Hfb.
  assert (Hfix : forall x, is_hangul_l_jamo x = true \/ is_hangul_v_jamo x = true \/ is_hangul_t_jamo x = true -> D k x = [x]).
  { intros x Hx. apply (D_fixed tb rank Hrank). apply (jamo_step tb Hjamo k x Hx). }
  assert (Htab : comp_search (t_comp tb) a b = c -> D k c = D k a ++ [b]).
  { intros E. destruct (comp_search_sound _ _ _ _ E) as [|Hin]; [contradiction|].
    pose proof (Hcons _ _ _ Hin) as Hd. rewrite (D_unfold tb rank Hrank Hjamo k c).
    rewrite (step_canon k c [a; b] Hd) by discriminate. cbn [flat_map]. rewrite app_nil_r.
    rewrite (D_fixed tb rank Hrank k b Hfb). reflexivity. }
  unfold try_compose in H. destruct (is_hangul_l_jamo a) eqn:Ha.
  - destruct (is_hangul_v_jamo b) eqn:Hv; [|apply Htab, H].
    destruct (LV_decompose a b Ha Hv) as [E1 E2]. rewrite H in E1, E2. rewrite (D_hangul k c E2), E1.
    rewrite Hfix by (left; exact Ha). reflexivity.
  - destruct (is_hangul_syllable a) eqn:Hs; [|apply Htab, H].
    destruct (((a - SBase) mod TCount =? 0) && ((TBase <=? b) && (b <? TBase + TCount))) eqn:E; [|apply Htab, H].
    apply andb_true_iff in E. destruct E as [E1 E2]. apply N.eqb_eq in E1.
    destruct (LVT_decompose a b Hs E1) as [F1 F2]; [lia|]. rewrite H in F1, F2.
    rewrite (D_hangul k c F2), (D_hangul k a Hs). exact F1.
Qed.

(** ** Nothing is lost *)
Lemma loop_content k text : (forall x, In x text -> step_of tb k x = [] /\ x <> TBase) -> forall st last,
  Permutation (flat_map (D k) (compose_loop tb text [] st last)) (D k st ++ text).
Proof.
  induction text as [|cp rest IH]; intros Hf st last.
  - cbn. rewrite app_nil_r. apply Permutation_refl.
  - rewrite loop_cons. cbn zeta. setc.
    destruct (Hf cp (or_introl eq_refl)) as [Hfc Hnt].
    assert (Hf' : forall x, In x rest -> step_of tb k x = [] /\ x <> TBase) by (intros; apply Hf; right; assumption).
    assert (Hcp : D k cp = [cp]) by (apply (D_fixed tb rank Hrank), Hfc).
    destruct (negb _ && negb _) eqn:E.
    + apply andb_true_iff in E. destruct E as [E1 _]. apply negb_true_iff, N.eqb_neq in E1.
      eapply perm_trans; [apply IH, Hf'|].
      assert (Et : try_compose tb st cp = composed).
      { subst composed. destruct ((last <? ccc cp) || (last =? 0)); [reflexivity|congruence]. }
      rewrite (try_compose_D k st cp composed Et E1 Hnt Hfc). rewrite <- app_assoc. apply Permutation_refl.
    + destruct (ccc cp =? 0); cbn [flat_map].
      * eapply perm_trans; [apply Permutation_app_head, IH, Hf'|]. rewrite Hcp. apply Permutation_refl.
      * rewrite Hcp. cbn [app]. eapply perm_trans; [apply perm_skip, IH, Hf'|].
        apply Permutation_cons_app, Permutation_refl.
Qed.
Lemma compose_content k text : (forall x, In x text -> step_of tb k x = [] /\ x <> TBase) ->
  Permutation (flat_map (D k) (compose tb text)) text.
Proof.
  unfold compose. induction text as [|cp rest IH]; intros Hf; [constructor|]. rewrite lead_cons.
  destruct (Hf cp (or_introl eq_refl)) as [Hfc Hnt].
  assert (Hf' : forall x, In x rest -> step_of tb k x = [] /\ x <> TBase) by (intros; apply Hf; right; assumption).
  assert (Hcp : D k cp = [cp]) by (apply (D_fixed tb rank Hrank), Hfc).
  destruct (ccc cp =? 0).
  - eapply perm_trans; [apply loop_content, Hf'|]. rewrite Hcp. apply Permutation_refl.
  - cbn [flat_map]. rewrite Hcp. cbn [app]. apply perm_skip, IH, Hf'.
Qed.

(** ** Without uncomposed marks the content is the same sequence *)
Lemma loop_exact k text : (forall x, In x text -> step_of tb k x = [] /\ x <> TBase) -> forall st last,
  Forall (fun c => ccc c = 0) (compose_loop tb text [] st last) ->
  flat_map (D k) (compose_loop tb text [] st last) = D k st ++ text.
Proof.
  induction text as [|cp rest IH]; intros Hf st last Hall.
  - cbn. reflexivity.
  - rewrite loop_cons in *. cbn zeta in *. setc.
    destruct (Hf cp (or_introl eq_refl)) as [Hfc Hnt].
    assert (Hf' : forall x, In x rest -> step_of tb k x = [] /\ x <> TBase) by (intros; apply Hf; right; assumption).
    assert (Hcp : D k cp = [cp]) by (apply (D_fixed tb rank Hrank), Hfc).
    destruct (negb (composed =? 0) && negb (is_composition_exclusion tb composed)) eqn:E.
    + apply andb_true_iff in E. destruct E as [E1 _]. apply negb_true_iff, N.eqb_neq in E1.
      rewrite (IH Hf' _ _ Hall).
      assert (Et : try_compose tb st cp = composed).
      { subst composed. destruct ((last <? ccc cp) || (last =? 0)); [reflexivity|congruence]. }
      rewrite (try_compose_D k st cp composed Et E1 Hnt Hfc). rewrite <- app_assoc. reflexivity.
    + destruct (N.eqb_spec (ccc cp) 0).
      * cbn [flat_map]. inversion Hall; subst. rewrite (IH Hf' _ _ H2), Hcp. reflexivity.
      * inversion Hall; subst. contradiction.
Qed.
Lemma lead_marks L text : Forall (fun c => ccc c <> 0) L -> compose tb (L ++ text) = L ++ compose tb text.
Proof.
  intros H. unfold compose. induction H as [|x L Hx HL IH]; [reflexivity|]. cbn [app]. rewrite lead_cons.
  destruct (N.eqb_spec (ccc x) 0); [contradiction|]. rewrite IH. reflexivity.
Qed.
Lemma compose_exact k lead s rest r : (forall x, In x (lead ++ s :: rest) -> step_of tb k x = [] /\ x <> TBase) ->
  Forall (fun c => ccc c <> 0) lead -> ccc s = 0 -> compose tb (lead ++ s :: rest) = lead ++ r ->
  Forall (fun c => ccc c = 0) r -> flat_map (D k) (compose tb (lead ++ s :: rest)) = lead ++ s :: rest.
Proof.
  intros Hf Hl Hs Hr Hall. rewrite lead_marks in * by exact Hl. apply app_inv_head in Hr. subst r.
  rewrite flat_map_app. rewrite (flat_D_fixed tb rank Hrank k lead); [|intros x Hx; apply (Hf x), in_or_app; left; exact Hx].
  f_equal. unfold compose in *. rewrite lead_cons in *. rewrite Hs in *. change (0 =? 0) with true in *. cbv iota in *.
  assert (Hf' : forall x, In x rest -> step_of tb k x = [] /\ x <> TBase).
  { intros x Hx. apply Hf, in_or_app. right. right. exact Hx. }
  rewrite (loop_exact k rest Hf' s 0 Hall).
  rewrite (D_fixed tb rank Hrank k s); [reflexivity|]. apply (Hf s), in_or_app. right. left. reflexivity.
Qed.

(** ** Ordering of a composed text *)
Hypothesis Hst : comp_starters tb.
Let R (x y : N) : Prop := ~ (0 < ccc y < ccc x).
Definition hd_ge (last : N) (l : list N) : Prop := match l with [] => True | h :: _ => ccc h = 0 \/ last <= ccc h end.

Lemma try_compose_starter a b c : try_compose tb a b = c -> c <> 0 -> ccc a = 0 -> ccc c = 0.
Proof.
  clear Hrank Hjamo Hcons rank. destruct Hst as [H1 H2]. intros H Hc Ha.
  assert (Htab : comp_search (t_comp tb) a b = c -> ccc c = 0).
  { intros E. destruct (comp_search_sound _ _ _ _ E) as [|Hin]; [contradiction|]. exact (H1 _ _ _ Hin Ha). }
  unfold try_compose in H. destruct (is_hangul_l_jamo a) eqn:El.
  - destruct (is_hangul_v_jamo b) eqn:Hv; [|apply Htab, H].
    destruct (LV_decompose a b El Hv) as [_ E2]. rewrite H in E2. apply H2, E2.
  - destruct (is_hangul_syllable a) eqn:Hs; [|apply Htab, H].
    destruct (((a - SBase) mod TCount =? 0) && ((TBase <=? b) && (b <? TBase + TCount))) eqn:E; [|apply Htab, H].
    apply andb_true_iff in E. destruct E as [E1 E2]. apply N.eqb_eq in E1.
    apply H2. destruct (N.eq_dec b TBase) as [->|Hne].
    + rewrite N.sub_diag, N.add_0_r in H. subst c. exact Hs.
    + destruct (LVT_decompose a b Hs E1) as [_ F2]; [lia|]. rewrite H in F2. exact F2.
Qed.

(** ** Elements of a composed text *)
Lemma loop_recomposes k text : (forall x, In x text -> step_of tb k x = []) -> forall st last, recomposes tb k st -> ccc st = 0 ->
  Forall (recomposes tb k) (compose_loop tb text [] st last).
Proof.
  induction text as [|cp rest IH]; intros Hf st last Hrs Hst0.
  - cbn. constructor; [exact Hrs|constructor].
  - rewrite loop_cons. cbn zeta. setc.
    assert (Hf' : forall x, In x rest -> step_of tb k x = []) by (intros; apply Hf; right; assumption).
    assert (Hcp : step_of tb k cp = []) by (apply Hf; left; reflexivity).
    destruct (negb _ && negb _) eqn:E.
    + apply andb_true_iff in E. destruct E as [E1 E2]. apply negb_true_iff, N.eqb_neq in E1. apply negb_true_iff in E2.
      assert (Et : try_compose tb st cp = composed).
      { subst composed. destruct ((last <? ccc cp) || (last =? 0)); [reflexivity|congruence]. }
      apply IH; [exact Hf'|apply (Rc_pair tb k st cp); auto|apply (try_compose_starter st cp); auto].
    + destruct (N.eqb_spec (ccc cp) 0) as [E0|E0]; constructor; try exact Hrs; try (apply IH; auto); try (apply Rc_plain, Hcp).
Qed.
Lemma compose_recomposes k text : (forall x, In x text -> step_of tb k x = []) -> Forall (recomposes tb k) (compose tb text).
Proof.
  unfold compose. induction text as [|cp rest IH]; intros Hf; [constructor|]. rewrite lead_cons.
  assert (Hf' : forall x, In x rest -> step_of tb k x = []) by (intros; apply Hf; right; assumption).
  assert (Hcp : step_of tb k cp = []) by (apply Hf; left; reflexivity).
  destruct (N.eqb_spec (ccc cp) 0) as [E0|E0]; [apply loop_recomposes; [exact Hf'|apply Rc_plain, Hcp|exact E0]|].
  constructor; [apply Rc_plain, Hcp|apply IH, Hf'].
Qed.

Lemma loop_ordered text : Sorted R text -> forall st last, ccc st = 0 -> hd_ge last text ->
  Sorted R (compose_loop tb text [] st last) /\ hd_ge last (compose_loop tb text [] st last).
Proof.
  induction 1 as [|cp rest Hs IH Hh]; intros st last Hst0 Hge.
  - cbn. split; [repeat constructor|left; exact Hst0].
  - rewrite loop_cons. cbn zeta. setc.
    cbn in Hge.
    destruct (negb _ && negb _) eqn:E.
    + apply andb_true_iff in E. destruct E as [E1 _]. apply negb_true_iff, N.eqb_neq in E1.
      assert (Et : try_compose tb st cp = composed /\ (last < ccc cp \/ last = 0)).
      { subst composed. destruct (N.ltb_spec last (ccc cp)), (N.eqb_spec last 0); cbn [orb] in *; auto; congruence. }
      destruct Et as [Et Hl]. apply IH; [apply (try_compose_starter st cp _ Et E1 Hst0)|].
      destruct rest as [|y rest]; [exact I|]. cbn. inversion Hh; subst. unfold R in *. lia.
    + destruct (N.eqb_spec (ccc cp) 0) as [H0|H0].
      * destruct (IH cp 0 H0) as [A B]; [destruct rest; cbn; [exact I|lia]|].
        split; [|cbn; left; exact Hst0]. constructor; [exact A|].
        destruct (compose_loop tb rest [] cp 0); constructor. unfold R. lia.
      * destruct (IH st (ccc cp) Hst0) as [A B].
        { destruct rest as [|y rest]; [exact I|]. cbn. inversion Hh; subst. unfold R in *. lia. }
        split; [|cbn; right; lia]. constructor; [exact A|].
        destruct (compose_loop tb rest [] st (ccc cp)) as [|h o]; constructor. cbn in B. unfold R. lia.
Qed.

(** leading marks of a text *)
Lemma split_lead (t : list N) : exists X Y, t = X ++ Y /\ Forall (fun c => ccc c <> 0) X /\
  (Y = [] \/ exists s Z, Y = s :: Z /\ ccc s = 0).
Proof.
  induction t as [|c t [X [Y [E [HX HY]]]]]; [exists [], []; auto|].
  destruct (N.eq_dec (ccc c) 0) as [H|H].
  - exists [], (c :: t). split; [reflexivity|]. split; [constructor|]. right. eauto.
  - exists (c :: X), Y. subst. split; [reflexivity|]. split; [constructor; assumption|exact HY].
Qed.

Lemma sorted_app_starter X s Y : Sorted R X -> Sorted R (s :: Y) -> ccc s = 0 -> Sorted R (X ++ s :: Y).
Proof.
  intros HX HY Hs. induction HX as [|x X HX IH Hh]; [exact HY|]. cbn [app]. constructor; [exact IH|].
  destruct X as [|y X]; cbn [app]; constructor; [unfold R; lia|]. inversion Hh; assumption.
Qed.

(** A text equal to its composed form is canonically ordered, if its marks are undecomposable and its first starter's
    decomposition starts with a starter. *)
Lemma composed_fixed_ordered form t : composes form = true ->
  (forall c, In c t -> ccc c <> 0 -> step_of tb (use_compat form) c = []) ->
  (forall c, In c t -> ccc c = 0 -> exists h l, D (use_compat form) c = h :: l /\ ccc h = 0) ->
  NF form t = t -> ordered ccc t.
Proof.
  intros Hform Hm Hs E. unfold P_Normalize.NF in E. rewrite Hform in E. set (k := use_compat form) in *.
  destruct (split_lead t) as [X [Y [Et [HX HY]]]].
  assert (HDX : flat_map (D k) X = X).
  { apply (flat_D_fixed tb rank Hrank). intros x Hx. apply Hm; [subst t; apply in_or_app; left; exact Hx|].
    rewrite Forall_forall in HX. apply HX, Hx. }
  rewrite Et, flat_map_app, HDX in E.
  assert (HoX : Forall (fun c => ccc c <> 0) (canonical_order tb X)).
  { rewrite Forall_forall in *. intros x Hx. apply HX. apply (proj1 (order_in tb X x)), Hx. }
  destruct HY as [->|[s [Z [-> Hs0]]]].
  - cbn [flat_map] in E. rewrite !app_nil_r in *. subst t.
    pose proof (lead_marks _ [] HoX) as Hl. change (compose tb []) with (@nil N) in Hl. rewrite !app_nil_r in Hl.
    rewrite Hl in E. rewrite <- E. apply canonical_order_ordered.
  - destruct (Hs s) as [h [l [Eh Hh]]]; [subst t; apply in_or_app; right; left; reflexivity|exact Hs0|].
    cbn [flat_map] in E. rewrite Eh in E. cbn [app] in E. rewrite order_split in E by exact Hh.
    rewrite lead_marks in E by exact HoX.
    assert (Elen : length (canonical_order tb X) = length X) by (apply Permutation_length, order_perm).
    assert (E1 : canonical_order tb X = X /\ compose tb (canonical_order tb (h :: l ++ flat_map (D k) Z)) = s :: Z).
    { clear - E Elen. revert E Elen. generalize (canonical_order tb X) as A, (compose tb (canonical_order tb (h :: l ++ flat_map (D k) Z))) as B.
      intros A. revert X. induction A as [|a A IH]; intros [|x X] B E Elen; cbn in *; try discriminate; auto.
      inversion E; subst. destruct (IH X B H1) as [-> ->]; [lia|auto]. }
    destruct E1 as [EX EY].
    destruct (order_cons_starter tb h (l ++ flat_map (D k) Z) Hh) as [w [Ew _]].
    pose proof (canonical_order_ordered tb (h :: l ++ flat_map (D k) Z)) as Ho. rewrite Ew in Ho, EY.
    apply ordered_sorted in Ho. unfold compose in EY. rewrite lead_cons in EY.
    change (canonical_combining_class tb h) with (ccc h) in Hh. rewrite Hh in EY. change (0 =? 0) with true in EY. cbv iota in EY.
    inversion Ho; subst. destruct (loop_ordered w H1 h 0 Hh) as [HsY _]; [destruct w; cbn; [exact I|lia]|].
    rewrite EY in HsY. apply ordered_sorted. rewrite <- EX.
    apply sorted_app_starter; [|exact HsY|exact Hs0].
    apply ordered_sorted. apply canonical_order_ordered.
Qed.
End Compose.
