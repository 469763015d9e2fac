(** compose() is the composition algorithm of the Standard, up to the place where the starters are written. *)
From Verif Require Import Base M_Tables M_Normalize Spec_Tables P_Tables Spec_Normalize P_Order P_Normalize P_Hangul P_Compose.
From Coq Require Import Relations Sorted Permutation.
Open Scope N_scope.

Section Recompose.
Variable tb : norm_tables.
Let ccc := canonical_combining_class tb.
Hypothesis Hready : comp_ready tb.
Hypothesis Hjamo : jamos_plain tb.
Hypothesis Hst : comp_starters tb.

Lemma hangul_LV a : is_hangul_syllable a = true -> (a - SBase) mod TCount = 0 -> exists l v, hangul_decompose a = [l; v].
Proof. intros Ha Hm. unfold hangul_decompose. rewrite Ha. cbn [negb]. rewrite Hm. change (0 <? 0) with false. cbv iota. eauto. Qed.
Lemma hangul_LV_mod a l v : hangul_decompose a = [l; v] -> is_hangul_syllable a = true /\ (a - SBase) mod TCount = 0.
Proof.
  unfold hangul_decompose. destruct (is_hangul_syllable a); [|discriminate]. cbn [negb].
  destruct (N.ltb_spec 0 ((a - SBase) mod TCount)); [discriminate|]. intros _. split; [reflexivity|]. lia.
Qed.
Lemma hangul_inj a b : is_hangul_syllable a = true -> hangul_decompose a = hangul_decompose b -> a = b.
Proof.
  intros Ha E. assert (Hb : is_hangul_syllable b = true).
  { destruct (is_hangul_syllable b) eqn:Eb; [reflexivity|]. unfold hangul_decompose at 2 in E. rewrite Eb in E. cbn [negb] in E.
    destruct (compose_decompose a Ha) as (l & v & [[G _]|(t & G & _)]); congruence. }
  destruct (compose_decompose a Ha) as (l & v & [[G G']|(t & G & _ & G')]); destruct (compose_decompose b Hb) as (l' & v' & [[F F']|(t' & F & _ & F')]); 
    rewrite G, F in E; try discriminate; injection E; intros; subst; reflexivity.
Qed.
Lemma jamo_not_hangul a : is_hangul_l_jamo a = true -> is_hangul_syllable a = false.
Proof. unfold is_hangul_l_jamo, is_hangul_syllable, LBase, LCount, SBase, SCount. lia. Qed.

Lemma try_primary a b c : ccc a = 0 -> b <> TBase ->
  (try_compose tb a b = c /\ c <> 0 /\ is_composition_exclusion tb c = false <-> primary_composite tb a b c).
Proof.
  intros Ha Hb. unfold ccc in Ha.
  assert (Htab : comp_search (t_comp tb) a b = c -> c <> 0 -> canonical_decomposition tb c = [a; b]).
  { intros E Hc. destruct (comp_search_sound _ _ _ _ E) as [|Hin]; [contradiction|]. apply (cr_entries tb Hready _ _ _ Hin). }
  split.
  - intros (E & Hc & Hx). split; [exact Hx|]. unfold try_compose in E.
    destruct (is_hangul_l_jamo a) eqn:El.
    + destruct (is_hangul_v_jamo b) eqn:Ev; [|left; auto]. left. destruct (LV_decompose a b El Ev) as [F1 F2]. rewrite E in F1, F2.
      unfold canonical_decomposition. rewrite F2. exact F1.
    + destruct (is_hangul_syllable a) eqn:Es; [|left; auto].
      destruct (((a - SBase) mod TCount =? 0) && ((TBase <=? b) && (b <? TBase + TCount))) eqn:Ec; [|left; auto].
      right. apply andb_true_iff in Ec. destruct Ec as [E1 E2]. apply N.eqb_eq in E1.
      destruct (LVT_decompose a b Es E1 ltac:(lia)) as [F1 F2]. rewrite E in F1, F2. split; [exact F2|].
      destruct (hangul_LV a Es E1) as (l & v & G). exists l, v. split; [exact G|]. rewrite F1, G. reflexivity.
  - intros (Hx & H).
    assert (Hc0 : forall x, is_hangul_syllable x = true -> x <> 0) by (intros x Q ->; discriminate).
    destruct (is_hangul_syllable c) eqn:Ehc.
    + assert (Hc : c <> 0) by auto. split; [|auto].
      destruct H as [H|(_ & l & v & H1 & H2)].
      * unfold canonical_decomposition in H. rewrite Ehc in H.
        destruct (compose_decompose c Ehc) as (l & v & [[G G']|(t & G & _ & _)]); [|congruence].
        rewrite G in H. injection H as -> ->.
        assert (Hl : is_hangul_l_jamo a = true).
        { destruct (is_hangul_l_jamo a) eqn:Q; [reflexivity|]. rewrite (compose_rejects a b 0 (or_introl Q)) in G'. congruence. }
        assert (Hv : is_hangul_v_jamo b = true).
        { destruct (is_hangul_v_jamo b) eqn:Q; [reflexivity|]. rewrite (compose_rejects a b 0 (or_intror (or_introl Q))) in G'. congruence. }
        unfold try_compose. rewrite Hl, Hv. destruct (LV_decompose a b Hl Hv) as [F1 F2]. apply hangul_inj; [exact F2|congruence].
      * destruct (hangul_LV_mod a l v H1) as [Hs Hm].
        destruct (compose_decompose c Ehc) as (l' & v' & [[G G']|(t & G & T0 & G')]); [congruence|].
        rewrite G in H2. injection H2 as -> -> ->.
        assert (Ht : is_hangul_t_jamo b = true).
        { destruct (is_hangul_t_jamo b) eqn:Q; [reflexivity|]. rewrite (compose_rejects l v b (or_intror (or_intror (conj T0 Q)))) in G'. congruence. }
        assert (Hl : is_hangul_l_jamo a = false) by (destruct (is_hangul_l_jamo a) eqn:Q; [apply jamo_not_hangul in Q; congruence|reflexivity]).
        unfold try_compose. rewrite Hl, Hs. rewrite Hm. change (0 =? 0) with true. unfold is_hangul_t_jamo in Ht.
        replace ((TBase <=? b) && (b <? TBase + TCount)) with true by (symmetry; lia). cbn [andb].
        destruct (LVT_decompose a b Hs Hm ltac:(lia)) as [F1 F2]. apply hangul_inj; [exact F2|]. rewrite F1, H1, G. reflexivity.
    + destruct H as [H|(H & _)]; [|congruence].
      pose proof (cr_listed tb Hready a b c Ehc H Ha Hx) as Hin. destruct (cr_entries tb Hready _ _ _ Hin) as (Hc & _ & _ & J1 & J2).
      split; [|auto]. pose proof (comp_search_complete _ _ _ _ (cr_sorted tb Hready) Hin) as E.
      unfold try_compose. destruct (is_hangul_l_jamo a) eqn:El; [rewrite (J1 eq_refl); exact E|].
      destruct (is_hangul_syllable a) eqn:Es; [|exact E]. specialize (J2 eq_refl).
      replace (((a - SBase) mod TCount =? 0) && ((TBase <=? b) && (b <? TBase + TCount))) with false; [exact E|].
      symmetry. apply andb_false_iff. right. unfold is_hangul_t_jamo in J2. lia.
Qed.

(** ** Displacement *)
Lemma disp_marks m : forall held r, Forall (fun x => ccc x <> 0) m -> displaced_from tb held (m ++ r) = m ++ displaced_from tb held r.
Proof.
  induction m as [|x m IH]; intros held r H; [reflexivity|]. inversion H; subst. cbn [app displaced_from].
  destruct (N.eqb_spec (canonical_combining_class tb x) 0) as [E|E]; [contradiction|]. rewrite IH by assumption. reflexivity.
Qed.
Lemma disp_split p : forall held s q, ccc s = 0 -> displaced_from tb held (p ++ s :: q) = displaced_from tb held p ++ displaced_from tb [s] q.
Proof.
  induction p as [|x p IH]; intros held s q H; cbn [app displaced_from].
  - unfold ccc in H. rewrite H. reflexivity.
  - destruct (canonical_combining_class tb x =? 0); rewrite IH by exact H; [apply app_assoc|reflexivity].
Qed.
Lemma disp_last m s : Forall (fun x => ccc x <> 0) m -> displaced_from tb [s] m = m ++ [s].
Proof. intros H. rewrite <- (app_nil_r m) at 1. rewrite disp_marks by exact H. reflexivity. Qed.

Lemma disp_fixed_from r : forall s, ccc s = 0 -> (displaced_from tb [s] r = s :: r <-> Forall (fun x => ccc x = 0) r).
Proof.
  induction r as [|c r IH]; intros s Hs; cbn [displaced_from]; [split; constructor|].
  destruct (N.eqb_spec (canonical_combining_class tb c) 0) as [E|E]; cbn [app].
  - split.
    + intros H. injection H as H. constructor; [exact E|]. apply (IH c E), H.
    + intros H. inversion H; subst. f_equal. apply IH; assumption.
  - split; intros H; [injection H as -> _; contradiction|inversion H; subst; contradiction].
Qed.
Lemma disp_fixed t : displaced tb t = t <-> exists L S, t = L ++ S /\ Forall (fun x => ccc x <> 0) L /\ Forall (fun x => ccc x = 0) S.
Proof.
  unfold displaced. destruct (split_lead tb t) as (X & Y & E & HX & HY). rewrite E. rewrite disp_marks by exact HX.
  assert (HY' : match Y with [] => True | s :: _ => ccc s = 0 end).
  { destruct HY as [->|(s & Z & -> & Hz)]; [exact I|exact Hz]. }
  clear HY. rename HY' into HY.
  assert (G : displaced_from tb [] Y = Y <-> Forall (fun x => ccc x = 0) Y).
  { destruct Y as [|s Y]; [split; constructor|]. cbn [displaced_from]. fold (ccc s). assert (Hs : ccc s = 0) by exact HY. 
    rewrite Hs. change (0 =? 0) with true. cbv iota. cbn [app]. rewrite (disp_fixed_from Y s Hs). split; [intros; constructor; assumption|intros Q; inversion Q; assumption]. }
  split.
  - intros H. exists X, Y. split; [reflexivity|]. split; [exact HX|]. apply G. apply app_inv_head in H. exact H.
  - intros (L & S0 & E2 & HL & HS). f_equal. apply G.
    destruct Y as [|s Y]; [constructor|]. clear G E.
    destruct (app_eq_app _ _ _ _ E2) as (m & [[A B]|[A B]]).
    + subst X S0. apply Forall_app in HS. tauto.
    + destruct m as [|y m]; [cbn in B; subst; exact HS|]. cbn in B. injection B as -> _. subst L. apply Forall_app in HL. destruct HL as [_ HL].
      inversion HL; subst. destruct (H1 HY).
Qed.

(** the last starter and its marks are determined *)
Lemma last_starter p l m p' l' m' : p ++ l :: m = p' ++ l' :: m' -> ccc l = 0 -> ccc l' = 0 ->
  Forall (fun x => ccc x <> 0) m -> Forall (fun x => ccc x <> 0) m' -> p = p' /\ l = l' /\ m = m'.
Proof.
  intros E Hl Hl' Hm Hm'. destruct (app_eq_app _ _ _ _ E) as (q & [[A B]|[A B]]).
  - destruct q as [|y q]; cbn in B; [injection B as -> ->; rewrite app_nil_r in A; auto|]. injection B as -> B. subst m'.
    apply Forall_app in Hm'. destruct Hm' as [_ Hm']. inversion Hm'; subst. contradiction.
  - destruct q as [|y q]; cbn in B; [injection B as <- <-; rewrite app_nil_r in A; auto|]. injection B as -> B. subst m.
    apply Forall_app in Hm. destruct Hm as [_ Hm]. inversion Hm; subst. contradiction.
Qed.
Lemma reaches_marks done p l m c : reaches tb done p l m c -> done = p ++ l :: m /\ ccc l = 0 /\ Forall (fun x => ccc x <> 0) m.
Proof. intros (E & Hl & Hm). split; [exact E|]. split; [exact Hl|]. eapply Forall_impl; [|exact Hm]. cbv beta. fold ccc. intros; lia. Qed.

Lemma recomposed_fun rest : ~ In TBase rest -> forall done r r', recomposed tb done rest r -> recomposed tb done rest r' -> r = r'.
Proof.
  induction rest as [|c rest IH]; intros Hb done r r' H H'; [inversion H; inversion H'; congruence|].
  assert (Hc : c <> TBase) by (intros ->; apply Hb; left; reflexivity). assert (Hb' : ~ In TBase rest) by (intros Q; apply Hb; right; exact Q).
  inversion H as [|? p l m ? x ? ? R P K|? ? ? ? NR K]; subst; inversion H' as [|? p' l' m' ? x' ? ? R' P' K'|? ? ? ? NR' K']; subst.
  - destruct (reaches_marks _ _ _ _ _ R) as (E & Hl & Hm). destruct (reaches_marks _ _ _ _ _ R') as (E' & Hl' & Hm').
    destruct (last_starter p l m p' l' m' ltac:(congruence) Hl Hl' Hm Hm') as (<- & <- & <-).
    apply (try_primary l c x Hl Hc) in P. apply (try_primary l c x' Hl Hc) in P'. destruct P as [<- _]. destruct P' as [<- _]. eapply IH; eassumption.
  - destruct (NR' _ _ _ _ R P).
  - destruct (NR _ _ _ _ R' P').
  - eapply IH; eassumption.
Qed.

(** ** The loop *)
Lemma loop_recomposed text : ~ In TBase text -> Sorted (fun x y => ccc y = 0 \/ ccc x <= ccc y) text -> forall p st ms last, 
  ccc st = 0 -> Forall (fun x => ccc x <> 0 /\ ccc x <= last) ms -> (ms = [] /\ last = 0 \/ exists x, In x ms /\ ccc x = last) ->
  match text with [] => True | h :: _ => ccc h = 0 \/ last <= ccc h end ->
  exists t, recomposed tb (p ++ st :: ms) text t /\ displaced tb t = displaced tb p ++ ms ++ compose_loop tb text [] st last.
Proof.
  induction text as [|c rest IH]; intros Hb Hs p st ms last H0 Hm Hl Hh.
  - exists (p ++ st :: ms). split; [constructor|]. unfold displaced. rewrite disp_split by exact H0. cbn [compose_loop rev app]. f_equal.
    apply disp_last. eapply Forall_impl; [|exact Hm]. cbv beta. tauto.
  - assert (Hc : c <> TBase) by (intros ->; apply Hb; left; reflexivity). assert (Hb' : ~ In TBase rest) by (intros Q; apply Hb; right; exact Q).
    inversion Hs as [|? ? Hs' Hhd]; subst.
    assert (Hmn : Forall (fun x => ccc x <> 0) ms) by (eapply Forall_impl; [|exact Hm]; cbv beta; tauto).
    assert (Hnext : match rest with [] => True | h :: _ => ccc h = 0 \/ ccc c <= ccc h end) by (destruct rest; [exact I|inversion Hhd; assumption]).
    rewrite loop_cons. fold (ccc c). cbv zeta. set (composed := if (last <? ccc c) || (last =? 0) then try_compose tb st c else 0).
    destruct (negb (composed =? 0) && negb (is_composition_exclusion tb composed)) eqn:EC.
    + apply andb_true_iff in EC. destruct EC as [E1 E2]. apply negb_true_iff in E1, E2. apply N.eqb_neq in E1.
      unfold composed in E1, E2. fold composed. destruct ((last <? ccc c) || (last =? 0)) eqn:EB; [|congruence]. fold composed in E1, E2.
      assert (Ecomp : try_compose tb st c = composed) by reflexivity. clearbody composed.
      assert (P : primary_composite tb st c composed) by (apply (try_primary st c composed H0 Hc); auto).
      assert (H0' : ccc composed = 0) by (apply (try_compose_starter tb Hst st c composed Ecomp E1 H0)).
      destruct (IH Hb' Hs' p composed ms last H0' Hm Hl) as (t & T1 & T2).
      { destruct rest as [|h rest]; [exact I|]. destruct Hnext as [Q|Q]; [left; exact Q|]. apply orb_true_iff in EB. rewrite N.ltb_lt, N.eqb_eq in EB. right. lia. }
      exists t. split; [|exact T2]. eapply R_compose; [|exact P|exact T1]. split; [reflexivity|]. split; [exact H0|].
      apply orb_true_iff in EB. rewrite N.ltb_lt, N.eqb_eq in EB. destruct EB as [EB|EB].
      * eapply Forall_impl; [|exact Hm]. cbv beta. fold ccc. intros; lia.
      * destruct Hl as [[-> _]|(x & Hx & Ex)]; [constructor|]. rewrite Forall_forall in Hmn. specialize (Hmn x Hx). lia.
    + assert (NR : forall p0 l m x, reaches tb (p ++ st :: ms) p0 l m c -> ~ primary_composite tb l c x).
      { intros p0 l m x R P. pose proof (reaches_marks _ _ _ _ _ R) as (E & Hl0 & Hm0).
        destruct (last_starter p st ms p0 l m E H0 Hl0 Hmn Hm0) as (<- & <- & <-). destruct R as (_ & _ & R).
        apply (try_primary st c x H0 Hc) in P. destruct P as (P1 & P2 & P3).
        assert (EB : (last <? ccc c) || (last =? 0) = true).
        { apply orb_true_iff. rewrite N.ltb_lt, N.eqb_eq. destruct Hl as [[_ Q]|(y & Hy & Ey)]; [right; exact Q|left]. rewrite Forall_forall in R. specialize (R y Hy). fold ccc in R. lia. }
        unfold composed in EC. rewrite EB, P1, P3 in EC. apply andb_false_iff in EC. destruct EC as [EC|EC]; [|discriminate].
        apply negb_false_iff, N.eqb_eq in EC. contradiction. }
      clear EC. clearbody composed.
      destruct (N.eqb_spec (ccc c) 0) as [E0|E0].
      * destruct (IH Hb' Hs' (p ++ st :: ms) c [] 0 E0 (Forall_nil _) (or_introl (conj eq_refl eq_refl))) as (t & T1 & T2).
        { destruct rest; [exact I|right; lia]. }
        exists t. split; [apply R_keep; [exact NR|exact T1]|]. rewrite T2. unfold displaced. rewrite disp_split by exact H0.
        rewrite disp_last by exact Hmn. cbn [app]. rewrite <- !app_assoc. reflexivity.
      * assert (Hle : last <= ccc c) by (destruct Hh; [contradiction|assumption]).
        destruct (IH Hb' Hs' p st (ms ++ [c]) (ccc c) H0) as (t & T1 & T2).
        { apply Forall_app. split; [eapply Forall_impl; [|exact Hm]; cbv beta; intros; lia|]. constructor; [lia|constructor]. }
        { right. exists c. split; [apply in_or_app; right; left; reflexivity|reflexivity]. }
        { exact Hnext. }
        exists t. split; [apply R_keep; [exact NR|]|].
        -- rewrite <- app_assoc. exact T1.
        -- rewrite T2, <- app_assoc. reflexivity.
Qed.

Lemma lead_recomposed text : ~ In TBase text -> Sorted (fun x y => ccc y = 0 \/ ccc x <= ccc y) text -> forall lead, Forall (fun x => ccc x <> 0) lead ->
  exists t, recomposed tb lead text t /\ displaced tb t = lead ++ compose tb text.
Proof.
  induction text as [|c rest IH]; intros Hb Hs lead HL.
  - exists lead. split; [constructor|]. unfold displaced. rewrite <- (app_nil_r lead) at 1. rewrite disp_marks by exact HL. reflexivity.
  - assert (Hb' : ~ In TBase rest) by (intros Q; apply Hb; right; exact Q). inversion Hs as [|? ? Hs' Hhd]; subst.
    assert (NR : forall p0 l m x, reaches tb lead p0 l m c -> ~ primary_composite tb l c x).
    { intros p0 l m x R. destruct (reaches_marks _ _ _ _ _ R) as (E & Hl0 & _). subst lead. apply Forall_app in HL. destruct HL as [_ HL].
      inversion HL; subst. contradiction. }
    unfold compose. rewrite lead_cons. fold (ccc c). destruct (N.eqb_spec (ccc c) 0) as [E0|E0].
    + destruct (loop_recomposed rest Hb' Hs' lead c [] 0 E0 (Forall_nil _) (or_introl (conj eq_refl eq_refl))) as (t & T1 & T2).
      { destruct rest; [exact I|right; lia]. }
      exists t. split; [apply R_keep; [exact NR|exact T1]|]. rewrite T2. cbn [app]. f_equal.
      unfold displaced. rewrite <- (app_nil_r lead) at 1. rewrite disp_marks by exact HL. apply app_nil_r.
    + destruct (IH Hb' Hs' (lead ++ [c])) as (t & T1 & T2).
      { apply Forall_app. split; [exact HL|constructor; [exact E0|constructor]]. }
      exists t. split; [apply R_keep; [exact NR|exact T1]|]. rewrite T2, <- app_assoc. reflexivity.
Qed.
End Recompose.
