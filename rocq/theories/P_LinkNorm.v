(** Library tables generated from files against the Standard's normalization of these files. *)
From Coq Require Import String Permutation Sorted Relations.
From Verif Require Import Base M_Tables M_Normalize M_TableGen Spec_Tables Spec_Normalize Spec_TableGen Spec_LinkNorm
  P_Order P_Normalize P_Hangul P_Compose P_Compose2 P_TableGen P_TableGen2 P_TableGen4 P_TableGen5 P_TableGen7 T_Compose.
Open Scope N_scope.

(** ** Extensionality *)
Section Ext.
Variables (ccc ccc' : N -> N) (E : forall c, ccc c = ccc' c).
Lemma reorder_ext a b : reorder ccc a b -> reorder ccc' a b.
Proof. intros [p x y q H]. constructor. rewrite <- !E. exact H. Qed.
Lemma reorders_ext a b : reorders ccc a b -> reorders ccc' a b.
Proof. induction 1 as [|a b c H _ IH]; [constructor|]. econstructor; [apply reorder_ext, H|exact IH]. Qed.
Lemma ordered_ext a : ordered ccc a -> ordered ccc' a.
Proof. intros H p x y q Hp. rewrite <- !E. eapply H, Hp. Qed.
Lemma unblocked_ext d p l m c : unblocked ccc d p l m c -> unblocked ccc' d p l m c.
Proof.
  intros (A & B & C). split; [exact A|]. split; [rewrite <- E; exact B|]. eapply Forall_impl; [|exact C]. intros x. cbv beta. rewrite <- !E. auto.
Qed.
Lemma behind_ext t : forall h, behind ccc h t = behind ccc' h t.
Proof. induction t as [|c t IH]; intros h; cbn [behind]; [reflexivity|]. rewrite <- E. destruct (ccc c =? 0); rewrite IH; reflexivity. Qed.
End Ext.
Lemma composed_ext ccc ccc' P P' : (forall c, ccc c = ccc' c) -> (forall a b c, ccc a = 0 -> (P a b c <-> P' a b c)) ->
  forall d s r, composed ccc P d s r -> composed ccc' P' d s r.
Proof.
  intros E HP d s r H. induction H as [d|d p l m c x rest r U Pr _ IH|d c rest r NU _ IH].
  - constructor.
  - eapply C_compose; [apply (unblocked_ext _ _ E), U| |exact IH]. apply HP; [apply U|exact Pr].
  - apply C_keep; [|exact IH]. intros p l m x U Pr. apply (unblocked_ext ccc' ccc (fun c => eq_sym (E c))) in U.
    apply (NU p l m x U). apply HP; [apply U|exact Pr].
Qed.
Scheme fd_ind := Minimality for full_decomposition Sort Prop with fds_ind := Minimality for full_decompositions Sort Prop.
Lemma fd_ext step step' : (forall c, step c = step' c) ->
  (forall c l, full_decomposition step c l -> full_decomposition step' c l).
Proof.
  intros E. apply (fd_ind step (fun c l => full_decomposition step' c l) (fun s l => full_decompositions step' s l)).
  - intros c H. constructor. rewrite <- E. exact H.
  - intros c l H _ IH. apply FD_step; rewrite <- E; assumption.
  - constructor.
  - intros c r x y _ H _ H'. constructor; assumption.
Qed.
Lemma fds_ext step step' : (forall c, step c = step' c) ->
  (forall c l, full_decompositions step c l -> full_decompositions step' c l).
Proof.
  intros E s l H. induction H as [|c r x y H _ IH]; constructor; [apply (fd_ext _ _ E), H|exact IH].
Qed.

(** ** Hangul *)
Lemma syllable_ex c : 0xAC00 <= c <= 0xD7A3 -> exists l v t, syllable c l v t.
Proof.
  intros H. exists ((c - 0xAC00) / 588), ((c - 0xAC00) mod 588 / 28), ((c - 0xAC00) mod 28). unfold syllable.
  pose proof (N.div_mod (c - 0xAC00) 588 ltac:(discriminate)) as A. pose proof (N.mod_lt (c - 0xAC00) 588 ltac:(discriminate)) as A'.
  pose proof (N.div_mod ((c - 0xAC00) mod 588) 28 ltac:(discriminate)) as B. pose proof (N.mod_lt ((c - 0xAC00) mod 588) 28 ltac:(discriminate)) as B'.
  assert (M : (c - 0xAC00) mod 588 mod 28 = (c - 0xAC00) mod 28).
  { apply N.mod_unique with (q := (c - 0xAC00) / 588 * 21 + (c - 0xAC00) mod 588 / 28); [exact B'|lia]. }
  pose proof (N.mod_lt (c - 0xAC00) 28 ltac:(discriminate)). lia.
Qed.
Lemma syllable_range c l v t : syllable c l v t -> 0xAC00 <= c <= 0xD7A3.
Proof. unfold syllable. lia. Qed.
Lemma syllable_fun c l v t l' v' t' : syllable c l v t -> syllable c l' v' t' -> l = l' /\ v = v' /\ t = t'.
Proof. unfold syllable. lia. Qed.
Lemma hangul_range c : is_hangul_syllable c = true <-> 0xAC00 <= c <= 0xD7A3.
Proof. unfold is_hangul_syllable, SBase, SCount. lia. Qed.
Lemma syllable_decompose c l v t : syllable c l v t -> hangul_decompose c = [0x1100 + l; 0x1161 + v] ++ (if t =? 0 then [] else [0x11A7 + t]).
Proof.
  intros H. pose proof (syllable_range _ _ _ _ H) as R. unfold hangul_decompose. rewrite (proj2 (hangul_range c) R). cbn [negb].
  unfold syllable in H. destruct H as (-> & Hl & Hv & Ht). unfold SBase, NCount, TCount, LBase, VBase, TBase.
  assert (E1 : (0xAC00 + (l * 21 + v) * 28 + t - 0xAC00) / (21 * 28) = l) by (symmetry; apply N.div_unique with (r := v * 28 + t); lia).
  assert (E2 : (0xAC00 + (l * 21 + v) * 28 + t - 0xAC00) mod (21 * 28) = v * 28 + t) by (symmetry; apply N.mod_unique with (q := l); lia).
  assert (E3 : (0xAC00 + (l * 21 + v) * 28 + t - 0xAC00) mod 28 = t) by (symmetry; apply N.mod_unique with (q := l * 21 + v); lia).
  assert (E4 : (v * 28 + t) / 28 = v) by (symmetry; apply N.div_unique with (r := t); lia).
  cbv zeta. change 588 with (21 * 28). rewrite E1, E2, E3, E4. destruct (N.eqb_spec t 0) as [->|Z]; [reflexivity|].
  destruct (N.ltb_spec 0 t); [reflexivity|lia].
Qed.

Lemma file_ccc_fun ud c k k' : ud_unique ud -> file_ccc ud c k -> file_ccc ud c k' -> k = k'.
Proof.
  intros Hu [(u & A & B & C)|[A B]] [(u' & A' & B' & C')|[A' B']]; try congruence.
  - rewrite (Hu u u' A A' ltac:(congruence)) in C. congruence.
  - destruct (A' u A B).
  - destruct (A u' A' B').
Qed.
Lemma file_step_fun ud k c m m' : ud_unique ud -> file_step ud k c m -> file_step ud k c m' -> m = m'.
Proof.
  intros Hu [(l & v & t & Hs & ->)|[Hn H]] [(l' & v' & t' & Hs' & ->)|[Hn' H']].
  - destruct (syllable_fun _ _ _ _ _ _ _ Hs Hs') as (-> & -> & ->). reflexivity.
  - destruct (Hn' (syllable_range _ _ _ _ Hs)).
  - destruct (Hn (syllable_range _ _ _ _ Hs')).
  - destruct H as [(u & A & B & ->)|[A ->]], H' as [(u' & A' & B' & ->)|[A' ->]]; try reflexivity.
    + rewrite (Hu u u' A A' ltac:(congruence)). reflexivity.
    + destruct (A' u A B).
    + destruct (A u' A' B').
Qed.

Section G.
Variables (crlf : bool) (ud : list (fline udline)) (ex : list (fline exline)) (np : list (fline npline)) (tb : norm_tables).
Hypothesis Hf : norm_files_ok ud ex np.
Hypothesis Hg : generated_norm crlf ud ex np tb.

Lemma lib_ccc : reads_ccc ud (canonical_combining_class tb).
Proof.
  intros c. destruct (has_line ud c) as [(u & Hu & <-)|Hn].
  - left. exists u. rewrite (gen_ccc crlf ud ex np Hf tb Hg u Hu). auto.
  - right. split; [exact Hn|]. apply (gen_ccc_none crlf ud ex np Hf tb Hg c Hn).
Qed.
Lemma lib_step k : reads_step ud k (step_of tb k).
Proof.
  intros c. destruct (is_hangul_syllable c) eqn:H.
  - left. apply hangul_range in H. destruct (syllable_ex c H) as (l & v & t & Hs). exists l, v, t. split; [exact Hs|].
    assert (E : canonical_decomposition tb c = hangul_decompose c) by (unfold canonical_decomposition; rewrite (proj2 (hangul_range c) H); reflexivity).
    unfold step_of, compatibility_decomposition. rewrite E, (syllable_decompose c l v t Hs). destruct k; reflexivity.
  - right. split; [rewrite <- hangul_range; congruence|]. destruct (has_line ud c) as [(u & Hu & <-)|Hn].
    + left. exists u. split; [exact Hu|]. split; [reflexivity|]. unfold step_of, line_step. destruct k.
      * rewrite (gen_compat crlf ud ex np Hf tb Hg u Hu H). destruct (ul_dec u) as [[[ty|] l]|]; reflexivity.
      * rewrite (gen_canon crlf ud ex np Hf tb Hg u Hu H). destruct (ul_dec u) as [[[ty|] l]|]; reflexivity.
    + right. split; [exact Hn|]. destruct (gen_dec_none crlf ud ex np Hf tb Hg c Hn H) as [A B]. destruct k; assumption.
Qed.
Lemma Huniq : ud_unique ud.
Proof. apply Hf. Qed.
Lemma ccc_eq ccc : reads_ccc ud ccc -> forall c, ccc c = canonical_combining_class tb c.
Proof. intros H c. eapply file_ccc_fun; [apply Huniq|apply H|apply lib_ccc]. Qed.
Lemma step_eq k step : reads_step ud k step -> forall c, step c = step_of tb k c.
Proof. intros H c. eapply file_step_fun; [apply Huniq|apply H|apply lib_step]. Qed.

Lemma std_lib ccc step k s n : reads_ccc ud ccc -> reads_step ud k step ->
  standard_decomposed ccc step s n <-> standard_decomposed (canonical_combining_class tb) (step_of tb k) s n.
Proof.
  intros Hc Hs. pose proof (ccc_eq ccc Hc) as Ec. pose proof (step_eq k step Hs) as Es. split; intros (d & A & B & C); exists d.
  - split; [apply (fds_ext step _ Es), A|]. split; [apply (reorders_ext _ _ Ec), B|apply (ordered_ext _ _ Ec), C].
  - split; [apply (fds_ext _ step (fun c => eq_sym (Es c))), A|].
    split; [apply (reorders_ext _ _ (fun c => eq_sym (Ec c))), B|apply (ordered_ext _ _ (fun c => eq_sym (Ec c))), C].
Qed.

Lemma primary_lib a b c : norm_data_ok ud ex np -> exclusions_derived ud ex np -> composites_plain ud ex np ->
  canonical_combining_class tb a = 0 -> (primary_composite tb a b c <-> file_primary ud ex np a b c).
Proof.
  intros Hd Hx [_ Hh] Ha. pose proof (gen_excluded crlf ud ex np Hf tb Hg c) as Gx.
  assert (Hb : bare_exclusion np c -> exists v, assigns np FCE v c).
  { intros (n & A & B & _ & C). exists (nl_value n), n. auto. }
  split.
  - intros [Hex [Hdec|(Hc & l & v & Hda & Hdc)]].
    + destruct (is_hangul_syllable c) eqn:Hc.
      * apply hangul_range in Hc. destruct (syllable_ex c Hc) as (l & v & t & Hs). right. left.
        unfold canonical_decomposition in Hdec. rewrite (proj2 (hangul_range c) Hc), (syllable_decompose c l v t Hs) in Hdec.
        destruct (N.eqb_spec t 0) as [T0|]; [|discriminate]. subst t. cbn [app] in Hdec. injection Hdec as <- <-. exists l, v. auto.
      * left. destruct (has_line ud c) as [(u & Hu & Ec)|Hn].
        -- rewrite <- Ec in Hdec, Hc. rewrite (gen_canon crlf ud ex np Hf tb Hg u Hu Hc) in Hdec.
           assert (Hdu : ul_dec u = Some (None, [a; b])) by (destruct (ul_dec u) as [[[ty|] l]|]; try discriminate; congruence).
           split; [exists u; auto|]. split.
           ++ intros L. rewrite (proj2 Gx (or_introl L)) in Hex. discriminate.
           ++ intros (w & n & A & B & _ & D). destruct (Hx n c A B D) as [L|[_ Hns]].
              ** rewrite (proj2 Gx (or_introl L)) in Hex. discriminate.
              ** apply (Hns u a b Hu Ec Hdu). apply (starter_ccc crlf ud ex np Hf tb Hg). exact Ha.
        -- destruct (gen_dec_none crlf ud ex np Hf tb Hg c Hn Hc). congruence.
    + apply hangul_range in Hc. destruct (syllable_ex c Hc) as (l1 & v1 & t1 & Hs). right. right.
      rewrite (syllable_decompose c _ _ _ Hs) in Hdc. destruct (N.eqb_spec t1 0) as [T0|T]; [discriminate|]. cbn [app] in Hdc. injection Hdc as <- <- <-.
      destruct (is_hangul_syllable a) eqn:Hsa.
      * apply hangul_range in Hsa. destruct (syllable_ex a Hsa) as (l2 & v2 & t2 & Hs2). rewrite (syllable_decompose a _ _ _ Hs2) in Hda.
        destruct (N.eqb_spec t2 0) as [T0|T2]; [|discriminate]. subst t2. cbn [app] in Hda. injection Hda as E1 E2.
        exists l1, v1, t1. split; [lia|]. split; [exact Hs|]. split; [|reflexivity]. replace l1 with l2 by lia. replace v1 with v2 by lia. exact Hs2.
      * unfold hangul_decompose in Hda. rewrite Hsa in Hda. discriminate.
  - intros [((u & Hu & Ec & Hdu) & HL & HA)|[(l & v & Hs & -> & ->)|(l & v & t & Ht & Hs & Hsa & ->)]].
    + assert (Hc : is_hangul_syllable c = false).
      { destruct (is_hangul_syllable c) eqn:Q; [|reflexivity]. subst c. destruct (proj1 Hd u Hu Q). congruence. }
      split.
      * apply not_true_iff_false. intros Q. apply Gx in Q.
        destruct Q as [Q|Q]; [exact (HL Q)|exact (HA (Hb Q))].
      * left. subst c. rewrite (gen_canon crlf ud ex np Hf tb Hg u Hu Hc), Hdu. reflexivity.
    + pose proof (syllable_range _ _ _ _ Hs) as Hr. apply hangul_range in Hr. split.
      * apply not_true_iff_false. intros Q. apply Gx in Q. destruct (Hh c Hr). tauto.
      * left. unfold canonical_decomposition. rewrite Hr, (syllable_decompose _ _ _ _ Hs). reflexivity.
    + pose proof (syllable_range _ _ _ _ Hs) as Hr. apply hangul_range in Hr. split.
      * apply not_true_iff_false. intros Q. apply Gx in Q. destruct (Hh c Hr). tauto.
      * right. split; [exact Hr|]. exists (0x1100 + l), (0x1161 + v). rewrite (syllable_decompose _ _ _ _ Hs), (syllable_decompose _ _ _ _ Hsa).
        split; [reflexivity|]. destruct (N.eqb_spec t 0); [lia|reflexivity].
Qed.

Lemma recomposed_composed : forall d s r, recomposed tb d s r <-> composed (canonical_combining_class tb) (primary_composite tb) d s r.
Proof.
  split; induction 1; [constructor|eapply C_compose; eassumption|apply C_keep; assumption|constructor|eapply R_compose; eassumption|apply R_keep; assumption].
Qed.
Lemma displaced_behind : forall t h, displaced_from tb h t = behind (canonical_combining_class tb) h t.
Proof. induction t as [|c t IH]; intros h; cbn [displaced_from behind]; [reflexivity|]. rewrite !IH. reflexivity. Qed.

Lemma composed_lib ccc : reads_ccc ud ccc -> norm_data_ok ud ex np -> exclusions_derived ud ex np -> composites_plain ud ex np ->
  forall d s r, composed ccc (file_primary ud ex np) d s r <-> recomposed tb d s r.
Proof.
  intros Hc Hd Hx Hp d s r. pose proof (ccc_eq ccc Hc) as Ec. rewrite recomposed_composed. split; apply composed_ext; intros.
  - apply Ec.
  - symmetry. apply primary_lib; auto. rewrite <- Ec. assumption.
  - symmetry. apply Ec.
  - apply primary_lib; auto.
Qed.
End G.
