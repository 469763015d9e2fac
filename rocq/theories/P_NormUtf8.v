(** Proofs about the UTF-8 side of normalization. *)
From Verif Require Import Base Spec_Utf M_Utf8 M_Convert P_Utf8 P_Utf8b P_Convert M_Tables P_Tables M_Normalize Spec_Normalize P_Order P_Normalize
  P_Hangul M_NormUtf8 Spec_NormUtf8.
Open Scope N_scope.

Lemma convert_encode l : convert_it T8 T32 l = Ok (flat_map encoder_char l).
Proof.
  unfold convert_it. cbn [elem_eqb decoder_it encoder].
  assert (G : forall l fuel, (length l <= fuel)%nat -> convert_loop decoder_char32 encoder_char fuel l = Ok (flat_map encoder_char l)).
  { clear. induction l as [|c l IH]; intros fuel Hf; [destruct fuel; reflexivity|].
    destruct fuel as [|f]; cbn [length] in Hf; [lia|]. cbn [convert_loop decoder_char32 next_it bindR flat_map].
    rewrite IH by lia. reflexivity. }
  apply G. lia.
Qed.
Lemma encode_segment_ok l : encode_segment l = Ok (flat_map encoder_char l).
Proof. destruct l; [reflexivity|]. unfold encode_segment. apply convert_encode. Qed.

Lemma encode_scalars t : scalars t -> flat_map encoder_char t = utf8_text t.
Proof.
  intros H. induction H as [|c t Hc Ht IH]; [reflexivity|]. cbn [flat_map utf8_text]. fold (utf8_text t).
  rewrite IH, encoders_agree, to_utf8_char_spec by (apply scalar_lt in Hc; lia). reflexivity.
Qed.

Lemma hangul_decompose_scalar s x : In x (hangul_decompose s) -> scalar x.
Proof.
  unfold hangul_decompose. destruct (is_hangul_syllable s) eqn:E; [|intros []]. revert E.
  unfold is_hangul_syllable, scalar, SBase, SCount, LBase, VBase, TBase, NCount, VCount, TCount, LCount. cbn [negb]. intros E.
  assert (H1 : (s - 0xAC00) / 588 < 19) by (apply N.div_lt_upper_bound; lia).
  assert (H2 : ((s - 0xAC00) mod 588) / 28 < 21) by (apply N.div_lt_upper_bound; [lia|]; apply N.mod_lt; lia).
  assert (H3 : (s - 0xAC00) mod 28 < 28) by (apply N.mod_lt; lia).
  change (21 * 28) with 588.
  destruct (0 <? (s - 0xAC00) mod 28); cbn [In]; intros; lia.
Qed.

Section Tables.
Variable tb : norm_tables.
Hypothesis Hs : scalar_tables tb.

Lemma step_scalar k c x : In x (step_of tb k c) -> scalar x.
Proof. destruct Hs as [H _]. unfold step_of. destruct k; intros Hx; apply (H c); auto. Qed.

Lemma decompose_scalar fuel : forall k c l, scalar c -> decompose_recursive tb fuel k c = Ok l -> scalars l.
Proof.
  induction fuel as [|f IH]; intros k c l Hc H; [discriminate|]. rewrite dec_unfold in H.
  destruct (is_hangul_syllable c).
  - injection H as <-. apply Forall_forall. intros x. apply hangul_decompose_scalar.
  - assert (G : forall d l, scalars d -> decompose_all tb f k d = Ok l -> scalars l).
    { intros d. induction d as [|x d IHd]; intros l0 Hd H0; cbn [decompose_all] in H0; [injection H0 as <-; constructor|].
      inversion Hd as [|? ? Hx Hd']; subst. destruct (decompose_recursive tb f k x) as [a| |] eqn:Ea; try discriminate.
      cbn [bindR] in H0. destruct (decompose_all tb f k d) as [b| |] eqn:Eb; try discriminate. cbn [bindR] in H0. injection H0 as <-.
      apply Forall_app. split; [apply (IH k x a Hx Ea)|apply (IHd b Hd' eq_refl)]. }
    destruct (step_of tb k c) as [|d0 ds] eqn:E.
    + injection H as <-. constructor; [exact Hc|constructor].
    + refine (G _ _ _ H). apply Forall_forall. intros x Hx. rewrite <- E in Hx. apply (step_scalar k c x Hx).
Qed.
Lemma decompose_all_scalar fuel k t : forall l, scalars t -> decompose_all tb fuel k t = Ok l -> scalars l.
Proof.
  induction t as [|x d IHd]; intros l0 Hd H0; cbn [decompose_all] in H0; [injection H0 as <-; constructor|].
  inversion Hd as [|? ? Hx Hd']; subst. destruct (decompose_recursive tb fuel k x) as [a| |] eqn:Ea; try discriminate.
  cbn [bindR] in H0. destruct (decompose_all tb fuel k d) as [b| |] eqn:Eb; try discriminate. cbn [bindR] in H0. injection H0 as <-.
  apply Forall_app. split; [apply (decompose_scalar fuel k x a Hx Ea)|apply (IHd b Hd' eq_refl)].
Qed.
Lemma try_compose_scalar a b : try_compose tb a b = 0 \/ scalar (try_compose tb a b).
Proof.
  assert (G : comp_search (t_comp tb) a b = 0 \/ scalar (comp_search (t_comp tb) a b)).
  { destruct (comp_search_sound (t_comp tb) a b _ eq_refl) as [E|E]; [left; exact E|right; apply (proj2 Hs a b), E]. }
  unfold try_compose.
  destruct (is_hangul_l_jamo a) eqn:Ea.
  - destruct (is_hangul_v_jamo b) eqn:Eb; [|exact G]. right. clear G Hs. revert Ea Eb.
    unfold is_hangul_l_jamo, is_hangul_v_jamo, scalar, SBase, LBase, LCount, VBase, VCount, TCount. intros. lia.
  - destruct (is_hangul_syllable a) eqn:Es; [|exact G].
    destruct (((a - SBase) mod TCount =? 0) && ((TBase <=? b) && (b <? TBase + TCount))) eqn:E; [|exact G]. right. clear G Hs.
    revert Es E. unfold is_hangul_syllable, scalar, SBase, SCount, TBase, TCount. intros Es E.
    assert (Hd := N.div_mod (a - 0xAC00) 28 ltac:(lia)). lia.
Qed.
Lemma loop_scalar text : scalars text -> forall st last, scalar st -> forall rr, scalars rr -> scalars (compose_loop tb text rr st last).
Proof.
  intros H. induction H as [|c t Hc Ht IH]; intros st last Hst rr Hrr; cbn [compose_loop].
  - apply Forall_rev. constructor; assumption.
  - set (cc := canonical_combining_class tb c).
    set (z := if (last <? cc) || (last =? 0) then try_compose tb st c else 0).
    assert (Hz : z = 0 \/ scalar z).
    { unfold z. destruct ((last <? cc) || (last =? 0)); [apply try_compose_scalar|left; reflexivity]. }
    destruct (negb (z =? 0) && negb (is_composition_exclusion tb z)) eqn:E.
    + apply IH; [|exact Hrr]. destruct Hz as [Hz|Hz]; [|exact Hz]. rewrite Hz in E. discriminate.
    + destruct (cc =? 0); apply IH; try assumption; constructor; assumption.
Qed.
Lemma lead_scalar text : scalars text -> forall rr, scalars rr -> scalars (compose_lead tb text rr).
Proof.
  intros H. induction H as [|c t Hc Ht IH]; intros rr Hrr; cbn [compose_lead]; [apply Forall_rev, Hrr|].
  destruct (negb (canonical_combining_class tb c =? 0)); [apply IH; constructor; assumption|].
  apply loop_scalar; assumption.
Qed.
Lemma normalize_scalar fuel form t r : scalars t -> normalize tb fuel t form = Ok r -> scalars r.
Proof.
  intros Ht H. unfold normalize in H. destruct t as [|c t]; [injection H as <-; constructor|].
  destruct (decompose_all tb fuel (use_compat form) (c :: t)) as [d| |] eqn:E; try discriminate. cbn [bindR] in H. injection H as <-.
  apply decompose_all_scalar in E; [|exact Ht].
  assert (Ho : scalars (canonical_order tb d)).
  { apply Forall_forall. intros x Hx. apply (proj1 (order_in tb _ _)) in Hx. unfold scalars in E. rewrite Forall_forall in E. apply E, Hx. }
  destruct (composes form); [|exact Ho]. apply lead_scalar; [exact Ho|constructor].
Qed.
End Tables.

(** ** The overloads *)
Lemma decode_text i t : scalars t -> convert_to false i T32 T8 (utf8_text t) = Ok t.
Proof. intros H. pose proof (convert_to_units i T32 T8 t H) as E. rewrite text_units_8, text_units_32 in E. exact E. Qed.
Lemma encode_text i t : scalars t -> convert_to false i T8 T32 t = Ok (utf8_text t).
Proof. intros H. pose proof (convert_to_units i T8 T32 t H) as E. rewrite text_units_8, text_units_32 in E. exact E. Qed.

Lemma normalize8_eq tb i fuel t form : scalar_tables tb -> scalars t ->
  normalize8 tb i fuel (utf8_text t) form = do r <- normalize tb fuel t form ; Ok (utf8_text r).
Proof.
  intros Hs Ht. unfold normalize8. rewrite decode_text by exact Ht. cbn [bindR].
  destruct (normalize tb fuel t form) as [r| |] eqn:E; try reflexivity. cbn [bindR].
  apply encode_text. apply (normalize_scalar tb Hs _ _ _ _ Ht E).
Qed.

Lemma list_eqb_eq a : forall b, list_eqb a b = true <-> a = b.
Proof.
  induction a as [|x a IH]; intros [|y b]; cbn [list_eqb]; try (split; congruence).
  rewrite Bool.andb_true_iff, N.eqb_eq, IH. split; [intros [-> ->]; reflexivity|intros [= -> ->]; auto].
Qed.
Lemma list_eqb_utf8 a b : scalars a -> scalars b -> list_eqb (utf8_text a) (utf8_text b) = list_eqb a b.
Proof.
  intros Ha Hb. apply Bool.eq_iff_eq_true. rewrite !list_eqb_eq. split; [apply utf8_text_inj; assumption|congruence].
Qed.

(** ** The stream *)
Lemma from_utf8_eqst a b x : eqst a b ->
  snd (from_utf8 a x) = snd (from_utf8 b x) /\ eqst (fst (from_utf8 a x)) (fst (from_utf8 b x)).
Proof.
  intros [He Hs]. destruct (N.eq_dec (d_exp a) 0) as [E|E]; [|rewrite (Hs E); split; [reflexivity|split; auto]].
  unfold from_utf8. rewrite <- He, E. change (0 =? 0) with true. cbn match. unfold from_utf8_lead, from_utf8_finish.
  destruct (N.land x 0x80 =? 0).
  { cbn [fst snd]. split; [reflexivity|]. split; cbn [d_exp]; [exact He|]. rewrite E. lia. }
  destruct (N.land x 0xE0 =? 0xC0); [split; [reflexivity|split; auto]|].
  destruct (N.land x 0xF0 =? 0xE0); [split; [reflexivity|split; auto]|].
  destruct (N.land x 0xF8 =? 0xF0); [split; [reflexivity|split; auto]|].
  cbn [fst snd]. split; [reflexivity|]. split; cbn [d_exp]; [reflexivity|lia].
Qed.
Lemma from_utf8_run_eqst bs : forall a b, eqst a b ->
  snd (from_utf8_run a bs) = snd (from_utf8_run b bs) /\ eqst (fst (from_utf8_run a bs)) (fst (from_utf8_run b bs)).
Proof.
  induction bs as [|x bs IH]; intros a b H; [split; [reflexivity|exact H]|]. cbn [from_utf8_run].
  destruct (from_utf8_eqst a b x H) as [A B].
  destruct (from_utf8 a x) as [a1 r1], (from_utf8 b x) as [b1 r2]. cbn [fst snd] in A, B. subst r2.
  destruct (IH _ _ B) as [C D]. destruct (from_utf8_run a1 bs), (from_utf8_run b1 bs). cbn [fst snd] in *. subst. auto.
Qed.

Section Stream.
Variable tb : norm_tables.

Lemma ufeed_eq fuel form bs : forall st,
  ufeed tb fuel form st bs =
  do (o, p) <- nfeed_all tb fuel form (u_pending st) (replaced (snd (from_utf8_run (u_dec st) bs))) ;
  Ok (flat_map encoder_char o, UN (fst (from_utf8_run (u_dec st) bs)) p).
Proof.
  induction bs as [|b bs IH]; intros [d pd]; [reflexivity|]. cbn [ufeed from_utf8_run u_dec u_pending]. unfold ufeed_byte. cbn [u_dec u_pending].
  destruct (from_utf8 d b) as [d1 r]. specialize (fun p => IH (UN d1 p)). cbn [u_dec u_pending] in IH.
  destruct (from_utf8_run d1 bs) as [d2 rs]. cbn [fst snd] in *.
  destruct r; cbn [replaced].
  - cbn [nfeed_all]. destruct (nfeed tb fuel form pd 0xFFFD) as [[o p]| |]; try reflexivity. cbn [bindR].
    rewrite encode_segment_ok. cbn [bindR]. rewrite IH.
    destruct (nfeed_all tb fuel form p (replaced rs)) as [[o' p']| |]; try reflexivity. cbn [bindR]. rewrite flat_map_app. reflexivity.
  - cbn [bindR]. rewrite IH. destruct (nfeed_all tb fuel form pd (replaced rs)) as [[o' p']| |]; reflexivity.
  - cbn [nfeed_all]. destruct (nfeed tb fuel form pd v) as [[o p]| |]; try reflexivity. cbn [bindR].
    rewrite encode_segment_ok. cbn [bindR]. rewrite IH.
    destruct (nfeed_all tb fuel form p (replaced rs)) as [[o' p']| |]; try reflexivity. cbn [bindR]. rewrite flat_map_app. reflexivity.
Qed.
Lemma uflush_eq fuel form st :
  uflush tb fuel form st = do seg <- emit_pending tb fuel form (u_pending st) ; Ok (flat_map encoder_char seg, UN (u_dec st) []).
Proof. unfold uflush. destruct (emit_pending tb fuel form (u_pending st)); try reflexivity. cbn [bindR]. rewrite encode_segment_ok. reflexivity. Qed.

Lemma ufeed_app fuel form a : forall st b,
  ufeed tb fuel form st (a ++ b) =
  do (o, st1) <- ufeed tb fuel form st a ; do (o', st2) <- ufeed tb fuel form st1 b ; Ok (o ++ o', st2).
Proof.
  induction a as [|x a IH]; intros st b; cbn [app ufeed].
  - cbn [bindR]. destruct (ufeed tb fuel form st b) as [[o s]| |]; reflexivity.
  - destruct (ufeed_byte tb fuel form st x) as [[o s]| |]; try reflexivity. cbn [bindR]. rewrite IH.
    destruct (ufeed tb fuel form s a) as [[o1 s1]| |]; try reflexivity. cbn [bindR].
    destruct (ufeed tb fuel form s1 b) as [[o2 s2]| |]; try reflexivity. cbn [bindR]. rewrite app_assoc. reflexivity.
Qed.
Lemma urun_app fuel form h : forall st h',
  urun tb fuel form st (h ++ h') =
  do (os, st1) <- urun tb fuel form st h ; do (os', st2) <- urun tb fuel form st1 h' ; Ok (os ++ os', st2).
Proof.
  induction h as [|x h IH]; intros st b; cbn [app urun].
  - cbn [bindR]. destruct (urun tb fuel form st b) as [[o s]| |]; reflexivity.
  - destruct x as [bs| |].
    + destruct (ufeed tb fuel form st bs) as [[o s]| |]; try reflexivity. cbn [bindR]. rewrite IH.
      destruct (urun tb fuel form s h) as [[o1 s1]| |]; try reflexivity. cbn [bindR].
      destruct (urun tb fuel form s1 b) as [[o2 s2]| |]; reflexivity.
    + destruct (uflush tb fuel form st) as [[o s]| |]; try reflexivity. cbn [bindR]. rewrite IH.
      destruct (urun tb fuel form s h) as [[o1 s1]| |]; try reflexivity. cbn [bindR].
      destruct (urun tb fuel form s1 b) as [[o2 s2]| |]; reflexivity.
    + rewrite IH. destruct (urun tb fuel form (ureset st) h) as [[o1 s1]| |]; try reflexivity. cbn [bindR].
      destruct (urun tb fuel form s1 b) as [[o2 s2]| |]; reflexivity.
Qed.
Lemma urun_feeds fuel form chunks : forall st,
  match urun tb fuel form st (map Feed chunks) with
  | Ok (os, s) => ufeed tb fuel form st (concat chunks) = Ok (concat os, s)
  | UB => ufeed tb fuel form st (concat chunks) = UB
  | NoFuel => ufeed tb fuel form st (concat chunks) = NoFuel
  end.
Proof.
  induction chunks as [|c cs IH]; intros st; cbn [map urun concat]; [reflexivity|]. rewrite ufeed_app.
  destruct (ufeed tb fuel form st c) as [[o s]| |]; try reflexivity. cbn [bindR]. specialize (IH s).
  destruct (urun tb fuel form s (map Feed cs)) as [[os s']| |]; cbn [bindR]; rewrite IH; reflexivity.
Qed.

(** states that behave alike *)
Definition eqst_u (a b : unorm) : Prop := eqst (u_dec a) (u_dec b) /\ u_pending a = u_pending b.
Lemma urun_eqst fuel form h : forall a b os a', eqst_u a b -> urun tb fuel form a h = Ok (os, a') ->
  exists b', urun tb fuel form b h = Ok (os, b') /\ eqst_u a' b'.
Proof.
  induction h as [|x h IH]; intros a b os a' [Hd Hp] H; cbn [urun] in *.
  - injection H as <- <-. exists b. split; [reflexivity|split; assumption].
  - destruct x as [bs| |].
    + rewrite ufeed_eq in H. rewrite ufeed_eq. destruct (from_utf8_run_eqst bs _ _ Hd) as [E1 E2]. rewrite <- E1, <- Hp.
      destruct (nfeed_all tb fuel form (u_pending a) (replaced (snd (from_utf8_run (u_dec a) bs)))) as [[o p]| |]; try discriminate.
      cbn [bindR] in *.
      destruct (urun tb fuel form (UN (fst (from_utf8_run (u_dec a) bs)) p) h) as [[os1 a1]| |] eqn:E; try discriminate.
      cbn [bindR] in H. injection H as <- <-.
      destruct (IH (UN (fst (from_utf8_run (u_dec a) bs)) p) (UN (fst (from_utf8_run (u_dec b) bs)) p) _ _ ltac:(split; [exact E2|reflexivity]) E) as (b' & Eb & Hb).
      rewrite Eb. cbn [bindR]. eauto.
    + rewrite uflush_eq in H. rewrite uflush_eq, <- Hp. destruct (emit_pending tb fuel form (u_pending a)) as [seg| |]; try discriminate.
      cbn [bindR] in *. destruct (urun tb fuel form (UN (u_dec a) []) h) as [[os1 a1]| |] eqn:E; try discriminate.
      cbn [bindR] in H. injection H as <- <-.
      destruct (IH (UN (u_dec a) []) (UN (u_dec b) []) _ _ ltac:(split; [exact Hd|reflexivity]) E) as (b' & Eb & Hb). rewrite Eb. cbn [bindR]. eauto.
    + unfold ureset in *. destruct (urun tb fuel form (UN dinit []) h) as [[os1 a1]| |] eqn:E; try discriminate. cbn [bindR] in *.
      injection H as <- <-. exists a1. split; [reflexivity|]. split; [split; auto|reflexivity].
Qed.
End Stream.

Lemma replaced_char c : replaced (char_results c) = [c].
Proof.
  unfold char_results. induction (length (utf8 c) - 1)%nat as [|n IH]; [reflexivity|exact IH].
Qed.
Lemma replaced_app a b : replaced (a ++ b) = replaced a ++ replaced b.
Proof. induction a as [|[| |v] a IH]; cbn [app replaced]; rewrite ?IH; reflexivity. Qed.
Lemma replaced_text t : replaced (flat_map char_results t) = t.
Proof. induction t as [|c t IH]; [reflexivity|]. cbn [flat_map]. rewrite replaced_app, replaced_char, IH. reflexivity. Qed.
