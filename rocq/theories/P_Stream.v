(** quick_check, is_normalized and the streaming normalizer. *)
From Verif Require Import Base M_Tables M_Normalize Spec_Tables P_Tables Spec_Normalize P_Order P_Normalize P_Compose.
From Coq Require Import Relations Sorted Permutation.
Open Scope N_scope.

Scheme full_dec_ind := Induction for full_decomposition Sort Prop
  with full_decs_ind := Induction for full_decompositions Sort Prop.

Section Stream.
Variable tb : norm_tables.
Let ccc := canonical_combining_class tb.
Let R (x y : N) : Prop := ~ (0 < ccc y < ccc x).

(** ** quick_check *)
Lemma qc_loop_ok form t : forall res last, quick_check_loop tb form t res last <> No ->
  Forall (fun c => cp_quick_check tb form c <> No) t /\ Sorted R t /\ hd_ge tb last t.
Proof.
  induction t as [|c t IH]; intros res last H; [repeat constructor|].
  cbn [quick_check_loop] in H. change (canonical_combining_class tb) with ccc in H.
  destruct (negb (ccc c =? 0) && (ccc c <? last)) eqn:E; [congruence|].
  assert (Hc : cp_quick_check tb form c <> No) by (intros Hn; rewrite Hn in H; congruence).
  assert (Hrec : exists res', quick_check_loop tb form t res' (ccc c) <> No).
  { destruct (cp_quick_check tb form c); [exists res| |exists Maybe]; try exact H. congruence. }
  destruct Hrec as [res' Hr]. destruct (IH res' (ccc c) Hr) as [H1 [H2 H3]].
  split; [constructor; assumption|]. split.
  - constructor; [exact H2|]. destruct t as [|y t]; constructor. cbn in H3. unfold R.
    change (canonical_combining_class tb) with ccc in H3. lia.
  - cbn. change (canonical_combining_class tb) with ccc. lia.
Qed.
Lemma qc_loop_yes form t : forall res last, quick_check_loop tb form t res last = Yes ->
  Forall (fun c => cp_quick_check tb form c = Yes) t.
Proof.
  assert (G : forall t res last, quick_check_loop tb form t res last = Yes -> res = Yes /\ Forall (fun c => cp_quick_check tb form c = Yes) t).
  { clear t. induction t as [|c t IH]; intros res last H; cbn [quick_check_loop] in H; [split; [exact H|constructor]|].
    destruct (negb _ && _); [discriminate|].
    destruct (cp_quick_check tb form c) eqn:Ec; [| discriminate|].
    - apply IH in H. destruct H. split; [assumption|]. constructor; assumption.
    - apply IH in H. destruct H. discriminate. }
  intros res last H. apply (G t res last H).
Qed.
Lemma qc_loop_no form t : forall res last, res <> No -> quick_check_loop tb form t res last = No ->
  (exists c, In c t /\ cp_quick_check tb form c = No) \/ ~ (Sorted R t /\ hd_ge tb last t).
Proof.
  induction t as [|c t IH]; intros res last Hr H; [cbn in H; congruence|].
  cbn [quick_check_loop] in H. change (canonical_combining_class tb) with ccc in H.
  destruct (negb (ccc c =? 0) && (ccc c <? last)) eqn:E.
  - right. intros [_ Hh]. cbn in Hh. change (canonical_combining_class tb) with ccc in Hh. lia.
  - destruct (cp_quick_check tb form c) eqn:Ec.
    + apply IH in H; [|exact Hr]. destruct H as [[x [Hx Hn]]|H]; [left; exists x; split; [right|]; assumption|].
      right. intros [Hs _]. apply H. inversion Hs; subst. split; [assumption|].
      destruct t as [|y t]; cbn; [exact I|]. inversion H3; subst. unfold R in *. change (canonical_combining_class tb) with ccc. lia.
    + left. exists c. split; [left; reflexivity|exact Ec].
    + apply IH in H; [|discriminate]. destruct H as [[x [Hx Hn]]|H]; [left; exists x; split; [right|]; assumption|].
      right. intros [Hs _]. apply H. inversion Hs; subst. split; [assumption|].
      destruct t as [|y t]; cbn; [exact I|]. inversion H3; subst. unfold R in *. change (canonical_combining_class tb) with ccc. lia.
Qed.
Lemma hd_ge_0 t : hd_ge tb 0 t.
Proof. destruct t; cbn; [exact I|lia]. Qed.

Variable rank : N -> nat.
Hypothesis Hrank : forall c x, In x (compatibility_decomposition tb c) -> (rank x < rank c)%nat.
Hypothesis Hjamo : jamos_plain tb.
Notation D := (D tb rank).
Notation NF := (NF tb rank).

Lemma full_D k c l : full_decomposition (step_of tb k) c l -> l = D k c.
Proof.
  intros H. revert c l H.
  apply (full_dec_ind (step_of tb k) (fun c l _ => l = D k c) (fun t l _ => l = flat_map (D k) t)).
  - intros c Hc. symmetry. apply (D_fixed tb rank Hrank), Hc.
  - intros c l Hc _ IH. rewrite (D_unfold tb rank Hrank Hjamo k c). destruct (step_of tb k c); [congruence|exact IH].
  - reflexivity.
  - intros c r x y _ -> _ ->. reflexivity.
Qed.

(** Decomposing forms: fixed points are exactly the ordered undecomposable texts. *)
Lemma NF_decomp_fixed form t : composes form = false ->
  NF form t = t <-> (forall x, In x t -> step_of tb (use_compat form) x = []) /\ ordered ccc t.
Proof.
  intros Hf. unfold P_Normalize.NF. rewrite Hf. set (k := use_compat form). split.
  - intros E. split.
    + intros x Hx. rewrite <- E in Hx. apply (proj1 (order_in tb _ _)) in Hx. apply (flat_D_elem tb rank Hrank Hjamo k t x Hx).
    + rewrite <- E. apply canonical_order_ordered.
  - intros [H1 H2]. rewrite (flat_D_fixed tb rank Hrank k t H1). apply canonical_order_id, H2.
Qed.

Lemma qc_form_exact form c : composes form = false -> qc_decomp_exact tb ->
  (cp_quick_check tb form c = No <-> step_of tb (use_compat form) c <> []) /\ cp_quick_check tb form c <> Maybe.
Proof.
  intros Hf [H1 H2]. destruct form; try discriminate; cbn [cp_quick_check use_compat step_of].
  - specialize (H1 c). destruct (nfd_quick_check tb c); split; try discriminate; split; intros; try discriminate; try reflexivity.
    + exfalso. apply H1 in H. discriminate.
    + apply H1. reflexivity.
  - specialize (H2 c). destruct (nfkd_quick_check tb c); split; try discriminate; split; intros; try discriminate; try reflexivity.
    + exfalso. apply H2 in H. discriminate.
    + apply H2. reflexivity.
Qed.

Lemma qc_decomp form t : composes form = false -> qc_decomp_exact tb ->
  (quick_check tb t form = Yes <-> NF form t = t) /\ (quick_check tb t form = No <-> NF form t <> t).
Proof.
  intros Hf Hq. rewrite (NF_decomp_fixed form t Hf). unfold quick_check.
  assert (HM : forall res, res <> Maybe -> forall last, quick_check_loop tb form t res last <> Maybe).
  { clear - Hf Hq. induction t as [|c t IH]; intros res Hr last; cbn [quick_check_loop]; [exact Hr|].
    destruct (negb _ && _); [discriminate|]. destruct (qc_form_exact form c Hf Hq) as [_ Hm].
    destruct (cp_quick_check tb form c); [apply IH, Hr|discriminate|congruence]. }
  specialize (HM Yes ltac:(discriminate) 0).
  assert (HN : quick_check_loop tb form t Yes 0 <> No -> (forall x, In x t -> step_of tb (use_compat form) x = []) /\ ordered ccc t).
  { intros H. destruct (qc_loop_ok form t _ _ H) as [H1 [H2 _]]. split; [|apply ordered_sorted, H2].
    intros x Hx. rewrite Forall_forall in H1. specialize (H1 x Hx).
    destruct (qc_form_exact form x Hf Hq) as [E _]. destruct (step_of tb (use_compat form) x); [reflexivity|].
    exfalso. apply H1, E. discriminate. }
  assert (HY : quick_check_loop tb form t Yes 0 = No -> ~ ((forall x, In x t -> step_of tb (use_compat form) x = []) /\ ordered ccc t)).
  { intros H [H1 H2]. destruct (qc_loop_no form t Yes 0 ltac:(discriminate) H) as [[c [Hc Hn]]|Hn].
    - apply (proj1 (qc_form_exact form c Hf Hq)) in Hn. apply Hn, H1, Hc.
    - apply Hn. split; [apply ordered_sorted, H2|apply hd_ge_0]. }
  destruct (quick_check_loop tb form t Yes 0) eqn:E; [| |congruence].
  - split; [split; [intros _; apply HN; discriminate|reflexivity]|].
    split; [discriminate|]. intros Hn. exfalso. apply Hn, HN. discriminate.
  - split; [split; [discriminate|]|]. { intros Hn. exfalso. revert Hn. apply HY. reflexivity. }
    split; [intros _; apply HY; reflexivity|reflexivity].
Qed.

(** Composing forms: No is definite. *)
Lemma qc_comp_no form t : composes form = true -> comp_starters tb -> qc_no_exact tb form ->
  quick_check tb t form = No -> NF form t <> t.
Proof.
  intros Hf Hst [Hq1 Hq2] Hno E.
  assert (Hall : forall c, In c t -> cp_quick_check tb form c <> No).
  { intros c Hc Hn. apply (Hq1 c Hn). rewrite <- E in Hc.
    assert (G : Forall (recomposes tb (use_compat form)) (NF form t)); [|rewrite Forall_forall in G; exact (G c Hc)].
    unfold P_Normalize.NF. rewrite Hf. apply compose_recomposes; [exact Hst|]. intros x Hx.
    apply (proj1 (order_in tb _ _)) in Hx. apply (flat_D_elem tb rank Hrank Hjamo _ t x Hx). }
  assert (Ho : ordered ccc t).
  { apply (composed_fixed_ordered tb rank Hrank Hst form t Hf); [| |exact E].
    - intros c Hc. apply (Hq2 c (Hall c Hc)).
    - intros c Hc Hz. destruct (Hq2 c (Hall c Hc)) as [_ H]. destruct (H Hz) as [h [l [Hd Hh]]].
      exists h, l. split; [symmetry; apply full_D, Hd|exact Hh]. }
  unfold quick_check in Hno. destruct (qc_loop_no form t Yes 0 ltac:(discriminate) Hno) as [[c [Hc Hn]]|Hn].
  - exact (Hall c Hc Hn).
  - apply Hn. split; [apply ordered_sorted, Ho|apply hd_ge_0].
Qed.

(** ** The streaming normalizer *)
Lemma NF_split form X c Y : clean_start tb form c -> NF form (X ++ c :: Y) = NF form X ++ NF form (c :: Y).
Proof.
  intros [h [l [Hd [Hh Hn]]]]. apply full_D in Hd. unfold P_Normalize.NF. set (k := use_compat form) in *.
  rewrite flat_map_app. cbn [flat_map]. rewrite <- Hd. cbn [app]. rewrite order_split by exact Hh.
  destruct (composes form); [|reflexivity].
  destruct (order_cons_starter tb h (l ++ flat_map (D k) Y) Hh) as [w [-> _]].
  apply compose_split; auto.
Qed.
Lemma NF_nil form : NF form [] = [].
Proof. unfold P_Normalize.NF. cbn. destruct (composes form); reflexivity. Qed.

Lemma normalize_fuel form s f f' r : (f <= f')%nat -> normalize tb f s form = Ok r -> normalize tb f' s form = Ok r.
Proof.
  intros Hf H. unfold normalize in *. destruct s as [|c s]; [exact H|].
  destruct (decompose_all tb f (use_compat form) (c :: s)) as [d| |] eqn:E; try discriminate.
  rewrite (dec_all_mono tb f f' _ (fun c l => dec_mono tb f f' _ c l Hf) _ _ E). exact H.
Qed.
Lemma emit_eq fuel form p : emit_pending tb fuel form p = normalize tb fuel p form.
Proof. destruct p; reflexivity. Qed.

(** What the streaming normalizer computes, for any tables and fuel: with fuel enough for every segment. *)
Definition clean_text (form : nform) (t : list N) : Prop :=
  forall c, In c t -> is_boundary tb form c = true -> clean_start tb form c.

Lemma nfeed_all_ok form t : forall pending, clean_text form t -> pending <> [] ->
  exists f0, forall f, (f0 <= f)%nat -> exists o p, nfeed_all tb f form pending t = Ok (o, p) /\
    p <> [] /\ o ++ NF form p = NF form (pending ++ t).
Proof.
  induction t as [|c t IH]; intros pending Hc Hp.
  - exists 0%nat. intros f _. exists [], pending. cbn. rewrite app_nil_r. auto.
  - assert (Hc' : clean_text form t) by (intros x Hx; apply Hc; right; exact Hx).
    destruct (is_boundary tb form c) eqn:Eb.
    + destruct (IH [c] Hc' ltac:(discriminate)) as [f1 H1].
      destruct (normalize_NF tb rank Hrank form pending) as [f2 H2].
      exists (Nat.max f1 f2). intros f Hf. destruct (H1 f) as [o [p [E [Hpn Ep]]]]; [lia|].
      exists (NF form pending ++ o), p. destruct pending as [|q pd]; [congruence|]. cbn [nfeed_all]. unfold nfeed.
      rewrite Eb, emit_eq, H2 by lia. cbn [bindR]. rewrite E. cbn [bindR].
      split; [reflexivity|]. split; [exact Hpn|]. rewrite <- app_assoc, Ep.
      rewrite (NF_split form (q :: pd) c t); [reflexivity|]. apply Hc; [left; reflexivity|exact Eb].
    + destruct (IH (pending ++ [c]) Hc' ltac:(destruct pending; discriminate)) as [f1 H1].
      exists f1. intros f Hf. destruct (H1 f Hf) as [o [p [E [Hpn Ep]]]]. exists o, p.
      destruct pending as [|q pd]; [congruence|]. cbn [nfeed_all]. unfold nfeed. rewrite Eb. cbn [bindR]. rewrite E. cbn [bindR].
      split; [reflexivity|]. split; [exact Hpn|]. rewrite Ep, <- app_assoc. reflexivity.
Qed.
Lemma stream_ok form t : clean_text form (tl t) -> exists f0, forall f, (f0 <= f)%nat -> stream_normalize tb f form t = Ok (NF form t).
Proof.
  intros Hc. destruct t as [|c t]; [exists 0%nat; intros f _; cbn; rewrite NF_nil; reflexivity|].
  destruct (nfeed_all_ok form t [c] Hc ltac:(discriminate)) as [f1 H1].
  assert (Hm : forall a b : nat, (Nat.max a b = Nat.max a b)%nat) by reflexivity. clear Hm.
  assert (G : exists f2, forall o p, nfeed_all tb f1 form [c] t = Ok (o, p) -> forall f, (f2 <= f)%nat -> normalize tb f p form = Ok (NF form p)).
  { destruct (nfeed_all tb f1 form [c] t) as [[o p]| |]; try (exists 0%nat; intros; discriminate).
    destruct (normalize_NF tb rank Hrank form p) as [f2 H2]. exists f2. intros o' p' E f Hf. inversion E; subst. apply H2, Hf. }
  destruct G as [f2 H2].
  exists (Nat.max f1 f2). intros f Hf. unfold stream_normalize. cbn [nfeed_all nfeed bindR].
  destruct (H1 f1) as [o1 [p1 [E1 [_ _]]]]; [lia|].
  destruct (H1 f) as [o [p [E [_ Ep]]]]; [lia|]. rewrite E. cbn [bindR app].
  assert (p = p1) as ->.
  { assert (Hsame : forall f f' t pd o p o' p', nfeed_all tb f form pd t = Ok (o, p) -> nfeed_all tb f' form pd t = Ok (o', p') -> p = p').
    { clear. intros f f'. induction t as [|c t IH]; intros pd o p o' p' A B; cbn [nfeed_all] in *; [congruence|].
      destruct (nfeed tb f form pd c) as [[a1 a2]| |] eqn:EA; try discriminate.
      destruct (nfeed tb f' form pd c) as [[b1 b2]| |] eqn:EB; try discriminate. cbn [bindR] in *.
      assert (a2 = b2) as ->.
      { unfold nfeed in *. destruct pd; [congruence|]. destruct (is_boundary tb form c); [|congruence].
        destruct (emit_pending tb f form _); try discriminate. destruct (emit_pending tb f' form _); try discriminate.
        cbn in *. congruence. }
      destruct (nfeed_all tb f form b2 t) as [[c1 c2]| |] eqn:EC; try discriminate.
      destruct (nfeed_all tb f' form b2 t) as [[d1 d2]| |] eqn:ED; try discriminate. cbn [bindR] in *.
      inversion A; inversion B; subst. eapply IH; eassumption. }
    eapply Hsame; eassumption. }
  rewrite emit_eq, (H2 o1 p1 E1 f) by lia. cbn [bindR]. rewrite Ep. reflexivity.
Qed.
Lemma streams_det form t r r' : streams tb form t r -> streams tb form t r' -> r = r'.
Proof.
  assert (Hall : forall f f', (f <= f')%nat -> forall t pd x, nfeed_all tb f form pd t = Ok x -> nfeed_all tb f' form pd t = Ok x).
  { intros f f' Hf. induction t0 as [|c t0 IH]; intros pd x H; cbn [nfeed_all] in *; [exact H|].
    destruct (nfeed tb f form pd c) as [[a1 a2]| |] eqn:EA; try discriminate.
    assert (EB : nfeed tb f' form pd c = Ok (a1, a2)).
    { unfold nfeed in *. destruct pd as [|q pd]; [exact EA|]. destruct (is_boundary tb form c); [|exact EA].
      rewrite emit_eq in *. destruct (normalize tb f (q :: pd) form) as [y| |] eqn:EN; try discriminate.
      rewrite (normalize_fuel form _ f f' y Hf EN). exact EA. }
    rewrite EB. cbn [bindR] in *. destruct (nfeed_all tb f form a2 t0) as [[c1 c2]| |] eqn:EC; try discriminate.
    rewrite (IH _ _ EC). exact H. }
  assert (Hs : forall f f', (f <= f')%nat -> forall x, stream_normalize tb f form t = Ok x -> stream_normalize tb f' form t = Ok x).
  { intros f f' Hf x H. unfold stream_normalize in *. destruct (nfeed_all tb f form [] t) as [[o p]| |] eqn:E; try discriminate.
    rewrite (Hall f f' Hf _ _ _ E). cbn [bindR] in *. rewrite emit_eq in *.
    destruct (normalize tb f p form) as [y| |] eqn:EN; try discriminate.
    rewrite (normalize_fuel form _ f f' y Hf EN). exact H. }
  intros [f H] [f' H']. destruct (Nat.le_ge_cases f f') as [Hf|Hf].
  - apply (Hs _ _ Hf) in H. congruence.
  - apply (Hs _ _ Hf) in H'. congruence.
Qed.

(** Texts of clean starters that are their own normalization stay unchanged. *)
Lemma NF_clean_concat form t : (forall c, In c t -> clean_start tb form c /\ NF form [c] = [c]) -> NF form t = t.
Proof.
  induction t as [|c t IH]; intros H; [apply NF_nil|].
  destruct (H c (or_introl eq_refl)) as [_ Hc].
  assert (IH' : NF form t = t) by (apply IH; intros; apply H; right; assumption).
  destruct t as [|d t]; [exact Hc|].
  change (c :: d :: t) with ([c] ++ d :: t). rewrite NF_split by (apply H; right; left; reflexivity).
  rewrite Hc, IH'. reflexivity.
Qed.
End Stream.
