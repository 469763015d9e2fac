(** Decomposition and the decomposed forms: pure functions and their algebra. *)
From Verif Require Import Base M_Tables M_Normalize Spec_Normalize P_Order.
From Coq Require Import Relations Sorted Permutation.
Open Scope N_scope.

Lemma list_eqb_spec a b : list_eqb a b = true <-> a = b.
Proof.
  revert b. induction a as [|x a IH]; intros [|y b]; cbn; split; intros H; try discriminate; try reflexivity.
  - apply andb_true_iff in H. destruct H as [H1 H2]. apply N.eqb_eq in H1. apply IH in H2. congruence.
  - inversion H; subst. rewrite N.eqb_refl. apply IH. reflexivity.
Qed.

Lemma flat_map_perm {A B} (f : A -> list B) a b : Permutation a b -> Permutation (flat_map f a) (flat_map f b).
Proof.
  induction 1 as [|x a b H IH|x y a|a b c H1 IH1 H2 IH2]; cbn.
  - constructor.
  - apply Permutation_app_head, IH.
  - rewrite !app_assoc. apply Permutation_app_tail, Permutation_app_comm.
  - eapply perm_trans; eassumption.
Qed.

Lemma hangul_step tb k c : is_hangul_syllable c = true -> step_of tb k c = hangul_decompose c /\ hangul_decompose c <> [].
Proof.
  intros H. assert (Hn : hangul_decompose c <> []).
  { unfold hangul_decompose. rewrite H. cbn [negb]. destruct (0 <? _); discriminate. }
  split; [|exact Hn]. unfold step_of, compatibility_decomposition, canonical_decomposition. rewrite H.
  destruct k; [|reflexivity]. destruct (hangul_decompose c); [congruence|reflexivity].
Qed.

Lemma hangul_jamos c x : In x (hangul_decompose c) ->
  is_hangul_l_jamo x = true \/ is_hangul_v_jamo x = true \/ is_hangul_t_jamo x = true.
Proof.
  unfold hangul_decompose. destruct (is_hangul_syllable c) eqn:Hc; [|intros []]. cbn [negb].
  unfold is_hangul_syllable, is_hangul_l_jamo, is_hangul_v_jamo, is_hangul_t_jamo, SBase, SCount, LBase, LCount, VBase,
    VCount, TBase, TCount, NCount in *.
  destruct (N.ltb_spec 0 ((c - 0xAC00) mod 28)); cbn [In]; intros H'; repeat destruct H' as [<-|H']; try contradiction; lia.
Qed.

Section Dec.
Variable tb : norm_tables.
Let ccc := canonical_combining_class tb.

Lemma dec_unfold f k c : decompose_recursive tb (S f) k c =
  if is_hangul_syllable c then Ok (hangul_decompose c)
  else match step_of tb k c with [] => Ok [c] | d => decompose_all tb f k d end.
Proof.
  cbn [decompose_recursive]. destruct (is_hangul_syllable c) eqn:Hc; [reflexivity|].
  assert (E : match find_decomposition (t_canon tb) c with
              | [] => if k then find_decomposition (t_compat tb) c else []
              | _ :: _ => find_decomposition (t_canon tb) c end = step_of tb k c).
  { unfold step_of, compatibility_decomposition, canonical_decomposition. rewrite Hc.
    destruct (find_decomposition (t_canon tb) c), k; reflexivity. }
  assert (Hgo : forall l, (fix go (l : list N) : Res (list N) :=
                  match l with
                  | [] => Ok []
                  | c :: r => do x <- decompose_recursive tb f k c ; do y <- go r ; Ok (x ++ y)
                  end) l = decompose_all tb f k l).
  { induction l as [|c' l IH]; [reflexivity|]. cbn [decompose_all]. rewrite <- IH. reflexivity. }
  rewrite E. destruct (step_of tb k c) as [|d0 d]; [reflexivity|]. exact (Hgo (d0 :: d)).
Qed.

Lemma dec_all_mono f f' k : (forall c l, decompose_recursive tb f k c = Ok l -> decompose_recursive tb f' k c = Ok l) ->
  forall t l, decompose_all tb f k t = Ok l -> decompose_all tb f' k t = Ok l.
Proof.
  intros H. induction t as [|c t IH]; intros l; cbn [decompose_all]; [auto|].
  destruct (decompose_recursive tb f k c) as [x| |] eqn:E; cbn; try discriminate. rewrite (H _ _ E). cbn.
  destruct (decompose_all tb f k t) as [y| |]; cbn; try discriminate. rewrite (IH y eq_refl). auto.
Qed.
Lemma dec_mono f : forall f' k c l, (f <= f')%nat -> decompose_recursive tb f k c = Ok l -> decompose_recursive tb f' k c = Ok l.
Proof.
  induction f as [|f IH]; intros f' k c l Hf H; [discriminate|]. destruct f' as [|f']; [lia|].
  rewrite dec_unfold in *. destruct (is_hangul_syllable c); [exact H|].
  destruct (step_of tb k c) as [|d0 d]; [exact H|].
  eapply dec_all_mono; [|exact H]. intros c' l'. apply IH. lia.
Qed.
Lemma dec_det f f' k c l l' : decompose_recursive tb f k c = Ok l -> decompose_recursive tb f' k c = Ok l' -> l = l'.
Proof.
  intros H1 H2. destruct (Nat.le_ge_cases f f') as [H|H].
  - apply (dec_mono _ _ _ _ _ H) in H1. congruence.
  - apply (dec_mono _ _ _ _ _ H) in H2. congruence.
Qed.
Lemma dec_all_det f f' k t l l' : decompose_all tb f k t = Ok l -> decompose_all tb f' k t = Ok l' -> l = l'.
Proof.
  intros H1 H2. destruct (Nat.le_ge_cases f f') as [H|H].
  - apply (dec_all_mono f f' k (fun c l => dec_mono f f' k c l H)) in H1. congruence.
  - apply (dec_all_mono f' f k (fun c l => dec_mono f' f k c l H)) in H2. congruence.
Qed.
Lemma normalizes_det form s r r' : normalizes tb form s r -> normalizes tb form s r' -> r = r'.
Proof.
  intros [f H] [f' H']. unfold normalize in *. destruct s as [|c s]; [congruence|].
  destruct (decompose_all tb f _ _) as [l| |] eqn:E; try discriminate.
  destruct (decompose_all tb f' _ _) as [l'| |] eqn:E'; try discriminate. cbn in H, H'.
  rewrite (dec_all_det _ _ _ _ _ _ E E') in H. congruence.
Qed.

Variable rank : N -> nat.
Hypothesis Hrank : forall c x, In x (compatibility_decomposition tb c) -> (rank x < rank c)%nat.

Lemma step_rank k c x : In x (step_of tb k c) -> (rank x < rank c)%nat.
Proof.
  intros H. apply Hrank. destruct k; [exact H|]. unfold step_of in H. unfold compatibility_decomposition.
  destruct (canonical_decomposition tb c); [destruct H|exact H].
Qed.

Lemma dec_total : forall n k c, (rank c < n)%nat -> exists l, decompose_recursive tb n k c = Ok l.
Proof.
  induction n as [|n IH]; intros k c Hn; [lia|]. rewrite dec_unfold.
  destruct (is_hangul_syllable c); [eauto|].
  destruct (step_of tb k c) as [|d0 d] eqn:E; [eauto|]. rewrite <- E.
  assert (H : forall x, In x (step_of tb k c) -> (rank x < n)%nat) by (intros x Hx; apply step_rank in Hx; lia).
  revert H. generalize (step_of tb k c). clear E. intros t. induction t as [|x t IHt]; intros H; cbn; [eauto|].
  destruct (IH k x) as [lx ->]; [apply H; left; reflexivity|].
  destruct IHt as [ly ->]; [intros y Hy; apply H; right; exact Hy|]. cbn. eauto.
Qed.

Definition D (k : bool) (c : N) : list N :=
  match decompose_recursive tb (S (rank c)) k c with Ok l => l | _ => [] end.

Lemma dec_D f k c : (rank c < f)%nat -> decompose_recursive tb f k c = Ok (D k c).
Proof.
  intros Hf. unfold D. destruct (dec_total (S (rank c)) k c) as [l Hl]; [lia|]. rewrite Hl.
  apply (dec_mono (S (rank c))); [lia|exact Hl].
Qed.
Lemma dec_all_D k t : exists f0, forall f, (f0 <= f)%nat -> decompose_all tb f k t = Ok (flat_map (D k) t).
Proof.
  induction t as [|c t [f0 IH]]; [exists 0%nat; reflexivity|].
  exists (Nat.max (S (rank c)) f0). intros f Hf. cbn [decompose_all flat_map].
  rewrite dec_D by lia. rewrite IH by lia. reflexivity.
Qed.
Lemma dec_all_eq f k t : (forall c, In c t -> (rank c < f)%nat) -> decompose_all tb f k t = Ok (flat_map (D k) t).
Proof.
  induction t as [|c t IH]; intros H; [reflexivity|]. cbn [decompose_all flat_map].
  rewrite dec_D by (apply H; left; reflexivity). rewrite IH by (intros; apply H; right; assumption). reflexivity.
Qed.

Lemma D_raw k c : D k c = if is_hangul_syllable c then hangul_decompose c
  else match step_of tb k c with [] => [c] | d => flat_map (D k) d end.
Proof.
  unfold D at 1. rewrite dec_unfold. destruct (is_hangul_syllable c); [reflexivity|].
  destruct (step_of tb k c) as [|d0 d] eqn:E; [reflexivity|]. rewrite <- E.
  rewrite dec_all_eq; [reflexivity|]. intros x. apply step_rank.
Qed.

Definition NF (form : nform) (s : list N) : list N :=
  let o := canonical_order tb (flat_map (D (use_compat form)) s) in if composes form then compose tb o else o.

Lemma normalize_NF form s : exists f0, forall f, (f0 <= f)%nat -> normalize tb f s form = Ok (NF form s).
Proof.
  destruct (dec_all_D (use_compat form) s) as [f0 H]. exists f0. intros f Hf. unfold normalize, NF.
  destruct s as [|c s]; [cbn; destruct (composes form); reflexivity|]. rewrite (H f Hf). reflexivity.
Qed.
Lemma normalizes_NF form s r : normalizes tb form s r <-> r = NF form s.
Proof.
  destruct (normalize_NF form s) as [f0 H]. split.
  - intros Hn. apply (normalizes_det form s r (NF form s) Hn). exists f0. apply H. lia.
  - intros ->. exists f0. apply H. lia.
Qed.

Hypothesis Hjamo : jamos_plain tb.

Lemma jamo_step k x : is_hangul_l_jamo x = true \/ is_hangul_v_jamo x = true \/ is_hangul_t_jamo x = true -> step_of tb k x = [].
Proof.
  intros H. specialize (Hjamo x H). unfold step_of. destruct k; [exact Hjamo|].
  unfold compatibility_decomposition in Hjamo. destruct (canonical_decomposition tb x); [reflexivity|discriminate].
Qed.
Lemma D_fixed k x : step_of tb k x = [] -> D k x = [x].
Proof.
  intros H. rewrite D_raw. destruct (is_hangul_syllable x) eqn:E.
  - destruct (hangul_step tb k x E) as [E1 E2]. congruence.
  - rewrite H. reflexivity.
Qed.
Lemma D_unfold k c : D k c = match step_of tb k c with [] => [c] | d => flat_map (D k) d end.
Proof.
  rewrite D_raw at 1. destruct (is_hangul_syllable c) eqn:Hc; [|reflexivity].
  destruct (hangul_step tb k c Hc) as [E1 E2]. rewrite E1.
  assert (H : flat_map (D k) (hangul_decompose c) = hangul_decompose c).
  { assert (G : forall l, (forall x, In x l -> In x (hangul_decompose c)) -> flat_map (D k) l = l).
    { induction l as [|x l IH]; intros Hl; [reflexivity|]. cbn [flat_map].
      rewrite D_fixed by (apply jamo_step, (hangul_jamos c), Hl; left; reflexivity).
      rewrite IH by (intros; apply Hl; right; assumption). reflexivity. }
    apply G. auto. }
  destruct (hangul_decompose c) as [|h0 h]; [congruence|]. symmetry. exact H.
Qed.

Lemma rank_ind (P : N -> Prop) : (forall c, (forall x, (rank x < rank c)%nat -> P x) -> P c) -> forall c, P c.
Proof.
  intros H c. remember (rank c) as n eqn:E. revert c E. induction n as [n IH] using lt_wf_ind. intros c ->.
  apply H. intros x Hx. apply (IH (rank x)); auto.
Qed.

Lemma D_elem_fixed k c x : In x (D k c) -> step_of tb k x = [].
Proof.
  revert c. apply (rank_ind (fun c => In x (D k c) -> step_of tb k x = [])). intros c IH.
  rewrite D_unfold. destruct (step_of tb k c) as [|d0 d] eqn:E.
  - intros [<-|[]]. exact E.
  - rewrite <- E. rewrite in_flat_map. intros [y [Hy Hx]]. apply (IH y); [apply (step_rank k), Hy|exact Hx].
Qed.
Lemma flat_D_fixed k t : (forall x, In x t -> step_of tb k x = []) -> flat_map (D k) t = t.
Proof.
  induction t as [|x t IH]; intros H; [reflexivity|]. cbn [flat_map].
  rewrite D_fixed by (apply H; left; reflexivity). rewrite IH by (intros; apply H; right; assumption). reflexivity.
Qed.
Lemma flat_D_elem k t x : In x (flat_map (D k) t) -> step_of tb k x = [].
Proof. rewrite in_flat_map. intros [c [_ H]]. apply (D_elem_fixed k c x H). Qed.
Lemma order_in t x : In x (canonical_order tb t) <-> In x t.
Proof. split; apply Permutation_in; [|apply Permutation_sym]; apply order_perm. Qed.

Lemma flat_D_order k t : flat_map (D k) (canonical_order tb (flat_map (D k) t)) = canonical_order tb (flat_map (D k) t).
Proof. apply flat_D_fixed. intros x Hx. apply (proj1 (order_in _ _)) in Hx. apply (flat_D_elem k t x Hx). Qed.

Lemma D_full k c : full_decomposition (step_of tb k) c (D k c).
Proof.
  revert c. apply (rank_ind (fun c => full_decomposition (step_of tb k) c (D k c))). intros c IH.
  rewrite D_unfold. destruct (step_of tb k c) as [|d0 d] eqn:E; [constructor; exact E|].
  apply FD_step; [congruence|]. rewrite E.
  assert (H : forall x, In x (d0 :: d) -> (rank x < rank c)%nat) by (intros x Hx; apply (step_rank k); rewrite E; exact Hx).
  clear E. revert H. generalize (d0 :: d). intros t. induction t as [|x t IHt]; intros H; cbn [flat_map]; [constructor|].
  constructor; [apply IH, H; left; reflexivity|apply IHt; intros; apply H; right; assumption].
Qed.

(** compatibility decomposition factors through canonical decomposition *)
Lemma D_factor c : D true c = flat_map (D true) (D false c).
Proof.
  revert c. apply (rank_ind (fun c => D true c = flat_map (D true) (D false c))). intros c IH.
  rewrite (D_unfold false c). destruct (step_of tb false c) as [|d0 d] eqn:E; [cbn; rewrite app_nil_r; reflexivity|].
  assert (E' : step_of tb true c = d0 :: d).
  { unfold step_of in *. unfold compatibility_decomposition. rewrite E. reflexivity. }
  rewrite (D_unfold true c), E'.
  assert (H : forall x, In x (d0 :: d) -> (rank x < rank c)%nat) by (intros x Hx; apply (step_rank true); rewrite E'; exact Hx).
  clear E E'. revert H. generalize (d0 :: d). intros t. induction t as [|x t IHt]; intros H; cbn [flat_map]; [reflexivity|].
  rewrite flat_map_app, <- IHt by (intros; apply H; right; assumption). f_equal. apply IH, H. left. reflexivity.
Qed.
Lemma flat_D_factor t : flat_map (D true) t = flat_map (D true) (flat_map (D false) t).
Proof.
  induction t as [|c t IH]; [reflexivity|]. cbn [flat_map]. rewrite flat_map_app, <- IH, <- D_factor. reflexivity.
Qed.

(** blocks of higher class move right past blocks of lower class *)
Lemma move_one x Y : (forall y, In y Y -> 0 < ccc y < ccc x) -> reorders ccc (x :: Y) (Y ++ [x]).
Proof.
  induction Y as [|y Y IH]; intros H; [apply reorders_refl|].
  eapply reorders_trans.
  - econstructor; [|constructor]. apply (Reorder ccc [] x y Y). apply H. left. reflexivity.
  - cbn [app]. pose proof (reorders_ctx tb [y] [] (x :: Y) (Y ++ [x])) as Hc. rewrite !app_nil_r in Hc. apply Hc, IH.
    intros z Hz. apply H. right. exact Hz.
Qed.
Lemma move_block X Y : (forall x y, In x X -> In y Y -> 0 < ccc y < ccc x) -> reorders ccc (X ++ Y) (Y ++ X).
Proof.
  induction X as [|x X IH]; intros H; [rewrite app_nil_r; apply reorders_refl|].
  eapply reorders_trans.
  - cbn [app]. pose proof (reorders_ctx tb [x] [] (X ++ Y) (Y ++ X)) as Hc. rewrite !app_nil_r in Hc. apply Hc, IH.
    intros a b Ha Hb. apply H; [right|]; assumption.
  - change ([x] ++ Y ++ X) with ((x :: Y) ++ X). change (x :: X) with ([x] ++ X). rewrite app_assoc.
    pose proof (reorders_ctx tb [] X _ _ (move_one x Y (fun y Hy => H x y (or_introl eq_refl) Hy))) as Hc. exact Hc.
Qed.

Hypothesis Huni : forall c x, ccc c <> 0 -> In x (compatibility_decomposition tb c) -> ccc x = ccc c.
Lemma D_ccc k c x : ccc c <> 0 -> In x (D k c) -> ccc x = ccc c.
Proof.
  revert c. apply (rank_ind (fun c => ccc c <> 0 -> In x (D k c) -> ccc x = ccc c)). intros c IH Hc.
  rewrite D_unfold. destruct (step_of tb k c) as [|d0 d] eqn:E; [intros [<-|[]]; reflexivity|]. rewrite <- E.
  rewrite in_flat_map. intros [y [Hy Hx]].
  assert (Hy' : In y (compatibility_decomposition tb c)).
  { destruct k; [exact Hy|]. unfold step_of in Hy. unfold compatibility_decomposition.
    destruct (canonical_decomposition tb c); [destruct Hy|exact Hy]. }
  pose proof (Huni c y Hc Hy') as Hyc.
  rewrite <- Hyc. apply (IH y); [apply (step_rank k), Hy|congruence|exact Hx].
Qed.
Lemma flat_D_reorder k a b : reorder ccc a b -> reorders ccc (flat_map (D k) a) (flat_map (D k) b).
Proof.
  intros [p x y q H]. rewrite !flat_map_app. cbn [flat_map]. rewrite !(app_assoc (D k _) (D k _)).
  apply (reorders_ctx tb). apply move_block. intros u v Hu Hv.
  rewrite (D_ccc k x u), (D_ccc k y v); [exact H| |exact Hv| |exact Hu]; lia.
Qed.
Lemma flat_D_reorders k a b : reorders ccc a b -> reorders ccc (flat_map (D k) a) (flat_map (D k) b).
Proof.
  induction 1 as [|x y z Hxy Hyz IH]; [apply reorders_refl|].
  eapply reorders_trans; [apply flat_D_reorder, Hxy|exact IH].
Qed.
Lemma NFKD_factor s : NF NFKD s = NF NFKD (NF NFD s).
Proof.
  unfold NF. cbn [use_compat composes]. rewrite flat_D_factor.
  apply order_reorders, flat_D_reorders, canonical_order_reorders.
Qed.
End Dec.
