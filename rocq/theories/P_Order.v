(** Proofs about canonical ordering. *)
From Verif Require Import Base M_Tables M_Normalize Spec_Normalize.
From Coq Require Import Relations Sorted Permutation.
Open Scope N_scope.

Lemma sorted_adj {A} (R : A -> A -> Prop) l :
  Sorted R l <-> forall p x y q, l = p ++ x :: y :: q -> R x y.
Proof.
  split.
  - induction 1 as [|z l Hs IH Hh]; intros p x y q E.
    + destruct p; discriminate.
    + destruct p as [|a p]; cbn in E; inversion E; subst.
      * inversion Hh; assumption.
      * eapply IH; reflexivity.
  - induction l as [|z l IH]; intros H; [constructor|].
    constructor.
    + apply IH. intros p x y q ->. apply (H (z :: p) x y q). reflexivity.
    + destruct l as [|y l]; constructor. apply (H [] z y l). reflexivity.
Qed.

Lemma sorted_rev {A} (R : A -> A -> Prop) l : Sorted (fun x y => R y x) l -> Sorted R (rev l).
Proof.
  intros H. apply sorted_adj. intros p x y q E. pose proof (proj1 (sorted_adj _ l) H) as H'.
  apply (H' (rev q) y x (rev p)). rewrite <- (rev_involutive l), E.
  rewrite rev_app_distr. cbn. rewrite <- !app_assoc. reflexivity.
Qed.

Section Order.
Variable tb : norm_tables.
Let ccc := canonical_combining_class tb.
Let R (x y : N) : Prop := ~ (0 < ccc y < ccc x).

Lemma ordered_sorted t : ordered ccc t <-> Sorted R t.
Proof. unfold ordered, R. rewrite sorted_adj. reflexivity. Qed.

Ltac bcase p x := change (canonical_combining_class tb) with ccc;
  destruct (N.eqb_spec (ccc p) 0), (N.leb_spec (ccc p) (ccc x)); cbn [orb].

Lemma bubble_perm x rp : Permutation (bubble tb x rp) (x :: rp).
Proof.
  induction rp as [|p r IH]; cbn; [apply Permutation_refl|].
  destruct (_ || _); [apply Permutation_refl|].
  eapply perm_trans; [apply perm_skip, IH|apply perm_swap].
Qed.

Lemma bubble_comm x y rp : 0 < ccc y < ccc x -> bubble tb y (bubble tb x rp) = bubble tb x (bubble tb y rp).
Proof.
  intros H. induction rp as [|p r IH]; cbn [bubble].
  - bcase x y; bcase y x; try lia; reflexivity.
  - bcase p x; bcase p y; try lia; cbn [bubble];
      repeat (change (canonical_combining_class tb) with ccc;
        match goal with
        | |- context [ccc ?a =? 0] => destruct (N.eqb_spec (ccc a) 0); try lia; cbn [orb bubble]
        | |- context [ccc ?a <=? ccc ?b] => destruct (N.leb_spec (ccc a) (ccc b)); try lia; cbn [orb bubble]
        end);
      try reflexivity; try lia.
    f_equal. exact IH.
Qed.

Lemma order_step_swap rp x y : 0 < ccc y < ccc x ->
  order_step tb (order_step tb rp x) y = order_step tb (order_step tb rp y) x.
Proof.
  intros H. unfold order_step. change (canonical_combining_class tb) with ccc.
  destruct (N.eqb_spec (ccc x) 0); [lia|]. destruct (N.eqb_spec (ccc y) 0); [lia|].
  apply bubble_comm. exact H.
Qed.

Lemma order_reorder a b : reorder ccc a b -> canonical_order tb a = canonical_order tb b.
Proof.
  intros [p x y q H]. unfold canonical_order. rewrite !fold_left_app. cbn [fold_left].
  rewrite order_step_swap by exact H. reflexivity.
Qed.
Lemma order_reorders a b : reorders ccc a b -> canonical_order tb a = canonical_order tb b.
Proof. induction 1 as [|x y z Hxy Hyz IH]; [reflexivity|]. rewrite (order_reorder _ _ Hxy). exact IH. Qed.

Lemma reorders_refl a : reorders ccc a a.
Proof. constructor. Qed.
Lemma reorders_trans a b c : reorders ccc a b -> reorders ccc b c -> reorders ccc a c.
Proof.
  induction 1 as [|x y z Hxy Hyz IH]; intros H; [exact H|]. econstructor; [exact Hxy|]. apply IH, H.
Qed.
Lemma reorder_ctx l r a b : reorder ccc a b -> reorder ccc (l ++ a ++ r) (l ++ b ++ r).
Proof.
  intros [p x y q H]. rewrite <- !app_assoc. cbn [app].
  rewrite (app_assoc l p (x :: _)), (app_assoc l p (y :: _)). constructor. exact H.
Qed.
Lemma reorders_ctx l r a b : reorders ccc a b -> reorders ccc (l ++ a ++ r) (l ++ b ++ r).
Proof.
  induction 1 as [|x y z Hxy Hyz IH]; [constructor|]. econstructor; [apply reorder_ctx, Hxy|exact IH].
Qed.
Lemma reorders_app a b c d : reorders ccc a b -> reorders ccc c d -> reorders ccc (a ++ c) (b ++ d).
Proof.
  intros H1 H2. eapply reorders_trans.
  - apply (reorders_ctx [] c _ _ H1).
  - pose proof (reorders_ctx b [] _ _ H2) as H. rewrite !app_nil_r in H. exact H.
Qed.

Lemma bubble_reorders x rp : 0 < ccc x -> reorders ccc (rev rp ++ [x]) (rev (bubble tb x rp)).
Proof.
  intros Hx. induction rp as [|p r IH]; cbn [bubble rev]; [apply reorders_refl|].
  bcase p x; try apply reorders_refl.
  cbn [rev]. eapply reorders_trans.
  - econstructor; [|constructor]. rewrite <- app_assoc. cbn [app]. constructor. lia.
  - change [x; p] with ([x] ++ [p]). rewrite app_assoc. apply (reorders_ctx [] [p] _ _ IH).
Qed.

Lemma fold_order_reorders t : forall rp, reorders ccc (rev rp ++ t) (rev (fold_left (order_step tb) t rp)).
Proof.
  induction t as [|x t IH]; intros rp; cbn [fold_left]; [rewrite app_nil_r; apply reorders_refl|].
  eapply reorders_trans; [|apply IH].
  change (x :: t) with ([x] ++ t). rewrite app_assoc. apply (reorders_ctx [] t).
  unfold order_step. change (canonical_combining_class tb) with ccc.
  destruct (N.eqb_spec (ccc x) 0); [cbn [rev]; apply reorders_refl|]. apply bubble_reorders. lia.
Qed.
Lemma canonical_order_reorders t : reorders ccc t (canonical_order tb t).
Proof. apply (fold_order_reorders t []). Qed.

Lemma bubble_sorted x rp : 0 < ccc x -> Sorted (fun a b => R b a) rp -> Sorted (fun a b => R b a) (bubble tb x rp).
Proof.
  intros Hx. induction 1 as [|p r Hs IH Hh]; cbn [bubble]; [repeat constructor|].
  assert (Hc : forall h, bubble tb x r = h :: tl (bubble tb x r) -> h = x \/ hd_error r = Some h).
  { intros h. destruct r as [|p' r']; cbn; [intros E; inversion E; auto|].
    destruct (_ || _); cbn; intros E; inversion E; auto. }
  bcase p x.
  1-3: constructor; [constructor; assumption|constructor; unfold R; lia].
  constructor; [exact IH|]. destruct (bubble tb x r) as [|h t'] eqn:E; [constructor|]. constructor.
  destruct (Hc h eq_refl) as [->|Hr]; [unfold R; lia|].
  destruct r; inversion Hr; subst. inversion Hh; assumption.
Qed.

Lemma fold_order_sorted t : forall rp, Sorted (fun a b => R b a) rp -> Sorted (fun a b => R b a) (fold_left (order_step tb) t rp).
Proof.
  induction t as [|x t IH]; intros rp H; cbn; [exact H|]. apply IH. unfold order_step.
  change (canonical_combining_class tb) with ccc. destruct (N.eqb_spec (ccc x) 0).
  - constructor; [exact H|]. destruct rp; constructor. unfold R. lia.
  - apply bubble_sorted; [lia|exact H].
Qed.
Lemma canonical_order_ordered t : ordered ccc (canonical_order tb t).
Proof. apply ordered_sorted. apply sorted_rev, fold_order_sorted. constructor. Qed.

Lemma fold_order_id t : forall rp, ordered ccc (rev rp ++ t) -> fold_left (order_step tb) t rp = rev t ++ rp.
Proof.
  induction t as [|x t IH]; intros rp H; cbn [fold_left]; [reflexivity|].
  assert (E : order_step tb rp x = x :: rp).
  { unfold order_step. change (canonical_combining_class tb) with ccc.
    destruct (N.eqb_spec (ccc x) 0); [reflexivity|]. destruct rp as [|p r]; [reflexivity|]. cbn [bubble].
    bcase p x; try reflexivity. exfalso. apply (H (rev r) p x t); [|lia].
    cbn [rev]. rewrite <- app_assoc. reflexivity. }
  rewrite E, IH.
  - cbn [rev]. rewrite <- app_assoc. reflexivity.
  - cbn [rev]. rewrite <- app_assoc. exact H.
Qed.
Lemma canonical_order_id t : ordered ccc t -> canonical_order tb t = t.
Proof.
  intros H. unfold canonical_order. rewrite fold_order_id; [|exact H]. rewrite app_nil_r. apply rev_involutive.
Qed.
Lemma canonical_order_idem t : canonical_order tb (canonical_order tb t) = canonical_order tb t.
Proof. apply canonical_order_id, canonical_order_ordered. Qed.

Lemma order_app a b : canonical_order tb (canonical_order tb a ++ canonical_order tb b) = canonical_order tb (a ++ b).
Proof. symmetry. apply order_reorders, reorders_app; apply canonical_order_reorders. Qed.
Lemma order_app3 a b c : canonical_order tb (a ++ canonical_order tb b ++ c) = canonical_order tb (a ++ b ++ c).
Proof. symmetry. apply order_reorders, reorders_ctx, canonical_order_reorders. Qed.

Lemma reorders_unique t r : reorders ccc t r -> ordered ccc r -> r = canonical_order tb t.
Proof. intros H1 H2. rewrite (order_reorders _ _ H1). symmetry. apply canonical_order_id, H2. Qed.

Lemma reorder_perm a b : reorder ccc a b -> Permutation a b.
Proof. intros [p x y q H]. apply Permutation_app_head, perm_swap. Qed.
Lemma reorders_perm a b : reorders ccc a b -> Permutation a b.
Proof. induction 1 as [|x y z Hxy Hyz IH]; [apply Permutation_refl|]. eapply perm_trans; [apply reorder_perm, Hxy|exact IH]. Qed.
Lemma order_perm t : Permutation (canonical_order tb t) t.
Proof. apply Permutation_sym, reorders_perm, canonical_order_reorders. Qed.

(** starters stay where they are *)
Lemma reorder_starters a b : reorder ccc a b -> forall i c, ccc c = 0 -> nth_error a i = Some c <-> nth_error b i = Some c.
Proof.
  intros [p x y q H] i c Hc. destruct (Nat.lt_ge_cases i (length p)) as [Hi|Hi].
  - rewrite !nth_error_app1 by exact Hi. reflexivity.
  - rewrite !nth_error_app2 by exact Hi. destruct (i - length p)%nat as [|[|k]]; cbn; try reflexivity;
      split; intros E; inversion E; subst; lia.
Qed.
Lemma reorders_starters a b : reorders ccc a b -> forall i c, ccc c = 0 -> nth_error a i = Some c <-> nth_error b i = Some c.
Proof.
  induction 1 as [|x y z Hxy Hyz IH]; intros i c Hc; [reflexivity|].
  rewrite (reorder_starters _ _ Hxy i c Hc). apply IH, Hc.
Qed.
(** each class keeps its order *)
Lemma reorder_class a b : reorder ccc a b -> forall k, filter (fun c => ccc c =? k) a = filter (fun c => ccc c =? k) b.
Proof.
  intros [p x y q H] k. rewrite !filter_app. f_equal. cbn [filter].
  destruct (N.eqb_spec (ccc x) k), (N.eqb_spec (ccc y) k); try reflexivity. lia.
Qed.
Lemma reorders_class a b : reorders ccc a b -> forall k, filter (fun c => ccc c =? k) a = filter (fun c => ccc c =? k) b.
Proof. induction 1 as [|x y z Hxy Hyz IH]; intros k; [reflexivity|]. rewrite (reorder_class _ _ Hxy k). apply IH. Qed.

(** A starter splits the ordering. *)
Lemma bubble_starter x u s v : ccc s = 0 -> bubble tb x (u ++ s :: v) = bubble tb x (u ++ [s]) ++ v.
Proof.
  intros Hs. induction u as [|p u IH]; cbn [bubble app].
  - change (canonical_combining_class tb) with ccc. rewrite Hs. reflexivity.
  - destruct (_ || _); [cbn; rewrite <- app_assoc; reflexivity|]. rewrite IH. reflexivity.
Qed.
Lemma bubble_keeps x u s : ccc s = 0 -> exists w, bubble tb x (u ++ [s]) = w ++ [s].
Proof.
  intros Hs. induction u as [|p u IH]; cbn [bubble app].
  - change (canonical_combining_class tb) with ccc. rewrite Hs. exists [x]. reflexivity.
  - destruct (_ || _); [exists (x :: p :: u); reflexivity|]. destruct IH as [w ->]. exists (p :: w). reflexivity.
Qed.
Lemma fold_order_starter t : forall u s v, ccc s = 0 ->
  fold_left (order_step tb) t (u ++ s :: v) = fold_left (order_step tb) t (u ++ [s]) ++ v.
Proof.
  induction t as [|x t IH]; intros u s v Hs; cbn [fold_left]; [rewrite <- app_assoc; reflexivity|].
  unfold order_step at 2 4. change (canonical_combining_class tb) with ccc. destruct (N.eqb_spec (ccc x) 0).
  - change (x :: u ++ s :: v) with ((x :: u) ++ s :: v). rewrite (IH (x :: u) s v Hs). reflexivity.
  - rewrite (bubble_starter x u s v Hs). destruct (bubble_keeps x u s Hs) as [w ->].
    rewrite <- app_assoc. apply IH, Hs.
Qed.
Lemma order_split a s b : ccc s = 0 ->
  canonical_order tb (a ++ s :: b) = canonical_order tb a ++ canonical_order tb (s :: b).
Proof.
  intros Hs. unfold canonical_order. rewrite fold_left_app. cbn [fold_left].
  assert (Hst : forall rp, order_step tb rp s = s :: rp).
  { intros rp. unfold order_step. change (canonical_combining_class tb) with ccc. rewrite Hs. reflexivity. }
  rewrite !Hst.
  pose proof (fold_order_starter b [] s (fold_left (order_step tb) a []) Hs) as H. cbn [app] in H.
  rewrite H, rev_app_distr. reflexivity.
Qed.
Lemma order_cons_starter s b : ccc s = 0 -> exists w, canonical_order tb (s :: b) = s :: w /\ Permutation w b.
Proof.
  intros Hs. destruct (canonical_order tb (s :: b)) as [|h w] eqn:E.
  - pose proof (order_perm (s :: b)) as Hp. rewrite E in Hp. apply Permutation_nil in Hp. discriminate.
  - pose proof (proj1 (reorders_starters _ _ (canonical_order_reorders (s :: b)) 0%nat s Hs) eq_refl) as Hn.
    rewrite E in Hn. cbn in Hn. inversion Hn; subst. exists w. split; [reflexivity|].
    pose proof (order_perm (s :: b)) as Hp. rewrite E in Hp. apply Permutation_cons_inv in Hp. exact Hp.
Qed.
End Order.
