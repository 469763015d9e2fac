(** quick_check = Yes: the text is its own composition by the Standard's algorithm (C42, C43). *)
From Verif Require Import Base M_Tables M_Normalize Spec_Tables P_Tables Spec_Normalize P_Order P_Normalize P_Hangul P_Compose P_Compose2 P_Stream.
From Coq Require Import Relations Sorted Permutation.
Open Scope N_scope.

Section Woven.
Variable tb : norm_tables.
Let ccc := canonical_combining_class tb.

(** [woven last l ms w]: [w] interleaves the marks [l] of a decomposition with later marks [ms] that do not block any of [l]. *)
Inductive woven : N -> list N -> list N -> list N -> Prop :=
| W_nil : forall last, woven last [] [] []
| W_l : forall last d l ms w, last = 0 \/ last < ccc d -> woven last l ms w -> woven last (d :: l) ms (d :: w)
| W_m : forall last m l ms w, ccc m <> 0 -> last <= ccc m -> woven (ccc m) l ms w -> woven last l (m :: ms) (m :: w).

Lemma woven_refl l : woven 0 l [] l.
Proof. induction l as [|d l IH]; constructor; auto. Qed.
Lemma woven_raise last l w k : woven last l [] w -> Forall (fun x => k < ccc x) w -> woven k l [] w.
Proof.
  remember [] as ms eqn:E. induction 1 as [|last d l ms w H Hw IH|last m l ms w H H' Hw IH]; intros Hk; [constructor| |discriminate].
  inversion Hk; subst. constructor; auto.
Qed.
Lemma woven_insert last l ms w1 w2 m : woven last l ms (w1 ++ w2) -> ccc m <> 0 -> last <= ccc m -> Forall (fun x => ccc x <= ccc m) ms ->
  Forall (fun x => ccc m < ccc x) w2 -> woven last l (ms ++ [m]) (w1 ++ m :: w2).
Proof.
  intros H Hm. revert last l ms H. induction w1 as [|x w1 IH]; intros last l ms H Hlm Hms Hw2; cbn [app] in *.
  - assert (E : ms = []).
    { clear -H Hms Hw2. induction H as [|last d l ms w H Hw IH|last m' l ms w H H' Hw IH]; [reflexivity| |].
      - apply IH; [exact Hms|]. inversion Hw2; assumption.
      - inversion Hms; inversion Hw2; subst. lia. }
    subst ms. cbn [app]. apply W_m; [exact Hm|exact Hlm|]. eapply woven_raise; eassumption.
  - inversion H; subst.
    + apply W_l; [assumption|]. apply IH; assumption.
    + inversion Hms; subst. cbn [app]. apply W_m; [assumption|assumption|]. apply IH; assumption.
Qed.

Lemma bubble_shape m rp : exists u v, rp = u ++ v /\ bubble tb m rp = u ++ m :: v /\ Forall (fun x => ccc x <> 0 /\ ccc m < ccc x) u.
Proof.
  induction rp as [|p r IH]; [exists [], []; repeat split; constructor|]. cbn [bubble].
  destruct ((canonical_combining_class tb p =? 0) || (canonical_combining_class tb p <=? canonical_combining_class tb m)) eqn:E.
  - exists [], (p :: r). repeat split. constructor.
  - destruct IH as (u & v & -> & -> & Hu). exists (p :: u), v. repeat split. constructor; [unfold ccc; lia|exact Hu].
Qed.

(** The marks after a starter with decomposition [h :: l] are woven into it. *)
Lemma order_woven h l : ccc h = 0 -> forall ms, Forall (fun x => ccc x <> 0) ms -> StronglySorted (fun x y => ccc x <= ccc y) ms ->
  exists l' w, canonical_order tb (h :: l) = h :: l' /\ canonical_order tb (h :: l ++ ms) = h :: w /\ woven 0 l' ms w.
Proof.
  intros Hh. destruct (order_cons_starter tb h l Hh) as (l' & El & _).
  intros ms. induction ms as [|m ms IH] using rev_ind; intros Hz Hs.
  - exists l', l'. rewrite app_nil_r. split; [exact El|]. split; [exact El|apply woven_refl].
  - apply Forall_app in Hz as (Hz & Hm). inversion Hm as [|? ? Hm0 _]; subst.
    assert (Hs' : StronglySorted (fun x y => ccc x <= ccc y) ms /\ Forall (fun x => ccc x <= ccc m) ms).
    { clear -Hs. induction ms as [|x ms IH]; [split; constructor|]. cbn [app] in Hs. inversion Hs as [|? ? A B]; subst.
      destruct (IH A) as (C & D'). apply Forall_app in B as (B1 & B2). inversion B2; subst. split; constructor; assumption. }
    destruct Hs' as (Hs' & Hle). destruct (IH Hz Hs') as (l2 & w & El2 & Ew & W). rewrite El in El2. injection El2 as <-.
    exists l'. assert (F : fold_left (order_step tb) (h :: l ++ ms) [] = rev (h :: w)).
    { unfold canonical_order in Ew. rewrite <- Ew, rev_involutive. reflexivity. }
    assert (G : canonical_order tb (h :: l ++ ms ++ [m]) = rev (bubble tb m (rev (h :: w)))).
    { unfold canonical_order. rewrite app_assoc. change (h :: (l ++ ms) ++ [m]) with ((h :: l ++ ms) ++ [m]). rewrite fold_left_app, F. cbn [fold_left].
      unfold order_step. destruct (N.eqb_spec (canonical_combining_class tb m) 0) as [E|_]; [contradiction|]. reflexivity. }
    destruct (bubble_shape m (rev (h :: w))) as (u & v & E1 & E2 & Hu). rewrite E2 in G.
    assert (E3 : h :: w = rev v ++ rev u) by (rewrite <- rev_app_distr, <- E1, rev_involutive; reflexivity).
    rewrite rev_app_distr in G. cbn [rev] in G. rewrite <- app_assoc in G. cbn [app] in G.
    destruct (rev v) as [|h' w1] eqn:Ev.
    + exfalso. cbn [app] in E3. assert (I : In h u) by (apply in_rev; rewrite <- E3; left; reflexivity).
      rewrite Forall_forall in Hu. destruct (Hu h I). contradiction.
    + cbn [app] in E3, G. injection E3 as <- ->. exists (w1 ++ m :: rev u). split; [exact El|]. split; [exact G|].
      apply woven_insert; [exact W|exact Hm0|apply N.le_0_l|exact Hle|]. apply Forall_forall. intros x Hx. apply in_rev in Hx. rewrite Forall_forall in Hu. apply Hu, Hx.
Qed.

(** A single result means that everything composed. *)
Inductive chain : N -> list N -> N -> Prop :=
| C_nil : forall st, chain st [] st
| C_cons : forall st d l c, try_compose tb st d <> 0 -> is_composition_exclusion tb (try_compose tb st d) = false ->
    chain (try_compose tb st d) l c -> chain st (d :: l) c.
Lemma loop_nonempty text : forall st last, compose_loop tb text [] st last <> [].
Proof.
  induction text as [|x text IH]; intros st last; [discriminate|]. rewrite loop_cons. cbv zeta. setc. clearbody composed.
  destruct (negb _ && negb _); [apply IH|]. destruct (_ =? 0); discriminate.
Qed.
Lemma loop_chain l : forall st c, compose_loop tb l [] st 0 = [c] -> chain st l c.
Proof.
  induction l as [|d l IH]; intros st c H; [cbn in H; injection H as ->; constructor|].
  rewrite loop_cons in H. cbv zeta in H. change (0 =? 0) with true in H. rewrite orb_true_r in H.
  destruct (negb (try_compose tb st d =? 0) && negb (is_composition_exclusion tb (try_compose tb st d))) eqn:E.
  - apply andb_true_iff in E as (E1 & E2). apply negb_true_iff in E1, E2. apply N.eqb_neq in E1. constructor; auto.
  - match type of H with context [if ?b then _ else _] => destruct b end; injection H as _ H; destruct (loop_nonempty _ _ _ H).
Qed.

Hypothesis Hready : comp_ready tb.
Hypothesis Hst : comp_starters tb.

Lemma never_keeps c : never_joins tb c -> c <> TBase ->
  forall done p l m x, reaches tb done p l m c -> ~ primary_composite tb l c x.
Proof.
  intros Hn Hc done p l m x (_ & Hl & _) P. apply (try_primary tb Hready l c x Hl Hc) in P. destruct P as (P1 & P2 & P3).
  destruct (Hn l Hl) as [E|E]; congruence.
Qed.

Lemma woven_recomposed last l ms w : woven last l ms w -> forall st c p acc rest r, chain st l c -> ccc st = 0 -> ~ In TBase w ->
  Forall (never_joins tb) ms -> Forall (fun x => ccc x <> 0 /\ ccc x <= last) acc ->
  recomposed tb (p ++ c :: acc ++ ms) rest r -> recomposed tb (p ++ st :: acc) (w ++ rest) r.
Proof.
  induction 1 as [last|last d l ms w Hd W IH|last m l ms w Hm Hle W IH]; intros st c p acc rest r Hc H0 Hb Hn Ha HR.
  - inversion Hc; subst. rewrite app_nil_r in HR. exact HR.
  - inversion Hc as [|? ? ? ? E1 E2 Hc']; subst. assert (Hdb : d <> TBase) by (intros ->; apply Hb; left; reflexivity).
    cbn [app]. eapply R_compose.
    + split; [reflexivity|]. split; [exact H0|]. eapply Forall_impl; [|exact Ha]. cbv beta. fold ccc. intros. lia.
    + apply (try_primary tb Hready st d _ H0 Hdb). split; [reflexivity|]. split; assumption.
    + eapply IH; [exact Hc'| | |exact Hn|exact Ha|exact HR].
      * exact (try_compose_starter tb Hst st d _ eq_refl E1 H0).
      * intros Q. apply Hb. right. exact Q.
  - assert (Hmb : m <> TBase) by (intros ->; apply Hb; left; reflexivity). inversion Hn as [|? ? Hn1 Hn2]; subst.
    cbn [app]. apply R_keep; [intros; eapply never_keeps; eassumption|].
    rewrite <- app_assoc. cbn [app]. eapply IH; [exact Hc|exact H0| |exact Hn2| |].
    + intros Q. apply Hb. right. exact Q.
    + apply Forall_app. split; [eapply Forall_impl; [|exact Ha]; cbv beta; intros; lia|]. constructor; [split; [exact Hm|lia]|constructor].
    + rewrite <- app_assoc. exact HR.
Qed.

Variable rank : N -> nat.
Variable form : nform.
Let k := use_compat form.
Let Dk := D tb rank k.

(** [yes c]: what qc_yes_exact says of [c]. *)
Definition yes (c : N) : Prop :=
  (ccc c <> 0 -> Dk c = [c] /\ never_joins tb c) /\
  (ccc c = 0 -> exists h l, Dk c = h :: l /\ ccc h = 0 /\ never_joins tb h /\ compose tb (canonical_order tb (h :: l)) = [c]).

Lemma yes_marks ms : Forall yes ms -> Forall (fun x => ccc x <> 0) ms -> flat_map Dk ms = ms /\ Forall (never_joins tb) ms.
Proof.
  induction ms as [|m ms IH]; intros Hy Hz; [split; [reflexivity|constructor]|]. inversion Hy as [|? ? Y1 Y2]; inversion Hz as [|? ? Z1 Z2]; subst.
  destruct (IH Y2 Z2) as (E & F). destruct Y1 as (Y1 & _). destruct (Y1 Z1) as (E1 & F1). cbn [flat_map]. rewrite E1, E. split; [reflexivity|].
  constructor; assumption.
Qed.

Let R (x y : N) : Prop := ~ (0 < ccc y < ccc x).
Lemma marks_strong ms : Forall (fun x => ccc x <> 0) ms -> Sorted R ms -> StronglySorted (fun x y => ccc x <= ccc y) ms.
Proof.
  intros Hz Hs. apply Sorted_StronglySorted; [intros a b c; lia|]. induction Hs as [|x l Hs IH Hx]; [constructor|]. inversion Hz; subst.
  constructor; [apply IH; assumption|]. destruct Hx as [|y l Hx]; constructor. unfold R in Hx.
  match goal with H : Forall _ (y :: l) |- _ => inversion H; subst end. lia.
Qed.
Lemma sorted_app_l (a b : list N) : Sorted R (a ++ b) -> Sorted R a /\ Sorted R b.
Proof.
  induction a as [|x a IH]; intros H; [split; [constructor|exact H]|]. cbn [app] in H. inversion H as [|? ? H1 H2]; subst.
  destruct (IH H1) as (A & B). split; [|exact B]. constructor; [exact A|]. destruct a; constructor. inversion H2; assumption.
Qed.

Lemma blocks n : forall s done, (length s <= n)%nat -> Forall yes s -> Sorted R s -> ~ In TBase (canonical_order tb (flat_map Dk s)) ->
  match s with [] => True | c :: _ => ccc c = 0 end ->
  recomposed tb done (canonical_order tb (flat_map Dk s)) (done ++ s).
Proof.
  induction n as [|n IH]; intros s done Hl Hy Hs Hb Hhd.
  - destruct s; [|cbn in Hl; lia]. cbn. rewrite app_nil_r. constructor.
  - destruct s as [|c s]; [cbn; rewrite app_nil_r; constructor|].
    destruct (split_lead tb s) as (ms & s' & -> & Hms & Hs'). fold ccc in Hms.
    inversion Hy as [|? ? Yc Ys]; subst. apply Forall_app in Ys as (Ym & Ys).
    inversion Hs as [|? ? Ss _]; subst. destruct (sorted_app_l _ _ Ss) as (Sm & Ss').
    destruct (proj2 Yc Hhd) as (h & l & EDc & Hh & Hnh & Ecomp).
    destruct (yes_marks ms Ym Hms) as (Em & Hnm).
    destruct (order_woven h l Hh ms Hms (marks_strong ms Hms Sm)) as (l' & w & El & Ew & W).
    rewrite El in Ecomp. unfold compose in Ecomp. rewrite lead_cons in Ecomp. unfold ccc in Hh. rewrite Hh in Ecomp. fold (ccc h) in Hh. change (0 =? 0) with true in Ecomp. cbv iota in Ecomp.
    apply loop_chain in Ecomp.
    assert (Hs0 : match s' with [] => True | c' :: _ => ccc c' = 0 end) by (destruct Hs' as [->|(c' & Z & -> & Hz)]; [exact I|exact Hz]).
    assert (EO : canonical_order tb (flat_map Dk (c :: ms ++ s')) = (h :: w) ++ canonical_order tb (flat_map Dk s')).
    { cbn [flat_map]. rewrite flat_map_app, Em, EDc. destruct s' as [|c' s'].
      - cbn [flat_map]. rewrite !app_nil_r. exact Ew.
      - inversion Ys as [|? ? Yc' _]; subst. destruct (proj2 Yc' Hs0) as (h2 & l2 & ED2 & Hh2 & _). cbn [flat_map]. rewrite ED2.
        cbn [app]. rewrite app_assoc. change (h :: (l ++ ms) ++ h2 :: l2 ++ flat_map Dk s') with ((h :: l ++ ms) ++ h2 :: (l2 ++ flat_map Dk s')).
        rewrite order_split by exact Hh2. rewrite Ew. reflexivity. }
    rewrite EO in Hb |- *. cbn [app] in Hb |- *.
    assert (Hhb : h <> TBase) by (intros ->; apply Hb; left; reflexivity).
    apply R_keep; [intros; eapply never_keeps; eassumption|].
    change (done ++ [h]) with (done ++ h :: []).
    eapply woven_recomposed; [exact W|exact Ecomp|exact Hh| |exact Hnm|constructor|].
    + intros Q. apply Hb. right. apply in_or_app. left. exact Q.
    + cbn [app]. replace (done ++ c :: ms ++ s') with ((done ++ c :: ms) ++ s') by (rewrite <- app_assoc; reflexivity).
      apply IH; [|exact Ys|exact Ss'| |exact Hs0].
      * cbn [length] in Hl. rewrite app_length in Hl. lia.
      * intros Q. apply Hb. right. apply in_or_app. right. exact Q.
Qed.

Lemma lead_blocks lead s done : Forall (fun x => ccc x <> 0) done -> Forall (fun x => ccc x <> 0) lead -> Forall yes lead -> Forall yes s ->
  Sorted R lead -> Sorted R s -> ~ In TBase (canonical_order tb (flat_map Dk (lead ++ s))) -> match s with [] => True | c :: _ => ccc c = 0 end ->
  recomposed tb done (canonical_order tb (flat_map Dk (lead ++ s))) (done ++ lead ++ s).
Proof.
  intros Hd Hl Yl Ys Sl Ss Hb Hhd. destruct (yes_marks lead Yl Hl) as (El & Hn).
  assert (EO : canonical_order tb (flat_map Dk (lead ++ s)) = lead ++ canonical_order tb (flat_map Dk s)).
  { rewrite flat_map_app, El. assert (Eid : canonical_order tb lead = lead) by (apply canonical_order_id, ordered_sorted; exact Sl).
    destruct s as [|c s]; [cbn [flat_map]; rewrite !app_nil_r; exact Eid|]. inversion Ys as [|? ? Yc _]; subst.
    destruct (proj2 Yc Hhd) as (h & l & ED & Hh & _). cbn [flat_map]. rewrite ED. cbn [app]. rewrite order_split by exact Hh. rewrite Eid. reflexivity. }
  rewrite EO in *. clear EO. clear El Sl Yl. revert done Hd Hb. induction lead as [|m lead IH]; intros done Hd Hb.
  - cbn [app] in *. apply (blocks (length s)); auto.
  - cbn [app] in *. inversion Hl as [|? ? L1 L2]; inversion Hn as [|? ? N1 N2]; subst.
    assert (Hm : m <> TBase) by (intros ->; apply Hb; left; reflexivity).
    apply R_keep; [intros; eapply never_keeps; eassumption|].
    replace (done ++ m :: lead ++ s) with ((done ++ [m]) ++ lead ++ s) by (rewrite <- app_assoc; reflexivity).
    apply IH; [assumption|assumption| |intros Q; apply Hb; right; exact Q].
    apply Forall_app. split; [exact Hd|constructor; [exact L1|constructor]].
Qed.

Lemma yes_recomposed s : Forall yes s -> Sorted R s -> ~ In TBase (canonical_order tb (flat_map Dk s)) ->
  recomposed tb [] (canonical_order tb (flat_map Dk s)) s.
Proof.
  intros Hy Hs Hb. destruct (split_lead tb s) as (lead & s' & -> & Hl & Hs'). fold ccc in Hl.
  apply Forall_app in Hy as (Y1 & Y2). destruct (sorted_app_l _ _ Hs) as (S1 & S2).
  apply (lead_blocks lead s' []); auto. destruct Hs' as [->|(c' & Z & -> & Hz)]; [exact I|exact Hz].
Qed.
End Woven.
