(** Proofs about the run segmenter (C58). *)
From Verif Require Import Base M_Script M_Emoji M_Run Spec_Script Spec_Emoji Spec_Run P_Script P_Emoji.
Require Import Lia.

Lemma ends_at_le n : forall es from, ends_at n from es -> (from <= n)%nat /\ forall e, In e es -> (from < e /\ e <= n)%nat.
Proof.
  induction es as [|e es IH]; intros from H; inversion H as [|f0 e0 es0 L R]; subst; [split; [lia|]; intros e []|].
  destruct (IH _ R) as [L1 F]. split; [lia|]. intros x [<-|I]; [lia|]. specialize (F _ I). lia.
Qed.
Lemma fold_min_spec l : forall a, (forall x, In x (a :: l) -> (fold_left Nat.min l a <= x)%nat) /\ In (fold_left Nat.min l a) (a :: l).
Proof.
  induction l as [|b l IH]; intros a; cbn [fold_left].
  - split; [intros x [<-|[]]; lia|now left].
  - destruct (IH (Nat.min a b)) as [A B]. split.
    + intros x H. pose proof (A (Nat.min a b) (or_introl eq_refl)) as C.
      destruct H as [<-|[<-|H]]; [lia|lia|apply A; now right].
    + destruct B as [B|B].
      * rewrite <- B. destruct (Nat.min_spec a b) as [[_ ->]|[_ ->]]; [now left|right; now left].
      * right; now right.
Qed.

Section Run.
Context {S P : Type} (next : S -> Res (option (nat * P) * S)) (n : nat).

(** the state of one segmenter once the text up to [L] has been split *)
Definition inv1 (L : nat) (rs : list (nat * P)) (p : nat) (q : P) (s : S) : Prop :=
  exists rem, yields next s rem /\ ends_at n p (map fst rem) /\ (L <= p)%nat /\
    (forall e, (L < e)%nat -> In e (map fst rs) <-> e = p \/ In e (map fst rem)) /\
    ((L < p)%nat -> exists a, segment_of 0 rs a p q /\ (a <= L)%nat) /\
    (forall a b x, segment_of p rem a b x -> segment_of 0 rs a b x).
Fixpoint inv (L : nat) (rss : list (list (nat * P))) (ps : list nat) (qs : list P) (ss : list S) : Prop :=
  match rss, ps, qs, ss with
  | [], [], [], [] => True
  | rs :: rss', p :: ps', q :: qs', s :: ss' => inv1 L rs p q s /\ inv L rss' ps' qs' ss'
  | _, _, _, _ => False
  end.

Lemma split_spec fuel L rs p q s : (L < n)%nat -> inv1 L rs p q s -> exists p' q' s', until_split next (Datatypes.S fuel) n L p q s = Ok (p', q', s') /\
  inv1 L rs p' q' s' /\ (L < p')%nat.
Proof.
  intros Ln (rem & Y & E & Lp & B & C & F). unfold until_split. destruct (Nat.ltb_spec L p) as [H|H].
  { exists p, q, s. split; auto. split; auto. exists rem. auto 10. }
  assert (p = L) by lia. subst p. destruct (Nat.leb_spec n L); [lia|]. destruct rem as [|(e, x) rem]; [inversion E; lia|].
  inversion Y as [|s0 s' r0 rs0 N1 Y']; subst. cbn [map fst] in E. inversion E as [|f0 e0 es0 Le E']; subst.
  cbn [until_loop]. rewrite N1. cbn [bindR]. destruct (Nat.ltb_spec L e); [|lia]. exists e, x, s'. split; auto. split; [|lia].
  exists rem. split; [exact Y'|]. split; [exact E'|]. split; [lia|]. split.
  - intros y Hy. rewrite (B y Hy). cbn [map fst In]. split.
    + intros [->|[->|I]]; [lia|auto|auto].
    + intros [->|I]; auto.
  - split.
    + intros _. exists L. split; [|lia]. apply F. cbn. left. auto.
    + intros a b y Hs. apply F. cbn. right. exact Hs.
Qed.

Lemma all_spec_run fuel L : (L < n)%nat -> forall rss ps qs ss, inv L rss ps qs ss ->
  exists ps' qs' ss', until_all next (Datatypes.S fuel) n L ps qs ss = Ok (ps', qs', ss') /\ inv L rss ps' qs' ss' /\ (forall p, In p ps' -> (L < p)%nat) /\
    length ps' = length rss.
Proof.
  intros Ln. induction rss as [|rs rss IH]; intros [|p ps] [|q qs] [|s ss] I; cbn in I; try contradiction.
  { exists [], [], []. cbn. split; auto. split; auto. split; auto. intros ? []. }
  destruct I as [I1 I2]. destruct (split_spec fuel L rs p q s Ln I1) as (p' & q' & s' & E & I1' & Hp).
  destruct (IH ps qs ss I2) as (ps' & qs' & ss' & E2 & I2' & Hps & Hl). cbn [until_all]. rewrite E. cbn [bindR]. rewrite E2. cbn [bindR].
  do 3 eexists. split; [reflexivity|]. split; [split; assumption|]. split; [|cbn; lia]. intros y [<-|Hy]; auto.
Qed.

(** the state after splitting at the smallest position *)
Lemma inv_advance L m : (L < m)%nat -> forall rss ps qs ss, inv L rss ps qs ss -> (forall p, In p ps -> (m <= p)%nat) -> inv m rss ps qs ss.
Proof.
  intros Lm. induction rss as [|rs rss IH]; intros [|p ps] [|q qs] [|s ss] I Hm; cbn in I |- *; try contradiction; auto.
  destruct I as [(rem & Y & E & Lp & B & C & F) I2]. pose proof (Hm p (or_introl eq_refl)) as Hp. split.
  - exists rem. split; auto. split; auto. split; auto. split; [intros e He; apply B; lia|]. split; auto.
    intros H. destruct C as (a & A1 & A2); [lia|]. exists a. split; auto. lia.
  - apply IH; auto. intros y Hy. apply Hm. now right.
Qed.

Lemma inv_props L m : (L < m)%nat -> forall rss ps qs ss, inv L rss ps qs ss -> (forall p, In p ps -> (m <= p)%nat) ->
  Forall2 (fun rs x => exists a' b', segment_of 0 rs a' b' x /\ (a' <= L)%nat /\ (m <= b')%nat) rss qs.
Proof.
  intros Lm. induction rss as [|rs rss IH]; intros [|p ps] [|q qs] [|s ss] I Hm; cbn in I |- *; try contradiction; [constructor|].
  destruct I as [(rem & Y & E & Lp & B & C & F) I2]. pose proof (Hm p (or_introl eq_refl)) as Hp. constructor.
  - destruct C as (a & A1 & A2); [lia|]. exists a, p. auto.
  - apply (IH ps qs ss); auto. intros y Hy. apply Hm. now right.
Qed.

Lemma inv_ends L m : forall rss ps qs ss, inv L rss ps qs ss -> (L < m)%nat -> (forall p, In p ps -> (m <= p)%nat) ->
  (forall p, In p ps -> (L < p)%nat) ->
  (forall p, In p ps -> (p <= n)%nat /\ exists rs, In rs rss /\ In p (map fst rs)) /\
  (forall rs e, In rs rss -> In e (map fst rs) -> (L < e)%nat -> (m <= e)%nat).
Proof.
  induction rss as [|rs rss IH]; intros [|p ps] [|q qs] [|s ss] I Lm Hm HL; cbn in I |- *; try contradiction.
  { split; [intros ? []|intros ? ? []]. }
  destruct I as [(rem & Y & E & Lp & B & C & F) I2]. pose proof (Hm p (or_introl eq_refl)) as Hp. pose proof (HL p (or_introl eq_refl)) as Hp'.
  destruct (IH ps qs ss I2 Lm (fun y Hy => Hm y (or_intror Hy)) (fun y Hy => HL y (or_intror Hy))) as [A1 A2].
  destruct (ends_at_le _ _ _ E) as [En Ee]. split.
  - intros y [<-|Hy].
    + split; auto. exists rs. split; [now left|]. apply (B p Hp'). now left.
    + destruct (A1 y Hy) as (X & rs' & X1 & X2). split; auto. exists rs'. split; auto.
  - intros rs' e [<-|Hr] He Le; [|eauto]. apply (B e Le) in He. destruct He as [->|He]; [lia|]. specialize (Ee _ He). lia.
Qed.

Lemma inv_end rss : forall ps qs ss L, inv L rss ps qs ss -> (n <= L)%nat -> forall rs e, In rs rss -> In e (map fst rs) -> (e <= L)%nat.
Proof.
  induction rss as [|rs rss IH]; intros [|p ps] [|q qs] [|s ss] L I Hn rs' e Hr He; cbn in I, Hr; try contradiction.
  destruct I as [(rem & Y & E & Lp & B & C & F) I2]. destruct Hr as [<-|Hr]; [|eapply IH; eassumption].
  destruct (le_lt_dec e L) as [|H]; auto. apply (B e H) in He. destruct (ends_at_le _ _ _ E) as [En Ee].
  destruct He as [->|He]; [lia|]. specialize (Ee _ He). lia.
Qed.

Lemma runs_spec fuel rss : rss <> [] -> forall calls ps qs ss L cs, (n - L < calls)%nat -> (L <= n)%nat -> inv L rss ps qs ss ->
  exists runs, rseg_all next (Datatypes.S fuel) calls (mkRseg n L cs L ps qs ss) = Ok runs /\
    contiguous n L runs /\
    (forall e, In e (map (fun r => snd (fst r)) runs) <-> (L < e)%nat /\ exists rs, In rs rss /\ In e (map fst rs)) /\
    (forall a b xs, In (a, b, xs) runs ->
       Forall2 (fun rs x => exists a' b', segment_of 0 rs a' b' x /\ (a' <= a)%nat /\ (b <= b')%nat) rss xs).
Proof.
  intros NE. induction calls as [|calls IH]; intros ps qs ss L cs Hc Ln I; [lia|]. cbn [rseg_all]. unfold rseg_consume.
  cbn [r_size r_last r_pos r_props r_segs r_cend r_cstart]. destruct (Nat.leb_spec n L) as [H|H]; cbn [bindR].
  { exists []. split; auto. split; [cbn; lia|]. split; [|intros ? ? ? []]. intros e. split; [intros []|].
    intros (Le & rs & R1 & R2). pose proof (inv_end rss ps qs ss L I H rs e R1 R2). lia. }
  destruct (all_spec_run fuel L H rss ps qs ss I) as (ps' & qs' & ss' & E & I' & Hps & Hl). rewrite E. cbn [bindR].
  destruct ps' as [|p0 ps']. { destruct rss; [congruence|discriminate]. }
  cbn [min_position bindR]. set (m := fold_left Nat.min ps' p0). destruct (fold_min_spec ps' p0) as [Hmin Hin]. fold m in Hmin, Hin.
  pose proof (Hps m Hin) as Lm. destruct (inv_ends L m rss _ qs' ss' I' Lm Hmin Hps) as [A1 A2].
  destruct (A1 m Hin) as (Mn & rsm & M1 & M2).
  destruct (IH (p0 :: ps') qs' ss' m L) as (runs & ER & RC & RE & RP); [lia|lia|now apply (inv_advance L m)|].
  rewrite ER. cbn [bindR]. exists ((L, m, qs') :: runs). split; auto. split; [|split].
  - cbn. auto.
  - intros e. cbn [map fst snd In]. rewrite RE. split.
    + intros [<-|(X1 & X2)]; [split; [lia|eauto]|]. split; [lia|auto].
    + intros (X1 & rs & X2 & X3). pose proof (A2 rs e X2 X3 X1). destruct (Nat.eq_dec m e); [now left|right]. split; [lia|eauto].
  - intros a b xs [[= <- <- <-]|X]; [|now apply RP]. now apply (inv_props L m Lm rss (p0 :: ps') qs' ss').
Qed.

Lemma inv_start d : forall rss segs, Forall2 (fun rs s => yields next s rs) rss segs -> Forall (segmentation n) rss ->
  inv 0 rss (repeat 0%nat (length segs)) (repeat d (length segs)) segs.
Proof.
  induction 1 as [|rs s rss segs Y F IH]; intros G; cbn; auto. inversion G; subst. split; [|now apply IH].
  exists rs. split; auto. split; [assumption|]. split; auto. split; [|split; auto; lia]. intros e He. split; [auto|intros [->|]; [lia|auto]].
Qed.

Theorem run_refinement fuel calls d rss segs : rss <> [] -> Forall2 (fun rs s => yields next s rs) rss segs -> Forall (segmentation n) rss ->
  (n < calls)%nat -> exists runs, rseg_all next (Datatypes.S fuel) calls (rseg_new d n segs) = Ok runs /\ common_refinement n rss runs.
Proof.
  intros NE F G C. destruct (runs_spec fuel rss NE calls _ _ _ 0 0 ltac:(lia) ltac:(lia) (inv_start d rss segs F G)) as (runs & E & R1 & R2 & R3).
  exists runs. split; [exact E|]. split; [exact R1|]. split; [|exact R3]. intros e. rewrite R2. split; [tauto|].
  intros (rs & I1 & I2). split; [|eauto]. rewrite Forall_forall in G. destruct (ends_at_le _ _ _ (G rs I1)) as [_ X]. apply X in I2. lia.
Qed.
End Run.

(** the two segmenters of run_segmenter yield what their own loops report *)
Lemma script_yields tb efuel : forall calls st rs, script_runs tb calls st = Ok rs ->
  yields (rs_next tb efuel) (RScript st) (map (fun r => (snd r, PScript (fst r))) rs).
Proof.
  induction calls as [|n IH]; intros st rs H; cbn [script_runs] in H; [discriminate|].
  destruct (script_consume tb st) as [[o st']| |] eqn:E; cbn [bindR] in H; try discriminate. destruct o as [[s e]|].
  - destruct (script_runs tb n st') as [rs'| |] eqn:E2; cbn [bindR] in H; try discriminate. injection H as <-. cbn [map fst snd].
    eapply yields_seg; [|apply IH; exact E2]. cbn [rs_next]. rewrite E. reflexivity.
  - injection H as <-. eapply yields_end. cbn [rs_next]. rewrite E. reflexivity.
Qed.
Lemma emoji_yields tb efuel : forall calls st rs, eseg_all efuel calls st = Ok rs ->
  yields (rs_next tb efuel) (REmoji st) (map (fun r => (fst r, PEmoji (snd r))) rs).
Proof.
  induction calls as [|n IH]; intros st rs H; cbn [eseg_all] in H; [discriminate|].
  destruct (eseg_consume efuel st) as [[o st']| |] eqn:E; cbn [bindR] in H; try discriminate. destruct o as [[s e]|].
  - destruct (eseg_all efuel n st') as [rs'| |] eqn:E2; cbn [bindR] in H; try discriminate. injection H as <-. cbn [map fst snd].
    eapply yields_seg; [|apply IH; exact E2]. cbn [rs_next]. rewrite E. reflexivity.
  - injection H as <-. eapply yields_end. cbn [rs_next]. rewrite E. reflexivity.
Qed.
Lemma segments_ends n : forall segs from prev, segments_ok n from prev segs -> ends_at n from (map fst segs).
Proof.
  induction segs as [|[e b] segs IH]; intros from prev H; cbn in H.
  - subst. constructor.
  - cbn. destruct H as (H1 & _ & H2). constructor; [lia|]. eapply IH. exact H2.
Qed.
