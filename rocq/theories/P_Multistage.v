(** Proofs about the multistage table generator. *)
From Verif Require Import Base M_Multistage Spec_Multistage.
Require Import Lia.
Open Scope N_scope.

Lemma nth_firstn {A} n (l : list A) o : (o < n)%nat -> nth_error (firstn n l) o = nth_error l o.
Proof. revert l o. induction n as [|n IH]; intros [|x l] [|o] H; cbn; auto; try lia. apply IH. lia. Qed.
Lemma nth_skipn {A} s (l : list A) o : nth_error (skipn s l) o = nth_error l (s + o).
Proof. revert l. induction s as [|s IH]; intros [|x l]; cbn; auto. now destruct o. Qed.

Section Pm.
Variable T : Type.
Variable eqb : T -> T -> bool.
Variable hash : list N -> N.
Variables (BS : nat) (W1 W2 : N).
Variable input : list (cell T).
Variable sz : nat.
Hypothesis BSpos : (0 < BS)%nat.
Hypothesis Hobj : objects sz input.
Hypothesis Heq : eq_ok eqb.
Hypothesis Hvals : few_values W2 input.

Definition blk (b : nat) : list (cell T) := firstn BS (skipn (b * BS) input).
Definition bytes (b : nat) : list N := block_bytes T BS input (b * BS).

Lemma NoDup_incl_len {A} (l m : list A) : NoDup l -> incl l m -> (length l <= length m)%nat.
Proof. apply NoDup_incl_length. Qed.

(** ---- stage 3 ---- *)
Definition V (g : gen T) : Prop :=
  (forall v k, g_values T g v = Some k -> nth_error (g3 g) (N.to_nat k) = Some v) /\
  (forall v, In v (g3 g) -> g_values T g v <> None) /\
  NoDup (g3 g) /\ (forall v, In v (g3 g) -> exists c, In c input /\ fst c = v).
Definition prefix {A} (l m : list A) : Prop := exists r, m = l ++ r.
Lemma prefix_refl {A} (l : list A) : prefix l l. Proof. exists []. now rewrite app_nil_r. Qed.
Lemma prefix_trans {A} (a b c : list A) : prefix a b -> prefix b c -> prefix a c.
Proof. intros [r ->] [s ->]. exists (r ++ s). now rewrite app_assoc. Qed.
Lemma prefix_nth {A} (l m : list A) k x : prefix l m -> nth_error l k = Some x -> nth_error m k = Some x.
Proof. intros [r ->] H. rewrite nth_error_app1; auto. apply nth_error_Some. congruence. Qed.

Lemma V_len g v : V g -> (exists c, In c input /\ fst c = v) -> ~ In v (g3 g) -> N.of_nat (length (g3 g)) < W2.
Proof.
  intros (_ & _ & ND & Inc) (c & Hc & <-) Hn. destruct Hvals as (vs & Hl & Hi).
  assert (length (fst c :: g3 g) <= length vs)%nat.
  { apply NoDup_incl_length. constructor; auto. intros x [<-|Hx]; [auto|]. destruct (Inc x Hx) as (d & Hd & <-). auto. }
  cbn [length] in H. clear - H Hl. lia.
Qed.

Lemma stage3_spec g v k g' : V g -> (exists c, In c input /\ fst c = v) -> stage3_index T eqb W2 g v = (k, g') ->
  V g' /\ nth_error (g3 g') (N.to_nat k) = Some v /\ prefix (g3 g) (g3 g') /\ g1 g' = g1 g /\ g2 g' = g2 g /\ g_blocks T g' = g_blocks T g.
Proof.
  intros HV Hin H. unfold stage3_index in H. destruct (g_values T g v) as [k0|] eqn:E.
  - injection H as <- <-. split; [auto|]. split; [now apply HV|]. split; [apply prefix_refl|auto].
  - assert (Hn : ~ In v (g3 g)). { intros Hi. now apply (proj1 (proj2 HV) v Hi). }
    pose proof (V_len g v HV Hin Hn) as L. rewrite (N.mod_small _ _ L) in H. injection H as <- <-.
    cbn [g1 g2 g3 g_values g_blocks]. destruct HV as (A & B & C & D).
    assert (Hk : nth_error (g3 g ++ [v]) (N.to_nat (N.of_nat (length (g3 g)))) = Some v).
    { rewrite Nnat.Nat2N.id, nth_error_app2 by lia. now rewrite Nat.sub_diag. }
    repeat split; auto; cbn [g1 g2 g3 g_values g_blocks].
    + intros x k. destruct (eqb x v) eqn:Ex.
      * apply Heq in Ex. subst x. intros [= <-]. exact Hk.
      * intros Hx. apply A in Hx. apply (prefix_nth (g3 g)); auto. now exists [v].
    + intros x Hx. destruct (eqb x v) eqn:Ex; [discriminate|]. apply in_app_or in Hx as [Hx|[->|[]]]; [now apply B|].
      intros _. assert (eqb x x = true) by now apply Heq. congruence.
    + apply NoDup_rev in C. rewrite <- (rev_involutive (g3 g ++ [v])). apply NoDup_rev. rewrite rev_app_distr. cbn.
      constructor; auto. now rewrite <- in_rev.
    + intros x Hx. apply in_app_or in Hx as [Hx|[<-|[]]]; auto.
    + now exists [v].
Qed.

Lemma fill_spec cells : forall g, V g -> incl cells input ->
  exists ks, let g' := fill_block T eqb W2 g cells in
    V g' /\ g2 g' = g2 g ++ ks /\ Forall2 (fun k c => nth_error (g3 g') (N.to_nat k) = Some (fst c)) ks cells /\
    prefix (g3 g) (g3 g') /\ g1 g' = g1 g /\ g_blocks T g' = g_blocks T g.
Proof.
  induction cells as [|c r IH]; intros g HV Hin; cbn [fill_block].
  - exists []. rewrite app_nil_r. split; [auto|]. split; [auto|]. split; [constructor|]. split; [apply prefix_refl|auto].
  - destruct (stage3_index T eqb W2 g (fst c)) as [k g1'] eqn:E.
    destruct (stage3_spec g (fst c) k g1' HV) as (V1 & K1 & P1 & E1 & E2 & E3); auto.
    { exists c. split; auto. apply Hin. now left. }
    set (gm := mkGen T (g1 g1') (g2 g1' ++ [k]) (g3 g1') (g_blocks T g1') (g_values T g1')).
    destruct (IH gm) as (ks & V2 & K2 & F2 & P2 & F1 & F3).
    { exact V1. } { intros x Hx. apply Hin. now right. }
    exists (k :: ks). cbv zeta. split; [exact V2|]. split; [rewrite K2; subst gm; cbn [g2]; rewrite E2, <- app_assoc; reflexivity|].
    split; [constructor; auto; apply (prefix_nth (g3 gm)); auto|].
    split; [apply (prefix_trans _ (g3 g1')); auto|]. split; [rewrite F1; exact E1|rewrite F3; exact E3].
Qed.

(** ---- bytes of blocks ---- *)
Lemma in_firstn {A} n (l : list A) x : In x (firstn n l) -> In x l.
Proof. intros H. rewrite <- (firstn_skipn n l). apply in_or_app. now left. Qed.
Lemma in_skipn {A} n (l : list A) x : In x (skipn n l) -> In x l.
Proof. intros H. rewrite <- (firstn_skipn n l). apply in_or_app. now right. Qed.
Lemma blk_incl b : incl (blk b) input.
Proof. intros x Hx. now apply in_firstn, in_skipn in Hx. Qed.
Lemma blk_len b : ((b + 1) * BS <= length input)%nat -> length (blk b) = BS.
Proof. intros H. unfold blk. rewrite firstn_length, skipn_length. clear - H. nia. Qed.
Lemma flat_snd_inj (a b : list (cell T)) : length a = length b -> incl a input -> incl b input ->
  flat_map snd a = flat_map snd b -> map snd a = map snd b /\ map fst a = map fst b.
Proof.
  destruct Hobj as (HF & HI). rewrite Forall_forall in HF. clear - HF HI.
  revert b. induction a as [|x a IH]; intros [|y b]; cbn [length flat_map map]; try discriminate; auto.
  intros L Ia Ib H. assert (x0 : In x input) by (apply Ia; now left). assert (y0 : In y input) by (apply Ib; now left).
  assert (E : snd x = snd y /\ flat_map snd a = flat_map snd b).
  { pose proof (HF x x0) as Lx. pose proof (HF y y0) as Ly. cbv beta in Lx, Ly.
    assert (E := f_equal (firstn sz) H). assert (E' := f_equal (skipn sz) H).
    rewrite !firstn_app, !Lx, !Ly, !Nat.sub_diag in E. cbn [firstn] in E. rewrite !app_nil_r in E.
    rewrite !firstn_all2 in E by lia.
    rewrite !skipn_app, !Lx, !Ly, !Nat.sub_diag in E'. cbn [skipn] in E'.
    rewrite !skipn_all2 in E' by lia. auto. }
  destruct E as [E1 E2]. destruct (IH b) as [F1 F2]; auto.
  { intros z Hz. apply Ia. now right. } { intros z Hz. apply Ib. now right. }
  rewrite F1, F2, E1. split; auto. now rewrite (HI x y x0 y0 E1).
Qed.
Lemma bytes_inj a b : ((a + 1) * BS <= length input)%nat -> ((b + 1) * BS <= length input)%nat -> bytes a = bytes b ->
  block_reps T BS input a = block_reps T BS input b /\ map fst (blk a) = map fst (blk b).
Proof.
  intros La Lb H. apply (flat_snd_inj (blk a) (blk b)); try apply blk_incl; auto. now rewrite !blk_len.
Qed.
Lemma bytes_reps b : bytes b = concat (block_reps T BS input b).
Proof. unfold bytes, block_bytes, block_reps. now rewrite flat_map_concat_map. Qed.

(** ---- the invariant ---- *)
Record Inv (b : nat) (g : gen T) (cr : list nat) : Prop := {
  iV : V g;
  iL1 : length (g1 g) = b;
  iL2 : length (g2 g) = (length cr * BS)%nat;
  iS : forall j c, nth_error cr j = Some c -> forall o v, nth_error (blk c) o = Some v ->
       exists k, nth_error (g2 g) (j * BS + o) = Some k /\ nth_error (g3 g) (N.to_nat k) = Some (fst v);
  iB : forall x, (x < b)%nat -> exists j c, nth_error cr j = Some c /\ bytes c = bytes x /\
       nth_error (g1 g) x = Some (N.of_nat j mod W1);
  iC : forall j c, nth_error cr j = Some c -> (c < b)%nat /\ nth_error (g1 g) c = Some (N.of_nat j mod W1);
  iH : forall h st, In st (g_blocks T g h) <-> exists c, In c cr /\ st = (c * BS)%nat /\ hash (bytes c) = h;
  iN : NoDup (map bytes cr) }.

Lemma Inv0 : Inv 0 (gen0 T) [].
Proof.
  split; cbn [gen0 g1 g2 g3 g_blocks length]; auto.
  - split; [intros v k H; discriminate|]. split; [intros v []|]. split; [constructor|intros v []].
  - intros [|j] c; discriminate.
  - intros x Hx. lia.
  - intros [|j] c; discriminate.
  - intros h st. split; [intros []|intros (c & [] & _)].
  - constructor.
Qed.

Lemma Forall2_nth {A B} (P : A -> B -> Prop) l m : Forall2 P l m -> forall o v, nth_error m o = Some v ->
  exists k, nth_error l o = Some k /\ P k v.
Proof. induction 1; intros [|o] v Hv; try discriminate; cbn in *. - injection Hv as <-. eauto. - eauto. Qed.
Lemma Forall2_len {A B} (P : A -> B -> Prop) l m : Forall2 P l m -> length l = length m.
Proof. induction 1; cbn; auto. Qed.

Lemma same_block_iff a b : same_block T BS input a b = true <-> block_bytes T BS input a = block_bytes T BS input b.
Proof. unfold same_block. destruct (list_eq_dec _ _ _); split; auto; discriminate. Qed.

Lemma step b g cr : Inv b g cr -> ((b + 1) * BS <= length input)%nat ->
  exists g' cr', add_block T eqb hash BS W1 W2 input g (b * BS) = Ok g' /\ Inv (S b) g' cr' /\
    (((exists c, In c cr /\ bytes c = bytes b) /\ cr' = cr) \/ (~ In (bytes b) (map bytes cr) /\ cr' = cr ++ [b])).
Proof.
  intros I Hb. unfold add_block, find_same_block. fold (bytes b).
  destruct (find (fun other => same_block T BS input other (b * BS)) (g_blocks T g (hash (bytes b)))) as [st|] eqn:F.
  - apply find_some in F as [Fi Fs]. apply same_block_iff in Fs. fold (bytes b) in Fs.
    apply (iH _ _ _ I) in Fi as (c & Hc & -> & Hh). fold (bytes c) in Fs.
    rewrite Nat.div_mul by lia. apply In_nth_error in Hc as [j Hj]. destruct (iC _ _ _ I j c Hj) as [Hcb E]. rewrite E.
    eexists. exists cr. split; [reflexivity|]. split; [|left; split; auto; exists c; split; auto; now apply nth_error_In in Hj].
    destruct I as [iV0 L1 L2 S0 B0 C0 H0 N0]. split; cbn [g1 g2 g3 g_blocks g_values]; auto.
    + rewrite app_length, L1. cbn. lia.
    + intros x Hx. destruct (Nat.eq_dec x b) as [->|Hn].
      * exists j, c. split; auto. split; auto. rewrite nth_error_app2 by lia. now rewrite L1, Nat.sub_diag.
      * destruct (B0 x ltac:(lia)) as (j' & c' & A1 & A2 & A3). exists j', c'. split; auto. split; auto.
        rewrite nth_error_app1 by lia. auto.
    + intros j' c' Hj'. destruct (C0 j' c' Hj') as [A1 A2]. split; [lia|]. rewrite nth_error_app1 by lia. auto.
  - assert (Hnew : ~ In (bytes b) (map bytes cr)).
    { intros Hi. apply in_map_iff in Hi as (c & Ec & Hc). assert (Hs : In (c * BS)%nat (g_blocks T g (hash (bytes b)))).
      { apply (iH _ _ _ I). exists c. rewrite Ec. auto. }
      pose proof (find_none _ _ F _ Hs) as Q. cbv beta in Q.
      assert (same_block T BS input (c * BS) (b * BS) = true) by (apply same_block_iff; exact Ec). congruence. }
    set (gr := mkGen T (g1 g) (g2 g) (g3 g) _ (g_values T g)).
    destruct I as [iV0 L1 L2 S0 B0 C0 H0 N0].
    destruct (fill_spec (blk b) gr iV0 (blk_incl b)) as (ks & V2 & K2 & F2 & P2 & F1 & F3).
    fold (blk b). pose proof (Forall2_len _ _ _ F2) as Lk. unfold cell in Lk; pose proof (blk_len b Hb) as Lb0; unfold blk, cell in Lk, Lb0; rewrite Lb0 in Lk.
    assert (Q : Nat.div (length (g2 gr)) BS = length cr). { cbn [g2 gr]. rewrite L2. apply Nat.div_mul. lia. }
    rewrite Q. eexists. exists (cr ++ [b]). split; [reflexivity|]. split; [|right; auto].
    set (g' := fill_block T eqb W2 gr (blk b)) in *.
    split; cbn [g1 g2 g3 g_blocks g_values]; auto.
    + rewrite F1, app_length. subst gr. cbn [g1 length]. lia.
    + rewrite K2, !app_length, Lk. subst gr. cbn [g2 length]. lia.
    + intros j c Hj o v Ho. rewrite K2. subst gr. cbn [g2 g3] in *.
      destruct (Nat.lt_ge_cases j (length cr)) as [Hlt|Hge].
      * rewrite nth_error_app1 in Hj by auto. destruct (S0 j c Hj o v Ho) as (k & A1 & A2). exists k. split.
        { rewrite nth_error_app1; auto. apply nth_error_Some. congruence. }
        { apply (prefix_nth (g3 g)); auto. }
      * assert (Hjj : j = length cr). { assert (j < length (cr ++ [b]))%nat by (apply nth_error_Some; congruence).
          rewrite app_length in H. cbn in H. lia. }
        rewrite nth_error_app2, Hjj, Nat.sub_diag in Hj by lia. injection Hj as <-.
        destruct (Forall2_nth _ _ _ F2 o v Ho) as (k & A1 & A2). exists k. split; auto.
        rewrite nth_error_app2 by lia. rewrite Hjj, L2. replace (length cr * BS + o - length cr * BS)%nat with o by lia. auto.
    + intros x Hx. rewrite F1. subst gr. cbn [g1] in *. destruct (Nat.eq_dec x b) as [->|Hn].
      * exists (length cr), b. split; [rewrite nth_error_app2, Nat.sub_diag by lia; auto|]. split; auto.
        rewrite nth_error_app2 by lia. now rewrite L1, Nat.sub_diag.
      * destruct (B0 x ltac:(lia)) as (j' & c' & A1 & A2 & A3). exists j', c'. split; [|split; auto].
        { rewrite nth_error_app1; auto. apply nth_error_Some. congruence. }
        { rewrite nth_error_app1 by lia. auto. }
    + intros j c Hj. rewrite F1. subst gr. cbn [g1] in *. destruct (Nat.lt_ge_cases j (length cr)) as [Hlt|Hge].
      * rewrite nth_error_app1 in Hj by auto. destruct (C0 j c Hj) as [A1 A2]. split; [lia|]. rewrite nth_error_app1 by lia. auto.
      * assert (Hjj : j = length cr). { assert (j < length (cr ++ [b]))%nat by (apply nth_error_Some; congruence).
          rewrite app_length in H. cbn in H. lia. }
        rewrite nth_error_app2, Hjj, Nat.sub_diag in Hj by lia. injection Hj as <-. split; [lia|].
        rewrite nth_error_app2 by lia. now rewrite L1, Nat.sub_diag, Hjj.
    + intros h st. rewrite F3. subst gr. cbn [g_blocks]. destruct (N.eqb_spec h (hash (bytes b))) as [->|Hh].
      * rewrite in_app_iff, H0. cbn [In]. split.
        { intros [(c & A1 & A2 & A3)|[<-|[]]].
          - exists c. rewrite in_app_iff. auto.
          - exists b. rewrite in_app_iff. cbn. auto. }
        { intros (c & A1 & A2 & A3). apply in_app_or in A1 as [A1|[<-|[]]]; [left; exists c; auto|right; left; auto]. }
      * rewrite H0. split; intros (c & A1 & A2 & A3).
        { exists c. rewrite in_app_iff. auto. }
        { apply in_app_or in A1 as [A1|[<-|[]]]; [exists c; auto|congruence]. }
    + rewrite map_app. cbn [map]. rewrite <- (rev_involutive (map bytes cr ++ [bytes b])). apply NoDup_rev.
      rewrite rev_app_distr. cbn. constructor; [now rewrite <- in_rev|now apply NoDup_rev].
Qed.

Lemma steps n : forall b g cr, Inv b g cr -> ((b + n) * BS <= length input)%nat ->
  exists g' cr', add_blocks T eqb hash BS W1 W2 input g (b * BS) n = Ok g' /\ Inv (b + n) g' cr' /\
    (NoDup (map bytes (cr ++ seq b n)) -> cr' = cr ++ seq b n).
Proof.
  induction n as [|n IH]; intros b g cr I L; cbn [add_blocks].
  - exists g, cr. rewrite Nat.add_0_r. cbn [seq]. rewrite app_nil_r. auto.
  - destruct (step b g cr I) as (g' & cr' & E & I' & D). { clear - L. nia. }
    rewrite E. cbn [bindR]. replace (b * BS + BS)%nat with (S b * BS)%nat by lia.
    destruct (IH (S b) g' cr' I') as (g'' & cr'' & E' & I'' & D'). { clear - L. nia. }
    exists g'', cr''. split; auto. split; [replace (b + S n)%nat with (S b + n)%nat by lia; auto|].
    cbn [seq]. intros ND.
    assert (cr' = cr ++ [b]) as ->.
    { destruct D as [[(c & Hc & Ec) _]|[_ ->]]; auto. exfalso. rewrite map_app in ND. cbn [map] in ND.
      apply NoDup_remove_2 in ND. apply ND. apply in_or_app. left. rewrite <- Ec. now apply in_map. }
    rewrite D'; rewrite <- app_assoc; auto.
Qed.

Lemma generate_inv n : length input = (n * BS)%nat -> (0 < n)%nat ->
  exists g cr, generate T eqb hash BS W1 W2 input = Ok g /\ Inv n g cr /\ (NoDup (map bytes (seq 0 n)) -> cr = seq 0 n).
Proof.
  intros L Hn. unfold generate. destruct (Nat.ltb_spec (length input) BS); [exfalso; clear - H L Hn; nia|].
  rewrite L, Nat.div_mul by lia. destruct (steps n 0 (gen0 T) [] Inv0) as (g & cr & E & I & D). { rewrite L. lia. }
  exists g, cr. auto.
Qed.

(** what a lookup returns when stage 1 says block j *)
Lemma lookup_at n g cr : length input = (n * BS)%nat -> Inv n g cr -> forall i j c,
  (i < length input)%nat -> nth_error (g1 g) (i / BS) = Some (N.of_nat j) -> nth_error cr j = Some c ->
  exists v, nth_error (blk c) (i mod BS) = Some v /\ unsafe_get BS g (N.of_nat i) = Ok (fst v).
Proof.
  intros L I i j c Hi Hj Hc. destruct (iC _ _ _ I j c Hc) as [Hcn _].
  assert (Lc : length (blk c) = BS). { apply blk_len. rewrite L. clear - Hcn. nia. }
  assert (Ho : (i mod BS < BS)%nat) by (apply Nat.mod_upper_bound; lia).
  destruct (nth_error (blk c) (i mod BS)) as [v|] eqn:Ev; [|apply nth_error_None in Ev; lia].
  exists v. split; auto. destruct (iS _ _ _ I j c Hc _ _ Ev) as (k & A1 & A2).
  unfold unsafe_get, at_n. rewrite <- Nnat.Nat2N.inj_div, Nnat.Nat2N.id, Hj. cbn [bindR].
  rewrite <- Nnat.Nat2N.inj_mod, <- Nnat.Nat2N.inj_mul, <- Nnat.Nat2N.inj_add, Nnat.Nat2N.id, A1. cbn [bindR]. now rewrite A2.
Qed.
Lemma blk_nth b o : (o < BS)%nat -> nth_error (blk b) o = nth_error input (b * BS + o).
Proof. intros H. unfold blk. now rewrite nth_firstn, nth_skipn. Qed.

Lemma cr_small n g cr : length input = (n * BS)%nat -> few_blocks BS W1 input -> Inv n g cr -> N.of_nat (length cr) <= W1.
Proof.
  intros L (bs & Lb & Hb) I.
  assert (length (map (block_reps T BS input) cr) <= length bs)%nat.
  { apply NoDup_incl_length.
    - pose proof (iN _ _ _ I) as ND. clear - ND. induction cr as [|c r IH]; cbn [map] in *; [constructor|].
      apply NoDup_cons_iff in ND as [A B]. constructor; auto. intros Hi. apply A. apply in_map_iff in Hi as (d & Ed & Hd).
      apply in_map_iff. exists d. split; auto. now rewrite !bytes_reps, Ed.
    - intros r Hr. apply in_map_iff in Hr as (c & <- & Hc). apply Hb. apply In_nth_error in Hc as [j Hj].
      destruct (iC _ _ _ I j c Hj) as [Hcn _]. rewrite L. clear - Hcn. nia. }
  rewrite map_length in H. clear - H Lb. lia.
Qed.

Lemma lookup_ok n : length input = (n * BS)%nat -> (0 < n)%nat -> few_blocks BS W1 input ->
  exists g, generate T eqb hash BS W1 W2 input = Ok g /\ NoDup (g3 g) /\
    forall i c, nth_error input i = Some c -> unsafe_get BS g (N.of_nat i) = Ok (fst c).
Proof.
  intros L Hn FB. destruct (generate_inv n L Hn) as (g & cr & E & I & _). exists g. split; auto.
  split; [apply (iV _ _ _ I)|]. intros i c Hc.
  assert (Hi : (i < length input)%nat) by (apply nth_error_Some; congruence).
  assert (Hib : (i / BS < n)%nat) by (apply Nat.div_lt_upper_bound; [lia|]; clear - L Hi; lia).
  destruct (iB _ _ _ I _ Hib) as (j & b & A1 & A2 & A3).
  assert (Hj : (j < length cr)%nat) by (apply nth_error_Some; congruence).
  pose proof (cr_small n g cr L FB I) as Lc. rewrite N.mod_small in A3 by (clear - Lc Hj; lia).
  destruct (lookup_at n g cr L I i j b Hi A3 A1) as (v & B1 & B2). rewrite B2. f_equal.
  destruct (iC _ _ _ I j b A1) as [Hbn _].
  destruct (bytes_inj b (i / BS)) as [_ EV]; auto. { rewrite L. clear - Hbn. nia. } { rewrite L. clear - Hib. nia. }
  assert (X := f_equal (fun l => nth_error l (i mod BS)) EV). cbv beta in X. rewrite !nth_error_map in X; unfold cell in *; rewrite B1 in X. cbn [option_map] in X.
  rewrite blk_nth in X by (apply Nat.mod_upper_bound; lia).
  replace (i / BS * BS + i mod BS)%nat with i in X by (pose proof (Nat.div_mod i BS); lia).
  unfold cell in *; rewrite Hc in X. cbn in X. congruence.
Qed.

Lemma map_NoDup_in {A B} (f : A -> B) l : (forall a b, In a l -> In b l -> f a = f b -> a = b) -> NoDup l -> NoDup (map f l).
Proof.
  induction l as [|x l IH]; cbn [map]; intros H ND; [constructor|]. apply NoDup_cons_iff in ND as [A1 A2].
  constructor; [|apply IH; auto; intros a b Ha Hb; apply H; now right].
  intros Hi. apply in_map_iff in Hi as (y & Ey & Hy). apply A1. rewrite <- (H y x); auto; [now right|now left].
Qed.
Lemma lookup_wrapped n : length input = (n * BS)%nat -> (0 < n)%nat -> 0 < W1 -> blocks_differ BS input ->
  exists g, generate T eqb hash BS W1 W2 input = Ok g /\
    forall i c, (i < length input)%nat -> nth_error input (N.to_nat (N.of_nat (i / BS) mod W1) * BS + i mod BS) = Some c ->
      unsafe_get BS g (N.of_nat i) = Ok (fst c).
Proof.
  intros L Hn W BD. destruct (generate_inv n L Hn) as (g & cr & E & I & D). exists g. split; auto. intros i c Hi Hc.
  assert (cr = seq 0 n) as ->.
  { apply D. apply map_NoDup_in; [|apply seq_NoDup].
    intros a b Ha Hb Eab. apply in_seq in Ha, Hb.
    assert (La : ((a + 1) * BS <= length input)%nat) by (rewrite L; clear - Ha; nia).
    assert (Lb : ((b + 1) * BS <= length input)%nat) by (rewrite L; clear - Hb; nia).
    apply BD; auto. now apply bytes_inj. }
  assert (Hib : (i / BS < n)%nat) by (apply Nat.div_lt_upper_bound; [lia|]; clear - L Hi; lia).
  destruct (iB _ _ _ I _ Hib) as (j & b & A1 & A2 & A3).
  assert (Hjn : (j < n)%nat). { assert (j < length (seq 0 n))%nat by (apply nth_error_Some; congruence). now rewrite seq_length in H. }
  assert (S0 : forall k, (k < n)%nat -> nth_error (seq 0 n) k = Some k).
  { intros k Hk. rewrite (nth_error_nth' _ 0%nat) by now rewrite seq_length. now rewrite seq_nth. }
  rewrite S0 in A1 by auto. injection A1 as <-.
  assert (j = i / BS)%nat as ->.
  { apply BD. { rewrite L. clear - Hjn. nia. } { rewrite L. clear - Hib. nia. }
    apply bytes_inj; auto. { rewrite L. clear - Hjn. nia. } { rewrite L. clear - Hib. nia. } }
  set (q := N.of_nat (i / BS) mod W1) in *.
  assert (q <= N.of_nat (i / BS)) by (apply N.mod_le; lia).
  assert (Hq : (N.to_nat q < n)%nat) by (clear - H Hib; lia).
  destruct (lookup_at n g _ L I i (N.to_nat q) (N.to_nat q) Hi) as (v & B1 & B2); auto.
  { now rewrite Nnat.N2Nat.id. }
  rewrite blk_nth in B1 by (apply Nat.mod_upper_bound; lia). congruence.
Qed.

Lemma verify_from_ok g : forall cells k, (forall i c, nth_error cells i = Some c -> unsafe_get BS g (k + N.of_nat i) = Ok (fst c)) ->
  verify_from T eqb BS g cells k = Ok true.
Proof using Heq.
  clear - Heq; induction cells as [|c r IH]; intros k H; cbn [verify_from]; auto.
  pose proof (H 0%nat c eq_refl) as H0. rewrite N.add_0_r in H0. rewrite H0. cbn [bindR].
  assert (eqb (fst c) (fst c) = true) as -> by now apply Heq.
  apply IH. intros i d Hd. pose proof (H (S i) d Hd) as H1. replace (k + 1 + N.of_nat i) with (k + N.of_nat (S i)) by lia. exact H1.
Qed.
Lemma verify_from_sound g : forall cells k, verify_from T eqb BS g cells k = Ok true ->
  forall i c, nth_error cells i = Some c -> unsafe_get BS g (k + N.of_nat i) = Ok (fst c).
Proof using Heq.
  clear - Heq; induction cells as [|c r IH]; intros k H [|i] d Hd; try discriminate; cbn [verify_from] in H;
    destruct (unsafe_get BS g k) as [v| |] eqn:E; try discriminate; cbn [bindR] in H;
    destruct (eqb (fst c) v) eqn:Ev; try discriminate.
  - injection Hd as <-. apply Heq in Ev. subst v. now rewrite N.add_0_r.
  - cbn [nth_error] in Hd. pose proof (IH (k + 1) H i d Hd) as Q. now replace (k + N.of_nat (S i)) with (k + 1 + N.of_nat i) by lia.
Qed.
End Pm.
