(** Invariant of the concurrent dispatch (M_Threads). *)
From Verif Require Import Base M_AsciiScan M_Convert Spec_Simd M_Simd T_Simd Spec_Threads M_Threads.
Open Scope N_scope.

Definition width_for (v : N) : width := if v =? 512 then W512 else if v =? 256 then W256 else W128.

Section Fixed.
Variables (m : machine) (c : simd_config) (uchar : bool) (v : N).
Hypothesis Hv : max_simd_size m = Ok v.

Lemma body_alone k : body m c uchar (width_for v) k = alone m c uchar k.
Proof using Hv.
  destruct k; cbn [body alone];
    unfold convert_utf8_to_utf32_dispatch, convert_utf8_to_utf16_dispatch, scan_for_text_ascii_dispatch; rewrite Hv; cbn [bindR];
    unfold width_for; destruct (v =? 512); try reflexivity; destruct (v =? 256); reflexivity.
Qed.

(** A thread is between taking the guard and releasing it. *)
Definition holding (k : slot) (t : thread) : Prop :=
  match todo t with
  | [] => False
  | x :: _ => slot_of x = k /\ match at_ t with AtProbe | AtStore _ | AtPublish => True | _ => False end
  end.
(** A thread is behind the guard. *)
Definition behind (k : slot) (t : thread) : Prop :=
  match todo t with
  | [] => False
  | x :: _ => slot_of x = k /\ match at_ t with AtTest512 | AtTest256 | AtBody _ => True | _ => False end
  end.
Definition local (sh : shared) (t : thread) : Prop :=
  match todo t with
  | [] => at_ t = Outside
  | x :: _ =>
      match at_ t with
      | AtProbe => probes sh (slot_of x) = O
      | AtStore w => w = v /\ probes sh (slot_of x) = 1%nat
      | AtPublish => cells sh (slot_of x) = v /\ probes sh (slot_of x) = 1%nat
      | AtTest256 => v <> 512
      | AtBody w => w = width_for v
      | _ => True
      end
  end.
Definition slot_ok (s : state) (k : slot) : Prop :=
  match guards (mem s) k with
  | Uninit => (forall i, ~ holding k (threads s i) /\ ~ behind k (threads s i)) /\ probes (mem s) k = O
  | Running => (exists i, holding k (threads s i) /\ forall j, holding k (threads s j) -> j = i) /\
               (forall j, ~ behind k (threads s j)) /\ (probes (mem s) k <= 1)%nat
  | Done => (forall i, ~ holding k (threads s i)) /\ cells (mem s) k = v /\ probes (mem s) k = 1%nat
  end.
Definition inv (s : state) : Prop := (forall k, slot_ok s k) /\ (forall i, local (mem s) (threads s i)).

Lemma slot_eqb_spec a b : reflect (a = b) (slot_eqb a b).
Proof. destruct a, b; cbn; constructor; congruence. Qed.
Lemma upd_same {A} (f : slot -> A) k x : upd f k x k = x.
Proof. unfold upd. destruct (slot_eqb_spec k k); congruence. Qed.
Lemma upd_other {A} (f : slot -> A) k x j : j <> k -> upd f k x j = f j.
Proof. unfold upd. intros H. destruct (slot_eqb_spec j k); congruence. Qed.

Lemma start_inv calls : inv (start calls).
Proof.
  split.
  - intros k. cbn. split; [|reflexivity]. intros i. unfold holding, behind. cbn. destruct (calls i); tauto.
  - intros i. unfold local. cbn. destruct (calls i); [reflexivity|exact I].
Qed.

Definition put (f : nat -> thread) (i : nat) (t : thread) : nat -> thread := fun j => if Nat.eqb j i then t else f j.
Lemma put_same f i t : put f i t i = t.
Proof. unfold put. rewrite Nat.eqb_refl. reflexivity. Qed.
Lemma put_other f i t j : j <> i -> put f i t j = f j.
Proof. unfold put. intros H. destruct (Nat.eqb_spec j i); congruence. Qed.

(** Threads of the other slots do not notice. *)
Lemma elsewhere s i sh t k : slot_ok s k ->
  guards sh k = guards (mem s) k -> cells sh k = cells (mem s) k -> probes sh k = probes (mem s) k ->
  (holding k t <-> holding k (threads s i)) -> (behind k t -> behind k (threads s i) \/ guards sh k = Done) ->
  slot_ok {| mem := sh; threads := put (threads s) i t |} k.
Proof.
  intros H Eg Ec Ep Hh Hb. unfold slot_ok in *. cbn [mem threads]. rewrite Eg, Ec, Ep in *.
  assert (Hj : forall j, holding k (put (threads s) i t j) <-> holding k (threads s j)).
  { intros j. unfold put. destruct (Nat.eqb_spec j i) as [->|]; [exact Hh|tauto]. }
  destruct (guards (mem s) k).
  - destruct H as (H & P). split; [|exact P]. intros j. split; [rewrite Hj; apply H|].
    unfold put. destruct (Nat.eqb_spec j i) as [->|]; [|apply H]. intros B. destruct (Hb B) as [B'|]; [|congruence]. exact (proj2 (H i) B').
  - destruct H as ((o & Ho & Hu) & B & P). split; [exists o; split; [apply Hj, Ho|intros j Hj'; apply Hu, Hj, Hj']|]. split; [|exact P].
    intros j. unfold put. destruct (Nat.eqb_spec j i) as [->|]; [|apply B]. intros B'. destruct (Hb B') as [B''|]; [|congruence]. exact (B i B'').
  - destruct H as (H & P). split; [|exact P]. intros j. rewrite Hj. apply H.
Qed.

Lemma local_holding sh sh' t : local sh t ->
  (forall k, holding k t -> cells sh' k = cells sh k /\ probes sh' k = probes sh k) -> local sh' t.
Proof.
  unfold local, holding. destruct (todo t) as [|x r]; [tauto|]. intros L H. destruct (at_ t); try exact L;
    destruct (H (slot_of x) (conj eq_refl I)) as (E1 & E2); rewrite ?E1, ?E2; exact L.
Qed.

Lemma step_inv s i s' : inv s -> step m c uchar i s s' -> inv s'.
Proof using Hv.
  intros (HS & HL) (sh & t & E & ->). unfold thread_step in E. change (inv {| mem := sh; threads := put (threads s) i t |}).
  pose proof (HL i) as L. unfold local in L.
  remember (threads s i) as ti eqn:Ti. destruct ti as [td p res]. cbn [todo at_ results] in *.
  destruct td as [|x rest]; [discriminate E|]. pose proof (HS (slot_of x)) as HK. unfold slot_ok in HK.
  assert (Hti : forall k, holding k (threads s i) <-> slot_of x = k /\ match p with AtProbe | AtStore _ | AtPublish => True | _ => False end).
  { intros k. rewrite <- Ti. unfold holding. cbn [todo at_]. reflexivity. }
  assert (Bti : forall k, behind k (threads s i) <-> slot_of x = k /\ match p with AtTest512 | AtTest256 | AtBody _ => True | _ => False end).
  { intros k. rewrite <- Ti. unfold behind. cbn [todo at_]. reflexivity. }
  (* a step that leaves the shared memory alone *)
  assert (quiet : forall t', local (mem s) t' -> (forall k, holding k t' <-> holding k (threads s i)) ->
    (forall k, behind k t' -> behind k (threads s i) \/ guards (mem s) k = Done) ->
    inv {| mem := mem s; threads := put (threads s) i t' |}).
  { intros t' Lt Ht Bt. split.
    - intros k. apply elsewhere; auto.
    - intros j. cbn [mem threads]. unfold put. destruct (Nat.eqb j i); [exact Lt|apply HL]. }
  destruct p; cbn zeta beta in E.
  - (* Outside *) injection E as <- <-. apply quiet; [exact I| |]; intros k; [rewrite Hti|]; unfold holding, behind; cbn [todo at_]; tauto.
  - (* AtGuard *) destruct (guards (mem s) (slot_of x)) eqn:G; [|discriminate E|].
    + injection E as <- <-. destruct HK as (HK & HP). split.
      * intros k. destruct (slot_eqb_spec k (slot_of x)) as [->|Hk].
        -- unfold slot_ok. cbn [mem threads guards cells probes]. rewrite upd_same. split; [|split].
           ++ exists i. split; [rewrite put_same; unfold holding; cbn [todo at_]; tauto|].
              intros j Hj. destruct (Nat.eq_dec j i) as [|Hji]; [assumption|]. rewrite put_other in Hj by exact Hji. destruct (proj1 (HK j) Hj).
           ++ intros j Hj. destruct (Nat.eq_dec j i) as [->|Hji]; [rewrite put_same in Hj; unfold behind in Hj; cbn [todo at_] in Hj; tauto|].
              rewrite put_other in Hj by exact Hji. exact (proj2 (HK j) Hj).
           ++ lia.
        -- apply elsewhere; [apply HS|cbn [guards]; apply upd_other; exact Hk|reflexivity|reflexivity| |].
           ++ rewrite Hti. unfold holding. cbn [todo at_]. split; [intros (A & _); congruence|tauto].
           ++ unfold behind. cbn [todo at_]. tauto.
      * intros j. cbn [mem threads]. unfold put. destruct (Nat.eqb j i); [exact HP|].
        apply (local_holding (mem s)); [apply HL|auto].
    + injection E as <- <-. apply quiet; [exact I| |]; intros k; [rewrite Hti|]; unfold holding, behind; cbn [todo at_]; [tauto|].
      intros (<- & _). auto.
  - (* AtProbe *) rewrite Hv in E. injection E as <- <-. split.
    + intros k. destruct (slot_eqb_spec k (slot_of x)) as [->|Hk].
      * destruct (guards (mem s) (slot_of x)) eqn:G.
        -- destruct HK as (HK & _). destruct (proj1 (HK i)). apply Hti. tauto.
        -- unfold slot_ok. cbn [mem threads guards cells probes]. rewrite G, upd_same, L. destruct HK as ((o & Ho & Hu) & HB & HP).
           assert (i = o) by (apply Hu, Hti; tauto). subst o. split; [|split; [|lia]].
           ++ exists i. split; [rewrite put_same; unfold holding; cbn [todo at_]; tauto|].
              intros j Hj. destruct (Nat.eq_dec j i) as [|Hji]; [assumption|]. rewrite put_other in Hj by exact Hji. exact (Hu j Hj).
           ++ intros j Hj. destruct (Nat.eq_dec j i) as [->|Hji]; [rewrite put_same in Hj; unfold behind in Hj; cbn [todo at_] in Hj; tauto|].
              rewrite put_other in Hj by exact Hji. exact (HB j Hj).
        -- destruct HK as (HK & _). destruct (HK i). apply Hti. tauto.
      * apply elsewhere; [apply HS|reflexivity|reflexivity|cbn [probes]; apply upd_other; exact Hk| |].
        -- rewrite Hti. unfold holding. cbn [todo at_]. tauto.
        -- unfold behind. cbn [todo at_]. tauto.
    + intros j. cbn [mem threads]. unfold put. destruct (Nat.eqb_spec j i) as [->|Hji].
      * unfold local. cbn [todo at_ probes]. rewrite upd_same, L. auto.
      * apply (local_holding (mem s)); [apply HL|]. intros k Hk. split; [reflexivity|]. cbn [probes]. apply upd_other. intros ->.
        destruct (guards (mem s) (slot_of x)); destruct HK as (HK & _).
        -- destruct (proj1 (HK j) Hk).
        -- destruct HK as (o & Ho & Hu). apply Hji. rewrite (Hu j Hk). symmetry. apply Hu, Hti. tauto.
        -- destruct (HK j Hk).
  - (* AtStore *) injection E as <- <-. destruct L as (-> & LP). split.
    + intros k. destruct (slot_eqb_spec k (slot_of x)) as [->|Hk].
      * destruct (guards (mem s) (slot_of x)) eqn:G.
        -- destruct HK as (HK & _). destruct (proj1 (HK i)). apply Hti. tauto.
        -- unfold slot_ok. cbn [mem threads guards cells probes]. rewrite G, LP. destruct HK as ((o & Ho & Hu) & HB & HP).
           assert (i = o) by (apply Hu, Hti; tauto). subst o. split; [|split; [|lia]].
           ++ exists i. split; [rewrite put_same; unfold holding; cbn [todo at_]; tauto|].
              intros j Hj. destruct (Nat.eq_dec j i) as [|Hji]; [assumption|]. rewrite put_other in Hj by exact Hji. exact (Hu j Hj).
           ++ intros j Hj. destruct (Nat.eq_dec j i) as [->|Hji]; [rewrite put_same in Hj; unfold behind in Hj; cbn [todo at_] in Hj; tauto|].
              rewrite put_other in Hj by exact Hji. exact (HB j Hj).
        -- destruct HK as (HK & _). destruct (HK i). apply Hti. tauto.
      * apply elsewhere; [apply HS|reflexivity|cbn [cells]; apply upd_other; exact Hk|reflexivity| |].
        -- rewrite Hti. unfold holding. cbn [todo at_]. tauto.
        -- unfold behind. cbn [todo at_]. tauto.
    + intros j. cbn [mem threads]. unfold put. destruct (Nat.eqb_spec j i) as [->|Hji].
      * unfold local. cbn [todo at_ probes cells]. rewrite upd_same. auto.
      * apply (local_holding (mem s)); [apply HL|]. intros k Hk. split; [|reflexivity]. cbn [cells]. apply upd_other. intros ->.
        destruct (guards (mem s) (slot_of x)); destruct HK as (HK & _).
        -- destruct (proj1 (HK j) Hk).
        -- destruct HK as (o & Ho & Hu). apply Hji. rewrite (Hu j Hk). symmetry. apply Hu, Hti. tauto.
        -- destruct (HK j Hk).
  - (* AtPublish *) injection E as <- <-. destruct L as (LC & LP). split.
    + intros k. destruct (slot_eqb_spec k (slot_of x)) as [->|Hk].
      * destruct (guards (mem s) (slot_of x)) eqn:G.
        -- destruct HK as (HK & _). destruct (proj1 (HK i)). apply Hti. tauto.
        -- unfold slot_ok. cbn [mem threads guards cells probes]. rewrite upd_same. destruct HK as ((o & Ho & Hu) & HB & HP).
           assert (i = o) by (apply Hu, Hti; tauto). subst o. split; [|split; [exact LC|exact LP]].
           intros j Hj. destruct (Nat.eq_dec j i) as [->|Hji]; [rewrite put_same in Hj; unfold holding in Hj; cbn [todo at_] in Hj; tauto|].
           rewrite put_other in Hj by exact Hji. exact (Hji (Hu j Hj)).
        -- destruct HK as (HK & _). destruct (HK i). apply Hti. tauto.
      * apply elsewhere; [apply HS|cbn [guards]; apply upd_other; exact Hk|reflexivity|reflexivity| |].
        -- rewrite Hti. unfold holding. cbn [todo at_]. split; [tauto|intros (A & _); congruence].
        -- unfold behind. cbn [todo at_]. intros (A & _). congruence.
    + intros j. cbn [mem threads]. unfold put. destruct (Nat.eqb_spec j i) as [->|Hji]; [exact I|].
      apply (local_holding (mem s)); [apply HL|]. auto.
  - (* AtTest512 *) assert (G : guards (mem s) (slot_of x) = Done).
    { destruct (guards (mem s) (slot_of x)); [destruct HK as (HK & _); destruct (proj2 (HK i)); apply Bti; tauto| |reflexivity].
      destruct HK as (_ & HB & _). destruct (HB i). apply Bti. tauto. }
    rewrite G in HK. destruct HK as (_ & HC & _). rewrite HC in E. injection E as <- <-. apply quiet.
    + unfold local. cbn [todo at_]. destruct (N.eqb_spec v 512) as [V|V]; [|exact V]. rewrite V. reflexivity.
    + intros k. rewrite Hti. unfold holding. cbn [todo at_]. destruct (v =? 512); tauto.
    + intros k. rewrite Bti. unfold behind. cbn [todo at_]. tauto.
  - (* AtTest256 *) assert (G : guards (mem s) (slot_of x) = Done).
    { destruct (guards (mem s) (slot_of x)); [destruct HK as (HK & _); destruct (proj2 (HK i)); apply Bti; tauto| |reflexivity].
      destruct HK as (_ & HB & _). destruct (HB i). apply Bti. tauto. }
    rewrite G in HK. destruct HK as (_ & HC & _). rewrite HC in E. injection E as <- <-. apply quiet.
    + unfold local. cbn [todo at_]. unfold width_for. destruct (N.eqb_spec v 512) as [V|V]; [contradiction|]. destruct (v =? 256); reflexivity.
    + intros k. rewrite Hti. unfold holding. cbn [todo at_]. destruct (v =? 256); tauto.
    + intros k. rewrite Bti. unfold behind. cbn [todo at_]. tauto.
  - (* AtBody *) injection E as <- <-. apply quiet.
    + unfold local. cbn [todo at_]. destruct rest; [reflexivity|exact I].
    + intros k. rewrite Hti. unfold holding. cbn [todo at_]. destruct rest; tauto.
    + intros k. unfold behind. cbn [todo at_]. destruct rest; tauto.
Qed.

Lemma run_inv calls sched s : run (step m c uchar) (start calls) sched s -> inv s.
Proof using Hv. induction 1; [apply start_inv|eapply step_inv; eassumption]. Qed.
End Fixed.
