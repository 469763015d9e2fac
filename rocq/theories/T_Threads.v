(** Property theorems C124: several threads use the library at once. *)
From Verif Require Import Base M_AsciiScan M_Convert Spec_Simd M_Simd T_Simd Spec_Threads M_Threads P_Threads.
Open Scope N_scope.

(** C124. Whatever the scheduler does, every call that has returned has returned what it returns in a single-threaded program, in
    the order the thread made its calls. *)
Theorem C124_results : forall m c uchar calls sched s, run (step m c uchar) (start calls) sched s ->
  forall i, exists made, calls i = made ++ todo (threads s i) /\ results (threads s i) = map (alone m c uchar) made.
Proof.
  intros m c u calls sched s R. destruct (C98_detect_sound m) as (v & Hv & _).
  induction R as [|sched i s1 s2 R IH (sh & t & E & ->)]; [intros i; exists []; split; reflexivity|].
  intros j. cbn [threads]. destruct (Nat.eqb_spec j i) as [->|_]; [|apply IH].
  destruct (run_inv m c u v Hv calls sched s1 R) as (_ & L). specialize (L i). specialize (IH i) as (made & E1 & E2).
  unfold thread_step in E. unfold local in L. destruct (todo (threads s1 i)) as [|k rest] eqn:T; [discriminate E|].
  assert (same : forall sh' p, Some (sh', {| todo := k :: rest; at_ := p; results := results (threads s1 i) |}) = Some (sh, t) ->
    exists made, calls i = made ++ todo t /\ results t = map (alone m c u) made).
  { intros sh' p F. injection F as _ <-. exists made. cbn [todo results]. auto. }
  destruct (at_ (threads s1 i)); cbn zeta beta in E; try exact (same _ _ E).
  - destruct (guards (mem s1) (slot_of k)); try discriminate E; exact (same _ _ E).
  - destruct (max_simd_size m); try discriminate E; exact (same _ _ E).
  - injection E as _ <-. exists (made ++ [k]). cbn [todo results]. rewrite <- app_assoc, map_app, E2, L, (body_alone m c u v Hv). auto.
Qed.

(** C124. No two threads are ever about to make conflicting unsynchronised accesses (data race, [intro.races]/21). *)
Theorem C124_no_race : forall m c uchar calls sched s, run (step m c uchar) (start calls) sched s ->
  forall i j, i <> j -> ~ conflict (next_access (threads s i)) (next_access (threads s j)).
Proof.
  intros m c u calls sched s R i j Hij. destruct (C98_detect_sound m) as (v & Hv & _).
  destruct (run_inv m c u v Hv calls sched s R) as (HS & _).
  assert (W : forall a k, next_access (threads s a) = Writes k -> holding k (threads s a)).
  { intros a k. unfold next_access, holding. destruct (todo (threads s a)); [discriminate|]. destruct (at_ (threads s a)); intros F; inversion F; auto. }
  assert (Rd : forall a k, next_access (threads s a) = Reads k -> behind k (threads s a)).
  { intros a k. unfold next_access, behind. destruct (todo (threads s a)); [discriminate|]. destruct (at_ (threads s a)); intros F; inversion F; auto. }
  assert (X : forall a b k, holding k (threads s a) -> behind k (threads s b) -> False).
  { intros a b k Ha Hb. specialize (HS k). unfold slot_ok in HS. destruct (guards (mem s) k).
    - exact (proj1 (proj1 HS a) Ha).
    - destruct HS as (_ & HS & _). exact (HS b Hb).
    - exact (proj1 HS a Ha). }
  destruct (next_access (threads s i)) as [|k|k] eqn:Ei, (next_access (threads s j)) as [|l|l] eqn:Ej; cbn [conflict]; try tauto; intros ->.
  - exact (X _ _ _ (W _ _ Ej) (Rd _ _ Ei)).
  - exact (X _ _ _ (W _ _ Ei) (Rd _ _ Ej)).
  - apply W in Ei, Ej. specialize (HS l). unfold slot_ok in HS. destruct (guards (mem s) l).
    + exact (proj1 (proj1 HS i) Ei).
    + destruct HS as ((o & _ & Hu) & _). apply Hij. rewrite (Hu i Ei), (Hu j Ej). reflexivity.
    + exact (proj1 HS i Ei).
Qed.

(** C124. No deadlock: while any thread still has calls to make, some thread can go on. *)
Theorem C124_no_deadlock : forall m c uchar calls sched s, run (step m c uchar) (start calls) sched s ->
  (exists i, todo (threads s i) <> []) -> exists j s', step m c uchar j s s'.
Proof.
  intros m c u calls sched s R (i & Hi). destruct (C98_detect_sound m) as (v & Hv & _).
  destruct (run_inv m c u v Hv calls sched s R) as (HS & _).
  assert (go : forall a, thread_step m c u (mem s) (threads s a) <> None -> exists j s', step m c u j s s').
  { intros a H. destruct (thread_step m c u (mem s) (threads s a)) as [(sh, t)|] eqn:E; [|contradiction].
    exists a. eexists. exists sh, t. split; [exact E|reflexivity]. }
  destruct (todo (threads s i)) as [|k rest] eqn:T; [contradiction|].
  destruct (thread_step m c u (mem s) (threads s i)) eqn:E; [apply (go i); rewrite E; discriminate|].
  unfold thread_step in E. rewrite T, Hv in E. destruct (at_ (threads s i)) eqn:P; try discriminate E.
  specialize (HS (slot_of k)). unfold slot_ok in HS. destruct (guards (mem s) (slot_of k)); try discriminate E.
  destruct HS as ((o & Ho & _) & _). apply (go o). unfold holding in Ho. unfold thread_step.
  destruct (todo (threads s o)); [contradiction|]. destruct Ho as (_ & Ho). rewrite Hv. destruct (at_ (threads s o)); try contradiction; discriminate.
Qed.

(** C124. No livelock: a thread takes at most eight steps for each call it makes, so every schedule of finitely many threads ends. *)
Definition left_over (t : thread) : nat :=
  8 * length (todo t) - match at_ t with Outside => 0 | AtGuard => 1 | AtProbe => 2 | AtStore _ => 3 | AtPublish => 4
                                    | AtTest512 => 5 | AtTest256 => 6 | AtBody _ => 7 end.
Lemma steps_down m c u sh t sh' t' : thread_step m c u sh t = Some (sh', t') -> (left_over t' < left_over t)%nat.
Proof.
  unfold thread_step, left_over. intros E. destruct (todo t) as [|k rest] eqn:T; [discriminate E|].
  destruct (at_ t); cbn zeta beta in E.
  - injection E as _ <-. cbn [todo at_ length]. lia.
  - destruct (guards sh (slot_of k)); try discriminate E; injection E as _ <-; cbn [todo at_ length]; lia.
  - destruct (max_simd_size m); try discriminate E. injection E as _ <-. cbn [todo at_ length]. lia.
  - injection E as _ <-. cbn [todo at_ length]. lia.
  - injection E as _ <-. cbn [todo at_ length]. lia.
  - injection E as _ <-. cbn [todo at_ length]. destruct (cells sh (slot_of k) =? 512); lia.
  - injection E as _ <-. cbn [todo at_ length]. destruct (cells sh (slot_of k) =? 256); lia.
  - injection E as _ <-. cbn [todo at_ length]. lia.
Qed.
Theorem C124_bounded : forall m c uchar calls sched s, run (step m c uchar) (start calls) sched s ->
  forall i, (count_occ Nat.eq_dec sched i <= 8 * length (calls i))%nat.
Proof.
  intros m c u calls sched s R i.
  assert (H : (count_occ Nat.eq_dec sched i + left_over (threads s i) <= 8 * length (calls i))%nat); [|lia].
  induction R as [|sched j s1 s2 R IH (sh & t & E & ->)]; [cbn; lia|].
  rewrite count_occ_app. cbn [threads count_occ]. destruct (Nat.eq_dec j i) as [->|Hj].
  - rewrite Nat.eqb_refl. apply steps_down in E. lia.
  - destruct (Nat.eqb_spec i j); [congruence|]. lia.
Qed.

(** C124. The processor is probed at most once for each of the three functions, however many threads race for the first call. *)
Theorem C124_probed_once : forall m c uchar calls sched s, run (step m c uchar) (start calls) sched s ->
  forall k, (probes (mem s) k <= 1)%nat.
Proof.
  intros m c u calls sched s R k. destruct (C98_detect_sound m) as (v & Hv & _).
  destruct (run_inv m c u v Hv calls sched s R) as (HS & _). specialize (HS k). unfold slot_ok in HS.
  destruct (guards (mem s) k); [destruct HS as (_ & ->)|destruct HS as (_ & _ & HS)|destruct HS as (_ & _ & ->)]; lia.
Qed.
Print Assumptions C124_results.
Print Assumptions C124_no_race.
Print Assumptions C124_no_deadlock.
Print Assumptions C124_bounded.
Print Assumptions C124_probed_once.

(** A run of two threads racing for their first scan on an AVX2 machine: thread 1 has to wait for thread 0 and both get 3. *)
Definition avx2_machine : machine :=
  {| cpuid := fun leaf _ r => match r with
                              | EAX => 7
                              | EBX => 32
                              | ECX => if leaf =? 1 then 2 ^ 27 + 2 ^ 28 + 2 ^ 19 else 0
                              | EDX => 0
                              end;
     xcr0 := 7 |}.
Definition two (i : nat) : list call := match i with O | 1%nat => [ScanAscii [97; 98; 99; 10] 80] | _ => [] end.
Fixpoint simulate (m : machine) (c : simd_config) (uchar : bool) (sched : list nat) (s : state) : option state :=
  match sched with
  | [] => Some s
  | i :: r => match thread_step m c uchar (mem s) (threads s i) with
              | Some (sh, t) => simulate m c uchar r {| mem := sh; threads := fun j => if Nat.eqb j i then t else threads s j |}
              | None => None
              end
  end.
Lemma simulate_run m c u sched s s' : simulate m c u sched s = Some s' -> exists n, run (step m c u) s n s'.
Proof.
  assert (H : forall sched s0 n s1, run (step m c u) s0 n s1 -> simulate m c u sched s1 = Some s' -> exists n', run (step m c u) s0 n' s').
  { clear. induction sched as [|i r IH]; intros s0 n s1 R E; cbn [simulate] in E; [injection E as <-; eauto|].
    destruct (thread_step m c u (mem s1) (threads s1 i)) as [(sh, t)|] eqn:T; [|discriminate E].
    refine (IH _ _ _ _ E). eapply run_snoc; [exact R|]. exists sh, t. split; [exact T|reflexivity]. }
  apply (H sched s []). constructor.
Qed.
Example C124_waits : (* thread 0 is initialising, thread 1 is at the guard and cannot step *)
  match simulate avx2_machine Intrinsics true [0; 1; 0; 0]%nat (start two) with
  | Some s => thread_step avx2_machine Intrinsics true (mem s) (threads s 1%nat) = None
  | None => False
  end.
Proof. vm_compute. reflexivity. Qed.
Example C124_race_run :
  match simulate avx2_machine Intrinsics true [0; 1; 0; 0; 0; 0; 1; 0; 1; 1; 0; 0; 1]%nat (start two) with
  | Some s => results (threads s 0%nat) = [Scanned (Ok 3%nat)] /\ results (threads s 1%nat) = [Scanned (Ok 3%nat)] /\
              probes (mem s) SimdSizeScan = 1%nat /\ cells (mem s) SimdSizeScan = 256
  | None => False
  end.
Proof. vm_compute. repeat split. Qed.
