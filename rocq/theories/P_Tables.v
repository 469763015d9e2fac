(** Proofs about the table searches. *)
From Verif Require Import Base M_Tables Spec_Tables.
From Coq Require Import Sorted.
Open Scope nat_scope.

Lemma div2_lt n : Nat.div2 (S n) < S n.
Proof. apply Nat.lt_div2; lia. Qed.

Lemma lower_bound_loop_ok {A} (lt : A -> bool) tbl : forall fuel first len,
  len <= fuel -> first + len <= length tbl ->
  exists k, lower_bound_loop fuel lt tbl first len = Ok k /\ first <= k <= first + len.
Proof.
  induction fuel as [|f IH]; intros first len Hf Hl.
  - assert (len = 0) by lia. subst. exists first. cbn. split; [reflexivity|lia].
  - destruct len as [|len']; [exists first; cbn; split; [reflexivity|lia]|].
    pose proof (div2_lt len') as Hd. cbn [lower_bound_loop].
    remember (Nat.div2 (S len')) as half eqn:Eh. clear Eh.
    destruct (nth_error tbl (first + half)) as [e|] eqn:En.
    2:{ apply nth_error_None in En. lia. }
    destruct (lt e).
    + destruct (IH (first + half + 1) (S len' - half - 1)) as [k [Hk Hr]]; [lia|lia|]. exists k. split; [exact Hk|lia].
    + destruct (IH first half) as [k [Hk Hr]]; [lia|lia|]. exists k. split; [exact Hk|lia].
Qed.

Lemma lower_bound_ok {A} (lt : A -> bool) tbl : exists k, lower_bound lt tbl = Ok k /\ k <= length tbl.
Proof.
  unfold lower_bound. destruct (lower_bound_loop_ok lt tbl (length tbl) 0 (length tbl)) as [k [H1 H2]]; try lia.
  exists k. split; [exact H1|lia].
Qed.

(** If the table is partitioned, the loop finds the partition point. *)
Lemma lower_bound_loop_part {A} (lt : A -> bool) tbl p :
  (forall i e, nth_error tbl i = Some e -> lt e = (i <? p)) ->
  forall fuel first len k, lower_bound_loop fuel lt tbl first len = Ok k -> first <= p <= first + len -> k = p.
Proof.
  intros Hp. induction fuel as [|f IH]; intros first len k Hk Hr.
  - destruct len; cbn in Hk; [|discriminate]. inversion Hk; subst. lia.
  - destruct len as [|len']; [cbn in Hk; inversion Hk; subst; lia|].
    pose proof (div2_lt len') as Hd. cbn [lower_bound_loop] in Hk.
    remember (Nat.div2 (S len')) as half eqn:Eh. clear Eh.
    destruct (nth_error tbl (first + half)) as [e|] eqn:En; [|discriminate].
    rewrite (Hp _ _ En) in Hk. destruct (Nat.ltb_spec (first + half) p) as [Hlt|Hge].
    + apply IH in Hk; [exact Hk|lia].
    + apply IH in Hk; [exact Hk|lia].
Qed.

Lemma lower_bound_part {A} (lt : A -> bool) tbl p :
  p <= length tbl -> (forall i e, nth_error tbl i = Some e -> lt e = (i <? p)) -> lower_bound lt tbl = Ok p.
Proof.
  intros Hl Hp. destruct (lower_bound_ok lt tbl) as [k [Hk _]]. rewrite Hk. f_equal.
  apply (lower_bound_loop_part lt tbl p Hp _ _ _ _ Hk). lia.
Qed.

Lemma partition_point {A} (key : A -> N) tbl cp : strictly_sorted key tbl ->
  exists p, p <= length tbl /\ (forall i e, nth_error tbl i = Some e -> (key e <? cp)%N = (i <? p)).
Proof.
  induction 1 as [|x l Hs IH Hx].
  - exists 0. split; [cbn; lia|]. intros i e He. destruct i; discriminate.
  - destruct IH as [p [Hp H]].
    destruct (N.ltb_spec (key x) cp) as [Hlt|Hge].
    + exists (S p). split; [cbn; lia|]. intros [|i] e He.
      * cbn in He. inversion He; subst. apply N.ltb_lt in Hlt. rewrite Hlt. reflexivity.
      * cbn in He. rewrite (H _ _ He). reflexivity.
    + exists 0. split; [lia|]. intros [|i] e He.
      * cbn in He. inversion He; subst. apply N.ltb_ge in Hge. rewrite Hge. reflexivity.
      * cbn in He. rewrite Forall_forall in Hx. specialize (Hx e (nth_error_In _ _ He)).
        change (S i <? 0) with false. apply N.ltb_ge. lia.
Qed.

Lemma sorted_key_inj {A} (key : A -> N) tbl : strictly_sorted key tbl ->
  forall x y, In x tbl -> In y tbl -> key x = key y -> x = y.
Proof.
  induction 1 as [|x l Hs IH Hx]; intros a b Ha Hb Hk; [destruct Ha|].
  rewrite Forall_forall in Hx.
  destruct Ha as [<-|Ha], Hb as [<-|Hb]; auto.
  - specialize (Hx _ Hb). lia.
  - specialize (Hx _ Ha). lia.
Qed.

Lemma find_entry_sound {A} (key : A -> N) tbl cp e : find_entry key tbl cp = Some e -> In e tbl /\ key e = cp.
Proof.
  unfold find_entry. destruct (lower_bound _ tbl) as [k| |]; try discriminate.
  destruct (nth_error tbl k) as [e'|] eqn:En; [|discriminate].
  destruct (N.eqb_spec (key e') cp); [|discriminate]. intros H; inversion H; subst.
  split; [eapply nth_error_In; eauto|reflexivity].
Qed.

Lemma find_entry_complete {A} (key : A -> N) tbl e : strictly_sorted key tbl -> In e tbl ->
  find_entry key tbl (key e) = Some e.
Proof.
  intros Hs Hin. unfold find_entry. destruct (partition_point key tbl (key e) Hs) as [p [Hp H]].
  rewrite (lower_bound_part _ tbl p Hp H).
  destruct (In_nth_error _ _ Hin) as [i Hi]. pose proof (H _ _ Hi) as Hip.
  rewrite N.ltb_irrefl in Hip. symmetry in Hip. apply Nat.ltb_ge in Hip.
  destruct (nth_error tbl p) as [e'|] eqn:En.
  2:{ apply nth_error_None in En. assert (i < length tbl) by (apply nth_error_Some; congruence). lia. }
  pose proof (H _ _ En) as He. rewrite (proj2 (Nat.ltb_ge p p)) in He by lia. apply N.ltb_ge in He.
  assert (e' = e) as ->.
  { destruct (Nat.eq_dec i p) as [->|Hne]; [congruence|].
    assert (p < i) as Hlt by lia. exfalso. revert Hlt En Hi He. clear - Hs. revert p i.
    induction Hs as [|x l Hs IH Hx]; intros p i Hlt En Hi He; [destruct p; discriminate|].
    destruct i as [|i]; [lia|]. destruct p as [|p].
    - cbn in En, Hi. inversion En; subst. rewrite Forall_forall in Hx. specialize (Hx _ (nth_error_In _ _ Hi)). lia.
    - cbn in En, Hi. eapply (IH p i); eauto. lia. }
  rewrite N.eqb_refl. reflexivity.
Qed.

Lemma find_entry_exact {A} (key : A -> N) tbl cp e : strictly_sorted key tbl ->
  find_entry key tbl cp = Some e <-> In e tbl /\ key e = cp.
Proof.
  intros Hs. split; [apply find_entry_sound|]. intros [Hin <-]. apply find_entry_complete; assumption.
Qed.

Lemma find_entry_none {A} (key : A -> N) tbl cp : strictly_sorted key tbl ->
  find_entry key tbl cp = None <-> forall e, In e tbl -> key e <> cp.
Proof.
  intros Hs. split.
  - intros H e Hin <-. rewrite (find_entry_complete key tbl e Hs Hin) in H. discriminate.
  - intros H. destruct (find_entry key tbl cp) as [e|] eqn:E; [|reflexivity].
    apply find_entry_sound in E. destruct E as [Hi Hk]. exfalso. exact (H e Hi Hk).
Qed.

Lemma binary_search_exact tbl cp : strictly_sorted (fun x => x) tbl -> binary_search tbl cp = true <-> In cp tbl.
Proof.
  intros Hs. assert (binary_search tbl cp = true <-> find_entry (fun x => x) tbl cp = Some cp) as Heq.
  { unfold binary_search, find_entry. destruct (partition_point (fun x => x) tbl cp Hs) as [p [Hp H]].
    rewrite (lower_bound_part _ tbl p Hp H).
    destruct (nth_error tbl p) as [e|] eqn:En; [|split; discriminate].
    pose proof (H _ _ En) as He. rewrite (proj2 (Nat.ltb_ge p p)) in He by lia. apply N.ltb_ge in He.
    destruct (N.ltb_spec cp e), (N.eqb_spec e cp); subst; cbn; try lia; split; intros; try discriminate; auto. }
  rewrite Heq, (find_entry_exact (fun x => x) tbl cp cp Hs). tauto.
Qed.

(** ** The composition pair search *)
Lemma comp_loop_ok tbl x y : forall fuel it en, it <= en <= length tbl -> en - it < fuel ->
  exists c, comp_loop fuel tbl x y it en = Ok c /\ (c = 0%N \/ In (x, y, c) tbl).
Proof.
  induction fuel as [|f IH]; intros it en Hr Hf; [lia|]. cbn [comp_loop].
  destruct (Nat.eqb_spec it en); [exists 0%N; auto|].
  assert (Hm : it + (en - it) / 2 < en) by (pose proof (Nat.div_lt (en - it) 2); lia).
  remember (it + (en - it) / 2) as mid eqn:Em. assert (it <= mid) by lia. clear Em.
  destruct (nth_error tbl mid) as [[[a b] c]|] eqn:En; [|apply nth_error_None in En; lia].
  destruct ((a <? x) || (a =? x) && (b <? y))%N eqn:E1; [apply IH; lia|].
  destruct ((x <? a) || (a =? x) && (y <? b))%N eqn:E2; [apply IH; lia|].
  exists c. split; [reflexivity|]. right.
  assert (a = x /\ b = y) as [-> ->] by lia. apply (nth_error_In _ _ En).
Qed.

Lemma sorted_nth_lt {A} (R : A -> A -> Prop) tbl : StronglySorted R tbl ->
  forall i j a b, i < j -> nth_error tbl i = Some a -> nth_error tbl j = Some b -> R a b.
Proof.
  induction 1 as [|z l Hs IH Hz]; intros i j a b Hij Ha Hb; [destruct i; discriminate|].
  destruct j as [|j]; [lia|]. destruct i as [|i]; cbn in Ha, Hb.
  - inversion Ha; subst. rewrite Forall_forall in Hz. apply Hz. apply (nth_error_In _ _ Hb).
  - apply (IH i j); auto; lia.
Qed.

Lemma comp_loop_find tbl x y c k : StronglySorted pair_lt tbl -> nth_error tbl k = Some (x, y, c) ->
  forall fuel it en, it <= k < en -> en <= length tbl -> en - it < fuel -> comp_loop fuel tbl x y it en = Ok c.
Proof.
  intros Hs Hk. induction fuel as [|f IH]; intros it en Hr Hl Hf; [lia|]. cbn [comp_loop].
  destruct (Nat.eqb_spec it en); [lia|].
  assert (Hm : it + (en - it) / 2 < en) by (pose proof (Nat.div_lt (en - it) 2); lia).
  remember (it + (en - it) / 2) as mid eqn:Em. assert (it <= mid) by lia. clear Em.
  destruct (nth_error tbl mid) as [[[a b] c']|] eqn:En; [|apply nth_error_None in En; lia].
  destruct ((a <? x) || (a =? x) && (b <? y))%N eqn:E1.
  { apply IH; try lia. split; [|lia].
    destruct (Nat.le_gt_cases (mid + 1) k) as [?|Hc]; [assumption|exfalso].
    destruct (Nat.eq_dec k mid) as [->|]; [rewrite Hk in En; inversion En; subst; lia|].
    pose proof (sorted_nth_lt _ _ Hs k mid _ _ ltac:(lia) Hk En) as Hlt. cbn in Hlt. lia. }
  destruct ((x <? a) || (a =? x) && (y <? b))%N eqn:E2.
  { apply IH; try lia. split; [lia|].
    destruct (Nat.lt_ge_cases k mid) as [?|Hc]; [assumption|exfalso].
    destruct (Nat.eq_dec k mid) as [->|]; [rewrite Hk in En; inversion En; subst; lia|].
    pose proof (sorted_nth_lt _ _ Hs mid k _ _ ltac:(lia) En Hk) as Hlt. cbn in Hlt. lia. }
  assert (a = x /\ b = y) as [-> ->] by lia.
  destruct (Nat.lt_trichotomy k mid) as [Hlt|[->|Hlt]].
  - pose proof (sorted_nth_lt _ _ Hs k mid _ _ Hlt Hk En) as H'. cbn in H'. lia.
  - rewrite Hk in En. inversion En; reflexivity.
  - pose proof (sorted_nth_lt _ _ Hs mid k _ _ Hlt En Hk) as H'. cbn in H'. lia.
Qed.

Lemma comp_search_sound tbl x y c : comp_search tbl x y = c -> c = 0%N \/ In (x, y, c) tbl.
Proof.
  unfold comp_search. intros H.
  destruct (comp_loop_ok tbl x y (S (length tbl)) 0 (length tbl)) as [c' [E Hc]]; try lia.
  rewrite E in H. subst. exact Hc.
Qed.
Lemma comp_search_complete tbl x y c : StronglySorted pair_lt tbl -> In (x, y, c) tbl -> comp_search tbl x y = c.
Proof.
  intros Hs Hin. destruct (In_nth_error _ _ Hin) as [k Hk]. unfold comp_search.
  rewrite (comp_loop_find tbl x y c k Hs Hk); [reflexivity| | |]; try lia.
  split; [lia|]. apply nth_error_Some. congruence.
Qed.

(** ** Intervals *)
Lemma nth_some {A} (l : list A) i : i < length l -> exists e, nth_error l i = Some e.
Proof. intros H. destruct (nth_error l i) eqn:E; [eauto|]. apply nth_error_None in E. lia. Qed.

(** every interval containing [cp] has index in [a..b] *)
Lemma at_index_eq {A} (l : list A) i : at_index l i = nth_error l (N.to_nat i).
Proof.
  unfold at_index. destruct (N.ltb_spec i (N.of_nat (length l))); [reflexivity|].
  symmetry. apply nth_error_None. lia.
Qed.

Lemma contains_loop_ok ranges cp : disjoint_sorted ranges -> (N.of_nat (length ranges) < 2 ^ 63)%N ->
  forall fuel a b, (b < N.of_nat (length ranges))%N -> (a <= b + 1)%N -> N.to_nat (b + 1 - a) < fuel ->
  (forall i e, nth_error ranges i = Some e -> (fst e <= cp <= snd e)%N -> (a <= N.of_nat i <= b)%N) ->
  exists r, contains_loop fuel ranges cp a b = Ok r /\ (r = true <-> exists e, In e ranges /\ (fst e <= cp <= snd e)%N).
Proof.
  intros [Hs Hw] Hbig. rewrite Forall_forall in Hw.
  change (2 ^ 63)%N with 9223372036854775808%N in Hbig.
  induction fuel as [|f IH]; intros a b Hb Hab Hf Hinv; [lia|]. cbn [contains_loop].
  change (2 ^ 64)%N with 18446744073709551616%N.
  destruct (N.ltb_spec a b) as [Hlt|Hge].
  - remember (((b + a) mod 18446744073709551616) / 2)%N as i eqn:Ei.
    assert (Hi : (a <= i < b)%N) by (rewrite N.mod_small in Ei by lia; lia). clear Ei.
    destruct (nth_some ranges (N.to_nat i)) as [[lo hi] En]; [lia|]. rewrite at_index_eq, En.
    destruct (N.ltb_spec hi cp) as [H1|H1].
    { apply IH; try lia. intros j e Hj He. pose proof (Hinv j e Hj He).
      destruct (N.lt_ge_cases i (N.of_nat j)); [lia|exfalso].
      destruct (Nat.eq_dec j (N.to_nat i)) as [->|Hne].
      - rewrite En in Hj. inversion Hj; subst. cbn in He. lia.
      - pose proof (sorted_nth_lt _ _ Hs j (N.to_nat i) _ _ ltac:(lia) Hj En) as Hlt'. cbn in Hlt'.
        pose proof (Hw _ (nth_error_In _ _ En)) as Hw'. cbn in Hw'. lia. }
    destruct (N.ltb_spec cp lo) as [H2|H2].
    { assert (Hj' : forall j e, nth_error ranges j = Some e -> (fst e <= cp <= snd e)%N -> (N.of_nat j < i)%N).
      { intros j e Hj He. destruct (N.lt_ge_cases (N.of_nat j) i); [assumption|exfalso].
        destruct (Nat.eq_dec j (N.to_nat i)) as [->|Hne].
        - rewrite En in Hj. inversion Hj; subst. cbn in He. lia.
        - pose proof (sorted_nth_lt _ _ Hs (N.to_nat i) j _ _ ltac:(lia) En Hj) as Hlt'. cbn in Hlt'.
          pose proof (Hw _ (nth_error_In _ _ En)) as Hw'. cbn in Hw'. lia. }
      destruct (N.eqb_spec i 0) as [->|Hi0].
      - exists false. split; [reflexivity|]. split; [discriminate|]. intros [e [He Hr]]. exfalso.
        destruct (In_nth_error _ _ He) as [j Hj]. specialize (Hj' j e Hj Hr). lia.
      - apply IH; try lia. intros j e Hj He. specialize (Hj' j e Hj He). pose proof (Hinv j e Hj He). lia. }
    exists true. split; [reflexivity|]. split; [|reflexivity]. intros _. exists (lo, hi).
    split; [apply (nth_error_In _ _ En)|cbn; lia].
  - destruct (N.eqb_spec a b) as [->|Hne].
    + destruct (nth_some ranges (N.to_nat b)) as [[lo hi] En]; [lia|]. rewrite at_index_eq, En.
      eexists. split; [reflexivity|]. split.
      * intros H. exists (lo, hi). split; [apply (nth_error_In _ _ En)|cbn; lia].
      * intros [e [He Hr]]. destruct (In_nth_error _ _ He) as [j Hj]. pose proof (Hinv j e Hj Hr).
        assert (j = N.to_nat b) by lia. subst j. rewrite En in Hj. inversion Hj; subst. cbn in Hr. lia.
    + exists false. split; [reflexivity|]. split; [discriminate|]. intros [e [He Hr]].
      destruct (In_nth_error _ _ He) as [j Hj]. pose proof (Hinv j e Hj Hr). lia.
Qed.

Lemma contains_ok ranges cp : ranges <> [] -> disjoint_sorted ranges -> (N.of_nat (length ranges) < 2 ^ 63)%N ->
  exists r, contains ranges cp = Ok r /\ (r = true <-> exists e, In e ranges /\ (fst e <= cp <= snd e)%N).
Proof.
  intros Hne Hd Hb. unfold contains. destruct ranges as [|e0 r0]; [congruence|].
  apply contains_loop_ok; auto; try (cbn; lia).
  intros i e He _. assert (i < length (e0 :: r0)) by (apply nth_error_Some; congruence). cbn in *. lia.
Qed.

Lemma search_loop_ok {T} (ranges : list (N * N * T)) cp : disjoint_sorted (ivls ranges) ->
  forall fuel a b, (b < N.of_nat (length ranges))%N -> (a <= b + 1)%N -> N.to_nat (b + 1 - a) < fuel ->
  (forall i e, nth_error ranges i = Some e -> (fst (fst e) <= cp <= snd (fst e))%N -> (a <= N.of_nat i <= b)%N) ->
  exists r, search_loop fuel ranges cp a b = Ok r /\
    (forall p, r = Some p -> exists lo hi, In (lo, hi, p) ranges /\ (lo <= cp <= hi)%N) /\
    (r = None -> forall lo hi p, In (lo, hi, p) ranges -> ~ (lo <= cp <= hi)%N).
Proof.
  intros [Hs Hw]. rewrite Forall_forall in Hw.
  assert (Hs' : forall i j a b, i < j -> nth_error ranges i = Some a -> nth_error ranges j = Some b ->
    (snd (fst a) < fst (fst b))%N).
  { intros i j x y Hij Hx Hy. apply (sorted_nth_lt _ _ Hs i j (fst x) (fst y) Hij);
      unfold ivls; apply map_nth_error; assumption. }
  assert (Hw' : forall e, In e ranges -> (fst (fst e) <= snd (fst e))%N).
  { intros e He. apply Hw. unfold ivls. apply in_map, He. }
  induction fuel as [|f IH]; intros a b Hb Hab Hf Hinv; [lia|]. cbn [search_loop].
  destruct (N.ltb_spec a b) as [Hlt|Hge].
  - remember (a + (b - a) / 2)%N as i eqn:Ei.
    assert (Hi : (a <= i < b)%N) by lia. clear Ei.
    destruct (nth_some ranges (N.to_nat i)) as [[[lo hi] q] En]; [lia|]. rewrite at_index_eq, En.
    pose proof (Hw' _ (nth_error_In _ _ En)) as Hwi. cbn in Hwi.
    destruct (N.ltb_spec hi cp) as [H1|H1].
    { destruct (N.eqb_spec i b); [lia|].
      apply IH; try lia. intros j e Hj He. pose proof (Hinv j e Hj He).
      destruct (N.lt_ge_cases i (N.of_nat j)); [lia|exfalso].
      destruct (Nat.eq_dec j (N.to_nat i)) as [->|Hne].
      - rewrite En in Hj. inversion Hj; subst. cbn in He. lia.
      - pose proof (Hs' j (N.to_nat i) _ _ ltac:(lia) Hj En) as Hlt'. cbn in Hlt'. lia. }
    destruct (N.ltb_spec cp lo) as [H2|H2].
    { assert (Hj' : forall j e, nth_error ranges j = Some e -> (fst (fst e) <= cp <= snd (fst e))%N -> (N.of_nat j < i)%N).
      { intros j e Hj He. destruct (N.lt_ge_cases (N.of_nat j) i); [assumption|exfalso].
        destruct (Nat.eq_dec j (N.to_nat i)) as [->|Hne].
        - rewrite En in Hj. inversion Hj; subst. cbn in He. lia.
        - pose proof (Hs' (N.to_nat i) j _ _ ltac:(lia) En Hj) as Hlt'. cbn in Hlt'. lia. }
      destruct (N.eqb_spec i 0) as [->|Hi0].
      - exists None. split; [reflexivity|]. split; [discriminate|]. intros _ lo' hi' p He Hr.
        destruct (In_nth_error _ _ He) as [j Hj]. specialize (Hj' j _ Hj Hr). lia.
      - apply IH; try lia. intros j e Hj He. specialize (Hj' j e Hj He). pose proof (Hinv j e Hj He). lia. }
    exists (Some q). split; [reflexivity|]. split; [|discriminate]. intros p Hp. inversion Hp; subst p.
    exists lo, hi. split; [apply (nth_error_In _ _ En)|lia].
  - destruct (N.eqb_spec a b) as [->|Hne].
    + destruct (nth_some ranges (N.to_nat b)) as [[[lo hi] q] En]; [lia|]. rewrite at_index_eq, En.
      eexists. split; [reflexivity|].
      destruct (N.leb_spec lo cp), (N.leb_spec cp hi); cbn [andb].
      * split; [|discriminate]. intros p Hp. inversion Hp; subst p.
        exists lo, hi. split; [apply (nth_error_In _ _ En)|lia].
      * split; [discriminate|]. intros _ lo' hi' p He Hr.
        destruct (In_nth_error _ _ He) as [j Hj]. pose proof (Hinv j _ Hj Hr).
        assert (j = N.to_nat b) by lia. subst j. rewrite En in Hj. inversion Hj; subst. lia.
      * split; [discriminate|]. intros _ lo' hi' p He Hr.
        destruct (In_nth_error _ _ He) as [j Hj]. pose proof (Hinv j _ Hj Hr).
        assert (j = N.to_nat b) by lia. subst j. rewrite En in Hj. inversion Hj; subst. lia.
      * split; [discriminate|]. intros _ lo' hi' p He Hr.
        destruct (In_nth_error _ _ He) as [j Hj]. pose proof (Hinv j _ Hj Hr).
        assert (j = N.to_nat b) by lia. subst j. rewrite En in Hj. inversion Hj; subst. lia.
    + exists None. split; [reflexivity|]. split; [discriminate|]. intros _ lo' hi' p He Hr.
      destruct (In_nth_error _ _ He) as [j Hj]. pose proof (Hinv j _ Hj Hr). lia.
Qed.

Lemma search_ok {T} (ranges : list (N * N * T)) cp : ranges <> [] -> disjoint_sorted (ivls ranges) ->
  exists r, search ranges cp = Ok r /\
    (forall p, r = Some p -> exists lo hi, In (lo, hi, p) ranges /\ (lo <= cp <= hi)%N) /\
    (r = None -> forall lo hi p, In (lo, hi, p) ranges -> ~ (lo <= cp <= hi)%N).
Proof.
  intros Hne Hd. unfold search. destruct ranges as [|e0 r0]; [congruence|].
  apply search_loop_ok; auto; try (cbn; lia).
  intros i e He _. assert (i < length (e0 :: r0)) by (apply nth_error_Some; congruence). cbn in *. lia.
Qed.
