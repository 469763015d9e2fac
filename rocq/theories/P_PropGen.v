(** Proofs about the property table generator, part 1: string maps, numbering, enumerations. *)
From Coq Require Import Ascii String Permutation Sorted.
From Verif Require Import Base M_TableGen M_PropGen Spec_TableGen Spec_PropGen P_TableGen.
Open Scope N_scope.

Lemma str_eqb_spec a b : reflect (a = b) (str_eqb a b).
Proof. destruct (str_eqb a b) eqn:E; constructor; [now apply str_eqb_eq|]. intros ->. rewrite str_eqb_refl in E. discriminate. Qed.
Definition slt (a b : str) : Prop := str_ltb a b = true.
Lemma slt_irrefl a : ~ slt a a.
Proof. unfold slt. induction a as [|x a IH]; cbn; [discriminate|]. rewrite N.ltb_irrefl, N.eqb_refl. exact IH. Qed.
Lemma slt_cons x a y b : slt (x :: a) (y :: b) <-> x < y \/ (x = y /\ slt a b).
Proof.
  unfold slt. cbn. rewrite orb_true_iff, andb_true_iff. destruct (N.ltb_spec x y); destruct (N.eqb_spec x y); intuition (lia || discriminate || auto).
Qed.
Lemma slt_trans a : forall b c, slt a b -> slt b c -> slt a c.
Proof.
  induction a as [|x a IH]; intros [|y b] [|z c] H1 H2; try discriminate; [reflexivity|].
  apply slt_cons in H1, H2. apply slt_cons. destruct H1 as [H1|[-> H1]], H2 as [H2|[-> H2]].
  - left; lia. - left; lia. - left; lia. - right. split; [reflexivity|]. exact (IH _ _ H1 H2).
Qed.
Lemma slt_total a : forall b, slt a b \/ a = b \/ slt b a.
Proof.
  induction a as [|x a IH]; intros [|y b]; [auto|left; reflexivity|right; right; reflexivity|].
  destruct (N.lt_trichotomy x y) as [H|[->|H]].
  - left. apply slt_cons. auto.
  - destruct (IH b) as [H|[->|H]]; [left|auto|right; right]; apply slt_cons; auto.
  - right. right. apply slt_cons. auto.
Qed.
Lemma slt_not a b : str_ltb a b = false -> a <> b -> slt b a.
Proof. intros H N. destruct (slt_total a b) as [G|[G|G]]; [unfold slt in G; congruence|contradiction|exact G]. Qed.

Section Maps.
Context {V : Type}.
Lemma smap_get_set (k k' : str) (v : V) m : smap_get k (smap_set k' v m) = if str_eqb k k' then Some v else smap_get k m.
Proof.
  induction m as [|[x u] m IH]; cbn [smap_set smap_get]; [destruct (str_eqb_spec k k'); reflexivity|].
  destruct (str_eqb_spec k' x) as [->|N]; cbn [smap_get].
  - destruct (str_eqb_spec k x); reflexivity.
  - destruct (str_ltb k' x); cbn [smap_get].
    + destruct (str_eqb_spec k k'); reflexivity.
    + rewrite IH. destruct (str_eqb_spec k x) as [->|]; [|reflexivity]. destruct (str_eqb_spec x k') as [->|]; [contradiction|reflexivity].
Qed.
Definition ssorted (m : list (str * V)) : Prop := StronglySorted (fun a b => slt (fst a) (fst b)) m.
Lemma smap_set_in (k : str) (v : V) m (x : str) (u : V) : In (x, u) (smap_set k v m) -> (x = k /\ u = v) \/ In (x, u) m.
Proof.
  induction m as [|[k' v'] m IH]; cbn [smap_set]; [intros [E|[]]; injection E as <- <-; auto|].
  destruct (str_eqb k k'); [intros [E|H]; [injection E as <- <-; auto|right; right; exact H]|].
  destruct (str_ltb k k'); [intros [E|H]; [injection E as <- <-; auto|right; exact H]|].
  intros [E|H]; [right; left; exact E|]. destruct (IH H) as [G|G]; [auto|right; right; exact G].
Qed.
Lemma smap_set_sorted (k : str) (v : V) m : ssorted m -> ssorted (smap_set k v m).
Proof.
  induction m as [|[k' v'] m IH]; intros Hs; cbn [smap_set]; [repeat constructor|].
  inversion_clear Hs as [|? ? Hm Hf]. rewrite Forall_forall in Hf.
  destruct (str_eqb_spec k k') as [->|N]; [constructor; [exact Hm|]; now apply Forall_forall|].
  destruct (str_ltb k k') eqn:L.
  - constructor; [constructor; [exact Hm|now apply Forall_forall]|]. constructor; [exact L|]. apply Forall_forall. intros y Hy.
    apply (slt_trans _ k'); [exact L|]. exact (Hf y Hy).
  - constructor; [exact (IH Hm)|]. apply Forall_forall. intros [x u] Hx. apply smap_set_in in Hx as [[-> ->]|Hx]; [|exact (Hf _ Hx)].
    cbn [fst]. apply slt_not; auto.
Qed.
Lemma smap_in (m : list (str * V)) k v : ssorted m -> (In (k, v) m <-> smap_get k m = Some v).
Proof.
  induction m as [|[k' v'] m IH]; intros Hs; cbn [smap_get]; [split; [intros []|discriminate]|].
  inversion_clear Hs as [|? ? Hm Hf]. rewrite Forall_forall in Hf. destruct (str_eqb_spec k k') as [->|N].
  - split; [|intros E; injection E as ->; left; reflexivity]. intros [E|H]; [injection E as ->; reflexivity|].
    exfalso. apply (slt_irrefl k'). exact (Hf _ H).
  - rewrite <- (IH Hm). split; [intros [E|H]; [injection E as -> ->; contradiction|exact H]|right; assumption].
Qed.
Lemma smap_in_get (m : list (str * V)) k v : In (k, v) m -> exists u, smap_get k m = Some u.
Proof. induction m as [|[k' v'] m IH]; [intros []|]. cbn [smap_get]. destruct (str_eqb_spec k k'); [eauto|]. intros [E|H]; [congruence|auto]. Qed.
Lemma smap_get_in (m : list (str * V)) k v : smap_get k m = Some v -> In (k, v) m.
Proof.
  induction m as [|[k' v'] m IH]; [discriminate|]. cbn [smap_get]. destruct (str_eqb_spec k k') as [->|]; [|right; auto].
  intros E; injection E as ->. left. reflexivity.
Qed.
End Maps.

(** ** Sets *)
Lemma sset_insert_in k m x : In x (sset_insert k m) <-> x = k \/ In x m.
Proof.
  induction m as [|y m IH]; cbn [sset_insert]; [cbn; intuition|].
  destruct (str_eqb_spec k y) as [->|N]; [cbn; intuition|]. destruct (str_ltb k y); [cbn; intuition|]. cbn [In]. rewrite IH. intuition.
Qed.
Lemma sset_insert_sorted k m : StronglySorted slt m -> StronglySorted slt (sset_insert k m).
Proof.
  induction m as [|y m IH]; intros Hs; cbn [sset_insert]; [repeat constructor|]. inversion_clear Hs as [|? ? Hm Hf]. rewrite Forall_forall in Hf.
  destruct (str_eqb_spec k y) as [->|N]; [constructor; [exact Hm|now apply Forall_forall]|]. destruct (str_ltb k y) eqn:L.
  - constructor; [constructor; [exact Hm|now apply Forall_forall]|]. constructor; [exact L|]. apply Forall_forall. intros z Hz. exact (slt_trans _ _ _ L (Hf z Hz)).
  - constructor; [exact (IH Hm)|]. apply Forall_forall. intros z Hz. apply sset_insert_in in Hz as [->|Hz]; [now apply slt_not|exact (Hf z Hz)].
Qed.
Lemma sset_of_spec l : StronglySorted slt (sset_of l) /\ forall x, In x (sset_of l) <-> In x l.
Proof.
  unfold sset_of. assert (G : forall acc, StronglySorted slt acc -> StronglySorted slt (fold_left (fun m s => sset_insert s m) l acc) /\
    forall x, In x (fold_left (fun m s => sset_insert s m) l acc) <-> In x acc \/ In x l).
  { induction l as [|y l IH]; intros acc Ha; cbn [fold_left]; [split; [exact Ha|cbn; intuition]|].
    destruct (IH _ (sset_insert_sorted y acc Ha)) as [S1 S2]. split; [exact S1|]. intros x. rewrite S2, sset_insert_in. cbn [In]. intuition. }
  destruct (G [] (SSorted_nil _)) as [A B]. split; [exact A|]. intros x. rewrite B. cbn. intuition.
Qed.
Lemma sorted_nodup l : StronglySorted slt l -> NoDup l.
Proof.
  induction 1 as [|x l Hs IH Hf]; constructor; [|exact IH]. intros Hin. rewrite Forall_forall in Hf. exact (slt_irrefl x (Hf x Hin)).
Qed.
Lemma ssort_in l x : In x (ssort l) <-> In x l.
Proof.
  induction l as [|y l IH]; [reflexivity|]. cbn [ssort fold_right]. fold (ssort l).
  assert (G : forall k m z, In z (sinsert k m) <-> z = k \/ In z m).
  { intros k m z. induction m as [|w m IHm]; cbn [sinsert]; [cbn; intuition|]. destruct (str_ltb w k); [cbn [In]; rewrite IHm; intuition|cbn; intuition]. }
  rewrite G, IH. cbn. intuition.
Qed.

(** ** Numbering *)
Lemma number_all_spec : forall l i m, NoDup l -> i + N.of_nat (length l) <= 256 ->
  (forall k s, nth_error l k = Some s -> smap_get s (snd (number_all l (i, m))) = Some (i + N.of_nat k)) /\
  (forall s, ~ In s l -> smap_get s (snd (number_all l (i, m))) = smap_get s m).
Proof.
  unfold number_all. induction l as [|x l IH]; intros i m Hn Hl; [split; [intros [|k]; discriminate|reflexivity]|].
  cbn [fold_left]. inversion_clear Hn as [|? ? Hx Hn']. cbn [length] in Hl.
  destruct l as [|y l].
  { cbn [fold_left snd]. split.
    - intros [|k] s E; [|destruct k; discriminate]. injection E as <-. rewrite smap_get_set, str_eqb_refl. f_equal. cbn. lia.
    - intros s Hs. rewrite smap_get_set. destruct (str_eqb_spec s x) as [->|]; [destruct Hs; left; reflexivity|reflexivity]. }
  assert (Ei : next8 i = i + 1). { unfold next8. apply N.mod_small. cbn [length] in Hl. lia. }
  rewrite Ei. destruct (IH (i + 1) (smap_set x i m) Hn' ltac:(cbn [length] in *; lia)) as [A B]. split.
  - intros [|k] s E.
    + injection E as <-. rewrite (B x Hx), smap_get_set, str_eqb_refl. f_equal. lia.
    + cbn [nth_error] in E. rewrite (A k s E). f_equal. lia.
  - intros s Hs. rewrite B by (intros H; apply Hs; right; exact H). rewrite smap_get_set.
    destruct (str_eqb_spec s x) as [->|]; [destruct Hs; left; reflexivity|reflexivity].
Qed.

Lemma few_length (l m : list str) : NoDup l -> (forall x, In x l -> In x m) -> (length l <= length m)%nat.
Proof. intros Hn Hi. apply NoDup_incl_length; [exact Hn|exact Hi]. Qed.

(** scripts *)
Definition few_props (n : nat) (rs : list prange) : Prop := exists l, (length l <= n)%nat /\ forall r, In r rs -> In (r_prop r) l.
Lemma script_index_names rs : few_props 253 rs ->
  (forall s : str, s = lit "Unknown" \/ In s (map r_prop rs) -> exists i, smap_get s (script_index rs) = Some i) /\
  (forall s i d, smap_get s (script_index rs) = Some i -> name_at (script_names rs) i d = s).
Proof.
  intros [w [Hw Hin]]. destruct (sset_of_spec (map r_prop rs)) as [Hs Hm]. unfold script_index, script_names, name_at.
  set (L := sset_of (map r_prop rs)) in *. set (L' := filter (fun s => negb (str_eqb s (lit "Common"))) L).
  assert (HL : NoDup L). { apply sorted_nodup. exact Hs. }
  assert (HL' : NoDup L'). { apply NoDup_filter. exact HL. }
  assert (Hlen : (length L' <= 253)%nat).
  { assert (length L' <= length w)%nat; [|lia]. apply few_length; [exact HL'|]. intros x Hx. apply filter_In in Hx as [Hx _]. apply Hm in Hx.
    apply in_map_iff in Hx as [r [<- Hr]]. exact (Hin r Hr). }
  set (m0 := smap_set (lit "Common") 2 (smap_set (lit "Unknown") 1 (smap_set (lit "Invalid") 0 []))).
  destruct (number_all_spec L' 3 m0 HL' ltac:(lia)) as [A B].
  assert (Hm0 : forall (s : str) i, smap_get s m0 = Some i -> (s = lit "Common" /\ i = 2) \/ (s = lit "Unknown" /\ i = 1) \/ (s = lit "Invalid" /\ i = 0)).
  { intros s i. unfold m0. rewrite !smap_get_set. destruct (str_eqb_spec s (lit "Common")); [intros E; injection E as <-; auto|].
    destruct (str_eqb_spec s (lit "Unknown")); [intros E; injection E as <-; auto|].
    destruct (str_eqb_spec s (lit "Invalid")); [intros E; injection E as <-; auto|discriminate]. }
  split.
  - intros s H. destruct (in_dec (list_eq_dec N.eq_dec) s L') as [Hi|Hi].
    + apply In_nth_error in Hi as [k Hk]. exists (3 + N.of_nat k). exact (A k s Hk).
    + rewrite (B s Hi). unfold m0. rewrite !smap_get_set. destruct (str_eqb_spec s (lit "Common")); [eauto|].
      destruct (str_eqb_spec s (lit "Unknown")); [eauto|]. destruct H as [H|H]; [contradiction|]. destruct Hi. apply filter_In. split; [now apply Hm|].
      rewrite str_eqb_neq by assumption. reflexivity.
  - intros s i d H. destruct (in_dec (list_eq_dec N.eq_dec) s L') as [Hi|Hi].
    + apply In_nth_error in Hi as [k Hk]. rewrite (A k s Hk) in H. injection H as <-.
      replace (N.to_nat (3 + N.of_nat k)) with (3 + k)%nat by lia. apply nth_error_nth. cbn [map app Nat.add nth_error]. exact Hk.
    + rewrite (B s Hi) in H. apply Hm0 in H as [[-> ->]|[[-> ->]|[-> ->]]]; reflexivity.
Qed.
Lemma gc_index_names rs : few_props 253 rs ->
  (forall s, In s (map r_prop rs) -> exists i, smap_get s (gc_index rs) = Some i) /\
  (forall (s : str) i, smap_get s (gc_index rs) = Some i -> s = lit "Unspecified" \/ In s (map r_prop rs)) /\
  (forall s i d, smap_get s (gc_index rs) = Some i -> name_at (gc_names rs) i d = s).
Proof.
  intros [w [Hw Hin]]. destruct (sset_of_spec (map r_prop rs)) as [Hs Hm]. unfold gc_index, gc_names, name_at.
  set (L := sset_of (map r_prop rs)) in *.
  assert (HL : NoDup L). { apply sorted_nodup. exact Hs. }
  assert (Hlen : (length L <= 253)%nat).
  { assert (length L <= length w)%nat; [|lia]. apply few_length; [exact HL|]. intros x Hx. apply Hm in Hx.
    apply in_map_iff in Hx as [r [<- Hr]]. exact (Hin r Hr). }
  set (m0 := smap_set (lit "Unspecified") 0 []).
  destruct (number_all_spec L 1 m0 HL ltac:(lia)) as [A B].
  assert (Hm0 : forall (s : str) i, smap_get s m0 = Some i -> s = lit "Unspecified" /\ i = 0).
  { intros s i. unfold m0. rewrite smap_get_set. destruct (str_eqb_spec s (lit "Unspecified")); [intros E; injection E as <-; auto|discriminate]. }
  split; [|split].
  - intros s H. apply Hm in H. apply In_nth_error in H as [k Hk]. exists (1 + N.of_nat k). exact (A k s Hk).
  - intros s i H. destruct (in_dec (list_eq_dec N.eq_dec) s L) as [Hi|Hi]; [right; now apply Hm|]. rewrite (B s Hi) in H. left. now apply Hm0 in H.
  - intros s i d H. destruct (in_dec (list_eq_dec N.eq_dec) s L) as [Hi|Hi].
    + apply In_nth_error in Hi as [k Hk]. rewrite (A k s Hk) in H. injection H as <-.
      replace (N.to_nat (1 + N.of_nat k)) with (S k)%nat by lia. apply nth_error_nth. exact Hk.
    + rewrite (B s Hi) in H. apply Hm0 in H as [-> ->]. reflexivity.
Qed.

(** ** Indexes from PropertyValueAliases.txt *)
Definition inj_below (i : N) (m : list (str * N)) : Prop :=
  (forall s j, smap_get s m = Some j -> j < i) /\ (forall s s' j, smap_get s m = Some j -> smap_get s' m = Some j -> s = s').
Lemma add_members_spec : forall l i m w, inj_below i m -> ssorted m -> i <= 256 ->
  (forall s, In s l \/ (exists j, smap_get s m = Some j) -> In s w) -> (exists k, i = N.of_nat k /\ exists l0, NoDup l0 /\ length l0 = k /\ forall s, In s l0 <-> exists j, smap_get s m = Some j) ->
  (length w <= 256)%nat ->
  let m' := snd (fold_left add_member l (i, m)) in
  inj_below 256 m' /\ ssorted m' /\ (forall s, (exists j, smap_get s m' = Some j) <-> In s l \/ exists j, smap_get s m = Some j) /\
  (forall s j, smap_get s m = Some j -> smap_get s m' = Some j).
Proof.
  induction l as [|x l IH]; intros i m w Hinj Hs Hi Hw [k [Ek [l0 [Hn [Hk Hl0]]]]] Hlen.
  - cbn [fold_left snd]. split; [|split; [exact Hs|split; [intros s; cbn; intuition|auto]]]. destruct Hinj as [A B]. split; [|exact B]. intros s j H. specialize (A s j H). lia.
  - cbv zeta. change (fold_left add_member (x :: l) (i, m)) with (fold_left add_member l (add_member (i, m) x)).
    assert (Ea : add_member (i, m) x = match smap_get x m with Some _ => (i, m) | None => (next8 i, smap_set x i m) end) by reflexivity.
    rewrite Ea. clear Ea. destruct (smap_get x m) as [j|] eqn:E.
    + destruct (IH i m w Hinj Hs Hi) as (A & B & C & D).
      { intros s [H|H]; apply Hw; [left; right; exact H|right; exact H]. }
      { exists k. split; [exact Ek|]. exists l0. auto. }
      { exact Hlen. }
      split; [exact A|split; [exact B|split; [|exact D]]]. intros s. rewrite C. cbn [In]. split; [intuition|]. intros [[->|H]|H]; eauto.
    + assert (Hx : ~ In x l0). { intros H. apply Hl0 in H as [j H]. congruence. }
      assert (Hi1 : (S k <= 256)%nat).
      { assert (length (x :: l0) <= length w)%nat; [|cbn [length] in *; lia]. apply few_length; [constructor; assumption|].
        intros y [<-|Hy]; apply Hw; [left; left; reflexivity|right; now apply Hl0]. }
      destruct l as [|x' l].
      * cbn [fold_left snd]. destruct Hinj as [A B].
        split; [|split; [apply smap_set_sorted; exact Hs|split]].
        -- split.
           ++ intros s j. rewrite smap_get_set. destruct (str_eqb_spec s x); [intros G; injection G as <-; lia|]. intros G. specialize (A s j G). lia.
           ++ intros s s' j. rewrite !smap_get_set. destruct (str_eqb_spec s x), (str_eqb_spec s' x); subst; auto.
              ** intros G1 G2. injection G1 as <-. specialize (A _ _ G2). lia.
              ** intros G1 G2. injection G2 as <-. specialize (A _ _ G1). lia.
              ** apply B.
        -- intros s. rewrite smap_get_set. destruct (str_eqb_spec s x) as [->|]; [cbn; split; [auto|eauto]|]. cbn. split; [auto|]. intros [[H|[]]|H]; [congruence|exact H].
        -- intros s j H. rewrite smap_get_set. destruct (str_eqb_spec s x) as [->|]; [congruence|exact H].
      * assert (Hi2 : (S (S k) <= 256)%nat \/ In x' (x :: l0) \/ True) by auto.
        assert (En : i < 255 -> next8 i = i + 1). { intros H. unfold next8. apply N.mod_small. lia. }
        destruct (N.ltb_spec i 255) as [Hlt|Hge].
        -- rewrite (En Hlt). destruct Hinj as [A B]. destruct (IH (i + 1) (smap_set x i m) w) as (A' & B' & C' & D').
           ++ split.
              ** intros s j. rewrite smap_get_set. destruct (str_eqb_spec s x); [intros G; injection G as <-; lia|]. intros G. specialize (A s j G). lia.
              ** intros s s' j. rewrite !smap_get_set. destruct (str_eqb_spec s x), (str_eqb_spec s' x); subst; auto.
                 --- intros G1 G2. injection G1 as <-. specialize (A _ _ G2). lia.
                 --- intros G1 G2. injection G2 as <-. specialize (A _ _ G1). lia.
                 --- apply B.
           ++ apply smap_set_sorted. exact Hs.
           ++ lia.
           ++ intros s [H|[j H]]; [apply Hw; left; right; exact H|]. rewrite smap_get_set in H. destruct (str_eqb_spec s x) as [->|]; apply Hw; [left; left; reflexivity|right; eauto].
           ++ exists (S k). split; [lia|]. exists (x :: l0). split; [constructor; assumption|]. split; [cbn; congruence|]. intros s. rewrite smap_get_set.
              destruct (str_eqb_spec s x) as [->|Nx]; [split; [eauto|left; reflexivity]|]. cbn [In]. rewrite Hl0. split; [intros [H|H]; [congruence|exact H]|auto].
           ++ exact Hlen.
           ++ split; [exact A'|split; [exact B'|split]].
              ** intros s. rewrite C', smap_get_set. destruct (str_eqb_spec s x) as [->|Nx].
                 --- split; [left; left; reflexivity|]. intros _. right. eauto.
                 --- cbn [In]. split; [intuition|]. intros [[H|H]|H]; [congruence|auto|auto].
              ** intros s j H. apply D'. rewrite smap_get_set. destruct (str_eqb_spec s x) as [->|]; [congruence|exact H].
        -- (* the 256th index: all later members are known *)
           assert (Hk255 : k = 255%nat) by lia.
           assert (Hall : forall s, In s w -> In s (x :: l0)).
           { intros s Hs'. destruct (in_dec (list_eq_dec N.eq_dec) s (x :: l0)) as [H|H]; [exact H|]. exfalso.
             assert (length (s :: x :: l0) <= length w)%nat; [|cbn [length] in *; lia]. apply few_length.
             - constructor; [exact H|constructor; assumption].
             - intros y [<-|[<-|Hy]]; [exact Hs'|apply Hw; left; left; reflexivity|apply Hw; right; now apply Hl0]. }
           assert (Hrest : forall l2 st, (forall s, In s l2 -> exists j, smap_get s (snd st) = Some j) -> fold_left add_member l2 st = st).
           { induction l2 as [|y l2 IH2]; intros [i2 m2] H2; [reflexivity|]. cbn [fold_left]. unfold add_member at 2.
             destruct (H2 y (or_introl eq_refl)) as [j Ej]. cbn [snd] in Ej. rewrite Ej. apply IH2. intros s Hs2. apply H2. right. exact Hs2. }
           rewrite Hrest.
           2:{ intros s Hs2. cbn [snd]. rewrite smap_get_set. destruct (str_eqb_spec s x); [eauto|]. apply Hl0.
               destruct (Hall s) as [H|H]; [apply Hw; left; right; exact Hs2|congruence|exact H]. }
           cbn [snd]. destruct Hinj as [A B]. split; [|split; [apply smap_set_sorted; exact Hs|split]].
           ++ split.
              ** intros s j. rewrite smap_get_set. destruct (str_eqb_spec s x); [intros G; injection G as <-; lia|]. intros G. specialize (A s j G). lia.
              ** intros s s' j. rewrite !smap_get_set. destruct (str_eqb_spec s x), (str_eqb_spec s' x); subst; auto.
                 --- intros G1 G2. injection G1 as <-. specialize (A _ _ G2). lia.
                 --- intros G1 G2. injection G2 as <-. specialize (A _ _ G1). lia.
                 --- apply B.
           ++ intros s. rewrite smap_get_set. destruct (str_eqb_spec s x) as [->|Nx]; [split; [left; left; reflexivity|eauto]|].
              split; [auto|]. intros [H|H]; [|exact H]. apply Hl0. destruct (Hall s) as [G|G]; [apply Hw; left; exact H|congruence|exact G].
           ++ intros s j H. rewrite smap_get_set. destruct (str_eqb_spec s x) as [->|]; [congruence|exact H].
Qed.
