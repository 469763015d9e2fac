(** Proofs about the property table generator, part 2: the indexes built from PropertyValueAliases.txt, filling of fields. *)
From Coq Require Import Ascii String Permutation Sorted.
From Verif Require Import Base M_TableGen M_PropGen Spec_TableGen Spec_PropGen P_TableGen P_PropGen.
Open Scope N_scope.

Lemma reverse_fold (v : str) i idx : forall b : str, (b = v \/ (length b < length v)%nat) ->
  (forall n, In (n, i) idx -> n = v \/ (length n < length v)%nat) -> b = v \/ In (v, i) idx ->
  fold_left (fun b (e : str * N) => if (snd e =? i) && (length b <? length (fst e))%nat then fst e else b) idx b = v.
Proof.
  induction idx as [|[n j] idx IH]; intros b Hb Hn Hv; cbn [fold_left]; [destruct Hv as [->|[]]; reflexivity|].
  cbn [fst snd]. destruct (N.eqb_spec j i) as [->|Nj]; cbn [andb].
  - destruct (Nat.ltb_spec (length b) (length n)) as [L|L].
    + destruct (Hn n (or_introl eq_refl)) as [->|Ln].
      * apply IH; auto. intros m Hm. apply Hn. right. exact Hm.
      * apply IH; [auto|intros m Hm; apply Hn; right; exact Hm|]. destruct Hv as [->|[E|Hv]]; [lia|injection E as ->; lia|auto].
    + apply IH; [exact Hb|intros m Hm; apply Hn; right; exact Hm|]. destruct Hv as [->|[E|Hv]]; [auto| |auto].
      injection E as ->. destruct Hb as [->|Hb]; [auto|lia].
  - apply IH; [exact Hb|intros m Hm; apply Hn; right; exact Hm|]. destruct Hv as [->|[E|Hv]]; [auto|injection E as -> ->; contradiction|auto].
Qed.
Lemma reverse_lookup_exact index (v : str) i d : v <> [] -> In (v, i) index -> (forall n, In (n, i) index -> n = v \/ (length n < length v)%nat) ->
  reverse_lookup index i d = v.
Proof.
  intros Hne Hin Hall. assert (G : forall b : str, b = v -> match b return str with [] => d | _ => b end = v).
  { intros b ->. destruct v; [contradiction|reflexivity]. }
  unfold reverse_lookup. apply G. apply (reverse_fold v i index []); auto. right. destruct v; [contradiction|cbn; lia].
Qed.

Section Pva.
Variables (aliases : list (str * str)) (first : str) (w : list str).
Hypothesis Hu : forall a v v', In (a, v) aliases -> In (a, v') aliases -> v = v'.
Hypothesis H1 : forall a v : str, In (a, v) aliases -> (a = v \/ (length a < length v)%nat) /\ a <> first /\ v <> first.
Hypothesis Hne : forall a v : str, In (a, v) aliases -> v <> [].
Hypothesis H2 : forall a v a' v', In (a, v) aliases -> In (a', v') aliases -> a = v' -> v = v'.
Hypothesis Hw : (length w <= 255)%nat.
Hypothesis Hin : forall a v, In (a, v) aliases -> In v w.

Definition members : list (str * N) := snd (fold_left add_member (ssort (map snd aliases)) (match first with [] => (0, []) | _ => (1, [(first, 0)]) end)).
Lemma members_spec : inj_below 256 members /\ ssorted members /\
  (forall s, (exists j, smap_get s members = Some j) <-> (exists a, In (a, s) aliases) \/ (first <> [] /\ s = first)).
Proof.
  assert (Hs : forall s, In s (ssort (map snd aliases)) <-> exists a, In (a, s) aliases).
  { intros s. rewrite ssort_in, in_map_iff. split; [intros [[a v] [<- H]]; eauto|intros [a H]; exists (a, s); auto]. }
  unfold members. destruct first as [|f0 fr] eqn:Ef.
  - destruct (add_members_spec (ssort (map snd aliases)) 0 [] w) as (A & B & C & _).
    + split; [discriminate|discriminate].
    + constructor.
    + lia.
    + intros s [H|[j H]]; [|discriminate]. apply Hs in H as [a H]. exact (Hin _ _ H).
    + exists 0%nat. split; [reflexivity|]. exists []. split; [constructor|split; [reflexivity|]]. intros s. split; [intros []|intros [j H]; discriminate].
    + lia.
    + split; [exact A|split; [exact B|]]. intros s. rewrite C, Hs. split; [intros [H|[j H]]; [auto|discriminate]|intros [H|[H _]]; [auto|contradiction]].
  - rewrite <- Ef in *. assert (Hf : first <> []) by (rewrite Ef; discriminate).
    assert (G1 : forall s j, smap_get s [(first, 0)] = Some j -> s = first /\ j = 0).
    { intros s j. cbn [smap_get]. destruct (str_eqb_spec s first); [intros E; injection E as <-; auto|discriminate]. }
    assert (G2 : smap_get first [(first, 0)] = Some 0) by (cbn [smap_get]; now rewrite str_eqb_refl).
    destruct (add_members_spec (ssort (map snd aliases)) 1 [(first, 0)] (first :: w)) as (A & B & C & _).
    + split; [intros s j H; apply G1 in H as [_ ->]; lia|]. intros s s' j H H'. apply G1 in H as [-> _]. apply G1 in H' as [-> _]. reflexivity.
    + constructor; [constructor|constructor].
    + lia.
    + intros s [H|[j H]]; [|apply G1 in H as [-> _]; left; reflexivity]. apply Hs in H as [a H]. right. exact (Hin _ _ H).
    + exists 1%nat. split; [reflexivity|]. exists [first]. split; [constructor; [intros []|constructor]|split; [reflexivity|]]. intros s.
      split; [intros [<-|[]]; eauto|intros [j H]; apply G1 in H as [-> _]; left; reflexivity].
    + cbn [length]. lia.
    + split; [exact A|split; [exact B|]]. intros s. rewrite C, Hs.
      split; [intros [H|[j H]]; [auto|apply G1 in H as [-> _]; auto]|intros [H|[_ ->]]; [auto|right; eauto]].
Qed.
Lemma abbrevs_spec : forall done rest m, aliases = done ++ rest -> ssorted m ->
  (forall v j, smap_get v members = Some j -> smap_get v m = Some j) ->
  (forall n j, smap_get n m = Some j -> smap_get n members = Some j \/ exists v, In (n, v) aliases /\ smap_get v members = Some j) ->
  (forall a v, In (a, v) done -> smap_get a m = smap_get v members) ->
  let m' := fold_left add_abbrev rest m in
  ssorted m' /\ (forall v j, smap_get v members = Some j -> smap_get v m' = Some j) /\
  (forall n j, smap_get n m' = Some j -> smap_get n members = Some j \/ exists v, In (n, v) aliases /\ smap_get v members = Some j) /\
  (forall a v, In (a, v) aliases -> smap_get a m' = smap_get v members).
Proof.
  destruct members_spec as (_ & _ & Hdom).
  intros done rest. revert done. induction rest as [|[a v] rest IH]; intros done m E Hs I1 I2 I3 m'; subst m'; cbn [fold_left].
  - rewrite app_nil_r in E. subst done. auto.
  - assert (Hav : In (a, v) aliases). { rewrite E. apply in_or_app. right. left. reflexivity. }
    destruct (proj2 (Hdom v) (or_introl (ex_intro _ a Hav))) as [j Hj].
    assert (Ea : add_abbrev m (a, v) = smap_set a j m). { unfold add_abbrev. cbn [fst snd]. rewrite (I1 v j Hj). reflexivity. }
    rewrite Ea. apply (IH (done ++ [(a, v)])).
    + rewrite <- app_assoc. exact E.
    + apply smap_set_sorted. exact Hs.
    + intros u i Hi. rewrite smap_get_set. destruct (str_eqb_spec u a) as [->|]; [|exact (I1 u i Hi)].
      destruct (proj1 (Hdom a) (ex_intro _ i Hi)) as [[b Hb]|[_ Hf]].
      * assert (v = a) by exact (H2 _ _ _ _ Hav Hb eq_refl). subst v. congruence.
      * destruct (H1 _ _ Hav) as [_ [Hnf _]]. contradiction.
    + intros n i. rewrite smap_get_set. destruct (str_eqb_spec n a) as [->|]; [|apply I2]. intros G. injection G as <-. right. eauto.
    + intros b u Hb. rewrite smap_get_set. apply in_app_or in Hb as [Hb|[Hb|[]]].
      * destruct (str_eqb_spec b a) as [->|]; [|exact (I3 b u Hb)].
        assert (u = v). { apply (Hu a); [rewrite E; apply in_or_app; left; exact Hb|exact Hav]. } congruence.
      * injection Hb as <- <-. rewrite str_eqb_refl. congruence.
Qed.
Let ix := pva_index aliases first.
Lemma pva_index_spec : ssorted ix /\ (forall v j, smap_get v members = Some j -> smap_get v ix = Some j) /\
  (forall n j, smap_get n ix = Some j -> smap_get n members = Some j \/ exists v, In (n, v) aliases /\ smap_get v members = Some j) /\
  (forall a v, In (a, v) aliases -> smap_get a ix = smap_get v members).
Proof.
  destruct members_spec as (_ & Hs & _). apply (abbrevs_spec [] aliases members); auto. intros a v [].
Qed.
(** a name of the value [v]: short or long *)
Definition named (n v : str) : Prop := In (n, v) aliases \/ (n = v /\ exists a, In (a, v) aliases).
Lemma pva_index_named n v : named n v -> exists j, smap_get n ix = Some j /\ smap_get v members = Some j.
Proof.
  destruct pva_index_spec as (_ & I1 & _ & I3). destruct members_spec as (_ & _ & Hd). intros [H|[-> [a H]]].
  - destruct (proj2 (Hd v) (or_introl (ex_intro _ n H))) as [j Hj]. exists j. rewrite (I3 n v H). auto.
  - destruct (proj2 (Hd v) (or_introl (ex_intro _ a H))) as [j Hj]. exists j. auto.
Qed.
Lemma pva_index_inv n j : smap_get n ix = Some j -> (exists v, named n v /\ smap_get v members = Some j) \/ (first <> [] /\ n = first /\ smap_get first members = Some j).
Proof.
  destruct pva_index_spec as (_ & _ & I2 & _). destruct members_spec as (_ & _ & Hd). intros H. destruct (I2 n j H) as [G|[v [G1 G2]]].
  - destruct (proj1 (Hd n) (ex_intro _ j G)) as [Ha|[Hf ->]]; [left; exists n; split; [right; auto|exact G]|auto].
  - left. exists v. split; [left; exact G1|exact G2].
Qed.
Lemma pva_inj v v' j : smap_get v members = Some j -> smap_get v' members = Some j -> v = v'.
Proof. destruct members_spec as ([_ H] & _). intros A B. exact (H v v' j A B). Qed.
Lemma named_unique n v v' : named n v -> named n v' -> v = v'.
Proof.
  intros [A|[-> [a A]]] [B|[-> [b B]]].
  - exact (Hu _ _ _ A B). - exact (H2 _ _ _ _ A B eq_refl). - symmetry. exact (H2 _ _ _ _ B A eq_refl). - reflexivity.
Qed.
Lemma pva_reverse v j d : (exists a, In (a, v) aliases) -> smap_get v members = Some j -> reverse_lookup ix j d = v.
Proof.
  intros [a Ha] Hj. destruct pva_index_spec as (Hs & I1 & I2 & I3). apply reverse_lookup_exact.
  - exact (Hne _ _ Ha).
  - apply smap_get_in. apply I1. exact Hj.
  - intros n Hn. apply (smap_in ix n j Hs) in Hn. destruct (I2 n j Hn) as [G|[u [G1 G2]]].
    + left. exact (pva_inj _ _ _ G Hj).
    + assert (u = v) by exact (pva_inj _ _ _ G2 Hj). subst u. exact (proj1 (H1 _ _ G1)).
Qed.
End Pva.

(** ** Filling a field *)
Definition inside (r : prange) (x : N) : Prop := r_first r <= x /\ x <= r_last r.
Lemma inside_b r x : (r_first r <=? x) && (x <=? r_last r) = true <-> inside r x.
Proof. unfold inside. rewrite andb_true_iff, !N.leb_le. reflexivity. Qed.
(** a loop that stores one value per range *)
Lemma fill_gen (val : prange -> option N) ranges : forall t x,
  let t' := fold_left (fun t r => match val r with Some i => set_range r i t | None => t end) ranges t in
  (exists r i, In r ranges /\ inside r x /\ val r = Some i /\ t' x = i) \/
  ((forall r i, In r ranges -> inside r x -> val r <> Some i) /\ t' x = t x).
Proof.
  induction ranges as [|r ranges IH]; intros t x t'; subst t'; cbn [fold_left]; [right; split; [intros r i []|reflexivity]|].
  destruct (IH (match val r with Some i => set_range r i t | None => t end) x) as [(r' & i & A & B & C & D)|[A B]].
  - left. exists r', i. split; [right; exact A|auto].
  - rewrite B. destruct (val r) as [i|] eqn:Ev.
    + unfold set_range. destruct ((r_first r <=? x) && (x <=? r_last r)) eqn:Ei.
      * left. exists r, i. apply inside_b in Ei. split; [left; reflexivity|auto].
      * right. split; [|reflexivity]. intros r' i' [<-|Hr'] Hi; [apply inside_b in Hi; congruence|exact (A r' i' Hr' Hi)].
    + right. split; [|reflexivity]. intros r' i' [<-|Hr'] Hi; [congruence|exact (A r' i' Hr' Hi)].
Qed.
Lemma fill_spec index ranges t x :
  (exists r i, In r ranges /\ inside r x /\ smap_get (r_prop r) index = Some i /\ fill index ranges t x = i) \/
  ((forall r i, In r ranges -> inside r x -> smap_get (r_prop r) index <> Some i) /\ fill index ranges t x = t x).
Proof. exact (fill_gen (fun r => smap_get (r_prop r) index) ranges t x). Qed.
(** a loop that sets a flag *)
Lemma or_all_spec flag ranges : forall t x,
  or_all flag ranges t x = if covered ranges x then N.lor (t x) flag else t x.
Proof.
  unfold or_all. induction ranges as [|r ranges IH]; intros t x; cbn [fold_left]; [reflexivity|]. rewrite IH.
  unfold covered. cbn [existsb]. fold (covered ranges x). unfold or_range. destruct ((r_first r <=? x) && (x <=? r_last r)); cbn [orb].
  - destruct (covered ranges x); [|reflexivity]. rewrite <- N.lor_assoc, N.lor_diag. reflexivity.
  - reflexivity.
Qed.
Lemma covered_in ranges x : covered ranges x = true <-> exists r, In r ranges /\ inside r x.
Proof.
  unfold covered. rewrite existsb_exists. split; intros [r [A B]]; exists r; (split; [exact A|]); now apply inside_b.
Qed.
