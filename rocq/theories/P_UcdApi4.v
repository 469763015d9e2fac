(** Lemmas for T_UcdApi.v: queries on generated tables. *)
From Coq Require Import Ascii String Permutation Sorted.
From Verif Require Import Base M_TableGen M_PropGen M_UcdApi M_Tables Spec_Tables Spec_TableGen Spec_PropGen Spec_UcdApi
  P_Tables P_TableGen P_TableGen2 P_TableGen8 P_PropGen P_PropGen2 P_PropGen3 P_PropGen4 P_PropGen5 P_PropGen6 P_UcdApi P_UcdApi2 P_UcdApi3.
Open Scope N_scope.

Lemma search_lines {V} (g : stline -> V) (ls : list stline) (tbl : list (N * N * V)) (d : V) c : Forall st_ok ls -> ForallOrdPairs apart ls -> ls <> [] ->
  sorted_by_first (map (fun l => (fst (range_of l []), g l)) ls) tbl ->
  exists v, value_or (search tbl c) d = Ok v /\
    ((exists l, In l ls /\ covers (st_span l) c /\ g l = v) \/ ((forall l, In l ls -> ~ covers (st_span l) c) /\ v = d)).
Proof.
  intros Hok Hap Hne Hs. destruct (range_table g ls tbl Hok Hap Hs) as (D & _ & Hin).
  assert (Htne : tbl <> []).
  { destruct ls as [|l ls]; [contradiction|]. intros ->. apply (proj2 (Hin (fst (range_of l []), g l))). exists l. split; [left; reflexivity|reflexivity]. }
  destruct (search_table tbl c d Htne D) as (v & E & [(r & Hr & Hc & <-)|[Hno ->]]).
  - exists (snd r). split; [exact E|]. left. apply Hin in Hr as [l [Hl ->]]. exists l. split; [exact Hl|]. split; [exact (proj1 (covers_range l [] c) Hc)|reflexivity].
  - exists d. split; [exact E|]. right. split; [|reflexivity]. intros l Hl Hc. apply (Hno (fst (range_of l []), g l)); [apply Hin; eauto|]. exact (proj2 (covers_range l [] c) Hc).
Qed.
Lemma contains_lines (ls : list stline) (tbl : list prange) (p : stline -> str) c : Forall st_ok ls -> ForallOrdPairs apart ls -> ls <> [] ->
  sorted_by_first (map (fun l => range_of l (p l)) ls) tbl ->
  exists b, contains (intervals tbl) c = Ok b /\ (b = true <-> exists l, In l ls /\ covers (st_span l) c).
Proof.
  intros Hok Hap Hne Hs. destruct (range_table p ls tbl Hok Hap Hs) as (D & B & Hin).
  assert (Htne : intervals tbl <> []).
  { destruct ls as [|l ls]; [contradiction|]. intros E. assert (H : In (fst (range_of l []), p l) tbl) by (apply Hin; exists l; split; [left; reflexivity|reflexivity]).
    apply (in_map fst) in H. unfold intervals in E. rewrite E in H. destruct H. }
  destruct (contains_table (intervals tbl) c Htne D B) as (b & E & H). exists b. split; [exact E|]. rewrite H. unfold intervals. split.
  - intros (e & He & Hc). apply in_map_iff in He as [r [<- Hr]]. apply Hin in Hr as [l [Hl ->]]. exists l. split; [exact Hl|]. exact (proj1 (covers_range l [] c) Hc).
  - intros (l & Hl & Hc). exists (fst (range_of l [])). split; [apply (in_map fst tbl (fst (range_of l []), p l)); apply Hin; eauto|exact (proj2 (covers_range l [] c) Hc)].
Qed.
Lemma nonempty_data {A} (f : list (fline A)) : nonempty f -> data f <> [].
Proof. intros [a H] E. apply data_in in H. rewrite E in H. destruct H. Qed.
Lemma word_lines_ok f : lines_ok word_line f -> Forall st_ok (data f).
Proof. intros H. eapply Forall_impl; [exact word_line_ok|now apply data_ok]. Qed.
Lemma pairs_filter {A} (R : A -> A -> Prop) (p : A -> bool) l : ForallOrdPairs R l -> ForallOrdPairs R (filter p l).
Proof.
  induction 1 as [|x l H1 H2 IH]; cbn [filter]; [constructor|]. destruct (p x); [|exact IH]. constructor; [|exact IH].
  apply Forall_forall. intros y Hy. rewrite Forall_forall in H1. apply H1. now apply filter_In in Hy.
Qed.
Lemma values_apart k f : separate_values f -> ForallOrdPairs apart (of_value k f).
Proof.
  intros H. unfold of_value. eapply pairs_impl; [|apply pairs_filter; exact H]. cbn beta. intros x y Hx Hy G. apply G.
  apply filter_In in Hx as [_ Hx]. apply filter_In in Hy as [_ Hy]. apply str_eqb_eq in Hx, Hy. congruence.
Qed.
Lemma of_value_ok k f ok : lines_ok ok f -> (forall l, ok l -> st_ok l) -> Forall st_ok (of_value k f).
Proof. intros H G. apply Forall_forall. intros l Hl. apply of_value_in in Hl as [Hl _]. apply G. exact (H _ Hl). Qed.
Lemma ascending_apart f : lines_ok word_line f -> ascending f -> ForallOrdPairs apart (data f).
Proof.
  intros _. unfold ascending. induction 1 as [|l ls Hs IH Hl]; constructor; [|exact IH]. eapply Forall_impl; [|exact Hl]. cbn beta. intros b H c Ca Cb.
  destruct (st_span l), (st_span b); cbn in *; lia.
Qed.
Lemma ascending_sorted (g : stline -> str) f : Forall st_ok (data f) -> ascending f -> sorted_by_first (map (fun l => range_of l (g l)) (data f)) (map (fun l => range_of l (g l)) (data f)).
Proof.
  intros Hok H. split; [apply Permutation_refl|]. unfold ascending in H. induction H as [|l ls Hs IH Hl]; cbn [map]; constructor.
  - apply IH. now inversion Hok.
  - apply Forall_map. inversion_clear Hok as [|? ? Hl0 _]. eapply Forall_impl; [|exact Hl]. cbn [range_of fst snd]. intros b Hb. apply N.ltb_ge.
    destruct Hl0 as [Hl0 _]. destruct (st_span l), (st_span b); cbn in *; lia.
Qed.

(** mergeRanges *)
Definition at_cp (l : list prange) (c : N) (v : str) : Prop := exists r, In r l /\ fst (fst r) <= c <= snd (fst r) /\ snd r = v.
Lemma at_cons r l c v : at_cp (r :: l) c v <-> (fst (fst r) <= c <= snd (fst r) /\ snd r = v) \/ at_cp l c v.
Proof.
  unfold at_cp. split.
  - intros (x & [<-|Hx] & H); [left; exact H|right; exists x; auto].
  - intros [H|(x & Hx & H)]; [exists r; split; [left; reflexivity|exact H]|exists x; split; [right; exact Hx|exact H]].
Qed.
Lemma merge_ok l : forall cur, disjoint_sorted (ivls (cur :: l)) -> Forall (fun e => snd e <= 0x10FFFF) (ivls (cur :: l)) ->
  let m := merge_ranges (Some cur) l in
  m <> [] /\ disjoint_sorted (ivls m) /\ Forall (fun e => fst (fst cur) <= fst e) (ivls m) /\ forall c v, at_cp m c v <-> at_cp (cur :: l) c v.
Proof.
  induction l as [|r l IH]; intros cur HD HB; cbv zeta.
  - cbn [merge_ranges]. split; [discriminate|]. split; [exact HD|]. split; [constructor; [lia|constructor]|]. reflexivity.
  - cbn [merge_ranges]. destruct cur as [[a b] v]. destruct HD as [D1 D2]. cbn [ivls map fst] in D1, D2, HB.
    inversion_clear D1 as [|? ? D3 D4]. inversion_clear D2 as [|? ? D5 D6]. inversion_clear HB as [|? ? B1 B2].
    inversion_clear D3 as [|? ? D7 D8]. inversion_clear D4 as [|? ? D9 D10]. inversion_clear D6 as [|? ? D11 D12]. inversion_clear B2 as [|? ? B3 B4]. cbn [fst snd] in *.
    destruct r as [[ra rb] rv]. cbn [fst snd] in *. unfold r_first, r_last, r_prop. cbn [fst snd].
    destruct (((b + 1) mod 2 ^ 32 =? ra) && str_eqb v rv) eqn:E.
    + apply andb_true_iff in E as [E1 E2]. apply N.eqb_eq in E1. apply str_eqb_eq in E2. subst rv. rewrite N.mod_small in E1 by lia.
      assert (Hm : disjoint_sorted (ivls ((a, rb, v) :: l))).
      { split; cbn [ivls map fst].
        - constructor; [exact D7|]. exact D8.
        - constructor; [cbn; lia|exact D12]. }
      destruct (IH (a, rb, v) Hm) as (H1 & H2 & H3 & H4). { cbn [ivls map fst]. constructor; [exact B3|exact B4]. }
      split; [exact H1|]. split; [exact H2|]. split; [exact H3|]. intros c w. rewrite H4, !at_cons. cbn [fst snd]. split.
      * intros [[Hc <-]|H]; [|auto]. destruct (N.le_gt_cases c b); [left; split; [lia|reflexivity]|right; left; split; [lia|reflexivity]].
      * intros [[Hc <-]|[[Hc <-]|H]]; [left; split; [lia|reflexivity]|left; split; [lia|reflexivity]|auto].
    + assert (Hm : disjoint_sorted (ivls ((ra, rb, rv) :: l))).
      { split; cbn [ivls map fst]; [constructor; assumption|constructor; assumption]. }
      destruct (IH (ra, rb, rv) Hm) as (H1 & H2 & H3 & H4). { cbn [ivls map fst]. constructor; assumption. } cbn [fst snd] in H3.
      split; [discriminate|]. split; [|split].
      * destruct H2 as [S1 S2]. split; cbn [ivls map fst].
        -- constructor; [exact S1|]. eapply Forall_impl; [|exact H3]. cbn. intros e He. lia.
        -- constructor; [exact D5|exact S2].
      * cbn [ivls map fst]. constructor; [cbn; lia|]. eapply Forall_impl; [|exact H3]. cbn. intros e He. lia.
      * intros c w. rewrite at_cons, H4, <- at_cons. reflexivity.
Qed.
Lemma merge_none l : l <> [] -> disjoint_sorted (ivls l) -> Forall (fun e => snd e <= 0x10FFFF) (ivls l) ->
  let m := merge_ranges None l in m <> [] /\ disjoint_sorted (ivls m) /\ forall c v, at_cp m c v <-> at_cp l c v.
Proof.
  intros Hne HD HB. destruct l as [|r l]; [contradiction|]. cbn [merge_ranges]. destruct (merge_ok l r HD HB) as (A & B & _ & C). auto.
Qed.
