(** C51, C52: binary searches over sorted tables are exact. *)
From Verif Require Import Base M_Tables Spec_Tables P_Tables.
Open Scope N_scope.

(** C51: lower_bound reads only inside the table and terminates, whatever the table and the comparison. *)
Theorem C51_lower_bound_safe : forall (A : Type) (lt : A -> bool) (tbl : list A),
  exists k, lower_bound lt tbl = Ok k /\ (k <= length tbl)%nat.
Proof. intros. apply lower_bound_ok. Qed.
Print Assumptions C51_lower_bound_safe.

(** C51: on a table with strictly increasing keys the lookup returns an entry exactly when it is stored for the key... *)
Theorem C51_lookup_exact : forall (A : Type) (key : A -> N) (tbl : list A) cp e, strictly_sorted key tbl ->
  (find_entry key tbl cp = Some e <-> In e tbl /\ key e = cp).
Proof. intros. apply find_entry_exact. assumption. Qed.
Print Assumptions C51_lookup_exact.

(** ... and nothing exactly when no entry has that key. *)
Theorem C51_lookup_default : forall (A : Type) (key : A -> N) (tbl : list A) cp, strictly_sorted key tbl ->
  (find_entry key tbl cp = None <-> forall e, In e tbl -> key e <> cp).
Proof. intros. apply find_entry_none. assumption. Qed.
Print Assumptions C51_lookup_default.

(** Whatever the table, an entry that is returned is stored under the key asked for. *)
Theorem C51_lookup_sound : forall (A : Type) (key : A -> N) (tbl : list A) cp e,
  find_entry key tbl cp = Some e -> In e tbl /\ key e = cp.
Proof. intros. eapply find_entry_sound; eauto. Qed.

(** C51: quick-check and exclusion sets. *)
Theorem C51_set_exact : forall tbl cp, strictly_sorted (fun x => x) tbl -> (binary_search tbl cp = true <-> In cp tbl).
Proof. exact binary_search_exact. Qed.
Print Assumptions C51_set_exact.

(** C51: the composition-pair search terminates without reading outside the table, for every table; on a sorted table
    it returns the composed code point of the pair, and 0 when the pair is not in the table. *)
Theorem C51_composition_safe : forall tbl first second,
  exists c, comp_loop (S (length tbl)) tbl first second 0 (length tbl) = Ok c /\ (c = 0 \/ In (first, second, c) tbl).
Proof. intros. apply comp_loop_ok; lia. Qed.
Print Assumptions C51_composition_safe.
Theorem C51_composition_exact : forall tbl first second c, StronglySorted pair_lt tbl -> c <> 0 ->
  (comp_search tbl first second = c <-> In (first, second, c) tbl).
Proof.
  intros tbl x y c Hs Hc. split; intros H.
  - destruct (comp_search_sound tbl x y c H); [contradiction|assumption].
  - apply comp_search_complete; assumption.
Qed.
Print Assumptions C51_composition_exact.

Definition demo_pairs : list (N * N * N) := [(0x41, 0x300, 0xC0); (0x41, 0x301, 0xC1); (0x61, 0x300, 0xE0); (0x1100, 5, 7)].
Example demo_pairs_sorted : StronglySorted pair_lt demo_pairs.
Proof. unfold demo_pairs, pair_lt. repeat (constructor; [|repeat constructor; cbn; lia]). constructor. Qed.
Example demo_pairs_found : comp_search demo_pairs 0x41 0x301 = 0xC1 /\ comp_search demo_pairs 0x41 0x302 = 0.
Proof. vm_compute. auto. Qed.
Definition demo_ccc_list : list (N * N) := [(0x300, 230); (0x315, 232); (0x327, 202); (0x345, 240)].
Example demo_ccc_sorted : strictly_sorted fst demo_ccc_list.
Proof. unfold demo_ccc_list, strictly_sorted. repeat (constructor; [|repeat constructor; cbn; lia]). constructor. Qed.
Example demo_ccc_found : find_entry fst demo_ccc_list 0x327 = Some (0x327, 202) /\ find_entry fst demo_ccc_list 0x328 = None.
Proof. vm_compute. auto. Qed.

(** C52: on a non-empty table of sorted disjoint intervals contains() terminates, never indexes outside the table and
    decides membership (the 2^63 bound keeps "b + a" from wrapping). *)
Theorem C52_contains_exact : forall ranges cp, ranges <> [] -> disjoint_sorted ranges ->
  N.of_nat (length ranges) < 2 ^ 63 ->
  exists r, contains ranges cp = Ok r /\ (r = true <-> exists e, In e ranges /\ fst e <= cp <= snd e).
Proof. exact contains_ok. Qed.
Print Assumptions C52_contains_exact.

(** C52: search() returns the property of the interval that contains the code point, nullopt when there is none. *)
Theorem C52_search_exact : forall (T : Type) (ranges : list (N * N * T)) cp, ranges <> [] -> disjoint_sorted (ivls ranges) ->
  exists r, search ranges cp = Ok r /\
    (forall p, r = Some p -> exists lo hi, In (lo, hi, p) ranges /\ lo <= cp <= hi) /\
    (r = None -> forall lo hi p, In (lo, hi, p) ranges -> ~ (lo <= cp <= hi)).
Proof. intros. apply search_ok; assumption. Qed.
Print Assumptions C52_search_exact.

(** C52 as stated ("every sorted table") fails for the empty table: size() - 1 wraps and the first probe is out of range. *)
Theorem C52_empty_table_refuted : ~ (forall ranges cp, disjoint_sorted ranges -> contains ranges cp <> UB).
Proof.
  intros H. apply (H [] 0).
  - split; constructor.
  - vm_compute. reflexivity.
Qed.
Print Assumptions C52_empty_table_refuted.
Theorem C52_empty_search_refuted : ~ (forall (ranges : list (N * N * N)) cp, disjoint_sorted (ivls ranges) -> search ranges cp <> UB).
Proof.
  intros H. apply (H [] 0).
  - split; constructor.
  - vm_compute. reflexivity.
Qed.

Example C52_demo : disjoint_sorted [(0x300, 0x36F); (0x483, 0x489); (0x591, 0x5BD); (0x5BF, 0x5BF)] /\
  contains [(0x300, 0x36F); (0x483, 0x489); (0x591, 0x5BD); (0x5BF, 0x5BF)] 0x5BE = Ok false /\
  contains [(0x300, 0x36F); (0x483, 0x489); (0x591, 0x5BD); (0x5BF, 0x5BF)] 0x485 = Ok true /\
  search [(0x300, 0x36F, 1); (0x483, 0x489, 2); (0x591, 0x5BD, 3)] 0x5BD = Ok (Some 3).
Proof.
  split; [|vm_compute; auto]. split.
  - repeat (constructor; [|repeat constructor; cbn; lia]). constructor.
  - repeat constructor; cbn; lia.
Qed.
