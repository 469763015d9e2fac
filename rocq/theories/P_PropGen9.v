(** Proofs about the property table generator, part 9: what the files determine, the stored table. *)
From Coq Require Import Ascii String Permutation Sorted.
From Verif Require Import Base M_TableGen M_PropGen Spec_TableGen Spec_PropGen P_TableGen P_TableGen2 P_TableGen3 P_TableGen8
  P_PropGen P_PropGen2 P_PropGen3 P_PropGen4 P_PropGen5 P_PropGen6 P_PropGen7 P_PropGen8 M_Multistage Spec_Multistage P_Multistage.
Open Scope N_scope.

Lemma first_match_unique {V} (rules : list (Prop * V)) dflt v v' : first_match rules dflt v -> first_match rules dflt v' -> v = v'.
Proof. induction rules as [|[P x] r IH]; cbn [first_match]; [congruence|]. intuition congruence. Qed.
Lemma reordered_refl m : reordered m m.
Proof. unfold reordered. induction m as [|[k l] m IH]; constructor; auto. Qed.
(** the data as the loops leave it, before the sorts *)
Definition sample_data (crlf : bool) (F : ucd_files) : option pdata :=
  let text f := file_text st_text crlf f in
  let pv := load_pva (pva_text crlf (f_pre F) (f_pva F)) in
  match load_gc pv (text (f_gc F)) with
  | None => None
  | Some (_, l) => Some (mkPd pv (load_generic (text (f_scripts F))) l (fst (load_core (text (f_core F)))) (snd (load_core (text (f_core F)))) (load_generic (text (f_isc F)))
      (load_evs (file_text ev_text crlf (f_evs F))) (load_generic (text (f_age F))) (load_grouped (lit "Property") (text (f_gcb F)))
      (load_grouped (lit "Property") (text (f_wb F))) (load_generic (text (f_eaw F))) (load_emoji (text (f_emoji F))) (load_generic (text (f_hst F))))
  end.
Lemma sample_parsed crlf F d : sample_data crlf F = Some d -> parsed crlf F d.
Proof.
  unfold sample_data. cbv zeta. destruct (load_gc _ _) as [[m l]|] eqn:Hgc; [|discriminate]. intros [= <-]. unfold parsed. cbv zeta.
  cbn [pd_pva pd_scripts pd_gc pd_core pd_incb pd_isc pd_evs pd_age pd_gcb pd_wb pd_eaw pd_emoji pd_hst].
  repeat match goal with |- _ /\ _ => split end; try reflexivity; try apply reordered_refl. exists m, l. split; [exact Hgc|reflexivity].
Qed.
Lemma succeeds crlf F : files_ok F -> exists props, generated_props crlf F props.
Proof.
  intros Hok. destruct (sample_data crlf F) as [d|] eqn:E.
  - pose proof (sample_parsed crlf F d E) as Hp. destruct (age_members_ok crlf F d Hok Hp) as (members & Em & _). exists (out_record members d), d, members. auto.
  - unfold sample_data in E. destruct (gc_loads crlf F Hok _ eq_refl) as (m & l & Hgc). cbv zeta in E. rewrite Hgc in E. discriminate.
Qed.

(** ** What the record says *)
Lemma alias_nonempty F prop v : pva_ok (f_pva F) -> has_value (f_pva F) prop v -> v <> [].
Proof.
  intros Hpva [a (s & l & Hs & _ & Hl & _ & <-)]. destruct Hpva as (_ & H & _). destruct (H s Hs) as (_ & Hb & _).
  destruct (Hb _ Hl) as (_ & _ & Hf & _). apply Hf.
Qed.

(** ** The stored records *)
Lemma compute_esc_range cp fl g r : (-1 <= compute_esc cp fl g r <= 15)%Z.
Proof. unfold compute_esc. repeat match goal with |- context [if ?b then _ else _] => destruct b end; vm_compute; split; discriminate. Qed.
Lemma print_at members d x : print_rec members d (rec_at members d x) = out_record members d x.
Proof.
  unfold print_rec, rec_at, out_record. cbn [c_width c_flags c_flags2 c_script c_gcb c_eaw c_gc c_esc c_age c_incb c_wb]. do 2 f_equal.
  f_equal. unfold rec_esc. pose proof (compute_esc_range x (rec_flags d x) (rec_gcb d x) (get_or (gcb_index d) "Regional_Indicator" 0)) as H.
  set (z := compute_esc _ _ _ _) in *. clearbody z. clear -H. unfold of_int8, int8_of.
  destruct (Z.eq_dec z (-1)) as [->|N]; [reflexivity|]. rewrite Z.mod_small by lia. destruct (N.ltb_spec (Z.to_N z) 128) as [L|L]; rewrite ?Z2N.id by lia; [reflexivity|].
  assert (Z.of_N (Z.to_N z) = z) by (apply Z2N.id; lia). lia.
Qed.
Lemma bytes_inj a b : rec_bytes a = rec_bytes b -> a = b.
Proof. destruct a, b. unfold rec_bytes. cbn. intros [= -> -> -> -> -> -> -> -> -> -> ->]. reflexivity. Qed.
Lemma crec_eq_ok : eq_ok crec_eqb.
Proof. intros a b. unfold crec_eqb. rewrite str_eqb_eq. split; [apply bytes_inj|intros ->; reflexivity]. Qed.
Lemma cells_objects members d : objects 11 (rec_cells members d).
Proof.
  unfold rec_cells. split.
  - apply Forall_forall. intros c H. apply in_map_iff in H as (i & <- & _). reflexivity.
  - intros a b Ha Hb E. apply in_map_iff in Ha as (i & <- & _). apply in_map_iff in Hb as (j & <- & _). cbn [fst snd] in *. apply bytes_inj. exact E.
Qed.

(** ** Piecewise constant functions: the number of different records and blocks *)
Definition pieces {A} (B : list N) (f : N -> A) : Prop := forall x, ~ In (x + 1) B -> f (x + 1) = f x.
Lemma pieces_value {A} B (f : N -> A) : pieces B f -> forall x, exists b, In b (0 :: B) /\ f x = f b.
Proof.
  intros H. induction x as [|x IH] using N.peano_ind; [exists 0; split; [left; reflexivity|reflexivity]|].
  rewrite <- N.add_1_r. destruct (in_dec N.eq_dec (x + 1) B) as [i|n]; [exists (x + 1); split; [right; exact i|reflexivity]|].
  destruct IH as (b & Hb & E). exists b. split; [exact Hb|]. now rewrite (H x n).
Qed.
Lemma pieces_const {A} B (f : N -> A) x : pieces B f -> forall k, (forall y, x < y <= x + N.of_nat k -> ~ In y B) -> f (x + N.of_nat k) = f x.
Proof.
  intros H. induction k as [|k IH]; intros Hn; [now rewrite N.add_0_r|]. replace (x + N.of_nat (S k)) with ((x + N.of_nat k) + 1) by lia.
  rewrite H by (apply Hn; lia). apply IH. intros y Hy. apply Hn. lia.
Qed.
Lemma nth_error_seq n k : (k < n)%nat -> nth_error (seq 0 n) k = Some k.
Proof. intros H. rewrite (nth_error_nth' _ 0%nat) by now rewrite seq_length. f_equal. now rewrite seq_nth. Qed.
Lemma nth_error_same {A} : forall l l' : list A, (forall j, nth_error l j = nth_error l' j) -> l = l'.
Proof.
  induction l as [|x l IH]; intros [|y l'] H; [reflexivity|specialize (H 0%nat); discriminate|specialize (H 0%nat); discriminate|].
  pose proof (H 0%nat) as E. injection E as ->. f_equal. apply IH. intros j. exact (H (S j)).
Qed.
Lemma nth_repeat_ok {A} (a : A) : forall n j, (j < n)%nat -> nth_error (repeat a n) j = Some a.
Proof. induction n as [|n IH]; intros [|j] H; try lia; [reflexivity|]. apply IH. lia. Qed.
Lemma table_small {A} (f : N -> A) (bytes : A -> list N) B n BS : pieces B f -> (0 < BS)%nat -> (2 * length B + 1 <= 256)%nat ->
  let cells := map (fun i => let r := f (N.of_nat i) in (r, bytes r)) (seq 0 n) in few_values 65536 cells /\ few_blocks BS 256 cells.
Proof.
  intros Hf HB HL cells. split.
  - exists (map f (0 :: B)). split; [rewrite map_length; cbn [length]; lia|]. intros c Hc. apply in_map_iff in Hc as (i & <- & _). cbn [fst].
    destruct (pieces_value B f Hf (N.of_nat i)) as (b & Hb & ->). now apply in_map.
  - exists (map (fun b => repeat (bytes (f b)) BS) (0 :: B) ++ map (fun b => block_reps A BS cells (N.to_nat b / BS)) B).
    split; [rewrite app_length, !map_length; cbn [length]; lia|]. intros k Hk. unfold cells in Hk. rewrite map_length, seq_length in Hk.
    apply in_or_app.
    assert (D : (exists b, In b B /\ (k * BS < N.to_nat b < (k + 1) * BS)%nat) \/ (forall b, In b B -> ~ (k * BS < N.to_nat b < (k + 1) * BS)%nat)).
    { clear -B. induction B as [|b B IH]; [right; intros b []|]. destruct IH as [(c & Hc & H)|H]; [left; exists c; split; [right; exact Hc|exact H]|].
      destruct (le_lt_dec (N.to_nat b) (k * BS)) as [L|L]; [right; intros c [<-|Hc]; [lia|now apply H]|].
      destruct (le_lt_dec ((k + 1) * BS) (N.to_nat b)) as [L'|L']; [right; intros c [<-|Hc]; [lia|now apply H]|]. left. exists b. split; [left; reflexivity|lia]. }
    destruct D as [(b & Hb & H)|H].
    + right. apply in_map_iff. exists b. split; [|exact Hb]. f_equal. symmetry. apply (Nat.div_unique (N.to_nat b) BS k (N.to_nat b - k * BS)); nia.
    + left. destruct (pieces_value B f Hf (N.of_nat (k * BS))) as (b & Hb & E). apply in_map_iff. exists b. split; [|exact Hb].
      apply nth_error_same. intros j. destruct (le_lt_dec BS j) as [L|L].
      { rewrite (proj2 (nth_error_None _ _)) by (rewrite repeat_length; exact L). symmetry. apply nth_error_None. unfold block_reps. rewrite map_length, firstn_length. lia. }
      rewrite nth_repeat_ok by exact L. unfold block_reps. rewrite nth_error_map.
      assert (E2 : nth_error (firstn BS (skipn (k * BS) cells)) j = Some (f (N.of_nat (k * BS + j)), bytes (f (N.of_nat (k * BS + j))))).
      { rewrite nth_firstn, nth_skipn by exact L. unfold cells. rewrite nth_error_map, nth_error_seq by lia. reflexivity. }
      etransitivity; [|symmetry; exact (f_equal (option_map snd) E2)]. cbn [option_map snd]. rewrite <- E. do 2 f_equal. rewrite Nat2N.inj_add. symmetry.
      apply (pieces_const B f _ Hf). intros y Hy Hin. apply (H y Hin). lia.
Qed.

(** ** The records of a database are piecewise constant *)
Definition inb (r : prange) (x : N) : bool := (r_first r <=? x) && (x <=? r_last r).
Definition ends (rs : list prange) : list N := flat_map (fun r => [r_first r; r_last r + 1]) rs.
Lemma ends_in r rs x : In r rs -> ~ In (x + 1) (ends rs) -> inb r (x + 1) = inb r x.
Proof.
  intros Hr Hn. assert (A : x + 1 <> r_first r /\ x + 1 <> r_last r + 1).
  { split; intros E; apply Hn; apply in_flat_map; exists r; (split; [exact Hr|]); rewrite E; cbn; tauto. }
  unfold inb. destruct (N.leb_spec (r_first r) (x + 1)), (N.leb_spec (r_first r) x), (N.leb_spec (x + 1) (r_last r)), (N.leb_spec x (r_last r)); try reflexivity; lia.
Qed.
Section Same.
Variables x y : N.
Definition same (rs : list prange) : Prop := forall r, In r rs -> inb r x = inb r y.
Lemma set_same r v (t : N -> N) : inb r x = inb r y -> t x = t y -> set_range r v t x = set_range r v t y.
Proof. unfold set_range, inb. intros -> ->. reflexivity. Qed.
Lemma fold_same (g : (N -> N) -> prange -> N -> N) rs : same rs -> (forall t r, inb r x = inb r y -> t x = t y -> g t r x = g t r y) ->
  forall t, t x = t y -> fold_left g rs t x = fold_left g rs t y.
Proof.
  intros Hs Hg. induction rs as [|r rs IH]; intros t Ht; [exact Ht|]. cbn [fold_left]. apply IH; [intros r' H; apply Hs; right; exact H|].
  apply Hg; [apply Hs; left; reflexivity|exact Ht].
Qed.
Lemma fill_same ix rs t : same rs -> t x = t y -> fill ix rs t x = fill ix rs t y.
Proof. intros Hs Ht. unfold fill. apply fold_same; [exact Hs| |exact Ht]. intros u r Hr Hu. destruct (smap_get (r_prop r) ix); [now apply set_same|exact Hu]. Qed.
Lemma covered_same rs : same rs -> covered rs x = covered rs y.
Proof.
  intros Hs. unfold covered. induction rs as [|r rs IH]; [reflexivity|]. cbn [existsb]. rewrite IH by (intros r' H; apply Hs; right; exact H).
  f_equal. exact (Hs r (or_introl eq_refl)).
Qed.
Lemma or_same f rs t : same rs -> t x = t y -> or_all f rs t x = or_all f rs t y.
Proof. intros Hs Ht. rewrite !or_all_spec, Ht, (covered_same rs Hs). reflexivity. Qed.
Lemma group_fold_same (g : (N -> N) -> str * list prange -> N -> N) m : same (ungroup m) ->
  (forall t e, same (snd e) -> t x = t y -> g t e x = g t e y) -> forall t, t x = t y -> fold_left g m t x = fold_left g m t y.
Proof.
  intros Hs Hg. induction m as [|e m IH]; intros t Ht; [exact Ht|]. cbn [fold_left]. unfold ungroup in Hs. cbn [map concat] in Hs.
  apply IH; [intros r H; apply Hs; apply in_or_app; right; exact H|]. apply Hg; [|exact Ht]. intros r H. apply Hs. apply in_or_app. left. exact H.
Qed.
Lemma same_filter p rs : same rs -> same (filter p rs).
Proof. intros Hs r H. apply filter_In in H as [H _]. exact (Hs r H). Qed.
Lemma same_group m k : same (ungroup m) -> same (group m k).
Proof.
  intros Hs r H. unfold group in H. destruct (smap_get (lit k) m) as [l|] eqn:E; [|destruct H]. apply Hs. unfold ungroup. apply in_concat. exists l. split; [|exact H].
  clear -E. induction m as [|[k' l'] m IH]; [discriminate|]. cbn [smap_get] in E. cbn [map snd]. destruct (str_eqb (lit k) k'); [injection E as ->; left; reflexivity|right; auto].
Qed.
Definition specials : list N := [0x23; 0x24; 0x2A; 0x2B; 0x30; 0x3A; 0xAD; 0xAE; 0x200D; 0x200E; 0x20E0; 0x20E1; 0x20E3; 0x20E4; 0xFE0E; 0xFE0F; 0xFE10; 0x1F3F4; 0x1F3F5;
  0xE0030; 0xE003A; 0xE0061; 0xE007B; 0xE007F; 0xE0080].
End Same.
Definition all_ranges (d : pdata) : list prange :=
  pd_scripts d ++ pd_gc d ++ ungroup (pd_core d) ++ ungroup (pd_incb d) ++ pd_isc d ++ pd_age d ++ ungroup (pd_gcb d) ++ ungroup (pd_wb d) ++ pd_eaw d ++
  ungroup (pd_emoji d) ++ pd_hst d.
Definition breaks (d : pdata) : list N := ends (all_ranges d) ++ flat_map (fun c => [c; c + 1]) (pd_evs d) ++ specials.
Lemma special_same x k : (x + 1 =? k) = (x =? k) \/ x + 1 = k \/ x + 1 = k + 1.
Proof. destruct (N.eqb_spec (x + 1) k), (N.eqb_spec x k); auto. right. right. lia. Qed.
Lemma records_pieces members d : pieces (breaks d) (rec_at members d).
Proof.
  intros x Hn. unfold breaks in Hn. set (y := x + 1) in *.
  assert (S1 : same y x (all_ranges d)). { intros r Hr. apply (ends_in r (all_ranges d) x Hr). intros H. apply Hn. apply in_or_app. auto. }
  assert (Ev : forall c, In c (pd_evs d) -> (y =? c) = (x =? c)).
  { intros c Hc. destruct (special_same x c) as [E|E]; [exact E|]. exfalso. apply Hn. apply in_or_app. right. apply in_or_app. left. apply in_flat_map. exists c.
    split; [exact Hc|]. fold y in E. cbn. intuition. }
  assert (Sp : forall k, In k specials -> y <> k). { intros k Hk E. apply Hn. rewrite E. apply in_or_app. right. apply in_or_app. right. exact Hk. }
  clear Hn.
  unfold all_ranges in S1.
  assert (S2 : Forall (same y x) [pd_scripts d; pd_gc d; ungroup (pd_core d); ungroup (pd_incb d); pd_isc d; pd_age d; ungroup (pd_gcb d); ungroup (pd_wb d); pd_eaw d;
    ungroup (pd_emoji d); pd_hst d]).
  { repeat (apply Forall_cons; [intros r H; apply S1; rewrite !in_app_iff; tauto|]). apply Forall_nil. }
  clear S1.
  repeat match type of S2 with Forall _ (_ :: _) => let H := fresh "A" in apply Forall_cons_iff in S2 as [H S2] end.
  assert (Escr : rec_script d y = rec_script d x) by (apply fill_same; auto).
  assert (Egc : rec_gc d y = rec_gc d x) by (apply fill_same; auto).
  assert (Egcb : rec_gcb d y = rec_gcb d x) by (apply fill_same; auto).
  assert (Ewb : rec_wb d y = rec_wb d x) by (apply fill_same; auto).
  assert (Eeaw : rec_eaw d y = rec_eaw d x) by (apply fill_same; auto).
  assert (Eage : rec_age members d y = rec_age members d x).
  { unfold rec_age. cbv zeta. apply fold_same; [assumption| |reflexivity]. intros t r Hr Ht. destruct (smap_get (r_prop r) (find_pva (pd_pva d) "Age")) as [[|c s]|]; try exact Ht.
    destruct (smap_get (c :: s) _); [now apply set_same|exact Ht]. }
  assert (Einc : rec_incb d y = rec_incb d x).
  { unfold rec_incb. apply group_fold_same; [assumption| |reflexivity]. intros t e He Ht. destruct (smap_get (fst e) (incb_index d)); [|exact Ht].
    apply fold_same; [exact He| |exact Ht]. intros u r Hr Hu. now apply set_same. }
  assert (Efl : rec_flags d y = rec_flags d x).
  { unfold rec_flags. cbv zeta. apply group_fold_same; [assumption| |].
    - intros t e He Ht. destruct (emoji_flag (fst e)); [now apply or_same|exact Ht].
    - apply or_same; [now apply same_filter|]. apply or_same; [now apply same_group|reflexivity]. }
  assert (Efl2 : rec_flags2 d y = rec_flags2 d x).
  { unfold rec_flags2. rewrite !flags2_fold. replace (existsb (fun cp => (cp <? 1114112) && (y =? cp)) (pd_evs d)) with (existsb (fun cp => (cp <? 1114112) && (x =? cp)) (pd_evs d)); [reflexivity|].
    clear -Ev. induction (pd_evs d) as [|c l IH]; [reflexivity|]. cbn [existsb]. rewrite (Ev c (or_introl eq_refl)), IH; [reflexivity|]. intros c' H. apply Ev. right. exact H. }
  assert (Q : forall k, In k specials -> In (k + 1) specials -> (y =? k) = (x =? k)).
  { intros k H1 H2. destruct (special_same x k) as [E|[E|E]]; [exact E|destruct (Sp k H1 E)|destruct (Sp _ H2 E)]. }
  assert (L : forall k, In k specials -> (k <=? y) = (k <=? x)).
  { intros k H1. specialize (Sp k H1). destruct (N.leb_spec k y), (N.leb_spec k x); try reflexivity; subst y; lia. }
  assert (U : forall k, In (k + 1) specials -> (y <=? k) = (x <=? k)).
  { intros k H1. specialize (Sp _ H1). destruct (N.leb_spec y k), (N.leb_spec x k); try reflexivity; subst y; lia. }
  assert (Ewi : rec_width d y = rec_width d x).
  { unfold rec_width. cbv zeta. rewrite !hst_fold. rewrite (covered_same y x (filter (has_prop ["V"; "T"]%string) (pd_hst d))) by now apply same_filter.
    rewrite (Q 0xAD) by (cbn; tauto).
    pose proof (covered_same y x (filter (has_prop ["Prepend"]%string) (ungroup (pd_gcb d))) ltac:(now apply same_filter)) as Ec.
    destruct (smap_get (lit "Format") (gc_index (pd_gc d))); cbv beta; rewrite ?Ec, Egc, Efl, Eeaw; reflexivity. }
  assert (Ees : rec_esc d y = rec_esc d x).
  { unfold rec_esc. rewrite Efl, Egcb. unfold compute_esc.
    rewrite (Q 0x20E3), (Q 0x20E0), (Q 0x200D), (Q 0xFE0E), (Q 0xFE0F), (Q 0x1F3F4), (Q 0xE007F), (Q 35), (Q 42) by (cbn; tauto).
    rewrite (L 0xE0030), (L 0xE0061), (L 48), (U 0xE0039), (U 0xE007A), (U 57) by (cbn; tauto). reflexivity. }
  unfold rec_at. now rewrite Escr, Egc, Egcb, Ewb, Eeaw, Eage, Einc, Efl, Efl2, Ewi, Ees.
Qed.

(** ** Uniqueness, size of the flags, the table *)
Lemma values_unique F c v v' : files_ok F ->
  ((gives (f_scripts F) c v \/ (forall w, ~ gives (f_scripts F) c w) /\ v = lit "Unknown") ->
   (gives (f_scripts F) c v' \/ (forall w, ~ gives (f_scripts F) c w) /\ v' = lit "Unknown") -> v = v') /\
  (gc_value F c v -> gc_value F c v' -> v = v') /\
  (valued F GCB (gives (f_gcb F) c) (lit "Other") v -> valued F GCB (gives (f_gcb F) c) (lit "Other") v' -> v = v') /\
  (valued F WB (gives (f_wb F) c) (lit "Other") v -> valued F WB (gives (f_wb F) c) (lit "Other") v' -> v = v') /\
  (valued F EAW (gives (f_eaw F) c) (lit "Narrow") v -> valued F EAW (gives (f_eaw F) c) (lit "Narrow") v' -> v = v') /\
  (valued F INCB (fun w => gives (f_core F) c (incb w)) (lit "None") v -> valued F INCB (fun w => gives (f_core F) c (incb w)) (lit "None") v' -> v = v') /\
  (age_value F c v -> age_value F c v' -> v = v').
Proof.
  intros Hok. assert (Hpva : pva_ok (f_pva F)) by apply Hok. pose proof Hpva as (_ & _ & Hal).
  assert (VU : forall prop first (G : str -> Prop) dflt, enum_ok (f_pva F) prop first -> prop <> lit "Block" -> (forall w w' : str, G w -> G w' -> w = w') ->
    valued F prop G dflt v -> valued F prop G dflt v' -> v = v').
  { intros prop first G dflt He Hb HG.
    destruct (load_pva_in false (f_pre F) (f_pva F) prop Hpva Hb) as [Hs Ha].
    apply (valued_unique F prop first _ Ha He Hpva Hb G dflt v v' HG). }
  assert (SG : forall f, In f [f_scripts F; f_gc F; f_isc F; f_age F; f_gcb F; f_wb F; f_eaw F; f_hst F] -> forall w w', gives f c w -> gives f c w' -> w = w').
  { intros f Hf w w'. apply (ok_file F Hok f Hf). }
  assert (S1 : forall w w', gives (f_scripts F) c w -> gives (f_scripts F) c w' -> w = w') by (apply SG; cbn; tauto).
  assert (S2 : forall w w', gives (f_gc F) c w -> gives (f_gc F) c w' -> w = w') by (apply SG; cbn; tauto).
  assert (S3 : forall w w', gives (f_age F) c w -> gives (f_age F) c w' -> w = w') by (apply SG; cbn; tauto).
  split. { intros [A|[A B]] [A'|[A' B']]; [exact (S1 _ _ A A')|destruct (A' _ A)|destruct (A _ A')|congruence]. }
  split.
  { assert (AU : forall a b, gives (f_gc F) c a -> alias (f_pva F) GC a v -> gives (f_gc F) c b -> alias (f_pva F) GC b v' -> v = v').
    { intros a b Ga Aa Gb Ab. rewrite (S2 _ _ Ga Gb) in Aa. exact (Hal GC b v v' ltac:(discriminate) Aa Ab). }
    intros [(a & A & B)|[(A & B & C)|(A & B & C)]] [(a' & A' & B')|[(A' & B' & C')|(A' & B' & C')]]; try congruence;
      try (destruct (A' _ A)); try (destruct (A _ A')); [exact (AU a a' A B A' B')| |].
    - subst v. contradiction. - subst v'. contradiction. }
  split; [apply (VU GCB (lit "Undefined")); [apply Hok|discriminate|apply SG; cbn; tauto]|].
  split; [apply (VU WB []); [apply Hok|discriminate|apply SG; cbn; tauto]|].
  split; [apply (VU EAW []); [apply Hok|discriminate|apply SG; cbn; tauto]|].
  split. { apply (VU INCB []); [apply Hok|discriminate|]. intros w w'. assert (Hc : core_file (f_core F)) by apply Hok. apply Hc. }
  intros [(a & A & B)|[A B]] [(a' & A' & B')|[A' B']].
  - rewrite (S3 _ _ A A') in B. exact (Hal AGE a' v v' ltac:(discriminate) B B').
  - destruct (A' _ _ A B). - destruct (A _ _ A' B'). - congruence.
Qed.
Lemma flags_small crlf F d : files_ok F -> parsed crlf F d -> forall c, rec_flags d c < 256.
Proof.
  intros Hok Hp c. destruct (N.eq_dec (rec_flags d c) 0) as [->|Hz]; [reflexivity|]. change 256 with (2 ^ 8). apply N.log2_lt_pow2; [lia|].
  pose proof (N.bit_log2 _ Hz) as B. apply (flags_bit crlf F d Hok Hp) in B as [[-> _]|[[-> _]|(g & _ & H)]]; [reflexivity|reflexivity|].
  cbn [In] in H. repeat (destruct H as [H|H]; [pose proof (f_equal snd H) as E; cbn [snd] in E; rewrite <- E; reflexivity|]). destruct H.
Qed.
Lemma orec_eq a b : o_width a = o_width b -> o_flags a = o_flags b -> o_flags2 a = o_flags2 b -> o_script a = o_script b -> o_gcb a = o_gcb b -> o_eaw a = o_eaw b ->
  o_gc a = o_gc b -> o_esc a = o_esc b -> o_age a = o_age b -> o_incb a = o_incb b -> o_wb a = o_wb b -> a = b.
Proof. destruct a, b. cbn. congruence. Qed.
Lemma block_count : N.to_nat 0x110000 = (N.to_nat 4352 * 256)%nat.
Proof. change 256%nat with (N.to_nat 256). rewrite <- N2Nat.inj_mul. reflexivity. Qed.
Lemma cells_length members d : length (rec_cells members d) = N.to_nat 0x110000.
Proof. unfold rec_cells. now rewrite map_length, seq_length. Qed.
Lemma cells_nth members d c : c <= 0x10FFFF -> nth_error (rec_cells members d) (N.to_nat c) = Some (rec_at members d c, rec_bytes (rec_at members d c)).
Proof.
  intros H. unfold rec_cells. rewrite nth_error_map, nth_error_seq by lia. cbn [option_map]. now rewrite N2Nat.id.
Qed.
