(** Proofs about cluster width. *)
From Verif Require Import Base Spec_Utf M_Utf8 M_Convert M_Ucd M_Grapheme M_Width M_CApi Spec_Grapheme Spec_Width P_Utf8 P_Convert P_Grapheme.
Open Scope Z_scope.

Lemma cp_width_pos u c : 0 <= cp_width u c.
Proof. unfold cp_width. lia. Qed.

(** ** C24: shortcut = accumulator *)
Lemma single_push u c : ucd_width_ok u -> acc_width (push u acc0 c) = cp_width u c.
Proof.
  intros [[H1 H2] H3]. unfold push. cbn [acc0 a_last a_lastw a_open a_total a_cur a_vir a_skip a_ri].
  destruct (N.eqb_spec c 0x200D) as [->|Hz].
  - unfold cp_width. rewrite H3. reflexivity.
  - rewrite !andb_false_r. change ((0 mod 2 =? 1)%N) with false. rewrite ?andb_false_r.
    assert (HJ : joins_emoji u 0 = false).
    { unfold joins_emoji. rewrite H1, (beq_neq _ _ H2). reflexivity. }
    rewrite HJ, ?andb_false_r. cbn [negb Z.eqb]. pose proof (cp_width_pos u c).
    destruct (Z.eqb_spec (cp_width u c) 0) as [E|E]; cbn [negb].
    + rewrite E. destruct (p_virama (u c)); reflexivity.
    + unfold acc_width. cbn [a_total a_cur]. rewrite Z.add_0_l. destruct (Z.ltb_spec 0 (cp_width u c)); [reflexivity|lia].
Qed.
Lemma cluster_width_acc u cl : ucd_width_ok u -> cluster_width u cl = acc_width (pushes u acc0 cl).
Proof.
  intros OK. destruct cl as [|c [|d cl]]; [reflexivity| |reflexivity].
  cbn [cluster_width pushes fold_left]. symmetry. apply single_push, OK.
Qed.

(** ** C25: bounds *)
Record abounds (n : Z) (s : acc) : Prop := {
  ab_cur : 0 <= a_cur s <= 2;
  ab_lo : - n <= a_total s;
  ab_hi : a_total s + a_cur s <= 2 * n;
  ab_lastw : 0 <= a_lastw s <= 2;
  ab_ri : (a_ri s <= Z.to_N n)%N
}.
Lemma push_bounds u n s c : widths_le2 u -> 0 <= n -> abounds n s -> abounds (n + 1) (push u s c).
Proof.
  intros HW Hn [H1 H2 H3 H4 H5]. pose proof (cp_width_pos u c) as Hp.
  assert (Hp2 : cp_width u c <= 2) by (unfold cp_width; specialize (HW c); lia).
  assert (HR : forall x : bool, ((if x then to_u32 (a_ri s + 1) else 0) <= Z.to_N (n + 1))%N).
  { intros x. destruct x; [|lia]. unfold to_u32.
    assert ((a_ri s + 1) mod 4294967296 <= a_ri s + 1)%N by (apply N.mod_le; lia). lia. }
  unfold push.
  repeat match goal with |- abounds _ (if ?x then _ else _) => destruct x end;
  constructor; cbn [a_last a_lastw a_open a_total a_cur a_vir a_skip a_ri]; try apply HR;
  repeat match goal with |- context [if ?x then _ else _] => destruct x end; lia.
Qed.
Lemma pushes_bounds u : widths_le2 u -> forall cl n s, 0 <= n -> abounds n s -> abounds (n + Z.of_nat (length cl)) (pushes u s cl).
Proof.
  intros HW. induction cl as [|c cl IH]; intros n s Hn H; unfold pushes in *; cbn [fold_left length].
  - rewrite Z.add_0_r. exact H.
  - replace (n + Z.of_nat (S (length cl))) with ((n + 1) + Z.of_nat (length cl)) by lia.
    apply IH; [lia|]. apply push_bounds; assumption.
Qed.
Lemma acc0_bounds : abounds 0 acc0.
Proof. constructor; cbn; lia. Qed.
Lemma cluster_width_bounds u cl : widths_le2 u -> 0 <= cluster_width u cl <= 2 * Z.of_nat (length cl).
Proof.
  intros HW. destruct cl as [|c [|d cl]].
  - cbn. lia.
  - cbn [cluster_width length]. unfold cp_width. specialize (HW c). lia.
  - cbn [cluster_width]. pose proof (pushes_bounds u HW (c :: d :: cl) 0 acc0 ltac:(lia) acc0_bounds) as [B1 B2 B3 _ _].
    unfold acc_width. destruct (Z.ltb_spec 0 (a_total (pushes u acc0 (c :: d :: cl)) + a_cur (pushes u acc0 (c :: d :: cl)))); lia.
Qed.

(** ** C26: single steps *)

Lemma ri_false (u : ucd) c : p_gcb (u c) <> GRI -> gcb_beq (p_gcb (u c)) GRI = false.
Proof. apply beq_neq. Qed.
Lemma tone_false c : ~ (0x1F3FB <= c <= 0x1F3FF)%N -> ((0x1F3FB <=? c) && (c <=? 0x1F3FF))%N = false.
Proof. intros H. destruct (N.leb_spec 0x1F3FB c), (N.leb_spec c 0x1F3FF); cbn; try reflexivity; lia. Qed.

Lemma push_base u s b : base u b -> a_skip s = false -> a_vir s = false -> a_cur s = 0 ->
  push u s b = mkA b (cp_width u b) true (a_total s) (cp_width u b) false false 0.
Proof.
  intros (H1 & H2 & H3 & H4 & H5 & H6) S1 S2 S3. unfold push. rewrite S1, (ri_false u b H6), S2, S3.
  apply N.eqb_neq in H2, H3, H4. rewrite H2, H3, H4, (tone_false b H5). cbn [andb negb Z.eqb].
  destruct (Z.eqb_spec (cp_width u b) 0) as [E|E]; [unfold cp_width in E; lia|]. reflexivity.
Qed.
Lemma push_mark u m s : mark u m -> a_skip s = false ->
  push u s m = mkA (a_last s) (a_lastw s) (a_open s) (a_total s) (a_cur s) false false 0.
Proof.
  intros (H1 & H2 & H3 & H4 & H5 & H6 & H7 & H8) S1. unfold push. rewrite S1, (ri_false u m H4).
  apply N.eqb_neq in H5, H6, H7. rewrite H5, H6, H7, (tone_false m H8). cbn [andb].
  unfold cp_width. rewrite H1, H2, H3. reflexivity.
Qed.
Lemma pushes_marks u ms : marks u ms -> forall b w o t c, 
  pushes u (mkA b w o t c false false 0) ms = mkA b w o t c false false 0.
Proof.
  intros HM b w o t c. unfold pushes. induction HM as [|m ms Hm HM IH]; cbn [fold_left]; [reflexivity|].
  rewrite (push_mark u m _ Hm) by reflexivity. exact IH.
Qed.
Lemma pushes_app u s l1 l2 : pushes u s (l1 ++ l2) = pushes u (pushes u s l1) l2.
Proof. apply fold_left_app. Qed.

Lemma based_state u b ms : base u b -> marks u ms ->
  pushes u acc0 (b :: ms) = mkA b (cp_width u b) true 0 (cp_width u b) false false 0.
Proof.
  intros HB HM. change (b :: ms) with ([b] ++ ms). rewrite pushes_app. cbn [pushes fold_left].
  rewrite (push_base u acc0 b HB) by reflexivity. cbn [acc0 a_total]. apply pushes_marks, HM.
Qed.

Lemma cluster_acc2 u b ms tail : ucd_width_ok u -> cluster_width u ((b :: ms) ++ tail) = acc_width (pushes u (pushes u acc0 (b :: ms)) tail).
Proof. intros OK. rewrite cluster_width_acc by exact OK. rewrite pushes_app. reflexivity. Qed.

Lemma acc_width_pos b w o t c v k r : 0 <= t + c -> acc_width (mkA b w o t c v k r) = t + c.
Proof. intros H. unfold acc_width. cbn [a_total a_cur]. destruct (Z.ltb_spec 0 (t + c)); lia. Qed.

Lemma width_marks u b ms : ucd_width_ok u -> base u b -> marks u ms -> cluster_width u (b :: ms) = cp_width u b.
Proof.
  intros OK HB HM. rewrite cluster_width_acc by exact OK. rewrite based_state by assumption.
  rewrite acc_width_pos; pose proof (cp_width_pos u b); lia.
Qed.

Lemma width_vs16 u b ms ms2 : ucd_width_ok u -> base u b -> marks u ms -> marks u ms2 -> p_gcb (u 0xFE0F%N) <> GRI ->
  cluster_width u ((b :: ms) ++ 0xFE0F%N :: ms2) =
  if p_varbase (u b) && (p_width (u b) =? 1)%N then 2 else cp_width u b.
Proof.
  intros OK HB HM HM2 HR. rewrite cluster_acc2, based_state by assumption.
  change (0xFE0F%N :: ms2) with ([0xFE0F%N] ++ ms2). rewrite pushes_app. cbn [pushes fold_left]. unfold push at 1.
  cbn [a_last a_lastw a_open a_total a_cur a_vir a_skip a_ri]. rewrite (ri_false u _ HR).
  change (0xFE0F =? 0x200D)%N with false. change (0xFE0F =? 0xFE0F)%N with true. cbn [andb].
  fold (pushes u). rewrite pushes_marks by assumption. rewrite acc_width_pos.
  - destruct (p_varbase (u b) && (p_width (u b) =? 1)%N); lia.
  - pose proof (cp_width_pos u b). destruct (p_varbase (u b) && (p_width (u b) =? 1)%N); lia.
Qed.

Lemma width_vs15 u b ms ms2 : ucd_width_ok u -> base u b -> marks u ms -> marks u ms2 -> p_gcb (u 0xFE0E%N) <> GRI ->
  cluster_width u ((b :: ms) ++ 0xFE0E%N :: ms2) =
  if p_varbase (u b) && (p_width (u b) =? 2)%N then 1 else cp_width u b.
Proof.
  intros OK HB HM HM2 HR. rewrite cluster_acc2, based_state by assumption.
  change (0xFE0E%N :: ms2) with ([0xFE0E%N] ++ ms2). rewrite pushes_app. cbn [pushes fold_left]. unfold push at 1.
  cbn [a_last a_lastw a_open a_total a_cur a_vir a_skip a_ri]. rewrite (ri_false u _ HR).
  change (0xFE0E =? 0x200D)%N with false. change (0xFE0E =? 0xFE0F)%N with false. change (0xFE0E =? 0xFE0E)%N with true. cbn [andb].
  fold (pushes u). rewrite pushes_marks by assumption.
  assert (E : (cp_width u b =? 2) = (p_width (u b) =? 2)%N) by (unfold cp_width; lia). rewrite E.
  assert (HW : cp_width u b = Z.of_N (p_width (u b))) by reflexivity.
  destruct (p_varbase (u b)); cbn [andb]; [destruct (N.eqb_spec (p_width (u b)) 2) as [K|K]|]; rewrite acc_width_pos; lia.
Qed.

Lemma width_spacing u b ms m ms2 : ucd_width_ok u -> base u b -> marks u ms -> spacing_mark u m -> marks u ms2 ->
  cluster_width u ((b :: ms) ++ m :: ms2) = 2.
Proof.
  intros OK HB HM (H1 & H2 & H3 & H4 & H5 & H6 & H7 & H8) HM2. rewrite cluster_acc2, based_state by assumption.
  change (m :: ms2) with ([m] ++ ms2). rewrite pushes_app. cbn [pushes fold_left]. unfold push at 1.
  cbn [a_last a_lastw a_open a_total a_cur a_vir a_skip a_ri]. rewrite (ri_false u m H4).
  apply N.eqb_neq in H5, H6, H7. rewrite H5, H6, H7, (tone_false m H8). cbn [andb].
  replace (cp_width u m) with 0 by (unfold cp_width; rewrite H1; reflexivity). rewrite H2, H3. cbn [negb Z.eqb Z.of_N andb].
  fold (pushes u). rewrite pushes_marks by assumption. reflexivity.
Qed.

Lemma push_virama u v s : virama u v -> a_skip s = false ->
  push u s v = mkA (a_last s) (a_lastw s) (a_open s) (a_total s) (a_cur s) true false 0.
Proof.
  intros (H1 & H2 & H4 & H5 & H6 & H7 & H8) S1. unfold push. rewrite S1, (ri_false u v H4).
  apply N.eqb_neq in H5, H6, H7. rewrite H5, H6, H7, (tone_false v H8). cbn [andb].
  unfold cp_width. rewrite H1, H2. reflexivity.
Qed.
Lemma pushes_zwj_after_virama u zs : p_gcb (u 0x200D%N) <> GRI -> Forall (fun z => z = 0x200D%N) zs -> forall b w o t c,
  pushes u (mkA b w o t c true false 0) zs = mkA b w o t c true false 0.
Proof.
  intros HR HZ b w o t c. unfold pushes. induction HZ as [|z zs -> HZ IH]; cbn [fold_left]; [reflexivity|].
  unfold push at 2. cbn [a_last a_lastw a_open a_total a_cur a_vir a_skip a_ri]. rewrite (ri_false u _ HR).
  change (0x200D =? 0x200D)%N with true. cbn [negb]. exact IH.
Qed.
Lemma width_conjunct u b ms v zs c2 ms2 : ucd_width_ok u -> p_gcb (u 0x200D%N) <> GRI ->
  base u b -> marks u ms -> virama u v -> Forall (fun z => z = 0x200D%N) zs -> base u c2 -> marks u ms2 ->
  cluster_width u ((b :: ms) ++ v :: zs ++ c2 :: ms2) = 2.
Proof.
  intros OK HR HB HM HV HZ (H1 & H2 & H3 & H4 & H5 & H6) HM2. rewrite cluster_acc2, based_state by assumption.
  change (v :: zs ++ c2 :: ms2) with ([v] ++ zs ++ [c2] ++ ms2). rewrite !pushes_app. cbn [pushes fold_left].
  rewrite (push_virama u v _ HV) by reflexivity. cbn [a_last a_lastw a_open a_total a_cur].
  fold (pushes u). rewrite pushes_zwj_after_virama by assumption. unfold push at 1.
  cbn [a_last a_lastw a_open a_total a_cur a_vir a_skip a_ri]. rewrite (ri_false u c2 H6).
  apply N.eqb_neq in H2, H3, H4. rewrite H2, H3, H4, (tone_false c2 H5). cbn [andb].
  destruct (Z.eqb_spec (cp_width u c2) 0) as [E|E]; [unfold cp_width in E; lia|]. cbn [negb].
  rewrite pushes_marks by assumption. reflexivity.
Qed.

Lemma width_tone u b ms t ms2 : ucd_width_ok u -> base u b -> joins_emoji u b = true -> marks u ms ->
  (0x1F3FB <= t <= 0x1F3FF)%N -> p_gcb (u t) <> GRI -> marks u ms2 ->
  cluster_width u ((b :: ms) ++ t :: ms2) = cp_width u b.
Proof.
  intros OK HB HJ HM HT HR HM2. rewrite cluster_acc2, based_state by assumption.
  change (t :: ms2) with ([t] ++ ms2). rewrite pushes_app. cbn [pushes fold_left]. unfold push at 1.
  cbn [a_last a_lastw a_open a_total a_cur a_vir a_skip a_ri]. rewrite (ri_false u t HR).
  replace (t =? 0x200D)%N with false by lia. replace (t =? 0xFE0F)%N with false by lia. replace (t =? 0xFE0E)%N with false by lia.
  replace ((0x1F3FB <=? t) && (t <=? 0x1F3FF))%N with true by lia. rewrite HJ. cbn [andb].
  fold (pushes u). rewrite pushes_marks by assumption. rewrite acc_width_pos; pose proof (cp_width_pos u b); lia.
Qed.

(** ZWJ swallows the next code point, whatever it is *)
Lemma push_skip_false u s c : a_skip s = false -> c <> 0x200D%N -> a_skip (push u s c) = false.
Proof.
  intros H Hc. unfold push. rewrite H. apply N.eqb_neq in Hc. rewrite Hc.
  repeat match goal with |- context [if ?x then _ else _] => destruct x end; reflexivity.
Qed.
Lemma push_skip_false2 u s c : c <> 0x200D%N -> a_skip (push u s c) = false.
Proof.
  intros Hc. destruct (a_skip s) eqn:E; [unfold push; rewrite E; reflexivity|]. apply push_skip_false; assumption.
Qed.
Lemma push_vir_false u s c : a_vir s = false -> p_virama (u c) = false -> a_vir (push u s c) = false.
Proof.
  intros H Hc. unfold push. rewrite H, Hc.
  repeat match goal with |- context [if ?x then _ else _] => destruct x end; reflexivity.
Qed.
Lemma pushes_vir_false u p : forall s, a_vir s = false -> Forall (fun c => p_virama (u c) = false) p -> a_vir (pushes u s p) = false.
Proof.
  unfold pushes. induction p as [|c p IH]; intros s H HF; cbn [fold_left]; [exact H|]. inversion HF; subst.
  apply IH; [apply push_vir_false|]; assumption.
Qed.
Lemma pushes_last_skip u p c s : c <> 0x200D%N -> a_skip (pushes u s (p ++ [c])) = false.
Proof. intros H. rewrite pushes_app. cbn [pushes fold_left]. apply push_skip_false2, H. Qed.

Lemma width_zwj u p c x : ucd_width_ok u -> Forall (fun c => p_virama (u c) = false) (p ++ [c]) -> c <> 0x200D%N ->
  cluster_width u ((p ++ [c]) ++ [0x200D; x]%N) = cluster_width u (p ++ [c]).
Proof.
  intros OK HV Hc. rewrite !cluster_width_acc by exact OK. rewrite pushes_app.
  pose proof (pushes_last_skip u p c acc0 Hc) as HS. pose proof (pushes_vir_false u (p ++ [c]) acc0 eq_refl HV) as HVir.
  set (s := pushes u acc0 (p ++ [c])) in *. cbn [pushes fold_left]. unfold push at 2. rewrite HS, HVir.
  change (0x200D =? 0x200D)%N with true. cbn [negb]. unfold push. cbn [a_last a_lastw a_open a_total a_cur a_vir a_skip a_ri].
  unfold acc_width. cbn [a_total a_cur]. reflexivity.
Qed.

(** a plain mark never changes the width, wherever it stands *)
Lemma width_mark_anywhere u p m : ucd_width_ok u -> mark u m -> cluster_width u (p ++ [m]) = cluster_width u p.
Proof.
  intros OK HM. rewrite !cluster_width_acc by exact OK. rewrite pushes_app. cbn [pushes fold_left].
  fold (pushes u acc0 p). set (s := pushes u acc0 p).
  destruct (a_skip s) eqn:ES.
  - unfold push. rewrite ES. reflexivity.
  - rewrite (push_mark u m s HM ES). reflexivity.
Qed.

(** flags *)

Lemma push_ri u s c : ri_cp u c -> a_skip s = false -> a_vir s = false -> (a_ri s < 2 ^ 31)%N ->
  push u s c = if (a_ri s mod 2 =? 1)%N then mkA c (a_lastw s) (a_open s) (a_total s) (a_cur s) false false (a_ri s + 1)
               else mkA c 2 true (a_total s + a_cur s) 2 false false (a_ri s + 1).
Proof.
  intros (H1 & H2 & H3 & H4 & H5 & H6) S1 S2 S3. unfold push. rewrite S1, S2, H1. cbn [gcb_beq].
  apply N.eqb_neq in H4, H5, H6. rewrite H4, H5, H6, (tone_false c H3). cbn [andb negb].
  assert (E : to_u32 (a_ri s + 1) = (a_ri s + 1)%N).
  { unfold to_u32. apply N.mod_small. change (2 ^ 31)%N with 2147483648%N in S3. lia. }
  rewrite E. destruct (a_ri s mod 2 =? 1)%N; [reflexivity|].
  unfold cp_width. rewrite H2. cbn [Z.of_N Z.eqb negb]. destruct (Z.eqb_spec (a_cur s) 0) as [K|K]; cbn [negb]; [|reflexivity].
  rewrite K, Z.add_0_r. reflexivity.
Qed.

Lemma pushes_ris u : forall ris s, Forall (ri_cp u) ris -> a_skip s = false -> a_vir s = false ->
  (a_ri s + N.of_nat (length ris) < 2 ^ 31)%N ->
  let s' := pushes u s ris in
  a_skip s' = false /\ a_vir s' = false /\ a_ri s' = (a_ri s + N.of_nat (length ris))%N /\
  a_total s' + a_cur s' = a_total s + a_cur s + 2 * ((Z.of_N (a_ri s) + Z.of_nat (length ris) + 1) / 2 - (Z.of_N (a_ri s) + 1) / 2).
Proof.
  induction ris as [|c ris IH]; intros s HF S1 S2 S3; unfold pushes in *; cbn [fold_left length] in *.
  - repeat split; auto; lia.
  - inversion HF as [|? ? Hc HF']; subst.
    pose proof (push_ri u s c Hc S1 S2 ltac:(lia)) as E.
    destruct (a_ri s mod 2 =? 1)%N eqn:EM.
    + specialize (IH (push u s c) HF'). rewrite E in IH. cbn [a_last a_lastw a_open a_total a_cur a_vir a_skip a_ri] in IH.
      rewrite <- E in IH. destruct IH as (A1 & A2 & A3 & A4); [reflexivity|reflexivity|lia|]. repeat split; [exact A1|exact A2|lia|]. rewrite A4. lia.
    + specialize (IH (push u s c) HF'). rewrite E in IH. cbn [a_last a_lastw a_open a_total a_cur a_vir a_skip a_ri] in IH.
      rewrite <- E in IH. destruct IH as (A1 & A2 & A3 & A4); [reflexivity|reflexivity|lia|]. repeat split; [exact A1|exact A2|lia|]. rewrite A4. lia.
Qed.
Lemma width_flags u ris : ucd_width_ok u -> Forall (ri_cp u) ris -> (N.of_nat (length ris) < 2 ^ 31)%N ->
  cluster_width u ris = 2 * ((Z.of_nat (length ris) + 1) / 2).
Proof.
  intros OK HF HL. rewrite cluster_width_acc by exact OK.
  destruct (pushes_ris u ris acc0 HF eq_refl eq_refl) as (_ & _ & _ & E); [cbn [acc0 a_ri]; lia|].
  unfold acc_width. cbv zeta. rewrite E. cbn [acc0 a_total a_cur a_ri]. destruct (Z.ltb_spec 0 (0 + 0 + 2 * ((Z.of_N 0 + Z.of_nat (length ris) + 1) / 2 - (Z.of_N 0 + 1) / 2))); lia.
Qed.

(** ** C27, C60: the loops *)
Lemma fold_stuck (f : list N -> Res Z) (add : Z -> Z -> Z) (r : Res Z) cl : (r = UB \/ r = NoFuel) ->
  fold_left (fun acc c => do t <- acc; do x <- f c; Ok (add t x)) cl r = r.
Proof. intros [-> | ->]; induction cl as [|c cl IH]; cbn [fold_left bindR]; auto. Qed.
Lemma sum_clusters_spec u add (w : list N -> Res Z) : forall fuel s total cl, seg_collect u fuel s = Ok cl ->
  sum_clusters u add w fuel s total = fold_left (fun acc c => do t <- acc; do x <- w c; Ok (add t x)) cl (Ok total).
Proof.
  induction fuel as [|fuel IH]; intros s total cl; cbn [sum_clusters seg_collect]; destruct (seg_available s); try discriminate.
  - intros H. injection H as <-. cbn [fold_left bindR]. destruct (w (seg_value s)); reflexivity.
  - destruct (seg_collect u fuel (seg_next u s)) as [l| |] eqn:E; cbn [bindR]; try discriminate. intros H. injection H as <-.
    cbn [fold_left bindR]. destruct (w (seg_value s)) as [x| |]; cbn [bindR].
    + apply IH, E.
    + symmetry. apply fold_stuck. auto.
    + symmetry. apply fold_stuck. auto.
  - intros H. injection H as <-. cbn [fold_left bindR]. destruct (w (seg_value s)); reflexivity.
Qed.

Lemma sum_clusters_text u add w t total :
  sum_clusters u add w (length t) (seg_make u t) total =
  fold_left (fun acc c => do t <- acc; do x <- w c; Ok (add t x)) (clusters_of u t) (Ok total).
Proof. apply sum_clusters_spec. apply grapheme_clusters_eq. Qed.

Lemma fold_sum_ok add (f : list N -> Z) cl : forall total,
  fold_left (fun (acc : Res Z) c => do t <- acc; do x <- Ok (f c); Ok (add t x)) cl (Ok total) = Ok (fold_left (fun t c => add t (f c)) cl total).
Proof. induction cl as [|c cl IH]; intros total; cbn [fold_left bindR]; [reflexivity|apply IH]. Qed.
Lemma fold_add (f : list N -> Z) cl : forall total, fold_left (fun t c => t + f c) cl total = total + zsum (map f cl).
Proof. induction cl as [|c cl IH]; intros total; cbn [fold_left map zsum fold_right]; [lia|]. rewrite IH. unfold zsum. lia. Qed.
Lemma fold_add_mod (f : list N -> Z) cl m : 0 < m -> forall total, 0 <= total < m ->
  fold_left (fun t c => (t + f c) mod m) cl total = (total + zsum (map f cl)) mod m.
Proof.
  intros Hm. induction cl as [|c cl IH]; intros total Ht; cbn [fold_left map zsum fold_right].
  - rewrite Z.add_0_r, Z.mod_small; [reflexivity|exact Ht].
  - rewrite IH by (apply Z.mod_pos_bound, Hm). rewrite Zplus_mod_idemp_l. unfold zsum. f_equal. lia.
Qed.

Lemma count_loop_spec u : forall fuel s k cl, seg_collect u fuel s = Ok cl -> count_loop u fuel s k = Ok (k + Z.of_nat (length cl) - 1).
Proof.
  induction fuel as [|fuel IH]; intros s k cl; cbn [seg_collect count_loop]; destruct (seg_available s); try discriminate.
  - intros H. injection H as <-. cbn [length]. f_equal. lia.
  - destruct (seg_collect u fuel (seg_next u s)) as [l| |] eqn:E; cbn [bindR]; try discriminate. intros H. injection H as <-.
    rewrite (IH _ _ _ E). cbn [length]. f_equal. lia.
  - intros H. injection H as <-. cbn [length]. f_equal. lia.
Qed.

(** ** u32u8_convert *)
Lemma u32u8_loop_spec : forall src wr rest nw, exists r dest',
  u32u8_loop src (wr ++ rest) (length wr) (length rest) nw = Ok (r, dest') /\
  length dest' = length (wr ++ rest) /\
  firstn (length wr) dest' = wr /\
  ((r = nw + Z.of_nat (length (flat_map encoder_char src)) /\ dest' = wr ++ flat_map encoder_char src ++ skipn (length (flat_map encoder_char src)) rest /\
    ((src = [] \/ length (flat_map encoder_char src) < length rest)%nat)) \/
   (r = -1 /\ src <> [] /\ (length rest <= length (flat_map encoder_char src))%nat)).
Proof.
  induction src as [|c src IH]; intros wr rest nw; cbn [u32u8_loop flat_map].
  - exists nw, (wr ++ rest). split; [reflexivity|]. split; [reflexivity|]. split; [apply firstn_app_exact|]. left.
    cbn [length app]. split; [lia|]. split; [reflexivity|]. left. reflexivity.
  - destruct (Nat.ltb_spec (length (encoder_char c)) (length rest)) as [H|H]; cbn [negb].
    + rewrite store_append by lia. cbn [bindR].
      specialize (IH (wr ++ encoder_char c) (skipn (length (encoder_char c)) rest) (nw + Z.of_nat (length (encoder_char c)))).
      rewrite app_length, skipn_length in IH. destruct IH as (r & dest' & E & L & F & D).
      exists r, dest'. split; [exact E|]. split; [rewrite L, !app_length, skipn_length; lia|]. split.
      { assert (F' : firstn (length wr) (firstn (length wr + length (encoder_char c)) dest') = wr).
        { rewrite F. apply firstn_app_exact. }
        rewrite firstn_firstn in F'. replace (Nat.min (length wr) (length wr + length (encoder_char c))) with (length wr) in F' by lia. exact F'. }
      rewrite app_length. destruct D as [(R & DD & S)|(R & S1 & S2)].
      * left. split; [lia|]. split.
        -- rewrite DD, skipn_skipn, <- !app_assoc. reflexivity.
        -- right. destruct S as [->|S]; [cbn [flat_map length]; lia|]. rewrite ?skipn_length in S. lia.
      * right. split; [exact R|]. split; [discriminate|]. rewrite ?skipn_length in S2. lia.
    + exists (-1), (wr ++ rest). split; [reflexivity|]. split; [reflexivity|]. split; [apply firstn_app_exact|]. right.
      split; [reflexivity|]. split; [discriminate|]. rewrite app_length. lia.
Qed.

Lemma zsum_bounds u cl : widths_le2 u -> 0 <= zsum (map (cluster_width u) cl) <= 2 * Z.of_nat (length (concat cl)).
Proof.
  intros HW. induction cl as [|c cl IH]; cbn [map concat]; unfold zsum in *; cbn [fold_right length]; [lia|].
  rewrite app_length. pose proof (cluster_width_bounds u c HW). lia.
Qed.
