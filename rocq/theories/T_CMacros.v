(** Property theorems C99, C100: the macros and the linkage of the C API header. *)
From Verif Require Import Base M_CMacros Spec_CMacros.
Open Scope N_scope.

Definition usable (lang : language) : N := match lang with LangC => 10 | LangCxx20 => 11 end.
Lemma shl_ok lang i : i < usable lang -> shl_one lang (i + 21) = Ok (2 ^ (i + 21)).
Proof.
  intros H. unfold shl_one. destruct (N.ltb_spec (i + 21) 31); [reflexivity|].
  destruct lang; cbn [usable] in H; [lia|]. destruct (N.eqb_spec (i + 21) 31) as [->|]; [reflexivity|lia].
Qed.
Lemma below c n k : c < 2 ^ k -> k <= n -> N.testbit c n = false.
Proof.
  intros H Hn. destruct (N.eq_dec c 0) as [->|H0]; [apply N.bits_0|]. apply N.bits_above_log2.
  assert (N.log2 c < k) by (apply N.log2_lt_pow2; lia). lia.
Qed.
Lemma bits_below c k : (forall n, k <= n -> N.testbit c n = false) -> c < 2 ^ k.
Proof.
  intros H. destruct (N.eq_dec c 0) as [->|H0]; [lia|]. apply N.log2_lt_pow2; [lia|].
  destruct (N.ltb_spec (N.log2 c) k) as [L|L]; [exact L|]. specialize (H _ L). rewrite N.bit_log2 in H by exact H0. discriminate.
Qed.
Lemma land_pow2 c n : negb (N.land c (2 ^ n) =? 0) = N.testbit c n.
Proof.
  destruct (N.testbit c n) eqn:E.
  - apply negb_true_iff, N.eqb_neq. intros H. apply (f_equal (fun x => N.testbit x n)) in H.
    rewrite N.land_spec, E, N.pow2_bits_true, N.bits_0 in H. discriminate.
  - apply negb_false_iff, N.eqb_eq. apply N.bits_inj_0. intros k. rewrite N.land_spec.
    destruct (N.eq_dec k n) as [->|Hk]; [rewrite E; reflexivity|]. rewrite N.pow2_bits_false by lia. apply andb_false_r.
Qed.
Lemma get_bit lang c i : i < usable lang -> unused_bit_get lang c i = Ok (N.testbit c (i + 21)).
Proof. intros H. unfold unused_bit_get. rewrite (shl_ok lang i H). cbn [bindR]. now rewrite land_pow2. Qed.
Lemma on_bits lang c i : i < usable lang -> exists c', unused_bit_on lang c i = Ok c' /\
  forall n, N.testbit c' n = if n =? i + 21 then true else N.testbit c n.
Proof.
  intros H. unfold unused_bit_on. rewrite (shl_ok lang i H). eexists. split; [reflexivity|]. intros n. rewrite N.lor_spec.
  destruct (N.eqb_spec n (i + 21)) as [->|Hn]; [rewrite N.pow2_bits_true; apply orb_true_r|].
  rewrite N.pow2_bits_false by lia. apply orb_false_r.
Qed.
Lemma complement_bits m : m < 2 ^ 32 -> complement m = N.ldiff (N.ones 32) m.
Proof.
  intros H. unfold complement. change 0xFFFFFFFF with (N.ones 32). symmetry. change (N.ones 32) with (N.ones 32).
  rewrite N.sub_nocarry_ldiff; [reflexivity|]. apply N.bits_inj_0. intros n. rewrite N.ldiff_spec.
  destruct (N.ltb_spec n 32) as [L|L]; [rewrite (N.ones_spec_low 32 n L); apply andb_false_r|].
  rewrite (below m n 32 H L). reflexivity.
Qed.
Lemma off_bits lang c i : c < 2 ^ 32 -> i < usable lang -> exists c', unused_bit_off lang c i = Ok c' /\
  forall n, N.testbit c' n = if n =? i + 21 then false else N.testbit c n.
Proof.
  intros Hc H. unfold unused_bit_off. rewrite (shl_ok lang i H). eexists. split; [reflexivity|]. intros n.
  assert (Hi : i + 21 < 32) by (destruct lang; cbn [usable] in H; lia).
  rewrite complement_bits by (apply N.pow_lt_mono_r; lia). rewrite N.land_spec, N.ldiff_spec.
  destruct (N.eqb_spec n (i + 21)) as [->|Hn].
  - rewrite N.pow2_bits_true. cbn [negb]. rewrite andb_false_r. apply andb_false_r.
  - rewrite N.pow2_bits_false by lia. cbn [negb]. rewrite andb_true_r.
    destruct (N.ltb_spec n 32) as [L|L]; [rewrite (N.ones_spec_low 32 n L); apply andb_true_r|].
    rewrite (below c n 32 Hc L). reflexivity.
Qed.
Lemma step_bits lang c (b : bool) i : c < 2 ^ 32 -> i < usable lang ->
  exists c', (if b then unused_bit_on lang c i else unused_bit_off lang c i) = Ok c' /\ c' < 2 ^ 32 /\
    forall n, N.testbit c' n = if n =? i + 21 then b else N.testbit c n.
Proof.
  intros Hc H. assert (Hi : i + 21 < 32) by (destruct lang; cbn [usable] in H; lia).
  assert (S0 : exists c', (if b then unused_bit_on lang c i else unused_bit_off lang c i) = Ok c' /\
    forall n, N.testbit c' n = if n =? i + 21 then b else N.testbit c n).
  { destruct b; [apply on_bits, H|apply off_bits; assumption]. }
  destruct S0 as (c' & E & B). exists c'. split; [exact E|]. split; [|exact B].
  apply bits_below. intros n Hn. rewrite B. destruct (N.eqb_spec n (i + 21)); [lia|]. exact (below c n 32 Hc Hn).
Qed.
Lemma history_bits lang ops : forall c, c < 2 ^ 32 -> Forall (fun op => snd op < usable lang) ops ->
  exists c', bit_history lang c ops = Ok c' /\ c' < 2 ^ 32 /\
    forall n, N.testbit c' n = if n <? 21 then N.testbit c n else last_setting (N.testbit c n) ops (n - 21).
Proof.
  induction ops as [|(b, i) ops IH]; intros c Hc Hops.
  - exists c. split; [reflexivity|]. split; [exact Hc|]. intros n. destruct (n <? 21); reflexivity.
  - apply Forall_cons_iff in Hops as (Hi & Hops). cbn [snd] in Hi.
    destruct (step_bits lang c b i Hc Hi) as (c1 & E1 & Hc1 & B1).
    destruct (IH c1 Hc1 Hops) as (c' & E' & Hc' & B'). exists c'.
    split; [cbn [bit_history]; rewrite E1; exact E'|]. split; [exact Hc'|].
    intros n. rewrite B', B1. destruct (N.ltb_spec n 21) as [L|L].
    + destruct (N.eqb_spec n (i + 21)); [lia|reflexivity].
    + unfold last_setting. cbn [fold_left fst snd]. f_equal.
      destruct (N.eqb_spec n (i + 21)), (N.eqb_spec i (n - 21)); try lia; reflexivity.
Qed.

(** C99, full statement: in both languages the header serves, any history of setting and clearing unused bits with indices below
    the advertised capacity is defined, leaves the code point alone, and is read back by get. *)
Definition C99_statement (lang : language) (indices : N) : Prop :=
  forall c ops, c < 2 ^ 32 -> Forall (fun op => snd op < indices) ops ->
  exists c', bit_history lang c ops = Ok c' /\ c' < 2 ^ 32 /\ unused_bit_cleared c' = unused_bit_cleared c /\
    forall i, i < indices -> exists b0, unused_bit_get lang c i = Ok b0 /\ unused_bit_get lang c' i = Ok (last_setting b0 ops i).
Theorem C99_capacity : unused_bit_capacity = 11.
Proof. reflexivity. Qed.
Lemma statement_usable lang : C99_statement lang (usable lang).
Proof.
  intros c ops Hc Hops. destruct (history_bits lang ops c Hc Hops) as (c' & E & Hc' & B). exists c'.
  split; [exact E|]. split; [exact Hc'|]. split.
  - unfold unused_bit_cleared. change 0x1FFFFF with (N.ones 21). apply N.bits_inj. intros n. rewrite !N.land_spec.
    destruct (N.ltb_spec n 21) as [L|L]; [|rewrite N.ones_spec_high by exact L; rewrite !andb_false_r; reflexivity].
    rewrite B. destruct (N.ltb_spec n 21); [reflexivity|lia].
  - intros i Hi. exists (N.testbit c (i + 21)). split; [apply get_bit, Hi|]. rewrite get_bit by exact Hi. rewrite B.
    destruct (N.ltb_spec (i + 21) 21); [lia|]. rewrite N.add_sub. reflexivity.
Qed.
Theorem C99_cxx20 : C99_statement LangCxx20 unused_bit_capacity.
Proof. exact (statement_usable LangCxx20). Qed.
(** In C the eleventh bit is 1 << 31 on an int: undefined. *)
Theorem C99_C_refuted : ~ C99_statement LangC unused_bit_capacity.
Proof.
  intros H. destruct (H 0x41 [(true, 10)]) as (c' & E & _); [reflexivity|repeat constructor|]. vm_compute in E. discriminate E.
Qed.
(** In C the first ten bits work; missing: index 10. *)
Theorem C99_C_partial : C99_statement LangC 10.
Proof. exact (statement_usable LangC). Qed.
(** u32_unused_bit_mask shows exactly the bits get shows, and together with the cleared code point it is the whole word. *)
Theorem C99_mask : forall c i, i < 11 -> unused_bit_get LangCxx20 c i = Ok (N.testbit (unused_bit_mask c) i).
Proof. intros c i H. rewrite (get_bit LangCxx20 c i H). unfold unused_bit_mask. rewrite N.shiftr_spec by lia. reflexivity. Qed.
Theorem C99_mask_and_codepoint : forall c, c = unused_bit_mask c * 2 ^ 21 + unused_bit_cleared c.
Proof.
  intros c. unfold unused_bit_mask, unused_bit_cleared. change 0x1FFFFF with (N.ones 21). rewrite N.land_ones, N.shiftr_div_pow2.
  rewrite N.mul_comm. apply N.div_mod. apply N.pow_nonzero. discriminate.
Qed.
Theorem C99_codepoint_kept : forall c ops, c <= 0x10FFFF -> Forall (fun op => snd op < 11) ops ->
  exists c', bit_history LangCxx20 c ops = Ok c' /\ unused_bit_cleared c' = c.
Proof.
  intros c ops Hc Ho. destruct (C99_cxx20 c ops) as (c' & E & _ & K & _); [lia|exact Ho|]. exists c'. split; [exact E|].
  rewrite K. unfold unused_bit_cleared. change 0x1FFFFF with (N.ones 21). rewrite N.land_ones. apply N.mod_small. lia.
Qed.
Print Assumptions C99_capacity.
Print Assumptions C99_cxx20.
Print Assumptions C99_C_refuted.
Print Assumptions C99_C_partial.
Print Assumptions C99_mask.
Print Assumptions C99_mask_and_codepoint.
Print Assumptions C99_codepoint_kept.
Example C99_case : bit_history LangCxx20 0x1F600 [(true, 0); (true, 10); (true, 3); (false, 0)] = Ok 0x8101F600
  /\ unused_bit_get LangCxx20 0x8101F600 10 = Ok true /\ unused_bit_get LangCxx20 0x8101F600 0 = Ok false
  /\ unused_bit_cleared 0x8101F600 = 0x1F600.
Proof. vm_compute. auto. Qed.

(** C100. u32_is_valid_codepoint expands to an expression - full statement (a necessary part: its parentheses match). *)
Definition C100_macro_statement : Prop := forall arg, balanced arg -> balanced (is_valid_codepoint_macro arg).
Lemma depth_app a b : forall d, depth d (a ++ b) = match depth d a with Some d' => depth d' b | None => None end.
Proof. induction a as [|t a IH]; intros d; [reflexivity|]. destruct t; cbn [app depth]; try apply IH. destruct d; [reflexivity|apply IH]. Qed.
Lemma depth_shift a k : forall d d', depth d a = Some d' -> depth (d + k) a = Some (d' + k)%nat.
Proof.
  induction a as [|t a IH]; intros d d' H; [injection H as ->; reflexivity|].
  destruct t; cbn [depth] in *; try (now apply IH).
  - apply (IH (S d)), H.
  - destruct d; [discriminate|]. apply IH, H.
Qed.
Theorem C100_macro_unbalanced : forall arg, balanced arg -> depth 0 (is_valid_codepoint_macro arg) = Some 1%nat.
Proof.
  intros arg H. unfold balanced in H.
  pose proof (depth_shift arg 2 0 0 H) as H2. pose proof (depth_shift arg 3 0 0 H) as H3. cbn [Nat.add] in H2, H3.
  unfold is_valid_codepoint_macro. rewrite depth_app. cbn [depth]. rewrite depth_app, H2, depth_app. cbn [depth].
  rewrite depth_app, H3, depth_app. cbn [depth]. rewrite depth_app, H3. reflexivity.
Qed.
(** It never does: for every argument one parenthesis stays open. *)
Theorem C100_macro_refuted : ~ C100_macro_statement.
Proof.
  intros H. specialize (H [Ident 0] eq_refl). unfold balanced in H.
  rewrite (C100_macro_unbalanced [Ident 0] eq_refl) in H. discriminate H.
Qed.
(** C100. The header is a C header (no linkage specification when compiled as C) and gives C linkage when compiled as C++. *)
Theorem C100_header_as_C_refuted : ~ valid_C (preprocess false capi_header).
Proof. intros H. apply H. left. reflexivity. Qed.
Theorem C100_header_linkage_refuted : ~ c_linkage (preprocess true capi_header).
Proof. intros (H & _). discriminate H. Qed.
Print Assumptions C100_macro_unbalanced.
Print Assumptions C100_macro_refuted.
Print Assumptions C100_header_as_C_refuted.
Print Assumptions C100_header_linkage_refuted.
(** The specifications are satisfiable: the guard written the other way round gives C linkage in C++ and nothing in C. *)
Example C100_spec_case : c_linkage [OpenExternC; Declares 94; CloseBrace] /\ valid_C [Declares 94]
  /\ balanced (is_valid_codepoint_macro [LPar; Ident 0; RPar] ++ [RPar]).
Proof. repeat split; intros H; destruct H as [H|[]]; discriminate H. Qed.
