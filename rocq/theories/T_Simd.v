(** Property theorems C98: run-time selection of the SIMD implementation. *)
From Verif Require Import Base Spec_Utf M_Utf8 M_Convert M_AsciiScan P_Utf8 P_Utf8b P_Convert P_AsciiScan Spec_Simd M_Simd.
Open Scope N_scope.

Lemma bit_set_testbit a n : bit_set a n = N.testbit a n.
Proof.
  unfold bit_set. destruct (N.testbit a n) eqn:E.
  - apply negb_true_iff, N.eqb_neq. intros H. apply (f_equal (fun x => N.testbit x n)) in H.
    rewrite N.land_spec, E, N.shiftl_spec_high' in H by lia.
    rewrite N.sub_diag, N.bits_0 in H. discriminate.
  - apply negb_false_iff, N.eqb_eq. apply N.bits_inj_0. intros k. rewrite N.land_spec.
    destruct (N.eq_dec k n) as [->|Hk]; [rewrite E; reflexivity|].
    rewrite N.shiftl_1_l, N.pow2_bits_false by lia. apply andb_false_r.
Qed.
Lemma mask_all a k : (N.land a k =? k) = true <-> (forall n, N.testbit k n = true -> N.testbit a n = true).
Proof.
  rewrite N.eqb_eq. split.
  - intros H n Hn. apply (f_equal (fun x => N.testbit x n)) in H. rewrite N.land_spec, Hn, andb_true_r in H. exact H.
  - intros H. apply N.bits_inj. intros n. rewrite N.land_spec. destruct (N.testbit k n) eqn:E; [|apply andb_false_r].
    rewrite (H n E). reflexivity.
Qed.
Lemma high_bits k n w : k < 2 ^ w -> w <= n -> N.testbit k n = false.
Proof.
  intros H Hn. destruct (N.eq_dec k 0) as [->|H0]; [apply N.bits_0|]. apply N.bits_above_log2.
  assert (N.log2 k < w) by (apply N.log2_lt_pow2; lia). lia.
Qed.
Lemma mask_6 a : (N.land a 0x6 =? 0x6) = N.testbit a 1 && N.testbit a 2.
Proof.
  apply eq_true_iff_eq. rewrite mask_all, andb_true_iff. split.
  - intros H. split; apply H; reflexivity.
  - intros (H1 & H2) n Hn. assert (n < 3). { destruct (N.ltb_spec n 3) as [L|L]; [exact L|]. rewrite (high_bits 0x6 n 3) in Hn by (try reflexivity; exact L). discriminate. }
    assert (C : n = 0 \/ n = 1 \/ n = 2) by lia. destruct C as [->|[->| ->]]; [discriminate Hn|exact H1|exact H2].
Qed.
Lemma mask_e6 a : (N.land a 0xe6 =? 0xe6) = N.testbit a 1 && N.testbit a 2 && N.testbit a 5 && N.testbit a 6 && N.testbit a 7.
Proof.
  apply eq_true_iff_eq. rewrite mask_all, !andb_true_iff. split.
  - intros H. repeat split; apply H; reflexivity.
  - intros ((((H1 & H2) & H5) & H6) & H7) n Hn.
    assert (n < 8). { destruct (N.ltb_spec n 8) as [L|L]; [exact L|]. rewrite (high_bits 0xe6 n 8) in Hn by (try reflexivity; exact L). discriminate. }
    assert (C : n = 0 \/ n = 1 \/ n = 2 \/ n = 3 \/ n = 4 \/ n = 5 \/ n = 6 \/ n = 7) by lia.
    destruct C as [->|[->|[->|[->|[->|[->|[->| ->]]]]]]]; first [discriminate Hn|assumption].
Qed.

Lemma detect_avx m : detect_os_avx m = Ok (supports m AVX).
Proof.
  unfold detect_os_avx, supports, os_ymm, xgetbv, xgetbv_available, osxsave. rewrite !bit_set_testbit.
  destruct (N.testbit (cpuid m 1 0 ECX) 27), (N.testbit (cpuid m 1 0 ECX) 28); cbn [andb bindR]; rewrite ?mask_6, ?andb_true_r, ?andb_false_r; reflexivity.
Qed.
Lemma detect_avx512 m : detect_os_avx512 m = Ok (os_zmm m && N.testbit (cpuid m 1 0 ECX) 28).
Proof.
  unfold detect_os_avx512. rewrite detect_avx. cbn [bindR supports]. unfold os_zmm.
  destruct (os_ymm m && N.testbit (cpuid m 1 0 ECX) 28) eqn:E; cbn [negb].
  - apply andb_prop in E as (E1 & E2). rewrite E1, E2. unfold os_ymm in E1.
    do 2 (apply andb_prop in E1 as (E1 & ?)). unfold xgetbv, xgetbv_available. rewrite E1. cbn [bindR].
    rewrite mask_e6, H, H0, !andb_true_r. reflexivity.
  - f_equal. destruct (os_ymm m); [|reflexivity]. cbn [andb] in E. rewrite E. symmetry. apply andb_false_r.
Qed.

Definition leaf7i (m : machine) (r : register) (bit : N) : bool := (7 <=? as_int (max_leaf m))%Z && N.testbit (cpuid m 7 0 r) bit.
Definition avx2i (m : machine) : bool := supports m AVX && leaf7i m EBX 5.
Definition avx512i (m : machine) : bool := avx2i m && os_zmm m && leaf7i m EBX 16 && leaf7i m EBX 30 && leaf7i m ECX 12.
Lemma max_simd_form m : max_simd_size m = Ok (if avx512i m then 512 else if avx2i m then 256 else 128).
Proof.
  unfold max_simd_size. rewrite detect_avx, detect_avx512. unfold avx512i, avx2i, leaf7i, max_leaf. cbn [bindR].
  rewrite !bit_set_testbit. destruct (supports m AVX) eqn:A; cbn [negb andb]; [|reflexivity].
  destruct (7 <=? as_int (cpuid m 0 0 EAX))%Z; cbn [andb]; [|reflexivity].
  cbn [supports] in A. apply andb_prop in A as (_ & A). rewrite A, andb_true_r.
  destruct (N.testbit (cpuid m 7 0 EBX) 5); cbn [negb andb]; [|reflexivity].
  destruct (os_zmm m && N.testbit (cpuid m 7 0 EBX) 16 && N.testbit (cpuid m 7 0 EBX) 30 && N.testbit (cpuid m 7 0 ECX) 12); reflexivity.
Qed.
Lemma leaf7i_leaf7 m r b : leaf7i m r b = true -> leaf7 m r b = true.
Proof.
  unfold leaf7i, leaf7, as_int. intros H. apply andb_prop in H as (H & ->). rewrite andb_true_r.
  destruct (N.ltb_spec (max_leaf m) (2 ^ 31)); lia.
Qed.
Lemma leaf7i_eq m r b : max_leaf m < 2 ^ 31 -> leaf7i m r b = leaf7 m r b.
Proof.
  intros H. unfold leaf7i, leaf7, as_int. destruct (N.ltb_spec (max_leaf m) (2 ^ 31)); [|lia]. f_equal. lia.
Qed.
Lemma avx2_ok m : avx2i m = true -> supports m AVX2 = true.
Proof. unfold avx2i. cbn [supports]. intros H. apply andb_prop in H as (-> & H). exact (leaf7i_leaf7 _ _ _ H). Qed.

(** C98. The detector never faults, answers 128, 256 or 512, and an answer promises the extensions the wide code uses. *)
Theorem C98_detect_sound : forall m, exists n, max_simd_size m = Ok n /\ (n = 128 \/ n = 256 \/ n = 512) /\
  (256 <= n -> supports m AVX = true /\ supports m AVX2 = true) /\
  (n = 512 -> supports m AVX512F = true /\ supports m AVX512BW = true /\ supports m AVX512BITALG = true).
Proof.
  intros m. eexists. split; [apply max_simd_form|].
  destruct (avx512i m) eqn:E5.
  - unfold avx512i in E5. do 4 (apply andb_prop in E5 as (E5 & ?)).
    split; [auto|split].
    + intros _. split; [unfold avx2i in E5; apply andb_prop in E5; tauto|exact (avx2_ok m E5)].
    + intros _. cbn [supports]. rewrite H2. cbn [andb]. auto using leaf7i_leaf7.
  - destruct (avx2i m) eqn:E2.
    + split; [auto|split; [|intros H; discriminate H]]. intros _.
      split; [unfold avx2i in E2; apply andb_prop in E2; tauto|exact (avx2_ok m E2)].
    + split; [auto|split; [intros H; exfalso; apply H; reflexivity|intros H; discriminate H]].
Qed.
(** And it is the largest such answer (for the highest leaf numbers an [int] can hold). *)
Theorem C98_detect_exact : forall m, max_leaf m < 2 ^ 31 ->
  max_simd_size m = Ok (if supports m AVX2 && supports m AVX512F && supports m AVX512BW && supports m AVX512BITALG then 512
                        else if supports m AVX2 then 256 else 128).
Proof.
  intros m Hm. rewrite max_simd_form. f_equal. unfold avx512i, avx2i. rewrite !leaf7i_eq by exact Hm. cbn [supports].
  destruct (os_zmm m), (leaf7 m EBX 5), (leaf7 m EBX 16), (leaf7 m EBX 30), (leaf7 m ECX 12), (os_ymm m && N.testbit (cpuid m 1 0 ECX) 28);
    reflexivity.
Qed.
(** Registers the processor does not define (XCR0 without OSXSAVE, leaf 7 above the highest leaf) do not matter. *)
Theorem C98_detect_reads_only_defined : forall m m', same_features m m' -> max_simd_size m = max_simd_size m'.
Proof.
  intros m m' (H0 & H1 & Hx & H7). rewrite !max_simd_form. f_equal.
  assert (Eo : osxsave m = osxsave m') by (unfold osxsave; rewrite H1; reflexivity).
  assert (Ey : os_ymm m = os_ymm m').
  { unfold os_ymm. rewrite <- Eo. destruct (osxsave m) eqn:O; [|reflexivity]. rewrite (Hx eq_refl). reflexivity. }
  assert (Ez : os_zmm m = os_zmm m').
  { unfold os_zmm. rewrite <- Ey. destruct (os_ymm m) eqn:O; [|reflexivity]. unfold os_ymm in O. do 2 (apply andb_prop in O as (O & _)).
    rewrite (Hx O). reflexivity. }
  assert (E7 : forall b, leaf7i m EBX b = leaf7i m' EBX b /\ leaf7i m ECX b = leaf7i m' ECX b).
  { intros b. unfold leaf7i. rewrite <- H0. destruct (7 <=? as_int (max_leaf m))%Z eqn:L; [|split; reflexivity].
    destruct H7 as (-> & ->); [|split; reflexivity]. unfold as_int in L. destruct (N.ltb_spec (max_leaf m) (2 ^ 31)); lia. }
  unfold avx512i, avx2i. cbn [supports]. rewrite Ey, Ez, H1.
  rewrite (proj1 (E7 5)), (proj1 (E7 16)), (proj1 (E7 30)), (proj2 (E7 12)). reflexivity.
Qed.
Print Assumptions C98_detect_sound.
Print Assumptions C98_detect_exact.
Print Assumptions C98_detect_reads_only_defined.

Lemma units_ok m : exists n, max_simd_size m = Ok n /\ (n = 512 -> forallb (supports m) unit_512 = true) /\
  (n = 256 -> forallb (supports m) unit_256 = true).
Proof.
  destruct (C98_detect_sound m) as (n & E & _ & H2 & H5). exists n. split; [exact E|]. split; intros ->.
  - destruct (H2 ltac:(lia)) as (A & A2), (H5 eq_refl) as (F & W & _).
    unfold unit_512. cbn [forallb]. rewrite A, A2, F, W. reflexivity.
  - destruct (H2 ltac:(lia)) as (A & A2). unfold unit_256. cbn [forallb]. rewrite A, A2. reflexivity.
Qed.

(** C98. On every machine and in both dispatching configurations the ASCII scan runs without executing a missing instruction and
    returns the exact prefix. *)
Theorem C98_scan_everywhere : forall m c uchar text limit, Forall byte text ->
  exists n, scan_for_text_ascii_dispatch m c uchar text limit = Ok n /\ exact_prefix text limit n.
Proof.
  intros m c u text limit Hb. unfold scan_for_text_ascii_dispatch, run_unit at 1. change (forallb (supports m) unit_scan) with true.
  cbn [andb]. destruct (units_ok m) as (n & -> & U5 & U2). cbn [bindR]. unfold run_unit.
  destruct (N.eqb_spec n 512) as [E|_]; [rewrite (U5 E); apply scan_for_text_ascii_spec, Hb|].
  destruct (N.eqb_spec n 256) as [E|_]; [rewrite (U2 E)|]; apply scan_for_text_ascii_spec, Hb.
Qed.
Print Assumptions C98_scan_everywhere.

(** C98, full statement for the conversions: on every x86-64 machine [convert_to<char32_t>] gives the byte-wise decoder's result. *)
Definition C98_convert_everywhere : Prop := forall m c input, Forall byte input ->
  convert_to_on m c T32 input = Ok (snd (decoder_run dinit input)).
(** It fails on a processor with SSE2 but no SSE4.1 (such as AMD K10): convert.cpp is compiled for SSE4.1 unconditionally. *)
Definition k10 : machine := {| cpuid := fun leaf _ r => match leaf, r with
    | 0, EAX => 6 | 1, ECX => 0x00802009 | 1, EDX => 0x178BFBFF | _, _ => 0 end; xcr0 := 0 |}.
Theorem C98_convert_without_sse41_refuted : ~ C98_convert_everywhere.
Proof.
  intros H. specialize (H k10 Intrinsics (repeat 0x41 16)). assert (B : Forall byte (repeat 0x41 16)).
  { apply Forall_forall. intros x Hx. apply repeat_spec in Hx. subst. reflexivity. }
  specialize (H B). vm_compute in H. discriminate H.
Qed.
(** With SSE4.1 it holds, whatever else the machine offers. *)
Theorem C98_convert_utf32_partial : forall m c input, supports m SSE41 = true -> Forall byte input ->
  convert_to_on m c T32 input = Ok (snd (decoder_run dinit input)).
Proof.
  intros m c input Hs Hb. unfold convert_to_on. destruct input as [|b l]; [reflexivity|].
  unfold convert_utf8_to_utf32_dispatch, run_unit at 1. unfold unit_convert. cbn [forallb]. rewrite Hs. cbn [andb supports].
  destruct (units_ok m) as (n & -> & U5 & U2). cbn [bindR]. unfold run_unit.
  destruct (N.eqb_spec n 512) as [E|_]; [rewrite (U5 E); exact (convert_to_utf32 (impl_of c W512) (b :: l) Hb)|].
  destruct (N.eqb_spec n 256) as [E|_]; [rewrite (U2 E); exact (convert_to_utf32 (impl_of c W256) (b :: l) Hb)|].
  exact (convert_to_utf32 (impl_of c W128) (b :: l) Hb).
Qed.
Theorem C98_convert_utf16_partial : forall m c input, supports m SSE41 = true -> Forall byte input ->
  convert_to_on m c T16 input = Ok (flat_map encoder_char16 (snd (decoder_run dinit input))).
Proof.
  intros m c input Hs Hb. unfold convert_to_on. destruct input as [|b l]; [reflexivity|].
  unfold convert_utf8_to_utf16_dispatch, run_unit at 1. unfold unit_convert. cbn [forallb]. rewrite Hs. cbn [andb supports].
  destruct (units_ok m) as (n & -> & U5 & U2). cbn [bindR]. unfold run_unit.
  destruct (N.eqb_spec n 512) as [E|_]; [rewrite (U5 E); exact (convert_to_utf16 (impl_of c W512) (b :: l) Hb)|].
  destruct (N.eqb_spec n 256) as [E|_]; [rewrite (U2 E); exact (convert_to_utf16 (impl_of c W256) (b :: l) Hb)|].
  exact (convert_to_utf16 (impl_of c W128) (b :: l) Hb).
Qed.
Print Assumptions C98_convert_without_sse41_refuted.
Print Assumptions C98_convert_utf32_partial.
Print Assumptions C98_convert_utf16_partial.

(** Concrete machines: Ice Lake (512), Skylake-X without BITALG (256), Haswell under an operating system without AVX state (128). *)
Definition icelake : machine := {| cpuid := fun leaf _ r => match leaf, r with
    | 0, EAX => 0x1B | 1, ECX => 0x7FFAFBFF | 7, EBX => 0xF2BF27EF | 7, ECX => 0x40405F4E | _, _ => 0 end; xcr0 := 0xE7 |}.
Definition skylakex : machine := {| cpuid := fun leaf _ r => match leaf, r with
    | 0, EAX => 0x16 | 1, ECX => 0x7FFEFBFF | 7, EBX => 0xD39FFFFB | 7, ECX => 0 | _, _ => 0 end; xcr0 := 0xE7 |}.
Definition haswell_no_os : machine := {| cpuid := fun leaf _ r => match leaf, r with
    | 0, EAX => 0xD | 1, ECX => 0x77FAFBFF | 7, EBX => 0x27AB | _, _ => 0 end; xcr0 := 0x7 |}.
Example C98_cases : max_simd_size icelake = Ok 512 /\ max_simd_size skylakex = Ok 256 /\ max_simd_size haswell_no_os = Ok 128
  /\ max_simd_size k10 = Ok 128.
Proof. vm_compute. auto. Qed.
Example C98_hyp_cases : max_leaf icelake < 2 ^ 31 /\ supports icelake SSE41 = true /\ supports haswell_no_os SSE41 = true
  /\ same_features haswell_no_os {| cpuid := cpuid haswell_no_os; xcr0 := 0 |}.
Proof. split; [reflexivity|]. split; [reflexivity|]. split; [reflexivity|]. repeat split; intros; reflexivity || discriminate. Qed.
Example C98_convert_case : convert_to_on icelake Std T32 (repeat 0x41 70 ++ [0xE2; 0x82; 0xAC]) = Ok (repeat 0x41 70 ++ [0x20AC]).
Proof. vm_compute. reflexivity. Qed.
