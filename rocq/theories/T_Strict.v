(** Property theorems C09 and C16, exactly: on which inputs the conversions and the scan form a pointer outside the buffer. *)
From Verif Require Import Base Spec_Utf M_Utf8 M_Convert M_AsciiScan P_Utf8 P_Utf8b P_Convert P_AsciiScan.
Open Scope N_scope.

Lemma lanes_pos i : i <> NoSimd -> (0 < impl_lanes i)%nat.
Proof. destruct i as [|w|w|]; [congruence|destruct w|destruct w|]; cbn; lia. Qed.

Lemma simd_loop_strict i widen fuel input : (0 < impl_lanes i)%nat -> (forall b o d, widen b o d <> NoFuel) ->
  forall src out dst, (length input - src <= fuel)%nat ->
  simd_loop true i widen fuel input src out dst =
    if all_ascii (firstn (impl_lanes i * ((length input - src) / impl_lanes i)) (skipn src input)) then UB
    else simd_loop false i widen fuel input src out dst.
Proof.
  intros Hw HN. set (w := impl_lanes i) in *. induction fuel as [|fuel IH]; intros src out dst Hf.
  - cbn [simd_loop andb]. fold w. destruct (Nat.ltb_spec (length input) (src + w)) as [_|H]; [|lia].
    replace (length input - src)%nat with 0%nat by lia. rewrite Nat.div_0_l, Nat.mul_0_r by lia. reflexivity.
  - cbn [simd_loop andb]. fold w. destruct (Nat.ltb_spec (length input) (src + w)) as [H|H].
    + rewrite Nat.div_small, Nat.mul_0_r by lia. reflexivity.
    + destruct (Nat.leb_spec (src + w) (length input)) as [_|]; [|lia].
      assert (D : ((length input - src) / w = S ((length input - (src + w)) / w))%nat).
      { replace (length input - src)%nat with ((length input - (src + w)) + 1 * w)%nat by lia. rewrite Nat.div_add by lia. lia. }
      rewrite D. replace (w * S ((length input - (src + w)) / w))%nat with (w + w * ((length input - (src + w)) / w))%nat by lia.
      set (q := ((length input - (src + w)) / w)%nat) in *.
      assert (F : firstn (w + w * q) (skipn src input) = firstn w (skipn src input) ++ firstn (w * q) (skipn (src + w) input)).
      { rewrite <- (firstn_skipn w (skipn src input)) at 1. rewrite skipn_skipn, firstn_app.
        assert (L : length (firstn w (skipn src input)) = w) by (rewrite firstn_length, skipn_length; lia).
        rewrite L. replace (w + w * q - w)%nat with (w * q)%nat by lia. rewrite firstn_all2 by (rewrite L; lia). reflexivity. }
      rewrite F. unfold all_ascii at 2. rewrite forallb_app. fold (all_ascii (firstn w (skipn src input))).
      fold (all_ascii (firstn (w * q) (skipn (src + w) input))).
      destruct (all_ascii (firstn w (skipn src input))); cbn [negb andb]; [|reflexivity].
      destruct (widen (firstn w (skipn src input)) out dst) eqn:W; cbn [bindR].
      * apply IH. lia.
      * destruct (all_ascii (firstn (w * q) (skipn (src + w) input))); reflexivity.
      * destruct (HN _ _ _ W).
Qed.
Lemma all_ascii_iff v : Forall byte v -> (all_ascii v = true <-> Forall (fun b => b < 0x80) v).
Proof.
  intros Hb. split; [apply all_ascii_spec, Hb|]. unfold all_ascii. intros H. apply forallb_forall. intros b Hin.
  rewrite Forall_forall in H, Hb. specialize (H b Hin). specialize (Hb b Hin). unfold byte in Hb. rewrite lead_80 by exact Hb. lia.
Qed.
Lemma store_fuel o d v : store o d v <> NoFuel.
Proof. unfold store. destruct (_ <=? _)%nat; discriminate. Qed.
Ltac fuel_free := repeat match goal with |- context [store ?o ?d ?v] => let E := fresh in destruct (store o d v) eqn:E; cbn [bindR]; [|discriminate|destruct (store_fuel _ _ _ E)] end; first [discriminate|idtac].
Lemma widen32_fuel i b o d : widen32 i b o d <> NoFuel.
Proof. destruct i as [|w|w|]; [discriminate|apply store_fuel|destruct w|]; cbn [widen32 bindR]; fuel_free. Qed.
Lemma widen16_fuel i b o d : widen16 i b o d <> NoFuel.
Proof. destruct i as [|w|w|]; [discriminate|apply store_fuel|destruct w|]; cbn [widen16 bindR]; fuel_free. Qed.

(** Bytes of a vector register of each SIMD implementation. *)
Definition register_bytes (i : impl) : option nat :=
  match i with
  | NoSimd => None
  | StdSimd W128 | X86 W128 | Neon => Some 16%nat
  | StdSimd W256 | X86 W256 => Some 32%nat
  | StdSimd W512 | X86 W512 => Some 64%nat
  end.
Lemma register_lanes i w : register_bytes i = Some w -> i <> NoSimd /\ impl_lanes i = w.
Proof. destruct i as [|x|x|]; [discriminate|destruct x|destruct x|]; cbn; intros E; injection E as <-; split; (discriminate || reflexivity). Qed.

(** C09. In bulk conversion from UTF-8 a pointer beyond one-past-the-end is formed exactly when the part of the input that fills whole
    registers is 7-bit throughout; on all other inputs (and in a build without SIMD) the result is that of a build in which such
    pointers are harmless. *)
Theorem C09_pointer_arithmetic_exact_partial : forall i t input, Forall byte input -> input <> [] -> t = T32 \/ t = T16 ->
  match register_bytes i with
  | None => convert_to true i t T8 input = convert_to false i t T8 input
  | Some w => (convert_to true i t T8 input = UB <-> Forall (fun b => b < 0x80) (firstn (w * (length input / w)) input)) /\
              (convert_to true i t T8 input <> UB -> convert_to true i t T8 input = convert_to false i t T8 input)
  end.
Proof.
  intros i t input Hb Hne Ht. destruct (register_bytes i) as [w|] eqn:Ew.
  - destruct (register_lanes i w Ew) as (Hi & Hl). pose proof (lanes_pos i Hi) as Hp. rewrite Hl in Hp.
    assert (C : exists r, convert_to false i t T8 input = Ok r /\ convert_to true i t T8 input =
      if all_ascii (firstn (w * (length input / w)) input) then UB else Ok r).
    { destruct input as [|b0 input0] eqn:Ei; [contradiction|]. rewrite <- Ei in *. clear Hne.
      destruct Ht as [-> | ->]; eexists; (split; [apply convert_to_utf32, Hb || apply convert_to_utf16, Hb|]).
      - rewrite <- (convert_to_utf32 i input Hb). unfold convert_to. rewrite Ei. rewrite <- Ei.
        unfold convert_utf8_to_utf32_simd. destruct i; [contradiction|..];
          rewrite simd_loop_strict by (try apply widen32_fuel; try apply lanes_pos; try lia; discriminate);
          rewrite Hl, Nat.sub_0_r; cbn [skipn]; destruct (all_ascii _); reflexivity.
      - rewrite <- (convert_to_utf16 i input Hb). unfold convert_to. rewrite Ei. rewrite <- Ei.
        unfold convert_utf8_to_utf16_simd. destruct i; [contradiction|..];
          rewrite simd_loop_strict by (try apply widen16_fuel; try apply lanes_pos; try lia; discriminate);
          rewrite Hl, Nat.sub_0_r; cbn [skipn]; destruct (all_ascii _); reflexivity. }
    destruct C as (r & Cf & Ct). rewrite Ct, Cf.
    assert (Hbf : Forall byte (firstn (w * (length input / w)) input)).
    { rewrite <- (firstn_skipn (w * (length input / w)) input) in Hb. apply Forall_app in Hb. tauto. }
    rewrite <- (all_ascii_iff _ Hbf). destruct (all_ascii _); (split; [split; congruence|congruence]).
  - destruct i as [|x|x|]; [destruct Ht as [-> | ->]; reflexivity|destruct x; discriminate Ew|destruct x; discriminate Ew|discriminate Ew].
Qed.

(** C16. The ASCII scan forms a pointer before the buffer exactly when the part it may scan is shorter than a register; otherwise the
    result is that of a build in which such pointers are harmless. *)
Theorem C16_pointer_exact_partial : forall uchar i text max, Forall byte text ->
  match register_bytes i with
  | None => scan_for_text_ascii true uchar i text max = scan_for_text_ascii false uchar i text max
  | Some w => (scan_for_text_ascii true uchar i text max = UB <-> (Nat.min (length text) max < w)%nat) /\
              (scan_for_text_ascii true uchar i text max <> UB ->
               scan_for_text_ascii true uchar i text max = scan_for_text_ascii false uchar i text max)
  end.
Proof.
  intros u i text max Hb. destruct (register_bytes i) as [w|] eqn:Ew; [|destruct i as [|x|x|]; [reflexivity|destruct x; discriminate Ew|destruct x; discriminate Ew|discriminate Ew]].
  destruct (register_lanes i w Ew) as (Hi & Hl).
  destruct (scan_for_text_ascii_spec u i text max Hb) as (r & Cf & _).
  assert (L : forall fuel n src, scan_ascii_simd true u i fuel text n src = if (n <? w)%nat then UB else scan_ascii_simd false u i fuel text n src).
  { induction fuel as [|fuel IH]; intros n src; cbn [scan_ascii_simd andb]; rewrite Hl; destruct (n <? w)%nat eqn:En; try reflexivity.
    destruct (src + w <? n)%nat; [|reflexivity]. destruct (negb _); [reflexivity|]. destruct (first_set _); [reflexivity|].
    rewrite IH, En. reflexivity. }
  assert (Ct : scan_for_text_ascii true u i text max = if (Nat.min (length text) max <? w)%nat then UB else scan_for_text_ascii false u i text max).
  { unfold scan_for_text_ascii. cbn zeta. destruct i; [contradiction|..]; rewrite L; destruct (_ <? w)%nat; reflexivity. }
  rewrite Ct, Cf. destruct (Nat.ltb_spec (Nat.min (length text) max) w); split; try tauto; split; intros; (congruence || lia).
Qed.
Print Assumptions C09_pointer_arithmetic_exact_partial.
Print Assumptions C16_pointer_exact_partial.
(** Both sides occur: 17 letters form such a pointer, an accented letter among the first 16 bytes avoids it. *)
Example C09_exact_cases :
  convert_to true (X86 W128) T32 T8 (repeat 0x61 17) = UB /\
  convert_to true (X86 W128) T32 T8 ([0xC3; 0xA9] ++ repeat 0x61 15) = Ok (0xE9 :: repeat 0x61 15).
Proof. split; vm_compute; reflexivity. Qed.
Example C16_exact_cases :
  scan_for_text_ascii true true (X86 W128) (repeat 0x61 15) 80 = UB /\ scan_for_text_ascii true true (X86 W128) (repeat 0x61 16) 80 = Ok 16%nat.
Proof. split; vm_compute; reflexivity. Qed.
