(** Property theorems C08-C13, C15, C16, C62. *)
From Verif Require Import Base Spec_Utf M_Utf8 M_Convert M_AsciiScan P_Utf8 P_Utf8b P_Convert P_AsciiScan Spec_ConvertIt P_ConvertIt.
Open Scope N_scope.

(** C08. Any two implementations give the same result on every byte string - the plain byte-wise decoder's. *)
Theorem C08_simd_equals_scalar : forall (i : impl) (input : list N), Forall byte input ->
  convert_to false i T32 T8 input = Ok (snd (decoder_run dinit input)).
Proof. exact convert_to_utf32. Qed.
Theorem C08_implementations_agree : forall (i j : impl) (input : list N), Forall byte input ->
  convert_to false i T32 T8 input = convert_to false j T32 T8 input.
Proof. intros i j input H. rewrite !convert_to_utf32 by exact H. reflexivity. Qed.
Print Assumptions C08_simd_equals_scalar.
Print Assumptions C08_implementations_agree.
Example C08_case : convert_to false (X86 W256) T32 T8 (repeat 0x41 33 ++ [0xE2; 0x82; 0xAC]) = Ok (repeat 0x41 33 ++ [0x20AC]).
Proof. vm_compute. reflexivity. Qed.

(** C09. On every byte string both bulk conversions complete ([Ok]: no store outside the output buffer of one element per input
    byte) and return at most one element per byte. *)
Theorem C09_utf32_in_bounds : forall i input out, Forall byte input -> (length input <= length out)%nat ->
  exists o n, convert_utf8_to_utf32_simd false i input out = Ok (o, n) /\ (n <= length input)%nat.
Proof.
  intros i input out Hb Ho. destruct (convert32_spec i input out Hb Ho) as (rest & E).
  eexists _, _. split; [exact E|apply decoder_run_length].
Qed.
Theorem C09_utf16_in_bounds : forall i input out, Forall byte input -> (length input <= length out)%nat ->
  exists o n, convert_utf8_to_utf16_simd false i input out = Ok (o, n) /\ (n <= length input)%nat.
Proof.
  intros i input out Hb Ho. destruct (convert16_spec i input out Hb Ho) as (rest & E).
  eexists _, _. split; [exact E|].
  pose proof (decoder_run_utf16_length dinit input (or_introl eq_refl) Hb) as H. change (pot dinit) with 0%nat in H. lia.
Qed.
(** The loops do form the pointer [src + simd_size] beyond one-past-the-end, which ISO C++ leaves undefined. *)
Theorem C09_pointer_arithmetic_refuted : exists input, Forall byte input /\ convert_to true (X86 W128) T32 T8 input = UB.
Proof. exists [0x61; 0x62; 0x63]. split; [repeat constructor|reflexivity]. Qed.
Print Assumptions C09_utf32_in_bounds.
Print Assumptions C09_utf16_in_bounds.
Print Assumptions C09_pointer_arithmetic_refuted.
Example C09_case : exists o n, convert_utf8_to_utf16_simd false Neon [0xF0; 0x9F; 0x98; 0x80; 0xFF] (repeat 0 5) = Ok (o, n) /\ n = 2%nat.
Proof. eexists _, _. split; vm_compute; reflexivity. Qed.

(** C10. *)
Theorem C10_utf16_is_encoding_of_decoded : forall i input, Forall byte input ->
  convert_to false i T16 T8 input = Ok (flat_map encoder_char16 (snd (decoder_run dinit input))).
Proof. exact convert_to_utf16. Qed.
Theorem C10_utf16_wellformed : forall i t, scalars t -> convert_to false i T16 T8 (utf8_text t) = Ok (utf16_text t).
Proof. intros i t H. exact (convert_to_units i T16 T8 t H). Qed.
Print Assumptions C10_utf16_is_encoding_of_decoded.
Print Assumptions C10_utf16_wellformed.
Example C10_case : convert_to false (X86 W512) T16 T8 (repeat 0x41 70 ++ [0xF0; 0x9F; 0x98; 0x80]) = Ok (repeat 0x41 70 ++ [0xD83D; 0xDE00]).
Proof. vm_compute. reflexivity. Qed.

(** C11. *)
Theorem C11_encoder_utf16 : forall c, scalar c -> encoder_char16 c = utf16 c.
Proof. exact encoder_char16_scalar. Qed.
Theorem C11_encoder_rejects : forall c, ~ scalar c -> encoder_char16 c = [].
Proof. exact encoder_char16_nonscalar. Qed.
Theorem C11_roundtrip : forall i t, scalars t ->
  exists u, convert_to false i T16 T32 t = Ok u /\ u = utf16_text t /\ convert_to false i T32 T16 u = Ok t.
Proof.
  intros i t H. exists (utf16_text t). repeat split.
  - rewrite <- (text_units_32 t) at 1. exact (convert_to_units i T16 T32 t H).
  - pose proof (convert_to_units i T32 T16 t H) as E. rewrite text_units_32 in E. exact E.
Qed.
Print Assumptions C11_encoder_utf16.
Print Assumptions C11_encoder_rejects.
Print Assumptions C11_roundtrip.
Example C11_case : encoder_char16 0x1F600 = [0xD83D; 0xDE00] /\ scalar 0x1F600 /\ ~ scalar 0xDABC.
Proof. repeat split; unfold scalar; lia. Qed.

(** C12. Full statement: for every input of the element type, no read outside the view. *)
Definition C12_statement : Prop := forall t s input, Forall (fun x => x < match s with T8 => 0x100 | T16 | TW true => 0x10000 | _ => 2^32 end) input ->
  exists out, convert_it t s input = Ok out.
Theorem C12_stays_inside_refuted : ~ C12_statement.
Proof.
  intros H. destruct (H T32 T8 [0xE2; 0x82]) as (out & E); [repeat constructor|]. vm_compute in E. discriminate.
Qed.
Theorem C12_witnesses : convert_it T32 T8 [0xE2; 0x82] = UB /\ convert_it (TW true) T8 [0x61; 0xC3] = UB /\ convert_it T32 T16 [0xD83D] = UB
  /\ convert_to_one T32 T8 0xC3 = UB /\ convert_to_one T8 T16 0xD800 = UB.
Proof. repeat split; reflexivity. Qed.
(** What holds: the loop always terminates, well-formed text is safe, and so is every input that does not end inside a sequence. *)
Theorem C12_terminates : forall t s input, convert_it t s input <> NoFuel.
Proof.
  intros t s input. unfold convert_it. destruct (elem_eqb s t); [discriminate|]. apply convert_loop_fuel. lia.
Qed.
Theorem C12_wellformed_safe : forall t s txt, scalars txt -> exists out, convert_it t s (text_units s txt) = Ok out.
Proof. intros t s txt H. eexists. apply convert_it_units, H. Qed.
Theorem C12_utf8_ascii_end_safe_partial : forall t p b, b < 0x80 -> exists out, convert_it t T8 (p ++ [b]) = Ok out.
Proof. intros t p b H. apply convert_it_safe8. right. exists p, b. auto. Qed.
Theorem C12_utf16_end_safe_partial : forall t p u, u < 0xD800 \/ 0xDC00 <= u -> exists out, convert_it t T16 (p ++ [u]) = Ok out.
Proof. intros t p u H. apply convert_it_safe16. right. exists p, u. auto. Qed.
Print Assumptions C12_stays_inside_refuted.
Print Assumptions C12_witnesses.
Print Assumptions C12_terminates.
Print Assumptions C12_wellformed_safe.
Print Assumptions C12_utf8_ascii_end_safe_partial.
Print Assumptions C12_utf16_end_safe_partial.
(** Exactly: between different element types the conversion stays inside its input iff the input is a sequence of complete sequences (with
    all the continuation bytes the lead byte announces, or interrupted by another byte), and leaves it iff a truncated sequence ends it. *)
Theorem C12_stays_inside_exact_partial : forall t s input, s <> t ->
  Forall (fun x => x < match s with T8 => 0x100 | T16 | TW true => 0x10000 | _ => 2^32 end) input ->
  ((exists out, convert_it t s input = Ok out) <-> exists cs, input = concat cs /\ Forall (sequence s) cs) /\
  (convert_it t s input = UB <-> exists cs q, input = concat cs ++ q /\ Forall (sequence s) cs /\ truncated s q).
Proof. exact convert_exact. Qed.
Print Assumptions C12_stays_inside_exact_partial.
Example C12_sequences : sequence T8 [0xE2; 0x82; 0xAC] /\ sequence T8 [0xE2; 0x82; 0x41] /\ truncated T8 [0xE2; 0x82] /\ truncated T16 [0xD83D].
Proof.
  split; [exists 0xE2, [0x82; 0xAC]; split; [constructor; [unfold continuation; lia|constructor; [unfold continuation; lia|constructor]]|left; auto]|].
  split; [exists 0xE2, [0x82]; split; [constructor; [unfold continuation; lia|constructor]|right; exists 0x41; split; [reflexivity|]; split; [vm_compute; lia|unfold continuation; lia]]|].
  split; [exists 0xE2, [0x82]; split; [constructor; [unfold continuation; lia|constructor]|split; [reflexivity|vm_compute; lia]]|].
  exists 0xD83D. split; [reflexivity|]. unfold high_surrogate. lia.
Qed.
Example C12_case : convert_it T32 T8 ([0xE2; 0x82] ++ [0x41]) = Ok [] /\ convert_it T32 T8 (utf8_text [0x20AC]) = Ok [0x20AC].
Proof. split; reflexivity. Qed.

(** C13. Every conversion maps the text's units in one form to its units in the other; hence any round trip is the identity. *)
Theorem C13_conversion_correct : forall i t s txt, scalars txt -> convert_to false i t s (text_units s txt) = Ok (text_units t txt).
Proof. exact convert_to_units. Qed.
(** a chain of conversions s -> e1 -> e2 -> ... *)
Fixpoint convert_chain (i : impl) (s : elem) (path : list elem) (input : list N) : Res (list N) :=
  match path with [] => Ok input | e :: path' => do x <- convert_to false i e s input ; convert_chain i e path' x end.
Theorem C13_cycle_identity : forall i s path txt, scalars txt ->
  convert_chain i s (path ++ [s]) (text_units s txt) = Ok (text_units s txt).
Proof.
  intros i s path txt H.
  assert (G : forall path s0, convert_chain i s0 (path ++ [s]) (text_units s0 txt) = Ok (text_units s txt)).
  { clear path. induction path as [|e path IH]; intros s0; cbn [app convert_chain]; rewrite convert_to_units by exact H; cbn [bindR].
    - reflexivity.
    - apply IH. }
  apply G.
Qed.
Print Assumptions C13_conversion_correct.
Print Assumptions C13_cycle_identity.
Example C13_case : convert_chain NoSimd T8 [T16; TW true; T32; TW false; T8] [0x41; 0xF0; 0x9F; 0x98; 0x80] = Ok [0x41; 0xF0; 0x9F; 0x98; 0x80].
Proof. vm_compute. reflexivity. Qed.

(** C15. [exact_prefix text max n]: n is the length of the longest prefix of bytes 0x20..0x7F within the limit. *)
Theorem C15_ascii_scan_exact : forall uchar i text max, Forall byte text ->
  exists n, scan_for_text_ascii false uchar i text max = Ok n /\ exact_prefix text max n.
Proof. exact scan_for_text_ascii_spec. Qed.
Theorem C15_exact_prefix_unique : forall text max n m, exact_prefix text max n -> exact_prefix text max m -> n = m.
Proof. exact exact_prefix_unique. Qed.
Theorem C15_implementations_agree : forall u1 u2 i j text max, Forall byte text ->
  scan_for_text_ascii false u1 i text max = scan_for_text_ascii false u2 j text max.
Proof.
  intros u1 u2 i j text max H. destruct (scan_for_text_ascii_spec u1 i text max H) as (n & -> & A).
  destruct (scan_for_text_ascii_spec u2 j text max H) as (m & -> & B). f_equal. eapply exact_prefix_unique; eassumption.
Qed.
Print Assumptions C15_ascii_scan_exact.
Print Assumptions C15_exact_prefix_unique.
Print Assumptions C15_implementations_agree.
Example C15_case : scan_for_text_ascii false false (X86 W128) (repeat 0x41 40 ++ [0x1B] ++ repeat 0x42 40) 100 = Ok 40%nat.
Proof. vm_compute. reflexivity. Qed.

(** C16. Reads stay inside the text (C15: the outcome is never UB when pointers are compared as integers), but for a text
    shorter than a SIMD register the pointer [end - simd_size] lies before the buffer, for every SIMD implementation. *)
Theorem C16_reads_in_buffer : forall uchar i text max, Forall byte text -> scan_for_text_ascii false uchar i text max <> UB.
Proof. intros u i text max H. destruct (scan_for_text_ascii_spec u i text max H) as (n & -> & _). discriminate. Qed.
Theorem C16_pointer_before_buffer_refuted : forall uchar i text max, i <> NoSimd ->
  (Nat.min (length text) max < impl_lanes i)%nat -> scan_for_text_ascii true uchar i text max = UB.
Proof.
  intros u i text max Hi H. unfold scan_for_text_ascii.
  assert (E : scan_ascii_simd true u i (Nat.min (length text) max) text (Nat.min (length text) max) 0 = UB).
  { destruct (Nat.min (length text) max) as [|n] eqn:En; cbn [scan_ascii_simd andb];
      (replace (_ <? impl_lanes i)%nat with true by lia); reflexivity. }
  rewrite E. destruct i; [contradiction|..]; reflexivity.
Qed.
Print Assumptions C16_reads_in_buffer.
Print Assumptions C16_pointer_before_buffer_refuted.
Example C16_case : X86 W128 <> NoSimd /\ (Nat.min (length [0x41]) 80 < impl_lanes (X86 W128))%nat.
Proof. split; [discriminate|cbn; lia]. Qed.

(** C62. The NEON sign-bit collection (shift-accumulate cascade) is exactly the SSE movemask of the 16 bytes, so the
    all_ascii test means "every byte below 0x80" on both architectures. *)
Theorem C62_neon_movemask : forall v, length v = 16%nat -> Forall byte v -> neon_movemask v = movemask v.
Proof. exact neon_movemask_spec. Qed.
Theorem C62_all_ascii : forall v, Forall byte v -> (movemask v = 0 <-> Forall (fun b => b < 0x80) v).
Proof.
  intros v H. split.
  - intros E. apply all_ascii_spec; [exact H|]. rewrite all_ascii_movemask by exact H. rewrite E. reflexivity.
  - intros F. induction F as [|b v Hb Hv IH]; [reflexivity|]. inversion H; subst. cbn [movemask]. rewrite IH by assumption. destruct (N.leb_spec 128 b); lia.
Qed.
Print Assumptions C62_neon_movemask.
Print Assumptions C62_all_ascii.
Example C62_case : neon_movemask [0x80; 1; 2; 0xFF; 4; 5; 6; 7; 8; 0x99; 10; 11; 12; 13; 14; 0xC0] = 0x8209.
Proof. vm_compute. reflexivity. Qed.
