(** Property theorems C01-C07 and C14. *)
From Verif Require Import Base Spec_Utf M_Utf8 M_Convert P_Utf8 P_Utf8b P_Convert.
Open Scope N_scope.

(** C01. Decoding what was encoded gives the text back, through every decoder. *)
Theorem C01_roundtrip_bulk : forall (i : impl) (t : list N), scalars t ->
  convert_to false i T32 T8 (to_utf8 t) = Ok t.
Proof.
  intros i t H. rewrite to_utf8_spec by exact H. rewrite <- text_units_8.
  rewrite convert_to_units by exact H. rewrite text_units_32. reflexivity.
Qed.
Theorem C01_roundtrip_convert_to : forall (i : impl) (t : list N), scalars t ->
  exists bs, convert_to false i T8 T32 t = Ok bs /\ convert_to false i T32 T8 bs = Ok t.
Proof.
  intros i t H. exists (text_units T8 t). split.
  - rewrite <- (text_units_32 t) at 1. apply convert_to_units, H.
  - rewrite convert_to_units by exact H. rewrite text_units_32. reflexivity.
Qed.
Theorem C01_roundtrip_progressive : forall t, scalars t ->
  successes (snd (from_utf8_run dinit (to_utf8 t))) = t.
Proof.
  intros t H. rewrite to_utf8_spec by exact H. destruct (from_utf8_run_text dinit t eq_refl H) as (st & E & _).
  rewrite E. apply successes_text.
Qed.
Theorem C01_roundtrip_stream : forall t, scalars t -> snd (stream_chunk dinit (to_utf8 t)) = t.
Proof.
  intros t H. rewrite to_utf8_spec by exact H. rewrite stream_chunk_run.
  destruct (decoder_run_text dinit t eq_refl H) as (st & E & _). rewrite E. reflexivity.
Qed.
Print Assumptions C01_roundtrip_bulk.
Print Assumptions C01_roundtrip_convert_to.
Print Assumptions C01_roundtrip_progressive.
Print Assumptions C01_roundtrip_stream.
Example C01_case : scalars [0x41; 0xE9; 0x20AC; 0x1F600; 0x10FFFF].
Proof. repeat constructor; unfold scalar; lia. Qed.

(** C02. *)
Theorem C02_encoder_table_3_6 : forall c, scalar c -> to_utf8_char c = utf8 c /\ encoder_char c = utf8 c.
Proof. intros c H. split; [|rewrite encoders_agree]; apply to_utf8_char_spec; apply scalar_lt in H; lia. Qed.
Theorem C02_encoder_wellformed_3_7 : forall c, scalar c -> table_3_7 (to_utf8_char c).
Proof. intros c H. rewrite to_utf8_char_spec by (apply scalar_lt in H; lia). apply utf8_table_3_7, H. Qed.
Theorem C02_table_3_7_complete : forall bs, table_3_7 bs -> exists c, scalar c /\ to_utf8_char c = bs.
Proof.
  intros bs H. destruct (table_3_7_utf8 bs H) as (c & Hc & E). exists c. split; [exact Hc|].
  rewrite to_utf8_char_spec by (apply scalar_lt in Hc; lia). exact E.
Qed.
Theorem C02_encoders_agree : forall c, encoder_char c = to_utf8_char c.
Proof. exact encoders_agree. Qed.
Theorem C02_text_encoding : forall t, scalars t -> to_utf8 t = utf8_text t.
Proof. exact to_utf8_spec. Qed.
Print Assumptions C02_encoder_table_3_6.
Print Assumptions C02_encoder_wellformed_3_7.
Print Assumptions C02_table_3_7_complete.
Print Assumptions C02_encoders_agree.
Print Assumptions C02_text_encoding.
Example C02_case : to_utf8_char 0x20AC = [0xE2; 0x82; 0xAC] /\ table_3_7 [0xE2; 0x82; 0xAC].
Proof. split; [reflexivity|]. unfold table_3_7, rng. lia. Qed.

(** C03. *)
Theorem C03_injective : forall t1 t2, scalars t1 -> scalars t2 -> to_utf8 t1 = to_utf8 t2 -> t1 = t2.
Proof. intros t1 t2 H1 H2. rewrite !to_utf8_spec by assumption. apply utf8_text_inj; assumption. Qed.
Theorem C03_prefix_free : forall c1 c2 r, scalar c1 -> scalar c2 -> to_utf8_char c2 = to_utf8_char c1 ++ r -> c1 = c2 /\ r = [].
Proof.
  intros c1 c2 r H1 H2. pose proof (scalar_lt _ H1). pose proof (scalar_lt _ H2).
  rewrite !to_utf8_char_spec by lia. apply utf8_prefix_free; assumption.
Qed.
Theorem C03_order_preserving : forall t1 t2, scalars t1 -> scalars t2 -> lex (to_utf8 t1) (to_utf8 t2) = lex t1 t2.
Proof. intros t1 t2 H1 H2. rewrite !to_utf8_spec by assumption. apply utf8_text_lex; assumption. Qed.
Print Assumptions C03_injective.
Print Assumptions C03_prefix_free.
Print Assumptions C03_order_preserving.
Example C03_case : lex (to_utf8 [0x61; 0xFFFF]) (to_utf8 [0x61; 0x10000]) = Lt /\ scalars [0x61; 0xFFFF] /\ scalars [0x61; 0x10000].
Proof. repeat split; repeat constructor; unfold scalar; lia. Qed.

(** C04. [n] Incomplete results for the first bytes of each character, then Success with the code point; never Invalid. *)
Theorem C04_progressive_results : forall st t, d_exp st = 0 -> scalars t ->
  exists st', from_utf8_run st (utf8_text t)
      = (st', flat_map (fun c => repeat Incomplete (length (utf8 c) - 1) ++ [Success c]) t) /\ d_exp st' = 0.
Proof. exact from_utf8_run_text. Qed.
Theorem C04_from_utf8i : forall st b, from_utf8i st b =
  (fst (from_utf8 st b), match snd (from_utf8 st b) with Incomplete => 0xFFFFFFFF | Invalid => 0xFFFFFFFE | Success c => c end).
Proof. intros st b. unfold from_utf8i. destruct (from_utf8 st b) as [st' [| |c]]; reflexivity. Qed.
Print Assumptions C04_progressive_results.
Print Assumptions C04_from_utf8i.
Example C04_case : snd (from_utf8_run dinit [0x41; 0xE2; 0x82; 0xAC]) = [Success 0x41; Incomplete; Incomplete; Success 0x20AC].
Proof. reflexivity. Qed.

(** C05. The full statement: every reported code point ends a well-formed sequence. *)
Definition C05_statement : Prop := forall bs, Forall byte bs -> forall k v,
  nth_error (snd (from_utf8_run dinit bs)) k = Some (Success v) ->
  scalar v /\ exists pre, firstn (S k) bs = pre ++ utf8 v.
(** It is false: an ASCII byte is swallowed as a continuation byte (C3 41 -> U+00C1), overlong forms (C0 80 -> U+0000),
    surrogates (ED A0 80 -> U+D800) and values above U+10FFFF (F7 BF BF BF -> U+1FFFFF) are accepted. *)
Theorem C05_only_wellformed_refuted : ~ C05_statement.
Proof.
  intros H. destruct (H [0xED; 0xA0; 0x80] ltac:(repeat constructor) 2%nat 0xD800 eq_refl) as [A _]. unfold scalar in A. lia.
Qed.
Theorem C05_witnesses :
  snd (from_utf8_run dinit [0xC3; 0x41]) = [Incomplete; Success 0xC1] /\
  snd (from_utf8_run dinit [0xC0; 0x80]) = [Incomplete; Success 0] /\
  snd (from_utf8_run dinit [0xED; 0xA0; 0x80]) = [Incomplete; Incomplete; Success 0xD800] /\
  snd (from_utf8_run dinit [0xF7; 0xBF; 0xBF; 0xBF]) = [Incomplete; Incomplete; Incomplete; Success 0x1FFFFF] /\
  snd (from_utf8_run dinit [0xC3; 0xFF]) = [Incomplete; Success 0xFF].
Proof. repeat split; reflexivity. Qed.
(** What does hold (partial): every reported code point ends a lead byte followed by exactly the announced number of non-lead
    bytes and is their six-bit concatenation; if those bytes are well-formed UTF-8, it is the code point they encode. *)
Theorem C05_accepts_loose_partial : forall bs, Forall byte bs -> forall k v,
  nth_error (snd (from_utf8_run dinit bs)) k = Some (Success v) ->
  exists pre seq, firstn (S k) bs = pre ++ seq /\ loose seq v /\ (table_3_7 seq -> scalar v /\ utf8 v = seq).
Proof.
  intros bs Hb k v Hk. destruct (accept_run dinit bs [] dwf_init (or_introl eq_refl) Hb k v Hk) as (p & s & E & L).
  exists p, s. split; [exact E|]. split; [exact L|]. apply loose_wellformed, L.
Qed.
Print Assumptions C05_only_wellformed_refuted.
Print Assumptions C05_witnesses.
Print Assumptions C05_accepts_loose_partial.
Example C05_case : nth_error (snd (from_utf8_run dinit [0x80; 0xE2; 0x82; 0xAC])) 3 = Some (Success 0x20AC).
Proof. reflexivity. Qed.

(** C06. Result, size, and number of bytes read; [rest] is arbitrary memory behind the character (possibly none). *)
Theorem C06_one_code_point : forall c rest, scalar c ->
  from_utf8_buf (utf8 c ++ rest) = Ok (Success c, N.of_nat (length (utf8 c)), length (utf8 c)).
Proof. exact from_utf8_buf_char. Qed.
Print Assumptions C06_one_code_point.
(** The precondition is needed: on a truncated character the loop reads behind the buffer. *)
Example C06_needs_wellformed : from_utf8_buf [0xE2; 0x82] = UB.
Proof. reflexivity. Qed.
Example C06_case : from_utf8_buf ([0xE2; 0x82; 0xAC] ++ []) = Ok (Success 0x20AC, 3, 3%nat).
Proof. reflexivity. Qed.

(** C07. *)
Theorem C07_from_utf8_chunking : forall st chunks,
  from_utf8_run st (concat chunks) = (fst (from_utf8_chunks st chunks), concat (snd (from_utf8_chunks st chunks))).
Proof. exact from_utf8_chunks_concat. Qed.
Theorem C07_stream_chunking : forall st chunks,
  stream_chunk st (concat chunks) = (fst (stream_chunks st chunks), concat (snd (stream_chunks st chunks))).
Proof. intros st chunks. rewrite stream_chunk_run. apply stream_chunks_concat. Qed.
Theorem C07_stream_equals_bulk : forall i chunks, Forall (Forall byte) chunks ->
  convert_to false i T32 T8 (concat chunks) = Ok (concat (snd (stream_chunks dinit chunks))).
Proof. exact stream_equals_bulk. Qed.
Print Assumptions C07_from_utf8_chunking.
Print Assumptions C07_stream_chunking.
Print Assumptions C07_stream_equals_bulk.
Example C07_case : snd (stream_chunks dinit [[0x41; 0xE2]; [0x82]; [0xAC; 0x42]]) = [[0x41]; []; [0x20AC; 0x42]].
Proof. reflexivity. Qed.

(** C14. *)
Theorem C14_resync_progressive : forall garbage t, Forall byte garbage -> scalars t ->
  exists junk k, (length junk <= 1)%nat /\ (k <= 3)%nat /\
    successes (snd (from_utf8_run (fst (from_utf8_run dinit garbage)) (utf8_text t))) = junk ++ skipn k t.
Proof. exact resync_from_utf8. Qed.
Theorem C14_resync_decoder : forall garbage t, Forall byte garbage -> scalars t ->
  exists junk k, (length junk <= 1)%nat /\ (k <= 3)%nat /\
    snd (decoder_run (fst (decoder_run dinit garbage)) (utf8_text t)) = junk ++ skipn k t.
Proof. exact resync_decoder. Qed.
Print Assumptions C14_resync_progressive.
Print Assumptions C14_resync_decoder.
Example C14_case : successes (snd (from_utf8_run (fst (from_utf8_run dinit [0xF0])) (utf8_text [0x61; 0x62; 0x63; 0x64])))
  = [0x21 * 4096 + 0x22 * 64 + 0x23] ++ skipn 3 [0x61; 0x62; 0x63; 0x64].
Proof. reflexivity. Qed.
