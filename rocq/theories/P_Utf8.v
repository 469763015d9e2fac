From Verif Require Import Base Spec_Utf M_Utf8.
Open Scope N_scope.

(** ** Masks *)
Lemma land_3F x : N.land x 0x3F = x mod 64.
Proof. exact (land_mask x 6). Qed.
Lemma land_1F x : N.land x 0x1F = x mod 32.
Proof. exact (land_mask x 5). Qed.
Lemma land_0F x : N.land x 0x0F = x mod 16.
Proof. exact (land_mask x 4). Qed.
Lemma land_07 x : N.land x 0x07 = x mod 8.
Proof. exact (land_mask x 3). Qed.
Lemma land_7F x : N.land x 0x7F = x mod 128.
Proof. exact (land_mask x 7). Qed.

Lemma enc_cont x : to_u8 (N.lor (N.land x 0x3F) 0x80) = 0x80 + x mod 64.
Proof.
  rewrite land_3F. assert (H : x mod 64 < 64) by (apply N.mod_lt; lia).
  apply N.eqb_eq. revert H. generalize (x mod 64). apply (sweep (fun y => to_u8 (N.lor y 128) =? 128 + y) 64).
  vm_compute. reflexivity.
Qed.
Lemma enc_l2 x : to_u8 (N.lor (N.land x 0x1F) 0xC0) = 0xC0 + x mod 32.
Proof.
  rewrite land_1F. assert (H : x mod 32 < 32) by (apply N.mod_lt; lia).
  apply N.eqb_eq. revert H. generalize (x mod 32). apply (sweep (fun y => to_u8 (N.lor y 192) =? 192 + y) 32).
  vm_compute. reflexivity.
Qed.
Lemma enc_l3 x : to_u8 (N.lor (N.land x 0x0F) 0xE0) = 0xE0 + x mod 16.
Proof.
  rewrite land_0F. assert (H : x mod 16 < 16) by (apply N.mod_lt; lia).
  apply N.eqb_eq. revert H. generalize (x mod 16). apply (sweep (fun y => to_u8 (N.lor y 224) =? 224 + y) 16).
  vm_compute. reflexivity.
Qed.
Lemma enc_l4 x : to_u8 (N.lor (N.land x 0x07) 0xF0) = 0xF0 + x mod 8.
Proof.
  rewrite land_07. assert (H : x mod 8 < 8) by (apply N.mod_lt; lia).
  apply N.eqb_eq. revert H. generalize (x mod 8). apply (sweep (fun y => to_u8 (N.lor y 240) =? 240 + y) 8).
  vm_compute. reflexivity.
Qed.

(** ** Encoders *)
Lemma encoders_agree c : encoder_char c = to_utf8_char c.
Proof. reflexivity. Qed.

Lemma to_utf8_char_spec c : c < 0x200000 -> to_utf8_char c = utf8 c.
Proof.
  intros Hc. unfold to_utf8_char, utf8. rewrite !enc_cont, enc_l2, enc_l3, enc_l4, !shiftr_div, land_7F.
  change (2 ^ 0) with 1. change (2 ^ 6) with 64. change (2 ^ 12) with 4096. change (2 ^ 18) with 262144.
  rewrite !N.div_1_r. unfold to_u8.
  destruct (N.leb_spec c 0x7F) as [H1|H1].
  { replace (c <? 128) with true by lia. repeat f_equal. rewrite (N.mod_small c 128) by lia. apply N.mod_small; lia. }
  replace (c <? 128) with false by lia.
  destruct (N.leb_spec c 0x7FF) as [H2|H2].
  { replace (c <? 0x800) with true by lia. rewrite (N.mod_small (c / 64)) by lia. reflexivity. }
  replace (c <? 0x800) with false by lia.
  destruct (N.leb_spec c 0xFFFF) as [H3|H3].
  { replace (c <? 0x10000) with true by lia. rewrite (N.mod_small (c / 4096)) by lia. reflexivity. }
  replace (c <? 0x10000) with false by lia.
  rewrite (N.mod_small (c / 262144)) by lia. reflexivity.
Qed.

Lemma scalar_lt c : scalar c -> c < 0x110000.
Proof. unfold scalar. lia. Qed.
Lemma scalarb_iff c : scalarb c = true <-> scalar c.
Proof. unfold scalar, scalarb. lia. Qed.

Lemma to_utf8_spec t : scalars t -> to_utf8 t = utf8_text t.
Proof.
  intros H. induction H as [|c t Hc Ht IH]; [reflexivity|]. cbn [to_utf8 utf8_text flat_map].
  rewrite to_utf8_char_spec by (apply scalar_lt in Hc; lia). rewrite IH. reflexivity.
Qed.

Lemma utf8_table_3_7 c : scalar c -> table_3_7 (utf8 c).
Proof.
  unfold scalar, utf8, table_3_7, rng. intros H.
  destruct (N.ltb_spec c 0x80) as [H1|H1]; [lia|].
  destruct (N.ltb_spec c 0x800) as [H2|H2]; [lia|].
  destruct (N.ltb_spec c 0x10000) as [H3|H3]; lia.
Qed.

Lemma table_3_7_utf8 bs : table_3_7 bs -> exists c, scalar c /\ utf8 c = bs.
Proof.
  unfold table_3_7, rng. intros H.
  destruct bs as [|b1 [|b2 [|b3 [|b4 [|? ?]]]]]; try contradiction.
  - exists b1. unfold scalar, utf8. replace (b1 <? 128) with true by lia. split; [lia|reflexivity].
  - exists ((b1 - 0xC0) * 64 + (b2 - 0x80)). unfold scalar, utf8.
    set (c := (b1 - 0xC0) * 64 + (b2 - 0x80)).
    assert (Hc : 0x80 <= c < 0x800) by (subst c; lia).
    replace (c <? 128) with false by lia. replace (c <? 0x800) with true by lia.
    split; [lia|]. repeat f_equal; subst c; lia.
  - exists ((b1 - 0xE0) * 4096 + (b2 - 0x80) * 64 + (b3 - 0x80)). unfold scalar, utf8.
    set (c := (b1 - 0xE0) * 4096 + (b2 - 0x80) * 64 + (b3 - 0x80)).
    assert (Hc : 0x800 <= c < 0x10000) by (subst c; lia).
    replace (c <? 128) with false by lia. replace (c <? 0x800) with false by lia.
    replace (c <? 0x10000) with true by lia.
    split; [subst c; lia|]. repeat f_equal; subst c; lia.
  - exists ((b1 - 0xF0) * 262144 + (b2 - 0x80) * 4096 + (b3 - 0x80) * 64 + (b4 - 0x80)). unfold scalar, utf8.
    set (c := (b1 - 0xF0) * 262144 + (b2 - 0x80) * 4096 + (b3 - 0x80) * 64 + (b4 - 0x80)).
    assert (Hc : 0x10000 <= c <= 0x10FFFF) by (subst c; lia).
    replace (c <? 128) with false by lia. replace (c <? 0x800) with false by lia.
    replace (c <? 0x10000) with false by lia.
    split; [lia|]. repeat f_equal; subst c; lia.
Qed.

Lemma utf8_bytes c : c < 0x110000 -> Forall byte (utf8 c).
Proof.
  unfold utf8, byte. intros H.
  destruct (N.ltb_spec c 0x80) as [H1|H1]; [repeat constructor; lia|].
  destruct (N.ltb_spec c 0x800) as [H2|H2]; [repeat constructor; lia|].
  destruct (N.ltb_spec c 0x10000) as [H3|H3]; repeat constructor; lia.
Qed.
Lemma utf8_text_bytes t : scalars t -> Forall byte (utf8_text t).
Proof.
  intros H. induction H as [|c t Hc Ht IH]; [constructor|].
  cbn [utf8_text flat_map]. apply Forall_app. split; [apply utf8_bytes, scalar_lt, Hc|exact IH].
Qed.
Lemma utf8_nonempty c : utf8 c <> [].
Proof.
  unfold utf8. destruct (c <? 0x80); [discriminate|]. destruct (c <? 0x800); [discriminate|].
  destruct (c <? 0x10000); discriminate.
Qed.

(** ** Decoders *)
Lemma lead_80 b : b < 256 -> (N.land b 0x80 =? 0) = (b <? 0x80).
Proof. intros H. apply Bool.eqb_prop. revert b H. apply sweep256. vm_compute. reflexivity. Qed.
Lemma lead_C0 b : b < 256 -> (N.land b 0xE0 =? 0xC0) = ((0xC0 <=? b) && (b <? 0xE0)).
Proof. intros H. apply Bool.eqb_prop. revert b H. apply sweep256. vm_compute. reflexivity. Qed.
Lemma lead_E0 b : b < 256 -> (N.land b 0xF0 =? 0xE0) = ((0xE0 <=? b) && (b <? 0xF0)).
Proof. intros H. apply Bool.eqb_prop. revert b H. apply sweep256. vm_compute. reflexivity. Qed.
Lemma lead_F0 b : b < 256 -> (N.land b 0xF8 =? 0xF0) = ((0xF0 <=? b) && (b <? 0xF8)).
Proof. intros H. apply Bool.eqb_prop. revert b H. apply sweep256. vm_compute. reflexivity. Qed.
Lemma is_lead_spec b : b < 256 -> is_lead b = ((0xC0 <=? b) && (b <? 0xF8)).
Proof. intros H. apply Bool.eqb_prop. revert b H. apply sweep256. vm_compute. reflexivity. Qed.

(** Arithmetic form of the "shift in six bits" step, as long as it does not overflow 32 bits. *)
Lemma shift_in ch b : ch < 0x4000000 -> to_u32 (N.lor (to_u32 (N.shiftl ch 6)) (N.land b 0x3F)) = ch * 64 + b mod 64.
Proof.
  intros H. rewrite land_3F. assert (Hb : b mod 64 < 64) by (apply N.mod_lt; lia).
  unfold to_u32. rewrite (N.mod_small (N.shiftl ch 6)) by (rewrite N.shiftl_mul_pow2; change (2^6) with 64; lia).
  rewrite lor_shift_add by (change (2^6) with 64; exact Hb). change (2^6) with 64. apply N.mod_small. lia.
Qed.

(** *** from_utf8, arithmetic characterisation *)
Lemma from_utf8_idle st b : d_exp st = 0 -> b < 256 ->
  from_utf8 st b =
    if b <? 0x80 then (DS (d_char st) 0 1, Success b)
    else if b <? 0xC0 then (DS (d_char st) 0 1, Invalid)
    else if b <? 0xE0 then (DS (b mod 32) 2 1, Incomplete)
    else if b <? 0xF0 then (DS (b mod 16) 3 1, Incomplete)
    else if b <? 0xF8 then (DS (b mod 8) 4 1, Incomplete)
    else (DS (d_char st) 0 1, Invalid).
Proof.
  intros He Hb. unfold from_utf8. rewrite He. change (0 =? 0) with true. cbn match.
  unfold from_utf8_lead. rewrite lead_80, lead_C0, lead_E0, lead_F0 by exact Hb. rewrite He.
  rewrite land_1F, land_0F, land_07.
  destruct (N.ltb_spec b 0x80); [reflexivity|].
  destruct (N.ltb_spec b 0xC0).
  { replace (0xC0 <=? b) with false by lia. replace (0xE0 <=? b) with false by lia. replace (0xF0 <=? b) with false by lia.
    reflexivity. }
  replace (0xC0 <=? b) with true by lia.
  destruct (N.ltb_spec b 0xE0); [reflexivity|].
  replace (0xE0 <=? b) with true by lia. cbn [andb].
  destruct (N.ltb_spec b 0xF0); [reflexivity|].
  replace (0xF0 <=? b) with true by lia. cbn [andb].
  destruct (N.ltb_spec b 0xF8); reflexivity.
Qed.

Lemma from_utf8_cont st b : d_exp st <> 0 -> b < 256 -> (b < 0xC0 \/ 0xF8 <= b) -> d_char st < 0x4000000 ->
  d_cur st < 16 ->
  from_utf8 st b =
    if d_cur st + 1 <? d_exp st then (DS (d_char st * 64 + b mod 64) (d_exp st) (d_cur st + 1), Incomplete)
    else (DS (d_char st * 64 + b mod 64) 0 (d_cur st + 1), Success (d_char st * 64 + b mod 64)).
Proof.
  intros He Hb Hl Hc Hu. unfold from_utf8. replace (d_exp st =? 0) with false by lia.
  rewrite is_lead_spec by exact Hb. replace ((0xC0 <=? b) && (b <? 0xF8)) with false by lia.
  rewrite shift_in by exact Hc. unfold to_u32. rewrite (N.mod_small (d_cur st + 1)) by lia.
  unfold from_utf8_finish. cbn [d_cur d_exp d_char]. reflexivity.
Qed.

(** Reachable decoder states: idle, or in the middle of a sequence. *)
Definition dwf (st : dstate) : Prop :=
  d_exp st = 0 \/
  (1 <= d_cur st /\ d_cur st < d_exp st /\ d_exp st <= 4 /\ d_char st < 32 * 64 ^ (d_cur st - 1)).

Lemma dwf_init : dwf dinit.
Proof. left. reflexivity. Qed.

Lemma pow_small k : k <= 3 -> 64 ^ k <= 262144.
Proof. intros H. change 262144 with (64 ^ 3). apply N.pow_le_mono_r; lia. Qed.

Lemma dwf_char st : dwf st -> d_exp st <> 0 -> d_char st < 0x4000000 /\ d_cur st < 16.
Proof.
  intros [H|(H1 & H2 & H3 & H4)] He; [contradiction|].
  assert (64 ^ (d_cur st - 1) <= 262144) by (apply pow_small; lia). lia.
Qed.

Lemma from_utf8_dwf st b : dwf st -> b < 256 -> dwf (fst (from_utf8 st b)).
Proof.
  intros Hw Hb. destruct (N.eq_dec (d_exp st) 0) as [He|He].
  - rewrite from_utf8_idle by assumption.
    destruct (b <? 0x80); [left; reflexivity|]. destruct (b <? 0xC0); [left; reflexivity|].
    destruct (b <? 0xE0); [right; cbn [fst d_cur d_exp d_char]; lia|].
    destruct (b <? 0xF0); [right; cbn [fst d_cur d_exp d_char]; lia|].
    destruct (b <? 0xF8); [right; cbn [fst d_cur d_exp d_char]; lia|left; reflexivity].
  - destruct (dwf_char st Hw He) as [Hc Hu].
    destruct (is_lead b) eqn:Hl.
    + assert (E : fst (from_utf8 st b) = fst (from_utf8 (DS (d_char st) 0 (d_cur st)) b)).
      { unfold from_utf8 at 1. replace (d_exp st =? 0) with false by lia. rewrite Hl. reflexivity. }
      rewrite E. rewrite from_utf8_idle by (try reflexivity; assumption).
      destruct (b <? 0x80); [left; reflexivity|]. destruct (b <? 0xC0); [left; reflexivity|].
      destruct (b <? 0xE0); [right; cbn [fst d_cur d_exp d_char]; lia|].
      destruct (b <? 0xF0); [right; cbn [fst d_cur d_exp d_char]; lia|].
      destruct (b <? 0xF8); [right; cbn [fst d_cur d_exp d_char]; lia|left; reflexivity].
    + rewrite is_lead_spec in Hl by exact Hb.
      rewrite from_utf8_cont by (try assumption; lia).
      destruct (N.ltb_spec (d_cur st + 1) (d_exp st)) as [Hlt|Hlt]; [|left; reflexivity].
      right. cbn [fst d_cur d_exp d_char]. destruct Hw as [Hw|(H1 & H2 & H3 & H4)]; [contradiction|].
      repeat split; try lia.
      replace (d_cur st + 1 - 1) with (N.succ (d_cur st - 1)) by lia. rewrite N.pow_succ_r'.
      assert (b mod 64 < 64) by (apply N.mod_lt; lia). lia.
Qed.

Lemma from_utf8_run_dwf st bs : dwf st -> Forall byte bs -> dwf (fst (from_utf8_run st bs)).
Proof.
  intros Hw Hb. revert st Hw. induction Hb as [|b bs Hb Hbs IH]; intros st Hw; [exact Hw|].
  cbn [from_utf8_run]. pose proof (from_utf8_dwf st b Hw Hb) as H1.
  destruct (from_utf8 st b) as [st1 r]. cbn [fst] in H1. specialize (IH st1 H1).
  destruct (from_utf8_run st1 bs) as [st2 rs]. exact IH.
Qed.

(** Feeding the bytes of one character. *)
Definition char_results (c : N) : list cres :=
  repeat Incomplete (length (utf8 c) - 1) ++ [Success c].

Lemma from_utf8_run_app st bs1 bs2 :
  from_utf8_run st (bs1 ++ bs2) =
  (fst (from_utf8_run (fst (from_utf8_run st bs1)) bs2),
   snd (from_utf8_run st bs1) ++ snd (from_utf8_run (fst (from_utf8_run st bs1)) bs2)).
Proof.
  revert st. induction bs1 as [|b bs1 IH]; intros st; cbn [from_utf8_run app fst snd].
  - apply surjective_pairing.
  - destruct (from_utf8 st b) as [st1 r]. rewrite IH.
    destruct (from_utf8_run st1 bs1) as [st2 rs]. reflexivity.
Qed.

Lemma from_utf8_run_char st c : d_exp st = 0 -> scalar c ->
  exists st', from_utf8_run st (utf8 c) = (st', char_results c) /\ d_exp st' = 0 /\ d_cur st' = N.of_nat (length (utf8 c)).
Proof.
  intros He Hs. unfold char_results, utf8. unfold scalar in Hs.
  destruct (N.ltb_spec c 0x80) as [H1|H1].
  { cbn [from_utf8_run length Nat.sub repeat app]. rewrite from_utf8_idle by (try assumption; lia).
    replace (c <? 128) with true by lia. eexists; repeat split. }
  destruct (N.ltb_spec c 0x800) as [H2|H2].
  { cbn [from_utf8_run length Nat.sub repeat app]. rewrite from_utf8_idle by (try assumption; lia).
    replace (192 + c / 64 <? 128) with false by lia. replace (192 + c / 64 <? 192) with false by lia.
    replace (192 + c / 64 <? 224) with true by lia.
    rewrite from_utf8_cont by (cbn [d_exp d_cur d_char]; lia). cbn [d_exp d_cur d_char].
    change (1 + 1 <? 2) with false. cbn iota.
    replace ((192 + c / 64) mod 32 * 64 + (128 + c mod 64) mod 64) with c by lia.
    eexists; repeat split. }
  destruct (N.ltb_spec c 0x10000) as [H3|H3].
  { cbn [from_utf8_run length Nat.sub repeat app]. rewrite from_utf8_idle by (try assumption; lia).
    replace (224 + c / 4096 <? 128) with false by lia. replace (224 + c / 4096 <? 192) with false by lia.
    replace (224 + c / 4096 <? 224) with false by lia. replace (224 + c / 4096 <? 240) with true by lia.
    rewrite from_utf8_cont by (cbn [d_exp d_cur d_char]; lia). cbn [d_exp d_cur d_char].
    change (1 + 1 <? 3) with true. cbn iota.
    rewrite from_utf8_cont by (cbn [d_exp d_cur d_char]; lia). cbn [d_exp d_cur d_char].
    change (1 + 1 + 1 <? 3) with false. cbn iota.
    replace (((224 + c / 4096) mod 16 * 64 + (128 + c / 64 mod 64) mod 64) * 64 + (128 + c mod 64) mod 64) with c by lia.
    eexists; repeat split. }
  { cbn [from_utf8_run length Nat.sub repeat app]. rewrite from_utf8_idle by (try assumption; lia).
    replace (240 + c / 262144 <? 128) with false by lia. replace (240 + c / 262144 <? 192) with false by lia.
    replace (240 + c / 262144 <? 224) with false by lia. replace (240 + c / 262144 <? 240) with false by lia.
    replace (240 + c / 262144 <? 248) with true by lia.
    rewrite from_utf8_cont by (cbn [d_exp d_cur d_char]; lia). cbn [d_exp d_cur d_char].
    change (1 + 1 <? 4) with true. cbn iota.
    rewrite from_utf8_cont by (cbn [d_exp d_cur d_char]; lia). cbn [d_exp d_cur d_char].
    change (1 + 1 + 1 <? 4) with true. cbn iota.
    rewrite from_utf8_cont by (cbn [d_exp d_cur d_char]; lia). cbn [d_exp d_cur d_char].
    change (1 + 1 + 1 + 1 <? 4) with false. cbn iota.
    replace ((((240 + c / 262144) mod 8 * 64 + (128 + c / 4096 mod 64) mod 64) * 64 + (128 + c / 64 mod 64) mod 64) * 64
             + (128 + c mod 64) mod 64) with c by lia.
    eexists; repeat split. }
Qed.

Lemma from_utf8_run_text st t : d_exp st = 0 -> scalars t ->
  exists st', from_utf8_run st (utf8_text t) = (st', flat_map char_results t) /\ d_exp st' = 0.
Proof.
  intros He Ht. revert st He. induction Ht as [|c t Hc Ht IH]; intros st He.
  - exists st. split; [reflexivity|exact He].
  - cbn [utf8_text flat_map]. rewrite from_utf8_run_app.
    destruct (from_utf8_run_char st c He Hc) as (st1 & E1 & He1 & _).
    rewrite E1. cbn [fst snd]. destruct (IH st1 He1) as (st2 & E2 & He2).
    unfold utf8_text in E2. rewrite E2. exists st2. split; [reflexivity|exact He2].
Qed.

Lemma successes_app a b : successes (a ++ b) = successes a ++ successes b.
Proof. induction a as [|[| |v] a IH]; cbn [successes app]; rewrite ?IH; reflexivity. Qed.
Lemma successes_char c : successes (char_results c) = [c].
Proof.
  unfold char_results. rewrite successes_app. induction (length (utf8 c) - 1)%nat as [|n IH]; [reflexivity|exact IH].
Qed.
Lemma successes_text t : successes (flat_map char_results t) = t.
Proof. induction t as [|c t IH]; [reflexivity|]. cbn [flat_map]. rewrite successes_app, successes_char, IH. reflexivity. Qed.

(** from_utf8(bytes, &size) *)
Lemma from_utf8_buf_loop_step st b buf n : from_utf8_buf_loop st (b :: buf) n =
  match from_utf8 st b with
  | (st', Incomplete) => from_utf8_buf_loop st' buf (S n)
  | (st', r) => Ok (r, d_cur st', S n)
  end.
Proof. reflexivity. Qed.

Lemma from_utf8_buf_loop_incompl st st' bs rest n : from_utf8_run st bs = (st', repeat Incomplete (length bs)) ->
  from_utf8_buf_loop st (bs ++ rest) n = from_utf8_buf_loop st' rest (n + length bs).
Proof.
  revert st n. induction bs as [|b bs IH]; intros st n; cbn [from_utf8_run repeat length app].
  - intros [= ->]. rewrite Nat.add_0_r. reflexivity.
  - cbn [from_utf8_buf_loop]. destruct (from_utf8 st b) as [st1 r].
    destruct (from_utf8_run st1 bs) as [st2 rs] eqn:E. intros [= -> -> ->]. rewrite (IH st1 (S n)) by exact E.
    f_equal. lia.
Qed.

Lemma from_utf8_buf_char c rest : scalar c ->
  from_utf8_buf (utf8 c ++ rest) = Ok (Success c, N.of_nat (length (utf8 c)), length (utf8 c)).
Proof.
  intros Hc. destruct (from_utf8_run_char dinit c eq_refl Hc) as (st' & E & He & Hu).
  destruct (exists_last (utf8_nonempty c)) as (bs & b & Eb).
  assert (Hl : length (utf8 c) = S (length bs)) by (rewrite Eb, app_length; cbn [length]; lia).
  rewrite Eb in E |- *. rewrite <- Eb at 2 3. rewrite from_utf8_run_app in E.
  unfold char_results in E. rewrite Hl in E |- *. replace (S (length bs) - 1)%nat with (length bs) in E by lia.
  unfold from_utf8_buf. rewrite <- app_assoc.
  destruct (from_utf8_run dinit bs) as [s1 r1] eqn:E1. cbn [fst snd] in E.
  cbn [from_utf8_run] in E. destruct (from_utf8 s1 b) as [s2 r2] eqn:E2.
  injection E as E3 E4. apply app_inj_tail in E4. destruct E4 as [-> ->].
  rewrite (from_utf8_buf_loop_incompl _ _ _ _ _ E1). cbn [app from_utf8_buf_loop]. rewrite E2.
  rewrite E3, Hu, Hl. reflexivity.
Qed.

(** *** decoder<char> byte version *)
Lemma decoder_run_app st a b :
  decoder_run st (a ++ b) =
  (fst (decoder_run (fst (decoder_run st a)) b), snd (decoder_run st a) ++ snd (decoder_run (fst (decoder_run st a)) b)).
Proof.
  revert st. induction a as [|x a IH]; intros st; cbn [decoder_run app fst snd].
  - apply surjective_pairing.
  - destruct (decoder_char st x) as [st1 r]. rewrite IH.
    destruct (decoder_run st1 a) as [st2 rs]. cbn [fst snd]. destruct r; reflexivity.
Qed.

(** The decoder simulates from_utf8 except on lead bytes in the middle of a sequence. *)
Lemma decoder_char_idle st b : d_exp st = 0 -> b < 256 ->
  decoder_char st b =
    if b <? 0x80 then (DS (d_char st) 0 1, Some b)
    else if b <? 0xC0 then (st, None)
    else if b <? 0xE0 then (DS (b mod 32) 2 1, None)
    else if b <? 0xF0 then (DS (b mod 16) 3 1, None)
    else if b <? 0xF8 then (DS (b mod 8) 4 1, None)
    else (st, None).
Proof.
  intros He Hb. unfold decoder_char. rewrite He. change (0 =? 0) with true. cbn match.
  rewrite lead_80, lead_C0, lead_E0, lead_F0 by exact Hb. 
  rewrite land_1F, land_0F, land_07.
  destruct (N.ltb_spec b 0x80); [reflexivity|].
  destruct (N.ltb_spec b 0xC0).
  { replace (0xC0 <=? b) with false by lia. replace (0xE0 <=? b) with false by lia. replace (0xF0 <=? b) with false by lia.
    reflexivity. }
  replace (0xC0 <=? b) with true by lia.
  destruct (N.ltb_spec b 0xE0); [reflexivity|].
  replace (0xE0 <=? b) with true by lia. cbn [andb].
  destruct (N.ltb_spec b 0xF0); [reflexivity|].
  replace (0xF0 <=? b) with true by lia. cbn [andb].
  destruct (N.ltb_spec b 0xF8); reflexivity.
Qed.

Lemma decoder_char_cont st b : d_exp st <> 0 -> d_char st < 0x4000000 ->
  d_cur st < 16 ->
  decoder_char st b =
    if d_cur st + 1 <? d_exp st then (DS (d_char st * 64 + b mod 64) (d_exp st) (d_cur st + 1), None)
    else (DS (d_char st * 64 + b mod 64) 0 (d_cur st + 1), Some (d_char st * 64 + b mod 64)).
Proof.
  intros He Hc Hu. unfold decoder_char. replace (d_exp st =? 0) with false by lia.
  rewrite shift_in by exact Hc. unfold to_u32. rewrite (N.mod_small (d_cur st + 1)) by lia.
  unfold decoder_finish. cbn [d_cur d_exp d_char]. reflexivity.
Qed.

Lemma decoder_run_char st c : d_exp st = 0 -> scalar c ->
  exists st', decoder_run st (utf8 c) = (st', [c]) /\ d_exp st' = 0.
Proof.
  intros He Hs. unfold utf8. unfold scalar in Hs.
  destruct (N.ltb_spec c 0x80) as [H1|H1].
  { cbn [decoder_run]. rewrite decoder_char_idle by (try assumption; lia).
    replace (c <? 128) with true by lia. eexists; repeat split. }
  destruct (N.ltb_spec c 0x800) as [H2|H2].
  { cbn [decoder_run]. rewrite decoder_char_idle by (try assumption; lia).
    replace (192 + c / 64 <? 128) with false by lia. replace (192 + c / 64 <? 192) with false by lia.
    replace (192 + c / 64 <? 224) with true by lia.
    rewrite decoder_char_cont by (cbn [d_exp d_cur d_char]; lia). cbn [d_exp d_cur d_char].
    change (1 + 1 <? 2) with false. cbn iota.
    replace ((192 + c / 64) mod 32 * 64 + (128 + c mod 64) mod 64) with c by lia.
    eexists; repeat split. }
  destruct (N.ltb_spec c 0x10000) as [H3|H3].
  { cbn [decoder_run]. rewrite decoder_char_idle by (try assumption; lia).
    replace (224 + c / 4096 <? 128) with false by lia. replace (224 + c / 4096 <? 192) with false by lia.
    replace (224 + c / 4096 <? 224) with false by lia. replace (224 + c / 4096 <? 240) with true by lia.
    rewrite decoder_char_cont by (cbn [d_exp d_cur d_char]; lia). cbn [d_exp d_cur d_char].
    change (1 + 1 <? 3) with true. cbn iota.
    rewrite decoder_char_cont by (cbn [d_exp d_cur d_char]; lia). cbn [d_exp d_cur d_char].
    change (1 + 1 + 1 <? 3) with false. cbn iota.
    replace (((224 + c / 4096) mod 16 * 64 + (128 + c / 64 mod 64) mod 64) * 64 + (128 + c mod 64) mod 64) with c by lia.
    eexists; repeat split. }
  { cbn [decoder_run]. rewrite decoder_char_idle by (try assumption; lia).
    replace (240 + c / 262144 <? 128) with false by lia. replace (240 + c / 262144 <? 192) with false by lia.
    replace (240 + c / 262144 <? 224) with false by lia. replace (240 + c / 262144 <? 240) with false by lia.
    replace (240 + c / 262144 <? 248) with true by lia.
    rewrite decoder_char_cont by (cbn [d_exp d_cur d_char]; lia). cbn [d_exp d_cur d_char].
    change (1 + 1 <? 4) with true. cbn iota.
    rewrite decoder_char_cont by (cbn [d_exp d_cur d_char]; lia). cbn [d_exp d_cur d_char].
    change (1 + 1 + 1 <? 4) with true. cbn iota.
    rewrite decoder_char_cont by (cbn [d_exp d_cur d_char]; lia). cbn [d_exp d_cur d_char].
    change (1 + 1 + 1 + 1 <? 4) with false. cbn iota.
    replace ((((240 + c / 262144) mod 8 * 64 + (128 + c / 4096 mod 64) mod 64) * 64 + (128 + c / 64 mod 64) mod 64) * 64
             + (128 + c mod 64) mod 64) with c by lia.
    eexists; repeat split. }
Qed.

Lemma decoder_run_text st t : d_exp st = 0 -> scalars t ->
  exists st', decoder_run st (utf8_text t) = (st', t) /\ d_exp st' = 0.
Proof.
  intros He Ht. revert st He. induction Ht as [|c t Hc Ht IH]; intros st He.
  - exists st. split; [reflexivity|exact He].
  - cbn [utf8_text flat_map]. rewrite decoder_run_app.
    destruct (decoder_run_char st c He Hc) as (st1 & E1 & He1).
    rewrite E1. cbn [fst snd]. destruct (IH st1 He1) as (st2 & E2 & He2).
    unfold utf8_text in E2. rewrite E2. exists st2. split; [reflexivity|exact He2].
Qed.

(** ** Injectivity, prefix-freeness, order *)
Lemma utf8_text_inj t1 t2 : scalars t1 -> scalars t2 -> utf8_text t1 = utf8_text t2 -> t1 = t2.
Proof.
  intros H1 H2 E.
  destruct (decoder_run_text dinit t1 eq_refl H1) as (s1 & E1 & _).
  destruct (decoder_run_text dinit t2 eq_refl H2) as (s2 & E2 & _).
  rewrite E in E1. rewrite E1 in E2. injection E2 as _ E3. exact E3.
Qed.

Lemma lex_app_same p a b : lex (p ++ a) (p ++ b) = lex a b.
Proof. induction p as [|x p IH]; [reflexivity|]. cbn [app lex]. rewrite N.compare_refl. exact IH. Qed.

(** First difference inside the first characters. *)
Lemma utf8_lex_lt c1 c2 r1 r2 : scalar c1 -> scalar c2 -> c1 < c2 -> lex (utf8 c1 ++ r1) (utf8 c2 ++ r2) = Lt.
Proof.
  unfold scalar. intros H1 H2 Hlt.
  assert (S : forall x y a b, x < y -> lex (x :: a) (y :: b) = Lt).
  { intros x y a b H. cbn [lex]. rewrite (proj2 (N.compare_lt_iff _ _)) by exact H. reflexivity. }
  assert (Q : forall x y a b, x = y -> lex a b = Lt -> lex (x :: a) (y :: b) = Lt).
  { intros x y a b -> H. cbn [lex]. rewrite N.compare_refl. exact H. }
  unfold utf8.
  destruct (N.ltb_spec c1 0x80) as [A1|A1]; destruct (N.ltb_spec c2 0x80) as [B1|B1]; cbn [app].
  1: apply S; lia.
  1: destruct (c2 <? 0x800); [|destruct (c2 <? 0x10000)]; cbn [app]; apply S; lia.
  1: lia.
  destruct (N.ltb_spec c1 0x800) as [A2|A2]; destruct (N.ltb_spec c2 0x800) as [B2|B2]; cbn [app].
  { destruct (N.eq_dec (c1 / 64) (c2 / 64)); [apply Q; [lia|]; apply S; lia|apply S; lia]. }
  { destruct (N.ltb_spec c2 0x10000); cbn [app]; apply S; lia. }
  { lia. }
  destruct (N.ltb_spec c1 0x10000) as [A3|A3]; destruct (N.ltb_spec c2 0x10000) as [B3|B3]; cbn [app].
  { destruct (N.eq_dec (c1 / 4096) (c2 / 4096)); [apply Q; [lia|]|apply S; lia].
    destruct (N.eq_dec (c1 / 64 mod 64) (c2 / 64 mod 64)); [apply Q; [lia|]|apply S; lia].
    apply S; lia. }
  { apply S; lia. }
  { lia. }
  { destruct (N.eq_dec (c1 / 262144) (c2 / 262144)); [apply Q; [lia|]|apply S; lia].
    destruct (N.eq_dec (c1 / 4096 mod 64) (c2 / 4096 mod 64)); [apply Q; [lia|]|apply S; lia].
    destruct (N.eq_dec (c1 / 64 mod 64) (c2 / 64 mod 64)); [apply Q; [lia|]|apply S; lia].
    apply S; lia. }
Qed.

Lemma lex_antisym a b : lex a b = CompOpp (lex b a).
Proof.
  revert b. induction a as [|x a IH]; intros [|y b]; try reflexivity. cbn [lex].
  rewrite (N.compare_antisym y x). destruct (y ?= x); cbn [CompOpp]; try reflexivity. apply IH.
Qed.

Lemma utf8_text_lex t1 t2 : scalars t1 -> scalars t2 -> lex (utf8_text t1) (utf8_text t2) = lex t1 t2.
Proof.
  intros H1. revert t2. induction H1 as [|c t Hc Ht IH]; intros [|c2 t2] H2; try reflexivity.
  - cbn [utf8_text flat_map lex]. destruct (utf8 c2) eqn:E; [destruct (utf8_nonempty c2 E)|]. reflexivity.
  - cbn [utf8_text flat_map lex]. destruct (utf8 c) eqn:E; [destruct (utf8_nonempty c E)|]. reflexivity.
  - inversion H2 as [|? ? Hc2 Ht2]; subst. cbn [utf8_text flat_map lex].
    destruct (N.compare_spec c c2) as [E|L|G].
    + subst c2. rewrite lex_app_same. apply IH. exact Ht2.
    + apply utf8_lex_lt; assumption.
    + rewrite lex_antisym. rewrite utf8_lex_lt by assumption. reflexivity.
Qed.

Lemma utf8_prefix_free c1 c2 r : scalar c1 -> scalar c2 -> utf8 c2 = utf8 c1 ++ r -> c1 = c2 /\ r = [].
Proof.
  intros H1 H2 E.
  pose proof (from_utf8_buf_char c1 r H1) as A. rewrite <- E in A.
  pose proof (from_utf8_buf_char c2 [] H2) as B. rewrite app_nil_r in B. rewrite A in B.
  injection B as B1 B2 B3. split; [exact B1|]. subst c2.
  apply (f_equal (@length N)) in E. rewrite app_length in E. destruct r; [reflexivity|cbn [length] in E; lia].
Qed.
