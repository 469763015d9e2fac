From Verif Require Import Base Spec_Utf M_Utf8 P_Utf8 P_Utf8b M_Convert.
Open Scope N_scope.

(** ** UTF-16 *)
Lemma encoder_char16_scalar c : scalar c -> encoder_char16 c = utf16 c.
Proof.
  unfold scalar, encoder_char16, utf16, to_u16. intros H.
  rewrite shiftr_div. change 0x3FF with (N.ones 10). rewrite land_mask. change (2 ^ 10) with 1024.
  destruct (N.ltb_spec c 0xD800) as [H1|H1].
  { replace (c <? 0x10000) with true by lia. rewrite (N.mod_small c 65536) by lia. reflexivity. }
  destruct (N.ltb_spec c 0x10000) as [H2|H2].
  { replace (c <? 0xE000) with false by lia. rewrite (N.mod_small c 65536) by lia. reflexivity. }
  replace (c <? 0x110000) with true by lia. f_equal; [|f_equal]; lia.
Qed.
Lemma encoder_char16_nonscalar c : ~ scalar c -> encoder_char16 c = [].
Proof.
  unfold scalar, encoder_char16. intros H. destruct (N.ltb_spec c 0xD800); [lia|].
  destruct (N.ltb_spec c 0x10000); [replace (c <? 0xE000) with true by lia; reflexivity|].
  replace (c <? 0x110000) with false by lia. reflexivity.
Qed.

Lemma decoder_char16_utf16 c rest : scalar c -> decoder_char16 (utf16 c ++ rest) = Ok (Some c, rest).
Proof.
  unfold scalar, utf16. intros H.
  destruct (N.ltb_spec c 0x10000) as [H1|H1]; cbn [app]; unfold decoder_char16; cbn [next_it bindR].
  - destruct (N.ltb_spec c 0xD800); [reflexivity|]. replace (c <? 0xDC00) with false by lia.
    replace (c <? 0xE000) with false by lia. reflexivity.
  - replace (0xD800 + (c - 0x10000) / 1024 <? 0xD800) with false by lia.
    replace (0xD800 + (c - 0x10000) / 1024 <? 0xDC00) with true by lia.
    rewrite shiftr_div, N.shiftl_mul_pow2. change (2 ^ 10) with 1024.
    replace ((0xDC00 + (c - 0x10000) mod 1024) / 1024 =? 0x37) with true by lia. cbn [negb].
    repeat f_equal. lia.
Qed.

Lemma not_cont_spec b : b < 256 -> not_cont b = negb ((0x80 <=? b) && (b <? 0xC0)).
Proof. intros H. apply Bool.eqb_prop. revert b H. apply sweep256. vm_compute. reflexivity. Qed.

Lemma decoder_char_it_utf8 c rest : scalar c -> decoder_char_it (utf8 c ++ rest) = Ok (Some c, rest).
Proof.
  unfold scalar, utf8. intros H.
  destruct (N.ltb_spec c 0x80) as [H1|H1]; [|destruct (N.ltb_spec c 0x800) as [H2|H2];
    [|destruct (N.ltb_spec c 0x10000) as [H3|H3]]]; cbn [app]; unfold decoder_char_it; cbn [next_it bindR].
  - replace (c <? 0x80) with true by lia. reflexivity.
  - replace (0xC0 + c / 64 <? 0x80) with false by lia. replace (0xC0 + c / 64 <? 0xC0) with false by lia.
    replace (0xC0 + c / 64 <? 0xE0) with true by lia.
    rewrite not_cont_spec by lia. rewrite N.shiftl_mul_pow2. change (2 ^ 6) with 64.
    replace ((0x80 <=? 0x80 + c mod 64) && (0x80 + c mod 64 <? 0xC0)) with true by lia. cbn [negb].
    repeat f_equal. lia.
  - replace (0xE0 + c / 4096 <? 0x80) with false by lia. replace (0xE0 + c / 4096 <? 0xC0) with false by lia.
    replace (0xE0 + c / 4096 <? 0xE0) with false by lia. replace (0xE0 + c / 4096 <? 0xF0) with true by lia.
    rewrite !not_cont_spec by lia. rewrite !N.shiftl_mul_pow2. change (2 ^ 6) with 64. change (2 ^ 12) with 4096.
    replace ((0x80 <=? 0x80 + c mod 64) && (0x80 + c mod 64 <? 0xC0)) with true by lia.
    replace ((0x80 <=? 0x80 + c / 64 mod 64) && (0x80 + c / 64 mod 64 <? 0xC0)) with true by lia. cbn [negb].
    repeat f_equal. lia.
  - replace (0xF0 + c / 262144 <? 0x80) with false by lia. replace (0xF0 + c / 262144 <? 0xC0) with false by lia.
    replace (0xF0 + c / 262144 <? 0xE0) with false by lia. replace (0xF0 + c / 262144 <? 0xF0) with false by lia.
    replace (0xF0 + c / 262144 <? 0xF8) with true by lia.
    rewrite !not_cont_spec by lia. rewrite !N.shiftl_mul_pow2. change (2 ^ 6) with 64. change (2 ^ 12) with 4096.
    change (2 ^ 18) with 262144.
    replace ((0x80 <=? 0x80 + c mod 64) && (0x80 + c mod 64 <? 0xC0)) with true by lia.
    replace ((0x80 <=? 0x80 + c / 64 mod 64) && (0x80 + c / 64 mod 64 <? 0xC0)) with true by lia.
    replace ((0x80 <=? 0x80 + c / 4096 mod 64) && (0x80 + c / 4096 mod 64 <? 0xC0)) with true by lia. cbn [negb].
    repeat f_equal. lia.
Qed.

Lemma decoder_it_units e c rest : scalar c -> decoder_it e (units e c ++ rest) = Ok (Some c, rest).
Proof.
  intros H. destruct e as [| | |[|]]; cbn [decoder_it units].
  - apply decoder_char_it_utf8, H.
  - apply decoder_char16_utf16, H.
  - reflexivity.
  - apply decoder_char16_utf16, H.
  - reflexivity.
Qed.
Lemma encoder_units e c : scalar c -> encoder e c = units e c.
Proof.
  intros H. destruct e as [| | |[|]]; cbn [encoder units].
  - rewrite encoders_agree. apply to_utf8_char_spec. apply scalar_lt in H. lia.
  - apply encoder_char16_scalar, H.
  - reflexivity.
  - apply encoder_char16_scalar, H.
  - reflexivity.
Qed.
Lemma units_nonempty e c : units e c <> [].
Proof.
  destruct e as [| | |[|]]; cbn [units]; try discriminate; try apply utf8_nonempty;
    unfold utf16; destruct (c <? 65536); discriminate.
Qed.

Lemma convert_loop_units s t txt fuel : scalars txt -> (length (text_units s txt) <= fuel)%nat ->
  convert_loop (decoder_it s) (encoder t) fuel (text_units s txt) = Ok (text_units t txt).
Proof.
  intros H. revert fuel. induction H as [|c txt Hc Ht IH]; intros fuel Hf.
  - destruct fuel; reflexivity.
  - cbn [text_units flat_map] in *. rewrite app_length in Hf.
    pose proof (decoder_it_units s c (flat_map (units s) txt) Hc) as D.
    destruct (units s c) as [|x u] eqn:E; [destruct (units_nonempty s c E)|].
    cbn [app length] in *. destruct fuel as [|fuel]; [lia|]. cbn [convert_loop].
    rewrite D. cbn [bindR]. fold (text_units s txt). rewrite IH by (unfold text_units; lia). cbn [bindR].
    rewrite encoder_units by exact Hc. reflexivity.
Qed.

Lemma elem_eqb_eq a b : elem_eqb a b = true -> a = b.
Proof. destruct a as [| | |[|]], b as [| | |[|]]; intros; try discriminate; reflexivity. Qed.

Lemma convert_it_units s t txt : scalars txt -> convert_it t s (text_units s txt) = Ok (text_units t txt).
Proof.
  intros H. unfold convert_it. destruct (elem_eqb s t) eqn:E.
  - apply elem_eqb_eq in E. subst. reflexivity.
  - apply convert_loop_units; [exact H|lia].
Qed.

(** ** Bulk conversion *)
Lemma store_append wr rest v : (length v <= length rest)%nat ->
  store (wr ++ rest) (length wr) v = Ok ((wr ++ v) ++ skipn (length v) rest).
Proof.
  intros H. unfold store. rewrite app_length.
  replace (length wr + length v <=? length wr + length rest)%nat with true by lia.
  f_equal. rewrite firstn_app, Nat.sub_diag. cbn [firstn]. rewrite firstn_all, app_nil_r.
  rewrite skipn_app. rewrite (skipn_all2 wr) by lia. cbn [app].
  replace (length wr + length v - length wr)%nat with (length v) by lia. apply app_assoc.
Qed.
Lemma store_append' wr rest v k : k = length wr -> (length v <= length rest)%nat ->
  store (wr ++ rest) k v = Ok ((wr ++ v) ++ skipn (length v) rest).
Proof. intros ->. apply store_append. Qed.

Lemma skipn_skipn {A} a b (l : list A) : skipn a (skipn b l) = skipn (b + a) l.
Proof. revert l. induction b as [|b IH]; intros l; [reflexivity|]. destruct l; [rewrite !skipn_nil; reflexivity|apply IH]. Qed.

(** splitting a batch of fixed length into its bytes *)
Ltac split_batch n v H :=
  match n with
  | O => destruct v as [|]; [|discriminate H]
  | S ?m => let x := fresh "b" in destruct v as [|x v]; [discriminate H|]; split_batch m v H
  end.

Ltac step_store :=
  match goal with
  | |- context [store (?wr ++ ?rest) ?k ?v] =>
      rewrite (store_append' wr rest v k);
      [ cbn [bindR]
      | rewrite ?app_length; cbn [length app firstn skipn repeat]; lia
      | rewrite ?skipn_length; cbn [length app firstn skipn repeat]; lia ]
  end.

Definition widen_ok (i : impl) (widen : list N -> list N -> nat -> Res (list N)) : Prop :=
  forall batch wr rest, length batch = impl_lanes i -> (impl_lanes i <= length rest)%nat ->
    widen batch (wr ++ rest) (length wr) = Ok ((wr ++ batch) ++ skipn (impl_lanes i) rest).

Ltac lane_tac :=
  unfold cvtepu8, shift_right_bytes, extract128, extract256; cbn [firstn skipn repeat app Nat.mul Nat.add];
  repeat step_store; rewrite ?skipn_skipn, <- ?app_assoc; cbn [app length Nat.add]; reflexivity.

Lemma widen32_ok i : i <> NoSimd -> widen_ok i (widen32 i).
Proof.
  intros Hi batch wr rest Hl Hr. destruct i as [|[| |]|[| |]|]; [contradiction|..]; cbn [impl_lanes lanes] in *; unfold widen32; cbn [lanes].
  - rewrite store_append' by (rewrite ?firstn_length; lia). rewrite firstn_all2 by lia. rewrite Hl. reflexivity.
  - rewrite store_append' by (rewrite ?firstn_length; lia). rewrite firstn_all2 by lia. rewrite Hl. reflexivity.
  - rewrite store_append' by (rewrite ?firstn_length; lia). rewrite firstn_all2 by lia. rewrite Hl. reflexivity.
  - split_batch 16%nat batch Hl. lane_tac.
  - split_batch 32%nat batch Hl. lane_tac.
  - split_batch 64%nat batch Hl. lane_tac.
  - split_batch 16%nat batch Hl. lane_tac.
Qed.
Lemma widen16_ok i : i <> NoSimd -> widen_ok i (widen16 i).
Proof.
  intros Hi batch wr rest Hl Hr. destruct i as [|[| |]|[| |]|]; [contradiction|..]; cbn [impl_lanes lanes] in *; unfold widen16; cbn [lanes].
  - rewrite store_append' by (rewrite ?firstn_length; lia). rewrite firstn_all2 by lia. rewrite Hl. reflexivity.
  - rewrite store_append' by (rewrite ?firstn_length; lia). rewrite firstn_all2 by lia. rewrite Hl. reflexivity.
  - rewrite store_append' by (rewrite ?firstn_length; lia). rewrite firstn_all2 by lia. rewrite Hl. reflexivity.
  - split_batch 16%nat batch Hl. lane_tac.
  - split_batch 32%nat batch Hl. lane_tac.
  - split_batch 64%nat batch Hl. lane_tac.
  - split_batch 16%nat batch Hl. lane_tac.
Qed.

(** ASCII bytes pass through the scalar decoder unchanged, leaving it idle. *)
Lemma all_ascii_spec v : Forall byte v -> all_ascii v = true -> Forall (fun b => b < 0x80) v.
Proof.
  unfold all_ascii. intros Hb H. rewrite forallb_forall in H. rewrite Forall_forall in *. intros b Hin.
  specialize (H b Hin). specialize (Hb b Hin). unfold byte in Hb. rewrite lead_80 in H by exact Hb. lia.
Qed.
Lemma decoder_run_ascii st v : d_exp st = 0 -> Forall (fun b => b < 0x80) v ->
  exists st', decoder_run st v = (st', v) /\ d_exp st' = 0.
Proof.
  intros He Hv. revert st He. induction Hv as [|b v Hb Hv IH]; intros st He.
  - exists st. auto.
  - cbn [decoder_run]. rewrite decoder_char_idle by (try assumption; lia). replace (b <? 128) with true by lia.
    destruct (IH (DS (d_char st) 0 1) eq_refl) as (st' & E & E0). rewrite E. exists st'. auto.
Qed.

(** The decoder's output does not depend on the idle state it starts in. *)
Definition eqst (a b : dstate) : Prop := d_exp a = d_exp b /\ (d_exp a <> 0 -> a = b).
Lemma decoder_char_eqst a b x : eqst a b ->
  snd (decoder_char a x) = snd (decoder_char b x) /\ eqst (fst (decoder_char a x)) (fst (decoder_char b x)).
Proof.
  intros [He Hs]. destruct (N.eq_dec (d_exp a) 0) as [E|E].
  - unfold decoder_char. rewrite <- He, E. change (0 =? 0) with true. cbn match.
    destruct (N.land x 0x80 =? 0); [split; [reflexivity|split; [reflexivity|cbn [fst d_exp]; lia]]|].
    destruct (N.land x 0xE0 =? 0xC0); [split; [reflexivity|split; reflexivity]|].
    destruct (N.land x 0xF0 =? 0xE0); [split; [reflexivity|split; reflexivity]|].
    destruct (N.land x 0xF8 =? 0xF0); [split; [reflexivity|split; reflexivity]|].
    cbn [fst snd]. split; [reflexivity|]. split; [exact He|exact Hs].
  - rewrite (Hs E). split; [reflexivity|]. split; reflexivity.
Qed.
Lemma decoder_run_eqst a b bs : eqst a b -> snd (decoder_run a bs) = snd (decoder_run b bs).
Proof.
  revert a b. induction bs as [|x bs IH]; intros a b H; [reflexivity|].
  cbn [decoder_run]. destruct (decoder_char_eqst a b x H) as [A B].
  destruct (decoder_char a x) as [a1 r1], (decoder_char b x) as [b1 r2]. cbn [fst snd] in A, B. subst r2.
  specialize (IH a1 b1 B). destruct (decoder_run a1 bs) as [a2 o1], (decoder_run b1 bs) as [b2 o2]. cbn [snd] in *.
  rewrite IH. reflexivity.
Qed.
Lemma decoder_run_ascii_app v bs : Forall (fun b => b < 0x80) v ->
  snd (decoder_run dinit (v ++ bs)) = v ++ snd (decoder_run dinit bs).
Proof.
  intros Hv. rewrite decoder_run_app. cbn [snd].
  destruct (decoder_run_ascii dinit v eq_refl Hv) as (st' & E & E0). rewrite E. cbn [fst snd]. f_equal.
  apply decoder_run_eqst. split; [exact E0|]. rewrite E0. lia.
Qed.

Lemma Forall_firstn' {A} (P : A -> Prop) n l : Forall P l -> Forall P (firstn n l).
Proof. intros H. rewrite <- (firstn_skipn n l) in H. apply Forall_app in H. apply H. Qed.
Lemma Forall_skipn' {A} (P : A -> Prop) n l : Forall P l -> Forall P (skipn n l).
Proof. intros H. rewrite <- (firstn_skipn n l) in H. apply Forall_app in H. apply H. Qed.

(** The SIMD loop copies an all-ASCII prefix. *)
Lemma simd_loop_spec i widen : widen_ok i widen -> (0 < impl_lanes i)%nat -> forall fuel input src wr rest,
  Forall byte input -> (length input - src <= fuel)%nat -> (src <= length input)%nat ->
  (length input - src <= length rest)%nat ->
  exists v rest', simd_loop false i widen fuel input src (wr ++ rest) (length wr)
                  = Ok ((src + length v)%nat, (wr ++ v) ++ rest', length (wr ++ v))
    /\ skipn src input = v ++ skipn (src + length v) input /\ Forall (fun b => b < 0x80) v
    /\ (src + length v <= length input)%nat /\ length rest' = (length rest - length v)%nat.
Proof.
  intros Hw Hpos fuel. induction fuel as [|fuel IH]; intros input src wr rest Hb Hf Hs Hr.
  - cbn [simd_loop]. cbn [andb].
    replace (src + impl_lanes i <=? length input)%nat with false by lia.
    exists [], rest. cbn [length app]. rewrite Nat.add_0_r, app_nil_r. repeat split; auto; lia.
  - cbn [simd_loop]. cbn [andb].
    destruct (Nat.leb_spec (src + impl_lanes i) (length input)) as [Hle|Hgt].
    2:{ exists [], rest. cbn [length app]. rewrite Nat.add_0_r, app_nil_r. repeat split; auto; lia. }
    set (batch := firstn (impl_lanes i) (skipn src input)).
    destruct (all_ascii batch) eqn:Ha; cbn [negb].
    2:{ exists [], rest. cbn [length app]. rewrite Nat.add_0_r, app_nil_r. repeat split; auto; lia. }
    assert (Hbl : length batch = impl_lanes i) by (subst batch; rewrite firstn_length, skipn_length; lia).
    assert (Hbb : Forall byte batch).
    { subst batch. apply Forall_firstn', Forall_skipn', Hb. }
    rewrite Hw by lia. cbn [bindR].
    replace (length wr + impl_lanes i)%nat with (length (wr ++ batch)) by (rewrite app_length; lia).
    destruct (IH input (src + impl_lanes i)%nat (wr ++ batch) (skipn (impl_lanes i) rest) Hb ltac:(lia) ltac:(lia)
                 ltac:(rewrite skipn_length; lia)) as (v & rest' & E & Hsk & Hv & Hle2 & Hrl).
    exists (batch ++ v), rest'. rewrite E. rewrite !app_length, Hbl. rewrite <- !app_assoc.
    split; [rewrite ?Nat.add_assoc; repeat f_equal; rewrite ?app_length; lia|].
    split.
    { rewrite <- (firstn_skipn (impl_lanes i) (skipn src input)) at 1. fold batch. f_equal.
      rewrite skipn_skipn, Hsk. f_equal. f_equal. lia. }
    split; [apply Forall_app; split; [apply all_ascii_spec; assumption|exact Hv]|].
    split; [lia|]. rewrite Hrl, skipn_length. lia.
Qed.

Lemma tail32_spec bs : forall st wr rest, (length bs <= length rest)%nat ->
  exists rest', tail32 st bs (wr ++ rest) (length wr)
    = Ok ((wr ++ snd (decoder_run st bs)) ++ rest', length (wr ++ snd (decoder_run st bs))).
Proof.
  induction bs as [|b bs IH]; intros st wr rest Hl.
  - exists rest. cbn [tail32 decoder_run snd]. rewrite app_nil_r. reflexivity.
  - cbn [tail32 decoder_run length] in *. destruct (decoder_char st b) as [st1 [c|]].
    + rewrite store_append by (cbn [length]; lia). cbn [bindR].
      replace (length wr + 1)%nat with (length (wr ++ [c])) by (rewrite app_length; reflexivity).
      destruct (IH st1 (wr ++ [c]) (skipn (length [c]) rest)) as (rest' & E); [rewrite skipn_length; cbn [length]; lia|].
      exists rest'. rewrite E. destruct (decoder_run st1 bs) as [st2 out]. cbn [snd]. rewrite <- !app_assoc. reflexivity.
    + destruct (IH st1 wr rest) as (rest' & E); [lia|]. exists rest'. rewrite E.
      destruct (decoder_run st1 bs) as [st2 out]. reflexivity.
Qed.

Lemma lanes_pos i : (0 < impl_lanes i)%nat.
Proof. destruct i as [|[| |]|[| |]|]; cbn; lia. Qed.

Lemma convert32_spec i input out : Forall byte input -> (length input <= length out)%nat ->
  exists rest, convert_utf8_to_utf32_simd false i input out
    = Ok (snd (decoder_run dinit input) ++ rest, length (snd (decoder_run dinit input))).
Proof.
  intros Hb Ho.
  assert (H0 : exists v rest', (match i with NoSimd => Ok (0%nat, out, 0%nat)
                  | _ => simd_loop false i (widen32 i) (length input) input 0 out 0 end
               = Ok (length v, v ++ rest', length v)) /\ input = v ++ skipn (length v) input /\ Forall (fun b => b < 0x80) v
               /\ length rest' = (length out - length v)%nat).
  { destruct i as [|w|w|]; [exists [], out; cbn [length]; rewrite Nat.sub_0_r; auto|..];
    match goal with |- context [widen32 ?i] =>
      destruct (simd_loop_spec i (widen32 i) (widen32_ok i ltac:(discriminate)) (lanes_pos i) (length input) input 0 [] out Hb
                 ltac:(lia) ltac:(lia) ltac:(lia)) as (v & rest' & E & A & B & C & D) end;
    exists v, rest'; cbn [app length Nat.add skipn] in *; auto. }
  destruct H0 as (v & rest' & E & A & B & C). unfold convert_utf8_to_utf32_simd. rewrite E. cbn [bindR].
  destruct (tail32_spec (skipn (length v) input) dinit v rest') as (rest2 & E2).
  { rewrite skipn_length, C. lia. }
  rewrite E2. exists rest2. pose proof (decoder_run_ascii_app v (skipn (length v) input) B) as D. rewrite <- A in D. rewrite D. reflexivity.
Qed.

Lemma firstn_app_exact {A} (l r : list A) : firstn (length l) (l ++ r) = l.
Proof. rewrite firstn_app, Nat.sub_diag, firstn_all. cbn [firstn]. apply app_nil_r. Qed.

Lemma convert_to_utf32 i input : Forall byte input ->
  convert_to false i T32 T8 input = Ok (snd (decoder_run dinit input)).
Proof.
  intros Hb. unfold convert_to. destruct input as [|b input]; [reflexivity|].
  destruct (convert32_spec i (b :: input) (repeat 0 (length (b :: input))) Hb) as (rest & E); [rewrite repeat_length; lia|].
  rewrite E. cbn [bindR]. rewrite firstn_app_exact. reflexivity.
Qed.

(** *** UTF-16: two units are only produced by four-byte sequences *)
Definition bwf (st : dstate) : Prop :=
  d_exp st = 0 \/
  (1 <= d_cur st /\ d_cur st < d_exp st /\
   ((d_exp st = 2 /\ d_char st < 32) \/ (d_exp st = 3 /\ d_char st < 16 * 64 ^ (d_cur st - 1))
    \/ (d_exp st = 4 /\ d_char st < 8 * 64 ^ (d_cur st - 1)))).
Definition pot (st : dstate) : nat := if d_exp st =? 0 then 0 else N.to_nat (d_cur st).
Definition ulen (r : option N) : nat := match r with Some c => length (encoder_char16 c) | None => 0 end.

Lemma encoder_char16_len c : (length (encoder_char16 c) <= if (c <? 0x10000)%N then 1 else 2)%nat.
Proof.
  unfold encoder_char16. destruct (N.ltb_spec c 0xD800).
  - replace (c <? 0x10000) with true by lia. cbn [length]. lia.
  - destruct (N.ltb_spec c 0x10000).
    + destruct (c <? 0xE000); cbn [length]; lia.
    + destruct (c <? 0x110000); cbn [length]; lia.
Qed.

Lemma decoder_char_pot st b : bwf st -> b < 256 ->
  bwf (fst (decoder_char st b)) /\ (ulen (snd (decoder_char st b)) + pot (fst (decoder_char st b)) <= pot st + 1)%nat.
Proof.
  intros Hw Hb. destruct (N.eq_dec (d_exp st) 0) as [He|He].
  - rewrite decoder_char_idle by assumption. unfold pot. rewrite He. change (0 =? 0) with true. cbn match.
    destruct (N.ltb_spec b 0x80).
    { split; [left; reflexivity|]. cbn [fst snd d_exp ulen]. pose proof (encoder_char16_len b).
      replace (b <? 0x10000) with true in * by lia. cbn [N.eqb]. change (0 =? 0) with true. cbn match. lia. }
    destruct (N.ltb_spec b 0xC0).
    { split; [left; exact He|]. cbn [fst snd d_exp ulen]. rewrite He. change (0 =? 0) with true. cbn match. lia. }
    destruct (N.ltb_spec b 0xE0).
    { split; [right; cbn [fst d_cur d_exp d_char]; change (1 - 1) with 0; rewrite N.pow_0_r; lia|].
      cbn [fst snd d_exp d_cur ulen]. change (2 =? 0) with false. cbn match. lia. }
    destruct (N.ltb_spec b 0xF0).
    { split; [right; cbn [fst d_cur d_exp d_char]; change (1 - 1) with 0; rewrite N.pow_0_r; lia|].
      cbn [fst snd d_exp d_cur ulen]. change (3 =? 0) with false. cbn match. lia. }
    destruct (N.ltb_spec b 0xF8).
    { split; [right; cbn [fst d_cur d_exp d_char]; change (1 - 1) with 0; rewrite N.pow_0_r; lia|].
      cbn [fst snd d_exp d_cur ulen]. change (4 =? 0) with false. cbn match. lia. }
    split; [left; exact He|]. cbn [fst snd d_exp ulen]. rewrite He. change (0 =? 0) with true. cbn match. lia.
  - destruct Hw as [Hw|(H1 & H2 & H3)]; [contradiction|].
    assert (Hb64 : b mod 64 < 64) by (apply N.mod_lt; lia).
    assert (Hcase : (d_exp st = 2 /\ d_cur st = 1 /\ d_char st < 32) \/
                    (d_exp st = 3 /\ d_cur st = 1 /\ d_char st < 16) \/ (d_exp st = 3 /\ d_cur st = 2 /\ d_char st < 1024) \/
                    (d_exp st = 4 /\ d_cur st = 1 /\ d_char st < 8) \/ (d_exp st = 4 /\ d_cur st = 2 /\ d_char st < 512) \/
                    (d_exp st = 4 /\ d_cur st = 3 /\ d_char st < 32768)).
    { destruct H3 as [(A & B)|[(A & B)|(A & B)]].
      - left. lia.
      - assert (C : d_cur st = 1 \/ d_cur st = 2) by lia. destruct C as [C|C]; rewrite C in B;
        [change (64 ^ (1 - 1)) with 1 in B|change (64 ^ (2 - 1)) with 64 in B]; lia.
      - assert (C : d_cur st = 1 \/ d_cur st = 2 \/ d_cur st = 3) by lia. destruct C as [C|[C|C]]; rewrite C in B;
        [change (64 ^ (1 - 1)) with 1 in B|change (64 ^ (2 - 1)) with 64 in B|change (64 ^ (3 - 1)) with 4096 in B]; lia. }
    clear H3. rewrite decoder_char_cont by lia. unfold bwf, pot.
    replace (d_exp st =? 0) with false by lia.
    destruct Hcase as [(A & B & C)|[(A & B & C)|[(A & B & C)|[(A & B & C)|[(A & B & C)|(A & B & C)]]]]]; rewrite A, B;
      cbn [fst snd d_exp d_cur d_char].
    + change (1 + 1 <? 2) with false. cbn [fst snd d_exp d_cur d_char ulen]. split; [left; reflexivity|].
      pose proof (encoder_char16_len (d_char st * 64 + b mod 64)) as L. replace (_ <? 0x10000) with true in L by lia.
      change (0 =? 0) with true. cbn match. lia.
    + change (1 + 1 <? 3) with true. cbn [fst snd d_exp d_cur d_char ulen]. change (3 =? 0) with false. cbn match.
      split; [right|lia]. change (1 + 1 - 1) with 1. rewrite N.pow_1_r. lia.
    + change (2 + 1 <? 3) with false. cbn [fst snd d_exp d_cur d_char ulen]. split; [left; reflexivity|].
      pose proof (encoder_char16_len (d_char st * 64 + b mod 64)) as L. replace (_ <? 0x10000) with true in L by lia.
      change (0 =? 0) with true. cbn match. lia.
    + change (1 + 1 <? 4) with true. cbn [fst snd d_exp d_cur d_char ulen]. change (4 =? 0) with false. cbn match.
      split; [right|lia]. change (1 + 1 - 1) with 1. rewrite N.pow_1_r. lia.
    + change (2 + 1 <? 4) with true. cbn [fst snd d_exp d_cur d_char ulen]. change (4 =? 0) with false. cbn match.
      split; [right|lia]. change (64 ^ (2 + 1 - 1)) with 4096. lia.
    + change (3 + 1 <? 4) with false. cbn [fst snd d_exp d_cur d_char ulen]. split; [left; reflexivity|].
      pose proof (encoder_char16_len (d_char st * 64 + b mod 64)) as L.
      change (0 =? 0) with true. cbn match. destruct (_ <? 0x10000) in L; lia.
Qed.

Lemma tail16_spec bs : forall st wr rest, bwf st -> Forall byte bs -> (length bs + pot st <= length rest)%nat ->
  exists rest', tail16 st bs (wr ++ rest) (length wr)
    = Ok ((wr ++ flat_map encoder_char16 (snd (decoder_run st bs))) ++ rest',
          length (wr ++ flat_map encoder_char16 (snd (decoder_run st bs)))).
Proof.
  induction bs as [|b bs IH]; intros st wr rest Hw Hb Hl.
  - exists rest. cbn [tail16 decoder_run snd flat_map]. rewrite app_nil_r. reflexivity.
  - inversion Hb as [|? ? Hb1 Hb2]; subst. cbn [tail16 decoder_run length] in *.
    destruct (decoder_char_pot st b Hw Hb1) as [Hw1 Hp].
    destruct (decoder_char st b) as [st1 [c|]]; cbn [fst snd ulen] in *.
    + rewrite store_append by lia. cbn [bindR].
      rewrite <- app_length.
      destruct (IH st1 (wr ++ encoder_char16 c) (skipn (length (encoder_char16 c)) rest) Hw1 Hb2) as (rest' & E);
        [rewrite skipn_length; lia|].
      exists rest'. rewrite E. destruct (decoder_run st1 bs) as [st2 out]. cbn [snd flat_map]. rewrite <- !app_assoc. reflexivity.
    + destruct (IH st1 wr rest Hw1 Hb2) as (rest' & E); [lia|]. exists rest'. rewrite E.
      destruct (decoder_run st1 bs) as [st2 out]. reflexivity.
Qed.

Lemma flat_map_ascii16 v : Forall (fun b => b < 0x80) v -> flat_map encoder_char16 v = v.
Proof.
  intros H. induction H as [|b v Hb Hv IH]; [reflexivity|]. cbn [flat_map]. rewrite IH. unfold encoder_char16, to_u16.
  replace (b <? 0xD800) with true by lia. rewrite N.mod_small by lia. reflexivity.
Qed.

Lemma convert16_spec i input out : Forall byte input -> (length input <= length out)%nat ->
  exists rest, convert_utf8_to_utf16_simd false i input out
    = Ok (flat_map encoder_char16 (snd (decoder_run dinit input)) ++ rest,
          length (flat_map encoder_char16 (snd (decoder_run dinit input)))).
Proof.
  intros Hb Ho.
  assert (H0 : exists v rest', (match i with NoSimd => Ok (0%nat, out, 0%nat)
                  | _ => simd_loop false i (widen16 i) (length input) input 0 out 0 end
               = Ok (length v, v ++ rest', length v)) /\ input = v ++ skipn (length v) input /\ Forall (fun b => b < 0x80) v
               /\ length rest' = (length out - length v)%nat).
  { destruct i as [|w|w|]; [exists [], out; cbn [length]; rewrite Nat.sub_0_r; auto|..];
    match goal with |- context [widen16 ?i] =>
      destruct (simd_loop_spec i (widen16 i) (widen16_ok i ltac:(discriminate)) (lanes_pos i) (length input) input 0 [] out Hb
                 ltac:(lia) ltac:(lia) ltac:(lia)) as (v & rest' & E & A & B & C & D) end;
    exists v, rest'; cbn [app length Nat.add skipn] in *; auto. }
  destruct H0 as (v & rest' & E & A & B & C). unfold convert_utf8_to_utf16_simd. rewrite E. cbn [bindR].
  assert (Hb2 : Forall byte (skipn (length v) input)) by (rewrite A in Hb; apply Forall_app in Hb; apply Hb).
  destruct (tail16_spec (skipn (length v) input) dinit v rest') as (rest2 & E2); [left; reflexivity|exact Hb2|..].
  { rewrite skipn_length, C. change (pot dinit) with 0%nat. lia. }
  rewrite E2. exists rest2. pose proof (decoder_run_ascii_app v (skipn (length v) input) B) as D. rewrite <- A in D. rewrite D. rewrite !flat_map_app.
  rewrite !(flat_map_ascii16 v) by exact B. reflexivity.
Qed.

Lemma convert_to_utf16 i input : Forall byte input ->
  convert_to false i T16 T8 input = Ok (flat_map encoder_char16 (snd (decoder_run dinit input))).
Proof.
  intros Hb. unfold convert_to. destruct input as [|b input]; [reflexivity|].
  destruct (convert16_spec i (b :: input) (repeat 0 (length (b :: input))) Hb) as (rest & E); [rewrite repeat_length; lia|].
  rewrite E. cbn [bindR]. rewrite firstn_app_exact. reflexivity.
Qed.

Lemma decoder_run_length st bs : (length (snd (decoder_run st bs)) <= length bs)%nat.
Proof.
  revert st. induction bs as [|b bs IH]; intros st; [cbn; lia|]. cbn [decoder_run length].
  destruct (decoder_char st b) as [st1 r]. specialize (IH st1). destruct (decoder_run st1 bs) as [st2 out]. cbn [snd] in *.
  destruct r; cbn [length]; lia.
Qed.

Lemma decoder_run_utf16_length st bs : bwf st -> Forall byte bs ->
  (length (flat_map encoder_char16 (snd (decoder_run st bs))) <= length bs + pot st)%nat.
Proof.
  intros Hw Hb. revert st Hw. induction Hb as [|b bs Hb Hbs IH]; intros st Hw; [cbn [decoder_run snd flat_map length]; lia|]. cbn [decoder_run length].
  destruct (decoder_char_pot st b Hw Hb) as [Hw1 Hp].
  destruct (decoder_char st b) as [st1 r]. cbn [fst snd] in *. specialize (IH st1 Hw1).
  destruct (decoder_run st1 bs) as [st2 out]. cbn [snd] in *.
  destruct r; cbn [flat_map ulen] in *; rewrite ?app_length; lia.
Qed.

(** Everything agrees on well-formed text. *)
Lemma flat_map_utf16 t : scalars t -> flat_map encoder_char16 t = utf16_text t.
Proof. intros H. induction H as [|c t Hc Ht IH]; [reflexivity|]. cbn [flat_map utf16_text]. rewrite IH, encoder_char16_scalar by exact Hc. reflexivity. Qed.

Lemma text_units_8 t : text_units T8 t = utf8_text t.
Proof. reflexivity. Qed.
Lemma text_units_32 t : text_units T32 t = t.
Proof. induction t as [|c t IH]; [reflexivity|]. cbn. f_equal. exact IH. Qed.

Lemma convert_to_units i t s txt : scalars txt ->
  convert_to false i t s (text_units s txt) = Ok (text_units t txt).
Proof.
  intros H.
  assert (A : forall i', convert_to false i' T32 T8 (text_units T8 txt) = Ok (text_units T32 txt)).
  { intros i'. rewrite text_units_8, text_units_32, convert_to_utf32 by (apply utf8_text_bytes, H).
    destruct (decoder_run_text dinit txt eq_refl H) as (st & E & _). rewrite E. reflexivity. }
  assert (B : forall i', convert_to false i' T16 T8 (text_units T8 txt) = Ok (text_units T16 txt)).
  { intros i'. rewrite text_units_8, convert_to_utf16 by (apply utf8_text_bytes, H).
    destruct (decoder_run_text dinit txt eq_refl H) as (st & E & _). rewrite E. cbn [snd]. rewrite flat_map_utf16 by exact H. reflexivity. }
  destruct s; destruct t; try exact (A i); try exact (B i); unfold convert_to; apply convert_it_units, H.
Qed.

(** ** Iterator conversion: termination and safety *)
Lemma next_it_len l x l' : next_it l = Ok (x, l') -> length l = S (length l').
Proof. destruct l; [discriminate|]. intros [= -> ->]. reflexivity. Qed.

Ltac it_step :=
  match goal with
  | |- context [next_it ?l] =>
      let E := fresh "E" in destruct (next_it l) as [[? ?]| |] eqn:E; cbn [bindR]; [apply next_it_len in E| |]
  | |- context [if ?c then _ else _] => destruct c
  end.

(** A read never runs out of fuel and always consumes something. *)
Definition progress (r : Res (option N * list N)) (l : list N) : Prop :=
  match r with Ok (_, l') => (length l' < length l)%nat | UB => True | NoFuel => False end.
Lemma next_it_nofuel l : next_it l <> NoFuel.
Proof. destruct l; discriminate. Qed.
Lemma decoder_it_progress s l : progress (decoder_it s l) l.
Proof.
  assert (A : progress (decoder_char_it l) l).
  { unfold decoder_char_it, progress.
    repeat it_step; try lia; try exact I; try (eapply next_it_nofuel; eassumption). }
  assert (B : progress (decoder_char16 l) l).
  { unfold decoder_char16, progress.
    repeat it_step; try lia; try exact I; try (eapply next_it_nofuel; eassumption). }
  assert (C : progress (decoder_char32 l) l).
  { unfold decoder_char32, progress.
    repeat it_step; try lia; try exact I; try (eapply next_it_nofuel; eassumption). }
  destruct s as [| | |[|]]; assumption.
Qed.
Lemma convert_loop_fuel s w fuel l : (length l <= fuel)%nat -> convert_loop (decoder_it s) w fuel l <> NoFuel.
Proof.
  revert l. induction fuel as [|fuel IH]; intros l Hl.
  - destruct l; [discriminate|cbn [length] in Hl; lia].
  - destruct l as [|x l]; [discriminate|]. cbn [convert_loop].
    pose proof (decoder_it_progress s (x :: l)) as P. destruct (decoder_it s (x :: l)) as [[r l']| |]; cbn [bindR]; [|discriminate|contradiction].
    cbn [progress] in P. specialize (IH l' ltac:(lia)). destruct (convert_loop (decoder_it s) w fuel l'); cbn [bindR]; congruence.
Qed.

(** Inputs that end in a stopper (an ASCII byte; a unit that is not a high surrogate) are read without leaving the input. *)
Definition ends_with (P : N -> Prop) (l : list N) : Prop := exists p x, l = p ++ [x] /\ P x.
Lemma ends_with_tail P x l : ends_with P (x :: l) -> l = [] /\ P x \/ ends_with P l.
Proof.
  intros (p & y & E & H). destruct p as [|z p]; cbn [app] in E; injection E as -> ->; [left; auto|right; exists p, y; auto].
Qed.

Definition safe_read (P : N -> Prop) (r : Res (option N * list N)) : Prop :=
  exists c l', r = Ok (c, l') /\ (l' = [] \/ ends_with P l').

Lemma not_cont_ascii x : x < 0x80 -> not_cont x = true.
Proof. intros H. rewrite not_cont_spec by lia. lia. Qed.

Lemma decoder_char_it_safe l : ends_with (fun b => b < 0x80) l -> safe_read (fun b => b < 0x80) (decoder_char_it l).
Proof.
  intros H. destruct l as [|x0 l]; [destruct H as (p & y & E & _); destruct p; discriminate|].
  unfold decoder_char_it. cbn [next_it bindR].
  apply ends_with_tail in H.
  destruct (N.ltb_spec x0 0x80) as [Hx|Hx]; [eexists _, _; split; [reflexivity|]; destruct H as [[H _]|H]; auto|].
  destruct H as [[_ H]|H]; [lia|].
  destruct (x0 <? 0xC0); [eexists _, _; split; [reflexivity|auto]|].
  Ltac safe_next H :=
    match type of H with
    | ends_with _ ?l => let x := fresh "x" in destruct l as [|x l];
        [destruct H as (p & y & E & _); destruct p; discriminate|]; cbn [next_it bindR]; apply ends_with_tail in H;
        let Hc := fresh "Hc" in destruct (not_cont x) eqn:Hc;
        [eexists _, _; split; [reflexivity|destruct H as [[H _]|H]; auto]
        |destruct H as [[_ H]|H]; [rewrite (not_cont_ascii _ H) in Hc; discriminate|]]
    end.
  destruct (x0 <? 0xE0); [safe_next H; eexists _, _; split; [reflexivity|auto]|].
  destruct (x0 <? 0xF0); [do 2 safe_next H; eexists _, _; split; [reflexivity|auto]|].
  destruct (x0 <? 0xF8); [do 3 safe_next H; eexists _, _; split; [reflexivity|auto]|].
  destruct (x0 <? 0xFC); [do 4 safe_next H; eexists _, _; split; [reflexivity|auto]|].
  destruct (x0 <? 0xFE); [do 5 safe_next H; eexists _, _; split; [reflexivity|auto]|].
  eexists _, _; split; [reflexivity|auto].
Qed.

Definition not_high (u : N) : Prop := u < 0xD800 \/ 0xDC00 <= u.
Lemma decoder_char16_safe l : ends_with not_high l -> safe_read not_high (decoder_char16 l).
Proof.
  intros H. destruct l as [|x0 l]; [destruct H as (p & y & E & _); destruct p; discriminate|].
  unfold decoder_char16. cbn [next_it bindR].
  apply ends_with_tail in H. unfold not_high in *.
  destruct (N.ltb_spec x0 0xD800); [eexists _, _; split; [reflexivity|]; destruct H as [[H _]|H]; auto|].
  destruct (N.ltb_spec x0 0xDC00).
  - destruct H as [[_ H]|H]; [lia|].
    destruct l as [|x1 l]; [destruct H as (p & y & E & _); destruct p; discriminate|]. cbn [next_it bindR].
    apply ends_with_tail in H. destruct (negb _); (eexists _, _; split; [reflexivity|]; destruct H as [[H _]|H]; auto).
  - destruct (x0 <? 0xE000); (eexists _, _; split; [reflexivity|]; destruct H as [[H _]|H]; auto).
Qed.

Lemma convert_loop_safe P read w : (forall l, ends_with P l -> safe_read P (read l)) ->
  (forall l, progress (read l) l) -> forall fuel l, (length l <= fuel)%nat -> l = [] \/ ends_with P l ->
  exists out, convert_loop read w fuel l = Ok out.
Proof.
  intros Hr Hp fuel. induction fuel as [|fuel IH]; intros l Hl Hs.
  - destruct l; [eexists; reflexivity|cbn [length] in Hl; lia].
  - destruct l as [|x l]; [eexists; reflexivity|]. destruct Hs as [Hs|Hs]; [discriminate|].
    cbn [convert_loop]. destruct (Hr _ Hs) as (c & l' & E & Hs'). specialize (Hp (x :: l)). rewrite E in *. cbn [bindR progress] in *.
    destruct (IH l' ltac:(lia) Hs') as (out & ->). eexists. reflexivity.
Qed.
Lemma convert_it_safe8 t l : l = [] \/ ends_with (fun b => b < 0x80) l -> exists out, convert_it t T8 l = Ok out.
Proof.
  intros H. unfold convert_it. destruct (elem_eqb T8 t); [eexists; reflexivity|].
  apply (convert_loop_safe (fun b => b < 0x80)); [apply decoder_char_it_safe|apply (decoder_it_progress T8)|lia|exact H].
Qed.
Lemma convert_it_safe16 t l : l = [] \/ ends_with not_high l -> exists out, convert_it t T16 l = Ok out.
Proof.
  intros H. unfold convert_it. destruct (elem_eqb T16 t); [eexists; reflexivity|].
  apply (convert_loop_safe not_high); [apply decoder_char16_safe|apply (decoder_it_progress T16)|lia|exact H].
Qed.

(** ** NEON movemask *)
Lemma shr7 b : b < 256 -> N.shiftr b 7 = if 128 <=? b then 1 else 0.
Proof. intros H. apply N.eqb_eq. revert b H. apply sweep256. vm_compute. reflexivity. Qed.

Definition half (h : list N) : N :=
  nth 0 (vsra 64 28 (pairs 32 (vsra 32 14 (pairs 16 (vsra 16 7 (pairs 8 h)))))) 0 mod 256.
Definition b2n (b : bool) : N := if b then 1 else 0.
Fixpoint bits (l : list bool) : N := match l with [] => 0 | b :: l' => b2n b + 2 * bits l' end.

Lemma half_bits a b c d e f g h : half (map b2n [a; b; c; d; e; f; g; h]) = bits [a; b; c; d; e; f; g; h].
Proof. destruct a, b, c, d, e, f, g, h; vm_compute; reflexivity. Qed.

Lemma neon_movemask_spec v : length v = 16%nat -> Forall byte v -> neon_movemask v = movemask v.
Proof.
  intros Hl Hb.
  assert (E : map (fun b => N.shiftr b 7) v = map b2n (map (fun b => 128 <=? b) v)).
  { rewrite map_map. apply map_ext_in. intros x Hx. rewrite Forall_forall in Hb. apply (shr7 x), Hb, Hx. }
  assert (M : movemask v = bits (map (fun b => 128 <=? b) v)).
  { clear. induction v as [|x v IH]; [reflexivity|]. cbn [movemask map bits]. rewrite IH. reflexivity. }
  rewrite M. unfold neon_movemask. rewrite E. clear E M Hb.
  assert (Hl2 : length (map (fun b => 128 <=? b) v) = 16%nat) by (rewrite map_length; exact Hl).
  revert Hl2. generalize (map (fun b => 128 <=? b) v). clear v Hl. intros v Hl.
  split_batch 16%nat v Hl.
  match goal with |- N.lor ?x (N.shiftl ?y 8) = bits [?a0;?a1;?a2;?a3;?a4;?a5;?a6;?a7;?a8;?a9;?aa;?ab;?ac;?ad;?ae;?af] =>
    change x with (half (map b2n [a0;a1;a2;a3;a4;a5;a6;a7])); change y with (half (map b2n [a8;a9;aa;ab;ac;ad;ae;af])) end.
  rewrite !half_bits. rewrite N.lor_comm. rewrite lor_shift_add.
  - cbn [bits]. change (2 ^ 8) with 256. lia.
  - cbn [bits]. change (2 ^ 8) with 256. unfold b2n.
    repeat match goal with |- context [if ?x then _ else _] => destruct x end; lia.
Qed.

Lemma all_ascii_movemask v : Forall byte v -> all_ascii v = (movemask v =? 0).
Proof.
  intros H. induction H as [|b v Hb Hv IH]; [reflexivity|]. cbn [all_ascii forallb movemask]. fold (all_ascii v).
  rewrite IH. unfold byte in Hb. rewrite lead_80 by exact Hb. destruct (N.leb_spec 128 b); destruct (N.eqb_spec (movemask v) 0); lia.
Qed.

(** ** Streams *)
Lemma stream_chunk_run st bs : stream_chunk st bs = decoder_run st bs.
Proof.
  revert st. induction bs as [|b bs IH]; intros st; [reflexivity|]. cbn [stream_chunk decoder_run].
  unfold stream_convert_run. destruct (decoder_char st b) as [st1 [c|]]; rewrite IH; destruct (decoder_run st1 bs); reflexivity.
Qed.
Lemma stream_chunks_concat st chunks : decoder_run st (concat chunks) = (fst (stream_chunks st chunks), concat (snd (stream_chunks st chunks))).
Proof.
  revert st. induction chunks as [|ch chs IH]; intros st; [reflexivity|]. cbn [concat stream_chunks].
  rewrite decoder_run_app, stream_chunk_run. destruct (decoder_run st ch) as [st1 o]. cbn [fst snd]. rewrite IH.
  destruct (stream_chunks st1 chs) as [st2 os]. reflexivity.
Qed.
Lemma from_utf8_chunks_concat st chunks :
  from_utf8_run st (concat chunks) = (fst (from_utf8_chunks st chunks), concat (snd (from_utf8_chunks st chunks))).
Proof.
  revert st. induction chunks as [|ch chs IH]; intros st; [reflexivity|]. cbn [concat from_utf8_chunks].
  rewrite from_utf8_run_app. destruct (from_utf8_run st ch) as [st1 o]. cbn [fst snd]. rewrite IH.
  destruct (from_utf8_chunks st1 chs) as [st2 os]. reflexivity.
Qed.
Lemma concat_bytes chunks : Forall (Forall byte) chunks -> Forall byte (concat chunks).
Proof. intros H. induction H; cbn [concat]; [constructor|apply Forall_app; auto]. Qed.
Lemma stream_equals_bulk i chunks : Forall (Forall byte) chunks ->
  convert_to false i T32 T8 (concat chunks) = Ok (concat (snd (stream_chunks dinit chunks))).
Proof.
  intros H. rewrite convert_to_utf32 by (apply concat_bytes, H). rewrite stream_chunks_concat. reflexivity.
Qed.
