(** Hangul arithmetic. *)
From Verif Require Import Base M_Tables M_Normalize.
Open Scope N_scope.

Lemma hangul_ge c : is_hangul_syllable c = true <-> 0xAC00 <= c < 0xAC00 + 11172.
Proof. unfold is_hangul_syllable, SBase, SCount. lia. Qed.
Lemma LV_decompose l v : is_hangul_l_jamo l = true -> is_hangul_v_jamo v = true ->
  hangul_decompose (SBase + ((l - LBase) * VCount + (v - VBase)) * TCount) = [l; v] /\
  is_hangul_syllable (SBase + ((l - LBase) * VCount + (v - VBase)) * TCount) = true.
Proof.
  intros Hl Hv. unfold is_hangul_l_jamo, is_hangul_v_jamo, LBase, LCount, VBase, VCount in Hl, Hv.
  set (s := SBase + _).
  assert (Hs : is_hangul_syllable s = true).
  { apply hangul_ge. subst s. unfold SBase, LBase, VBase, VCount, TCount. lia. }
  split; [|exact Hs]. unfold hangul_decompose. rewrite Hs. cbn [negb].
  assert (Es : s = 0xAC00 + ((l - 0x1100) * 21 + (v - 0x1161)) * 28) by reflexivity. clearbody s.
  unfold SBase, LBase, VBase, TBase, TCount, NCount.
  remember (l - 0x1100) as a eqn:Ea. remember (v - 0x1161) as b eqn:Eb.
  assert (Ha : a < 19) by lia. assert (Hb : b < 21) by lia.
  assert (E0 : s - 0xAC00 = (a * 21 + b) * 28) by lia. rewrite E0.
  assert (E1 : (a * 21 + b) * 28 mod 28 = 0) by (apply N.mod_mul; lia). rewrite E1.
  change (0 <? 0) with false. cbv iota.
  assert (E2 : (a * 21 + b) * 28 = b * 28 + a * 588) by lia. rewrite E2.
  rewrite N.div_add by lia. rewrite N.mod_add by lia.
  rewrite (N.div_small (b * 28) 588) by lia. rewrite (N.mod_small (b * 28) 588) by lia.
  rewrite N.div_mul by lia. f_equal; [lia|]. f_equal. lia.
Qed.
Lemma LVT_decompose s t : is_hangul_syllable s = true -> (s - SBase) mod TCount = 0 -> TBase < t < TBase + TCount ->
  hangul_decompose (s + (t - TBase)) = hangul_decompose s ++ [t] /\ is_hangul_syllable (s + (t - TBase)) = true.
Proof.
  intros Hs Hm Ht. pose proof (proj1 (hangul_ge s) Hs) as Hr.
  unfold SBase, TCount, TBase in *.
  remember ((s - 0xAC00) / 28) as q eqn:Eq. assert (Es : s - 0xAC00 = q * 28) by lia.
  assert (Hq : q < 399) by lia.
  assert (Hs' : is_hangul_syllable (s + (t - 0x11A7)) = true) by (apply hangul_ge; lia).
  split; [|exact Hs']. unfold hangul_decompose. rewrite Hs, Hs'. cbn [negb].
  unfold SBase, LBase, VBase, TBase, TCount, NCount.
  assert (E0 : s + (t - 0x11A7) - 0xAC00 = (t - 0x11A7) + q * 28) by lia. rewrite E0, Es.
  rewrite N.mod_mul by lia. rewrite (N.mod_add (t - 0x11A7) q 28) by lia. rewrite (N.mod_small (t - 0x11A7) 28) by lia.
  change (0 <? 0) with false. destruct (N.ltb_spec 0 (t - 0x11A7)) as [_|]; [|lia]. cbn [app].
  remember (q / 21) as a eqn:Ea. remember (q mod 21) as b eqn:Eb.
  assert (Eq' : q = a * 21 + b) by lia. assert (Hb : b < 21) by lia. assert (Ha : a < 19) by lia.
  clear Ea Eb Eq. subst q.
  assert (A1 : (t - 0x11A7 + (a * 21 + b) * 28) / 588 = a).
  { replace (t - 0x11A7 + (a * 21 + b) * 28) with ((t - 0x11A7 + b * 28) + a * 588) by lia.
    rewrite N.div_add by lia. rewrite N.div_small by lia. lia. }
  assert (A2 : (t - 0x11A7 + (a * 21 + b) * 28) mod 588 / 28 = b).
  { replace (t - 0x11A7 + (a * 21 + b) * 28) with ((t - 0x11A7 + b * 28) + a * 588) by lia.
    rewrite N.mod_add by lia. rewrite N.mod_small by lia. rewrite N.div_add by lia. rewrite N.div_small by lia. lia. }
  assert (B1 : ((a * 21 + b) * 28) / 588 = a).
  { replace ((a * 21 + b) * 28) with (b * 28 + a * 588) by lia.
    rewrite N.div_add by lia. rewrite N.div_small by lia. lia. }
  assert (B2 : ((a * 21 + b) * 28) mod 588 / 28 = b).
  { replace ((a * 21 + b) * 28) with (b * 28 + a * 588) by lia.
    rewrite N.mod_add by lia. rewrite N.mod_small by lia. rewrite N.div_mul by lia. lia. }
  rewrite A1, A2, B1, B2. f_equal. f_equal. f_equal. lia.
Qed.


(** hangul_decompose then hangul_compose *)
Lemma compose_decompose s : is_hangul_syllable s = true ->
  exists l v, (hangul_decompose s = [l; v] /\ hangul_compose l v 0 = s) \/
    exists t, hangul_decompose s = [l; v; t] /\ t <> 0 /\ hangul_compose l v t = s.
Proof.
  intros Hs. pose proof (proj1 (hangul_ge s) Hs) as Hr. unfold hangul_decompose. rewrite Hs. cbn [negb].
  unfold hangul_compose, is_hangul_l_jamo, is_hangul_v_jamo, is_hangul_t_jamo, SBase, LBase, VBase, TBase, LCount, VCount, TCount, NCount in *.
  remember ((s - 0xAC00) / 588) as a eqn:Ea. remember ((s - 0xAC00) mod 588 / 28) as b eqn:Eb.
  remember ((s - 0xAC00) mod 28) as c eqn:Ec.
  assert (Ha : a < 19) by lia. assert (Hb : b < 21) by lia. assert (Hc : c < 28) by lia.
  assert (E : s = 0xAC00 + a * 588 + b * 28 + c) by lia.
  exists (0x1100 + a), (0x1161 + b).
  assert (El : (0x1100 <=? 0x1100 + a) && (0x1100 + a <? 0x1100 + 19) = true) by lia.
  assert (Ev : (0x1161 <=? 0x1161 + b) && (0x1161 + b <? 0x1161 + 21) = true) by lia.
  destruct (N.ltb_spec 0 c) as [H0|H0].
  - right. exists (0x11A7 + c). split; [reflexivity|]. split; [lia|].
    rewrite El, Ev. cbn [negb orb]. destruct (N.eqb_spec (0x11A7 + c) 0); [lia|].
    assert (Et : (0x11A7 <? 0x11A7 + c) && (0x11A7 + c <? 0x11A7 + 28) = true) by lia. rewrite Et. cbn [negb]. lia.
  - left. split; [reflexivity|]. rewrite El, Ev. cbn [negb orb]. change (0 =? 0) with true. cbv iota. lia.
Qed.

(** hangul_compose then hangul_decompose *)
Lemma decompose_compose l v t : is_hangul_l_jamo l = true -> is_hangul_v_jamo v = true ->
  t = 0 \/ is_hangul_t_jamo t = true ->
  is_hangul_syllable (hangul_compose l v t) = true /\
  hangul_decompose (hangul_compose l v t) = l :: v :: (if t =? 0 then [] else [t]).
Proof.
  intros Hl Hv Ht.
  destruct (LV_decompose l v Hl Hv) as [E1 E2].
  unfold hangul_compose. rewrite Hl, Hv. cbn [negb orb].
  assert (E : SBase + ((l - LBase) * NCount + (v - VBase) * TCount) = SBase + ((l - LBase) * VCount + (v - VBase)) * TCount)
    by (unfold NCount, VCount, TCount; lia).
  rewrite E. destruct (N.eqb_spec t 0) as [H0|H0].
  - rewrite E1. split; [exact E2|reflexivity].
  - destruct Ht as [Ht|Ht]; [contradiction|]. rewrite Ht. cbn [negb].
    assert (Hm : (SBase + ((l - LBase) * VCount + (v - VBase)) * TCount - SBase) mod TCount = 0).
    { rewrite N.add_comm, N.add_sub.
      apply N.mod_mul. unfold TCount. lia. }
    destruct (LVT_decompose _ t E2 Hm) as [F1 F2]; [unfold is_hangul_t_jamo, TBase, TCount in *; lia|].
    rewrite F1, E1. split; [exact F2|reflexivity].
Qed.
Lemma compose_rejects l v t : is_hangul_l_jamo l = false \/ is_hangul_v_jamo v = false \/ (t <> 0 /\ is_hangul_t_jamo t = false) ->
  hangul_compose l v t = 0.
Proof.
  unfold hangul_compose. intros [->|[->|[H0 Ht]]].
  - reflexivity.
  - rewrite orb_true_r. reflexivity.
  - destruct (_ || _); [reflexivity|]. destruct (N.eqb_spec t 0); [contradiction|]. rewrite Ht. reflexivity.
Qed.
