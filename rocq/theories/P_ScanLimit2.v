(** scan_text with a column limit: which pieces are taken. *)
From Verif Require Import Base Spec_Utf M_Utf8 P_Utf8 P_Utf8b M_Convert M_AsciiScan P_AsciiScan M_Ucd M_Grapheme M_Width
  Spec_Grapheme P_Grapheme Spec_Width P_Width M_Scan Spec_Scan P_Scan P_Scan2 P_Scan3 P_Scan4 P_Scan5 P_Scan6 P_ScanCuts P_ScanCut2 Spec_ScanLimit P_ScanLimit.
Open Scope Z_scope.

Lemma fits_in_spec u room p : fits_in u room p = true <-> forall k, cluster_width u (firstn k p) <= room.
Proof.
  unfold fits_in. rewrite forallb_forall. split.
  - intros H k. destruct (Nat.le_gt_cases k (length p)) as [L|L].
    + apply Z.leb_le, H, in_seq. lia.
    + rewrite firstn_all2 by lia. rewrite <- (firstn_all p). apply Z.leb_le, H, in_seq. lia.
  - intros H k _. apply Z.leb_le, H.
Qed.
Lemma fits_in_not u room p b : room < cluster_width u p -> fits_in u room (p ++ b) = false.
Proof.
  intros H. destruct (fits_in u room (p ++ b)) eqn:E; [|reflexivity]. rewrite fits_in_spec in E. specialize (E (length p)).
  rewrite firstn_app, firstn_all, Nat.sub_diag in E. cbn [firstn] in E. rewrite app_nil_r in E. lia.
Qed.
Lemma kinv_brk u before cur m b : ucd_grapheme_ok u -> kinv u before cur m -> (0x80 <= b)%N -> brk_at u m b = term_b u before b.
Proof.
  intros OK K Lb. unfold brk_at. destruct (N.eqb_spec (m_hint m) 0) as [E0|Hh0]; [destruct (k_hint _ _ _ _ K E0)|].
  destruct (k_loc _ _ _ _ K) as (loc & older & El & SV & Hold).
  pose proof (stateful_spec u loc (m_g m) b OK SV) as SS. destruct (process_breakable u b (m_g m)) as [brk g]. destruct SS as [SB _]. cbn [fst].
  assert (Hloc : loc <> []) by (destruct SV as (x & y & -> & _); discriminate).
  rewrite SB, El. apply stateful_term; assumption.
Qed.
Lemma mhi_brk u m c : ucd_width_ok u -> brk_at u m c = true -> exists g, mhi u c m = (cluster_width u [c], CM c g (push u acc0 c) (cluster_width u [c]) (cluster_width u [c])).
Proof.
  intros WOK B. unfold brk_at, mhi in *. destruct (if (m_hint m =? 0)%N then _ else _) as [brk g]. cbn [fst] in B. subst brk.
  exists g. rewrite (cluster_width_acc u _ WOK). reflexivity.
Qed.
Lemma group_head : forall (rest cur : list N) fl, length fl = length rest -> exists b rr, group cur rest fl = (rev cur ++ b) :: rr.
Proof.
  induction rest as [|c rest IH]; intros cur fl Hl; destruct fl as [|f fl]; try discriminate.
  - exists [], []. rewrite app_nil_r. reflexivity.
  - cbn [group]. destruct f; [exists [], (group [c] rest fl); rewrite app_nil_r; reflexivity|].
    destruct (IH (c :: cur) fl) as (b & rr & E); [cbn in Hl; lia|]. exists (c :: b), rr. rewrite E. cbn [rev]. rewrite <- app_assoc. reflexivity.
Qed.
(** one character that joins the open piece *)
Lemma kinv_join u before cur m c : ucd_grapheme_ok u -> ucd_width_ok u -> ucd_scan_ok u -> kinv u before cur m -> before <> [] -> plain_text c ->
  term_b u before c = false -> exists m', mhi u c m = (cluster_width u (rev (c :: cur)) - cluster_width u (rev cur), m') /\ (0x80 <= c)%N /\ brk_at u m c = false /\
    kinv u (c :: before) (c :: cur) m' /\ m_rep m = cluster_width u (rev cur) /\ m_rep m' = cluster_width u (rev (c :: cur)) /\ m_rep m' - m_here m' = m_rep m - m_here m.
Proof.
  intros OK WOK SOK K G Hc Hb. pose proof (kinv_step u before cur m c OK WOK SOK K G Hc) as ST. rewrite Hb in ST.
  destruct ST as (Lc & K' & D1 & ST). destruct (ST m) as (D2 & H2 & _); [repeat split|]. clear ST.
  rewrite mstep_hi in * by exact Lc. destruct (mhi u c m) as [d m']. cbn [fst snd] in *. exists m'.
  assert (R1 : m_rep m = cluster_width u (rev cur)) by (rewrite (cluster_width_acc u _ WOK), <- (k_acc _ _ _ _ K); apply (k_rep _ _ _ _ K)).
  assert (R2 : m_rep m' = cluster_width u (rev (c :: cur))) by (rewrite (cluster_width_acc u _ WOK), <- (k_acc _ _ _ _ K'); apply (k_rep _ _ _ _ K')).
  split; [rewrite D1; reflexivity|]. split; [exact Lc|]. split; [rewrite (kinv_brk u before cur m c OK K Lc); exact Hb|]. split; [exact K'|]. split; [exact R1|]. split; [exact R2|].
  rewrite H2, <- D2. lia.
Qed.
Lemma firstn_snoc_le (p : list N) c k : firstn k (p ++ [c]) = firstn k p \/ firstn k (p ++ [c]) = p ++ [c].
Proof.
  destruct (Nat.le_gt_cases k (length p)) as [L|L].
  - left. rewrite firstn_app. replace (k - length p)%nat with O by lia. apply app_nil_r.
  - right. apply firstn_all2. rewrite app_length. cbn. lia.
Qed.

Definition open_ok (u : ucd) (max : Z) (rest : list N) : Prop := forall before cur m base n done opn,
  kinv u before cur m -> before <> [] -> Forall plain_text rest -> n = base + cluster_width u (rev cur) -> (forall k, cluster_width u (firstn k (rev cur)) <= max - base) ->
  lim u max n m done opn true rest =
  match group cur rest (tflags u before rest) with
  | q :: rr => if fits_in u (max - base) q then let '(n', t) := take u max (base + cluster_width u q) true rr in (n', done ++ opn ++ skipn (length cur) q ++ t)
               else (base + (m_rep m - m_here m), done)
  | [] => (0, [])
  end.
Definition seven_ok (u : ucd) (max : Z) (rest : list N) : Prop := forall before c m base done,
  kinv u before [c] m -> before <> [] -> Forall plain_text rest -> m_rep m = 1 -> m_here m = 0 -> cluster_width u [c] = 1 -> base + 1 <= max ->
  lim u max (base + 1) m done [] false rest =
  match group [c] rest (tflags u before rest) with
  | [_] :: rr => let '(n', t) := take u max (base + 1) false rr in (n', done ++ t)
  | q :: rr => if (base + 1 <? max) && fits_in u (max - base) q then let '(n', t) := take u max (base + cluster_width u q) true rr in (n', done ++ skipn 1 q ++ t)
               else (base + 1, done)
  | [] => (0, [])
  end.
Definition start_ok (u : ucd) (max : Z) (c : N) (rest : list N) : Prop := forall before m n done opn hi,
  kinv u (c :: before) [c] (snd (mstep u c m)) -> ((0x80 <= c)%N -> brk_at u m c = true) -> plain_text c -> Forall plain_text rest ->
  lim u max n m done opn hi (c :: rest) = let '(n', t) := take u max n hi (group [c] rest (tflags u (c :: before) rest)) in (n', done ++ opn ++ t).

Lemma start_from u max c rest : ucd_grapheme_ok u -> ucd_width_ok u -> ucd_scan_ok u -> open_ok u max rest -> seven_ok u max rest -> start_ok u max c rest.
Proof.
  intros OK WOK SOK HO H7 before m n done opn hi K HB [Hc1 Hc2] Hr. cbn [lim].
  destruct (group_head rest [c] (tflags u (c :: before) rest) (tflags_length u rest _)) as (b & rr & EG). cbn [rev app] in EG.
  destruct (N.ltb_spec c 0x80) as [L|L].
  - assert (S7 : starts_7bit (c :: b) = true) by (cbn; apply N.ltb_lt, L).
    assert (E7 : mstep u c m = (1, CM c (process_init u c) (push u acc0 c) 1 0)) by (unfold mstep; destruct (N.ltb_spec c 0x80); [reflexivity|lia]).
    rewrite E7 in K. cbn [snd] in K.
    destruct (Z.leb_spec max n) as [Ln|Ln].
    + rewrite EG. cbn [take]. rewrite S7. destruct (Z.leb_spec max n); [|lia]. rewrite app_nil_r. reflexivity.
    + assert (W1 : cluster_width u [c] = 1) by (rewrite (cluster_width_acc u _ WOK); change [c] with (rev [c]); rewrite <- (k_acc _ _ _ _ K), <- (k_rep _ _ _ _ K); reflexivity).
      rewrite (H7 (c :: before) c _ n ((done ++ opn) ++ [c]) K ltac:(discriminate) Hr eq_refl eq_refl W1 ltac:(lia)).
      rewrite EG. cbn [take]. rewrite S7. destruct (Z.leb_spec max n); [lia|]. destruct b as [|d b].
      * destruct (take u max (n + 1) false rr) as [n' t]. rewrite <- !app_assoc. reflexivity.
      * destruct ((n + 1 <? max) && fits_in u (max - n) (c :: d :: b)).
        -- destruct (take u max (n + cluster_width u (c :: d :: b)) true rr) as [n' t]. cbn [skipn]. rewrite <- !app_assoc. reflexivity.
        -- rewrite <- !app_assoc. reflexivity.
  - specialize (HB L). destruct (mhi_brk u m c WOK HB) as (g & EM). unfold hstop. rewrite mstep_hi in K by exact L. rewrite EM in K |- *. cbn [snd] in K. rewrite HB.
    assert (S7 : starts_7bit (c :: b) = false) by (cbn; apply N.ltb_ge, L).
    destruct (negb hi && (max <=? n)) eqn:EH.
    + rewrite EG. cbn [take]. rewrite S7, EH. cbn [orb]. rewrite app_nil_r. reflexivity.
    + destruct (Z.ltb_spec max (n + cluster_width u [c])) as [LW|LW].
      * rewrite EG. cbn [take]. rewrite S7. change (c :: b) with ([c] ++ b). rewrite fits_in_not by lia. cbn [negb]. rewrite orb_true_r, app_nil_r. reflexivity.
      * assert (PF : forall k, cluster_width u (firstn k (rev [c])) <= max - n).
        { intros [|k]; [|cbn [firstn rev app]; rewrite firstn_nil; lia]. cbn [firstn].
          assert (Z0 : cluster_width u [] = 0) by (rewrite (cluster_width_acc u _ WOK); reflexivity).
          pose proof (acc_width_nonneg (pushes u acc0 [c])) as P. rewrite <- (cluster_width_acc u _ WOK) in P. lia. }
        rewrite (HO (c :: before) [c] _ n (n + cluster_width u [c]) (done ++ opn) [c] K ltac:(discriminate) Hr eq_refl PF).
        rewrite EG. cbn [take m_rep m_here length]. rewrite S7, EH. cbn [orb].
        destruct (fits_in u (max - n) (c :: b)); cbn [negb].
        -- destruct (take u max (n + cluster_width u (c :: b)) true rr) as [n' t]. cbn [skipn app]. rewrite <- !app_assoc. reflexivity.
        -- rewrite app_nil_r, Z.sub_diag, Z.add_0_r. reflexivity.
Qed.

Lemma lim_take u max : ucd_grapheme_ok u -> ucd_width_ok u -> ucd_scan_ok u -> forall rest, open_ok u max rest /\ seven_ok u max rest.
Proof.
  intros OK WOK SOK. induction rest as [|c rest [IHO IH7]].
  - split.
    + intros before cur m base n done opn K G Hr En HF. cbn [lim tflags group].
      assert (F : fits_in u (max - base) (rev cur) = true) by (apply fits_in_spec, HF). rewrite F. cbn [take]. rewrite app_nil_r, <- (rev_length cur), skipn_all, app_nil_r, En. reflexivity.
    + intros before c m base done K G Hr R1 R2 W1 HM. cbn [lim tflags group rev app take]. reflexivity.
  - pose proof (start_from u max c rest OK WOK SOK IHO IH7) as HS. split.
    + intros before cur m base n done opn K G Hr En HF. inversion Hr as [|? ? Hc Hr']; subst. cbn [tflags group].
      pose proof (kinv_step u before cur m c OK WOK SOK K G Hc) as ST.
      destruct (term_b u before c) eqn:ET.
      * destruct ST as [K' _].
        assert (F : fits_in u (max - base) (rev cur) = true) by (apply fits_in_spec, HF). rewrite F.
        rewrite (HS before m _ done opn true K' ltac:(intros L; rewrite (kinv_brk u before cur m c OK K L); exact ET) Hc Hr').
        rewrite <- (rev_length cur), skipn_all. reflexivity.
      * clear ST. destruct (kinv_join u before cur m c OK WOK SOK K G Hc ET) as (m' & EM & Lc & EB & K' & R1 & R2 & R3).
        cbn [lim]. destruct (N.ltb_spec c 0x80); [lia|]. cbn [negb andb]. unfold hstop. rewrite EM, EB. cbn [snd]. rewrite R1, R2.
        set (w1 := cluster_width u (rev cur)) in *. set (w2 := cluster_width u (rev (c :: cur))) in *.
        pose proof (HF (length (rev cur))) as HW1. rewrite firstn_all in HW1. fold w1 in HW1.
        destruct (group_head rest (c :: cur) (tflags u (c :: before) rest) (tflags_length u rest _)) as (b & rr & EG).
        destruct (Z.lt_ge_cases (max - base) w2) as [LW|LW].
        -- replace ((w1 <? w2) && _) with true by (symmetry; apply andb_true_iff; split; apply Z.ltb_lt; lia).
           rewrite EG, (fits_in_not u (max - base) (rev (c :: cur)) b) by exact LW. f_equal. lia.
        -- replace ((w1 <? w2) && _) with false by (symmetry; apply andb_false_iff; right; apply Z.ltb_ge; lia).
           rewrite (IHO (c :: before) (c :: cur) m' base (base + w1 + (w2 - w1)) done (opn ++ [c]) K' ltac:(discriminate) Hr' ltac:(fold w2; lia)).
           2:{ intros k. cbn [rev]. destruct (firstn_snoc_le (rev cur) c k) as [-> | ->]; [apply HF|]. exact LW. }
           rewrite EG. destruct (fits_in u (max - base) (rev (c :: cur) ++ b)); [|f_equal; lia].
           destruct (take u max (base + cluster_width u (rev (c :: cur) ++ b)) true rr) as [n' t]. f_equal.
           assert (S1 : skipn (length (c :: cur)) (rev (c :: cur) ++ b) = b) by (rewrite <- (rev_length (c :: cur)), skipn_app, skipn_all, Nat.sub_diag; reflexivity).
           assert (S2 : skipn (length cur) (rev (c :: cur) ++ b) = c :: b) by (cbn [rev]; rewrite <- app_assoc, <- (rev_length cur), skipn_app, skipn_all, Nat.sub_diag; reflexivity).
           rewrite S1, S2, <- !app_assoc. reflexivity.
    + intros before a m base done K G Hr R1 R2 W1 HM. inversion Hr as [|? ? Hc Hr']; subst. cbn [tflags group].
      pose proof (kinv_step u before [a] m c OK WOK SOK K G Hc) as ST.
      destruct (term_b u before c) eqn:ET.
      * destruct ST as [K' _]. cbn [rev app].
        rewrite (HS before m _ done [] false K' ltac:(intros L; rewrite (kinv_brk u before [a] m c OK K L); exact ET) Hc Hr'). reflexivity.
      * clear ST. destruct (kinv_join u before [a] m c OK WOK SOK K G Hc ET) as (m' & EM & Lc & EB & K' & R1' & R2' & R3).
        cbn [rev app] in *. destruct (group_head rest [c; a] (tflags u (c :: before) rest) (tflags_length u rest _)) as (b & rr & EG). cbn [rev app] in EG.
        cbn [lim]. destruct (N.ltb_spec c 0x80); [lia|]. cbn [negb andb]. rewrite EG.
        destruct (Z.leb_spec max (base + 1)) as [LM|LM].
        -- destruct (Z.ltb_spec (base + 1) max); [lia|]. cbn [andb]. rewrite app_nil_r. reflexivity.
        -- destruct (Z.ltb_spec (base + 1) max); [|lia]. cbn [andb]. unfold hstop. rewrite EM, EB, R1', R2'.
           set (w2 := cluster_width u [a; c]) in *. rewrite W1 in *.
           destruct (Z.lt_ge_cases (max - base) w2) as [LW|LW].
           ++ replace ((1 <? w2) && _) with true by (symmetry; apply andb_true_iff; split; apply Z.ltb_lt; lia).
              change (a :: c :: b) with ([a; c] ++ b). rewrite (fits_in_not u (max - base) [a; c] b) by exact LW. rewrite R2. f_equal. lia.
           ++ replace ((1 <? w2) && _) with false by (symmetry; apply andb_false_iff; right; apply Z.ltb_ge; lia).
              rewrite (IHO (c :: before) [c; a] m' base (base + 1 + (w2 - 1)) done ([] ++ [c]) K' ltac:(discriminate) Hr' ltac:(cbn [rev app]; fold w2; lia)).
              2:{ intros k. change (rev [c; a]) with ([a] ++ [c]). destruct (firstn_snoc_le [a] c k) as [-> | ->]; [|exact LW].
                  destruct k as [|k]; [|cbn [firstn]; rewrite firstn_nil, W1; lia]. cbn [firstn].
                  assert (Z0 : cluster_width u [] = 0) by (rewrite (cluster_width_acc u _ WOK); reflexivity). lia. }
              rewrite EG. destruct (fits_in u (max - base) (a :: c :: b)).
              ** destruct (take u max (base + cluster_width u (a :: c :: b)) true rr) as [n' t]. reflexivity.
              ** f_equal. lia.
Qed.

Lemma lim_terms u max t m : ucd_grapheme_ok u -> ucd_width_ok u -> ucd_scan_ok u -> m_hint m = 0%N -> Forall plain_text t ->
  lim u max 0 m [] [] false t = take u max 0 false (terms_of u t).
Proof.
  intros OK WOK SOK Hh Ht. destruct t as [|c t]; [reflexivity|]. inversion Ht as [|? ? Hc Ht']; subst.
  destruct (lim_take u max OK WOK SOK t) as [HO H7].
  rewrite (start_from u max c t OK WOK SOK HO H7 [] m 0 [] [] false (kinv_first u c m OK WOK SOK Hh Hc)); [|intros _; unfold brk_at; rewrite Hh; reflexivity|exact Hc|exact Ht'].
  cbn [terms_of]. destruct (take u max 0 false (group [c] t (tflags u [c] t))). reflexivity.
Qed.
