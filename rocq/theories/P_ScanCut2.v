(** scan_text over two buffers, exactly. *)
From Verif Require Import Base Spec_Utf M_Utf8 P_Utf8 P_Utf8b M_Convert M_AsciiScan P_AsciiScan M_Ucd M_Grapheme M_Width
  Spec_Grapheme P_Grapheme Spec_Width P_Width M_Scan Spec_Scan P_Scan P_Scan2 P_Scan3 P_Scan4 P_Scan5 P_Scan6 P_ScanCuts Spec_ScanCut.
Open Scope Z_scope.

Lemma kinv_step u before cur m b : ucd_grapheme_ok u -> ucd_width_ok u -> ucd_scan_ok u ->
  kinv u before cur m -> before <> [] -> plain_text b ->
  if term_b u before b then kinv u (b :: before) [b] (snd (mstep u b m)) /\ (forall mb, same_but_here m mb -> mstep u b mb = mstep u b m)
  else (0x80 <= b)%N /\ kinv u (b :: before) (b :: cur) (snd (mstep u b m)) /\
       fst (mstep u b m) = cluster_width u (rev (b :: cur)) - cluster_width u (rev cur) /\
       (forall mb, same_but_here m mb ->
          let w1 := cluster_width u (rev cur) in let w2 := cluster_width u (rev (b :: cur)) in
          let d := if w1 <=? w2 then w2 - w1 else - Z.min (w1 - w2) (m_here mb) in
          fst (mstep u b mb) = d /\ m_here (snd (mstep u b mb)) = m_here mb + d /\ same_but_here (snd (mstep u b m)) (snd (mstep u b mb))).
Proof.
  intros OK WOK SOK K G [Hb1 Hb2].
  assert (HCW : cluster_width u (rev cur) = m_rep m) by (rewrite (cluster_width_acc u _ WOK), <- (k_acc _ _ _ _ K), <- (k_rep _ _ _ _ K); reflexivity).
  assert (Ebef : exists a r0, before = a :: r0) by (destruct before as [|a r0]; [congruence|eauto]). destruct Ebef as (a & r0 & Ebef).
  remember (term_b u before b) as brk eqn:SB.
  unfold mstep. destruct (N.ltb_spec b 0x80) as [Lb|Lb].
  - destruct (sok_ascii u SOK b ltac:(lia)) as [Hw Hg]. destruct (ok_ascii u OK b ltac:(lia)) as (_ & Hi & He).
    assert (Hbrk : brk = true) by (rewrite SB; unfold term_b; destruct (N.ltb_spec b 0x80); [reflexivity|lia]).
    rewrite Hbrk in *. clear Hbrk. cbn [snd]. set (m' := CM b (process_init u b) (push u acc0 b) 1 0).
    split; [|reflexivity].
    constructor; cbn [m' m_g m_hint m_acc m_rep m_here].
      + exists [b], before. split; [reflexivity|]. split; [apply process_init_sinv|]. right. exists [], b. split; [reflexivity|]. repeat split; assumption.
      + lia.
      + reflexivity.
      + symmetry. apply ascii_acc; assumption.
      + right. split; [reflexivity|]. split; [apply asc_first; auto|]. cbn [ist est]. rewrite Hi. split; [reflexivity|].
        unfold ext_update. rewrite He, Hg. cbn. rewrite orb_false_r. split; [destruct (N.eqb_spec (est u before) 0) as [->|]; reflexivity|].
        exists b, before. auto.
  - destruct (k_loc _ _ _ _ K) as (loc & older & El & SV & Hold).
    pose proof (stateful_spec u loc (m_g m) b OK SV) as SS.
    unfold mhi. destruct (N.eqb_spec (m_hint m) 0) as [E0|Hh0]; [destruct (k_hint _ _ _ _ K E0)|].
    destruct (process_breakable u b (m_g m)) as [brk2 g2] eqn:PB. destruct SS as [SB2 SG2].
    assert (Hloc : loc <> []) by (destruct SV as (x & y & -> & _); discriminate).
    assert (Ebrk : brk2 = brk) by (rewrite SB2, SB, El; apply stateful_term; assumption).
    rewrite Ebrk in *. clear Ebrk brk2.
    assert (KL : forall gg, sinv u (b :: loc) gg -> exists loc0 older0, b :: before = loc0 ++ older0 /\ sinv u loc0 gg /\
               (older0 = [] \/ exists l a0, loc0 = l ++ [a0] /\ neutral u a0)).
    { intros gg S. exists (b :: loc), older. rewrite El. split; [reflexivity|]. split; [exact S|]. destruct Hold as [->|(l' & a' & -> & Hn)]; [left; reflexivity|right].
      exists (b :: l'), a'. auto. }
    destruct brk.
    + split.
      * cbn [snd]. constructor; cbn [m_g m_hint m_acc m_rep m_here]; [apply KL, SG2|lia|reflexivity|reflexivity|left; reflexivity].
      * intros mb (S1 & S2 & S3 & S4). rewrite <- S1, <- S2. destruct (N.eqb_spec (m_hint m) 0); [contradiction|]. rewrite PB. reflexivity.
    + split; [exact Lb|]. set (a2 := push u (m_acc m) b).
      assert (Ha2 : a2 = pushes u acc0 (rev (b :: cur))).
      { unfold a2. rewrite (k_acc _ _ _ _ K). cbn [rev]. rewrite pushes_app. reflexivity. }
      assert (HCW2 : cluster_width u (rev (b :: cur)) = acc_width a2) by (rewrite Ha2; apply cluster_width_acc, WOK).
      assert (HA : m_here m = m_rep m \/ (m_here m = m_rep m - 1 /\ asc_ok u a2 /\ ist u (b :: before) = 0%N /\ est u (b :: before) = 0%N /\ ezs u b)).
      { destruct (k_here _ _ _ _ K) as [Hh|(Hh & Hok & Hi & He & a' & r' & E1 & Hg)]; [left; exact Hh|]. right.
        rewrite Ebef in E1. injection E1 as <- <-.
        assert (Hez : ezs u b).
        { symmetry in SB. unfold term_b in SB. apply orb_false_iff in SB as [_ SB]. rewrite Ebef in SB. unfold loose_b in SB. rewrite <- Ebef, Hi, He in SB.
          change (0 =? 2)%N with false in SB. change (0 =? 1)%N with false in SB. rewrite !andb_false_r, !orb_false_r in SB.
          unfold ezs in *. destruct Hg as [Hg|[Hg|[Hg|Hg]]]; rewrite Hg in SB; cbn in SB; destruct (p_gcb (u b)); cbn in SB; try discriminate; auto. }
        split; [exact Hh|]. split; [apply asc_push; auto; intros V W; exact (sok_wide u SOK b V W Hez)|].
        assert (Hnc : p_incb (u b) <> IConsonant).
        { intros K1. pose proof (ok_consonant u OK b K1) as K2. unfold ezs in Hez. rewrite K2 in Hez. destruct Hez as [|[|]]; discriminate. }
        assert (Hne : p_extpic (u b) = false).
        { destruct (p_extpic (u b)) eqn:K1; [|reflexivity]. pose proof (ok_extpic u OK b K1) as K2. unfold ezs in Hez. rewrite K2 in Hez. destruct Hez as [|[|]]; discriminate. }
        cbn [ist est]. rewrite Hi, He. unfold ext_update. rewrite Hne. cbn. split; [destruct (p_incb (u b)); try reflexivity; congruence|]. auto. }
      pose proof (acc_width_nonneg a2) as Hpos. pose proof (k_rep _ _ _ _ K) as Hrep. pose proof (acc_width_nonneg (m_acc m)) as Hpos2.
      assert (STEP : forall d hh, d = acc_width a2 - m_rep m -> hh = m_here m + d -> kinv u (b :: before) (b :: cur) (CM b g2 a2 (acc_width a2) hh)).
      { intros d hh Ed Eh. constructor; cbn [m_g m_hint m_acc m_rep m_here]; [apply KL, SG2|lia|exact Ha2|reflexivity|].
          destruct HA as [HA|(HA & HA1 & HA2 & HA3 & HA4)]; [left; lia|right]. split; [lia|]. split; [exact HA1|]. split; [exact HA2|]. split; [exact HA3|].
          exists b, before. auto. }
      assert (MB : forall mb, same_but_here m mb -> let '(brk, g) := if (m_hint mb =? 0)%N then (true, process_init u b) else process_breakable u b (m_g mb) in brk = false /\ g = g2).
      { intros mb (S1 & S2 & S3 & S4). rewrite <- S1, <- S2. destruct (N.eqb_spec (m_hint m) 0); [contradiction|]. rewrite PB. auto. }
      assert (RM : if m_rep m <=? acc_width a2 then True else Z.min (m_rep m - acc_width a2) (m_here m) = m_rep m - acc_width a2).
      { destruct (Z.leb_spec (m_rep m) (acc_width a2)) as [LE|LE]; [exact I|]. destruct HA as [HA|(HA & HA1 & _)]; [lia|]. pose proof (asc_width u a2 HA1). lia. }
      rewrite HCW, HCW2. cbv zeta. split; [|split].
      * destruct (Z.leb_spec (m_rep m) (acc_width a2)) as [LE|LE]; cbn [snd]; [eapply STEP; [reflexivity|lia]|]. rewrite RM. eapply STEP; [reflexivity|lia].
      * destruct (Z.leb_spec (m_rep m) (acc_width a2)) as [LE|LE]; cbn [fst]; lia.
      * intros mb SBH. specialize (MB mb SBH). destruct SBH as (S1 & S2 & S3 & S4).
        destruct (if (m_hint mb =? 0)%N then _ else _) as [bk gg]. destruct MB as [-> ->]. rewrite <- S3, <- S4. fold a2.
        destruct (Z.leb_spec (m_rep m) (acc_width a2)) as [LE|LE]; cbn [fst snd m_here]; (split; [reflexivity|]; split; [lia|]; repeat split).
Qed.

Lemma falls_nil u a : falls_back u a [] 0.
Proof. split; [exists O|intros k]; rewrite firstn_nil, app_nil_r; lia. Qed.
Lemma falls_cons u a b bs x : falls_back u (a ++ [b]) bs x ->
  falls_back u a (b :: bs) (Z.max 0 (cluster_width u a - cluster_width u (a ++ [b]) + x)).
Proof.
  intros [[k Hk] Hx]. assert (E : forall j, a ++ firstn (S j) (b :: bs) = (a ++ [b]) ++ firstn j bs) by (intros j; cbn [firstn]; rewrite <- app_assoc; reflexivity). split.
  - destruct (Z.max_spec 0 (cluster_width u a - cluster_width u (a ++ [b]) + x)) as [[L ->]|[L ->]].
    + exists (S k). rewrite E. lia.
    + exists O. cbn [firstn]. rewrite app_nil_r. lia.
  - intros [|j]; [cbn [firstn]; rewrite app_nil_r; lia|]. rewrite E. specialize (Hx j). lia.
Qed.

Lemma two_runs u : ucd_grapheme_ok u -> ucd_width_ok u -> ucd_scan_ok u ->
  forall rest before cur m mb, kinv u before cur m -> before <> [] -> Forall plain_text rest -> same_but_here m mb -> 0 <= m_here mb ->
  exists b rr x, group cur rest (tflags u before rest) = (rev cur ++ b) :: rr /\ falls_back u (rev cur) b x /\
    fst (mrun u mb rest) = fst (mrun u m rest) + Z.max 0 (x - m_here mb) /\ same_but_here (snd (mrun u m rest)) (snd (mrun u mb rest)).
Proof.
  intros OK WOK SOK. induction rest as [|c rest IH]; intros before cur m mb K G Ht SBH Hh.
  { exists [], [], 0. cbn [tflags group mrun fst snd]. rewrite app_nil_r. split; [reflexivity|]. split; [apply falls_nil|]. split; [lia|exact SBH]. }
  inversion Ht as [|? ? Hc Ht']; subst. pose proof (kinv_step u before cur m c OK WOK SOK K G Hc) as ST.
  cbn [tflags mrun group]. destruct (term_b u before c).
  - destruct ST as [_ ST]. rewrite (ST mb SBH). eexists [], _, 0. rewrite app_nil_r. split; [reflexivity|]. split; [apply falls_nil|].
    split; [destruct (mstep u c m) as [d m']; destruct (mrun u m' rest); cbn [fst]; lia|repeat split].
  - destruct ST as (Lc & K' & D1 & ST). destruct (ST mb SBH) as (D2 & H2 & S2). clear ST.
    destruct (mstep u c m) as [d m'] eqn:Em, (mstep u c mb) as [e mb'] eqn:Eb. cbn [fst snd] in *.
    set (w1 := cluster_width u (rev cur)) in *. set (w2 := cluster_width u (rev (c :: cur))) in *.
    assert (Hb : 0 <= m_here mb') by (rewrite H2; destruct (Z.leb_spec w1 w2); lia).
    destruct (IH (c :: before) (c :: cur) m' mb' K' ltac:(discriminate) Ht' S2 Hb) as (b & rr & x & E1 & F & E2 & E3).
    assert (Hx : 0 <= x) by (destruct F as [_ F]; specialize (F O); cbn [firstn] in F; rewrite app_nil_r in F; lia).
    exists (c :: b), rr, (Z.max 0 (w1 - w2 + x)). split; [rewrite E1; cbn [rev]; rewrite <- app_assoc; reflexivity|]. split; [apply falls_cons; exact F|].
    destruct (mrun u m' rest) as [d1 n1], (mrun u mb' rest) as [e1 n2]. cbn [fst snd] in *. split; [|exact E3].
    rewrite E2, D1, D2, H2. destruct (Z.leb_spec w1 w2); lia.
Qed.

Lemma kinv_prefix u : ucd_grapheme_ok u -> ucd_width_ok u -> ucd_scan_ok u ->
  forall p q before cur m, kinv u before cur m -> before <> [] -> Forall plain_text p ->
  exists l cur', kinv u (rev p ++ before) cur' (snd (mrun u m p)) /\ concat l ++ rev cur' = rev cur ++ p /\
    group cur (p ++ q) (tflags u before (p ++ q)) = l ++ group cur' q (tflags u (rev p ++ before) q).
Proof.
  intros OK WOK SOK. induction p as [|c p IH]; intros q before cur m K G Hp.
  { exists [], cur. cbn [rev app mrun snd concat]. rewrite app_nil_r. auto. }
  inversion Hp as [|? ? Hc Hp']; subst. pose proof (kinv_step u before cur m c OK WOK SOK K G Hc) as ST.
  cbn [app tflags group mrun rev]. rewrite <- app_assoc. cbn [app].
  destruct (term_b u before c).
  - destruct ST as [K' _]. destruct (mstep u c m) as [d m']. cbn [snd] in K'.
    destruct (IH q (c :: before) [c] m' K' ltac:(discriminate) Hp') as (l & cur' & K2 & E1 & E2). exists (rev cur :: l), cur'.
    destruct (mrun u m' p). cbn [snd] in *. split; [exact K2|]. split; [cbn [concat]; rewrite <- app_assoc, E1; reflexivity|]. rewrite E2. reflexivity.
  - destruct ST as (_ & K' & _). destruct (mstep u c m) as [d m']. cbn [snd] in K'.
    destruct (IH q (c :: before) (c :: cur) m' K' ltac:(discriminate) Hp') as (l & cur' & K2 & E1 & E2). exists l, cur'.
    destruct (mrun u m' p). cbn [snd] in *. split; [exact K2|]. split; [rewrite E1; cbn [rev]; rewrite <- app_assoc; reflexivity|exact E2].
Qed.

Lemma kinv_first u c m : ucd_grapheme_ok u -> ucd_width_ok u -> ucd_scan_ok u -> m_hint m = 0%N -> plain_text c -> kinv u [c] [c] (snd (mstep u c m)).
Proof.
  intros OK WOK SOK Hh [Hc1 Hc2]. unfold mstep. destruct (N.ltb_spec c 0x80) as [L|L].
  - destruct (sok_ascii u SOK c ltac:(lia)) as [Hw Hg]. destruct (ok_ascii u OK c ltac:(lia)) as (_ & Hi & He).
    cbn [snd]. constructor; cbn [m_g m_hint m_acc m_rep m_here].
      + exists [c], []. split; [reflexivity|]. split; [apply process_init_sinv|]. left. reflexivity.
      + lia.
      + reflexivity.
      + symmetry. apply ascii_acc; assumption.
      + right. split; [reflexivity|]. split; [apply asc_first; auto|]. cbn [ist est]. rewrite Hi. split; [reflexivity|].
        unfold ext_update. rewrite He. cbn. split; [reflexivity|]. exists c, []. auto.
  - unfold mhi. rewrite Hh. change (0 =? 0)%N with true. cbv iota. cbn [snd].
    constructor; cbn [m_g m_hint m_acc m_rep m_here].
      + exists [c], []. split; [reflexivity|]. split; [apply process_init_sinv|]. left. reflexivity.
      + lia.
      + reflexivity.
      + reflexivity.
      + left. reflexivity.
Qed.

(** the two runs, from the start *)
Lemma cut_runs u t1 t2 m : ucd_grapheme_ok u -> ucd_width_ok u -> ucd_scan_ok u -> m_hint m = 0%N -> m_here m = 0 -> Forall plain_text (t1 ++ t2) -> t1 ++ t2 <> [] ->
  exists l a b rr x, terms_of u (t1 ++ t2) = l ++ (a ++ b) :: rr /\ concat l ++ a = t1 /\ falls_back u a b x /\
    fst (mrun u m t1) + fst (mrun u (clear_here (snd (mrun u m t1))) t2) = fst (mrun u m (t1 ++ t2)) + x /\
    same_but_here (snd (mrun u m (t1 ++ t2))) (snd (mrun u (clear_here (snd (mrun u m t1))) t2)).
Proof.
  intros OK WOK SOK Hh H0 Ht Hne. destruct t1 as [|c t1].
  - assert (CH : clear_here m = m) by (destruct m; cbn in *; subst; reflexivity). cbn [mrun fst snd app] in *. rewrite CH.
    pose proof (terms_partition u t2) as [P1 P2]. destruct (terms_of u t2) as [|b rr] eqn:E; [cbn in P1; subst; congruence|].
    exists [], [], b, rr, 0. split; [reflexivity|]. split; [reflexivity|]. split; [|split; [lia|repeat split]].
    assert (Z0 : cluster_width u [] = 0) by (rewrite (cluster_width_acc u _ WOK); reflexivity).
    split; [exists O; cbn [firstn app]; lia|]. intros k. cbn [app]. rewrite Z0, (cluster_width_acc u _ WOK). pose proof (acc_width_nonneg (pushes u acc0 (firstn k b))). lia.
  - inversion Ht as [|? ? Hc Ht']; subst. apply Forall_app in Ht' as [Ht1 Ht2]. pose proof (kinv_first u c m OK WOK SOK Hh Hc) as K.
    rewrite mrun_app. cbn [app terms_of mrun]. destruct (mstep u c m) as [d m']. cbn [snd] in K.
    destruct (kinv_prefix u OK WOK SOK t1 t2 [c] [c] m' K ltac:(discriminate) Ht1) as (l & cur' & K2 & E1 & E2).
    destruct (mrun u m' t1) as [d1 m1] eqn:R1. cbn [fst snd] in *.
    destruct (two_runs u OK WOK SOK t2 (rev t1 ++ [c]) cur' m1 (clear_here m1) K2) as (b & rr & x & G1 & F & G2 & G3).
    { destruct (rev t1); discriminate. }
    { exact Ht2. }
    { apply clear_same. }
    { cbn. lia. }
    assert (Hx : 0 <= x) by (destruct F as [_ F]; specialize (F O); cbn [firstn] in F; rewrite app_nil_r in F; lia).
    exists l, (rev cur'), b, rr, x. split; [rewrite E2, G1; reflexivity|]. split; [exact E1|]. split; [exact F|]. split; [|exact G3].
    rewrite G2. cbn [clear_here m_here]. lia.
Qed.

Lemma counts_cut u uchar i t k max : ucd_grapheme_ok u -> ucd_width_ok u -> widths_le2 u -> ucd_scan_ok u ->
  scalars t -> Forall plain_text t -> t <> [] -> 2 * Z.of_nat (length t) < max -> (k <= length (utf8_text t))%nat ->
  exists r st' ev r1 st1 ev1 r2 st2 ev2 t1 t2 l a b rr x,
    scan_text u uchar i (sstate0 u) (utf8_text t) max = Ok (r, st', ev) /\
    scan_text u uchar i (sstate0 u) (firstn k (utf8_text t)) max = Ok (r1, st1, ev1) /\
    scan_text u uchar i (next_buffer st1) (skipn k (utf8_text t)) max = Ok (r2, st2, ev2) /\
    complete_before t k t1 t2 (fun s => length (utf8_text s)) /\
    terms_of u t = l ++ (a ++ b) :: rr /\ concat l ++ a = t1 /\ falls_back u a b x /\
    r_count r1 + r_count r2 = r_count r + x /\ same_memory st2 st'.
Proof.
  intros GOK OK HW SOK Hs Ht Hne Hm Hk. set (st := sstate0 u).
  assert (Hd : d_exp (s_utf8 st) = 0%N) by reflexivity. assert (Hn : s_next st = None) by reflexivity.
  assert (Hi : minv (mst st)) by apply minv_start.
  pose proof (plain_printing u t SOK Ht) as HP. pose proof (plain_text_cp t Ht) as HT.
  assert (Hm0 : 0 < max) by lia.
  assert (STP : stopper []) by (left; reflexivity).
  assert (Hf : fits u max 0 (mst st) t) by (apply minv_fits; auto).
  destruct (scan_text_m u uchar i st t [] max) as (r & st' & ev & E & R1 & R2 & R3 & R4 & R5 & R6); auto. rewrite app_nil_r in E. specialize (R6 eq_refl).
  destruct (cut_text t k Hs Hk) as [(t1 & t2 & Et & F & G)|(t1 & c & t2 & p & q & Et & SC & F & G)].
  - assert (CB : complete_before t k t1 t2 (fun s => length (utf8_text s))).
    { split; [exact Et|]. assert (L : length (utf8_text t1) = k) by (rewrite <- F, firstn_length; lia). split; [lia|]. intros c q' ->.
      unfold utf8_text. rewrite flat_map_app, app_length. fold (utf8_text t1). cbn [flat_map]. rewrite app_nil_r. pose proof (utf8_nonempty c). destruct (utf8 c); [congruence|cbn; lia]. }
    rewrite F, G. rewrite Et in Hs, Ht, HP, HT, Hm, Hf, R1, R6, Hne. rewrite app_length in Hm.
    destruct (cut_runs u t1 t2 (mst st) GOK OK SOK eq_refl eq_refl Ht Hne) as (l & a & b & rr & x & C1 & C2 & C3 & C4 & C5).
    apply Forall_app in Hs, HP, HT. destruct Hs, HP, HT. apply fits_app in Hf. destruct Hf as [Hf1 Hf2].
    destruct (scan_text_m u uchar i st t1 [] max) as (r1 & st1 & ev1 & E1 & S1 & S2 & S3 & S4 & S5 & S6); auto. rewrite app_nil_r in E1. specialize (S6 eq_refl).
    assert (HI : minv (snd (mrun u (mst st) t1))) by (apply minv_run; auto).
    destruct (scan_text_m u uchar i (next_buffer st1) t2 [] max) as (r2 & st2 & ev2 & E2 & T1 & T2 & T3 & T4 & T5 & T6); auto.
    { rewrite mst_next, S6. apply minv_fits; auto; [apply minv_clear; exact HI|lia]. }
    rewrite app_nil_r in E2. specialize (T6 eq_refl). rewrite mst_next, S6 in T1, T6.
    exists r, st', ev, r1, st1, ev1, r2, st2, ev2, t1, t2, l, a, b, rr, x.
    split; [exact E|]. split; [exact E1|]. split; [exact E2|]. split; [exact CB|]. split; [rewrite Et; exact C1|]. split; [exact C2|]. split; [exact C3|]. split; [lia|].
    eapply same_mem; [exact T6|exact R6| |exact T5|exact R5]. destruct C5 as (Y1 & Y2 & Y3 & Y4). repeat split; congruence.
  - assert (CB : complete_before t k t1 (c :: t2) (fun s => length (utf8_text s))).
    { split; [exact Et|]. destruct SC as (_ & _ & P3 & P4 & P5).
      assert (L : (k = length (utf8_text t1) + length p)%nat) by (rewrite <- app_length, <- F, firstn_length; lia). split; [lia|].
      intros c' q' X. injection X as <- <-. unfold utf8_text. rewrite flat_map_app, app_length. fold (utf8_text t1). cbn [flat_map]. rewrite app_nil_r, P3, app_length.
      destruct q; [congruence|cbn; lia]. }
    rewrite F, G. rewrite Et in Hs, Ht, HP, HT, Hm, Hf, R1, R6, Hne. rewrite app_length in Hm.
    destruct (cut_runs u t1 (c :: t2) (mst st) GOK OK SOK eq_refl eq_refl Ht Hne) as (l & a & b & rr & x & C1 & C2 & C3 & C4 & C5).
    apply Forall_app in Hs, HP, HT. destruct Hs, HP, HT. apply fits_app in Hf. destruct Hf as [Hf1 Hf2].
    destruct (scan_text_p u uchar i st t1 c p q max) as (r1 & st1 & ev1 & d & E1 & S1 & S2 & S3 & S4 & S5 & S6 & S7); auto.
    assert (HI : minv (snd (mrun u (mst st) t1))) by (apply minv_run; auto).
    destruct (scan_text_resume u uchar i (next_buffer st1) d t2 c p q max) as (r2 & st2 & ev2 & E2 & T1 & T3 & T4 & T5 & T6); auto.
    { inversion H0; assumption. }
    { inversion H4; assumption. }
    { rewrite mst_next, S7. apply minv_fits; auto; [apply minv_clear; exact HI|lia]. }
    rewrite mst_next, S7 in T1, T6.
    exists r, st', ev, r1, st1, ev1, r2, st2, ev2, t1, (c :: t2), l, a, b, rr, x.
    split; [exact E|]. split; [exact E1|]. split; [exact E2|]. split; [exact CB|]. split; [rewrite Et; exact C1|]. split; [exact C2|]. split; [exact C3|]. split; [lia|].
    eapply same_mem; [exact T6|exact R6| |exact T5|exact R5]. destruct C5 as (Y1 & Y2 & Y3 & Y4). repeat split; congruence.
Qed.
