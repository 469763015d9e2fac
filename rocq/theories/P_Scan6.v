(** Counts across buffer boundaries. *)
From Verif Require Import Base Spec_Utf M_Utf8 P_Utf8 P_Utf8b M_Convert M_AsciiScan P_AsciiScan M_Ucd M_Grapheme M_Width
  Spec_Grapheme P_Grapheme Spec_Width P_Width M_Scan Spec_Scan P_Scan P_Scan2 P_Scan3 P_Scan4 P_Scan5.
Open Scope Z_scope.

Definition same_but_here (a b : cm) : Prop := m_hint a = m_hint b /\ m_g a = m_g b /\ m_acc a = m_acc b /\ m_rep a = m_rep b.
Lemma same_clear a b : same_but_here a b -> clear_here a = clear_here b.
Proof. intros (H1 & H2 & H3 & H4). unfold clear_here. rewrite H1, H2, H3, H4. reflexivity. Qed.
Lemma mstep_same u c a b : c <> 0xFE0E%N -> minv a -> same_but_here a b ->
  fst (mstep u c a) = fst (mstep u c b) /\ same_but_here (snd (mstep u c a)) (snd (mstep u c b)).
Proof.
  intros Hc (M1 & M2 & M3) (H1 & H2 & H3 & H4). unfold mstep. destruct (c <? 0x80)%N; [split; [reflexivity|repeat split]|].
  unfold mhi. rewrite <- H1, <- H2. destruct (if (m_hint a =? 0)%N then _ else _) as [brk g]. destruct brk; [split; [reflexivity|repeat split]|].
  rewrite <- H3, <- H4. pose proof (push_mono u (m_acc a) c Hc M2). destruct (Z.leb_spec (m_rep a) (acc_width (push u (m_acc a) c))); [|lia].
  cbn [fst snd]. split; [reflexivity|repeat split].
Qed.
Lemma mrun_same u : ucd_width_ok u -> widths_le2 u -> forall cs a b, Forall (printing u) cs -> ~ In 0xFE0E%N cs -> minv a -> same_but_here a b ->
  fst (mrun u a cs) = fst (mrun u b cs) /\ same_but_here (snd (mrun u a cs)) (snd (mrun u b cs)).
Proof.
  intros OK HW. induction cs as [|c cs IH]; intros a b Hc Hn Ha H; [split; [reflexivity|exact H]|]. inversion Hc; subst. cbn [mrun].
  destruct (mstep_same u c a b) as [S1 S2]; [intros ->; apply Hn; left; reflexivity|exact Ha|exact H|].
  destruct (mstep_minv u c a OK HW) as [I1 _]; auto.
  destruct (mstep u c a) as [d a']. destruct (mstep u c b) as [d' b']. cbn [fst snd] in *. subst d'.
  destruct (IH a' b') as [T1 T2]; auto; [intros K; apply Hn; right; exact K|].
  destruct (mrun u a' cs), (mrun u b' cs). cbn [fst snd] in *. subst. auto.
Qed.
Lemma clear_same m : same_but_here m (clear_here m).
Proof. repeat split. Qed.

(** where a byte offset falls *)
Lemma cut_text t : forall k, scalars t -> (k <= length (utf8_text t))%nat ->
  (exists t1 t2, t = t1 ++ t2 /\ firstn k (utf8_text t) = utf8_text t1 /\ skipn k (utf8_text t) = utf8_text t2) \/
  (exists t1 c t2 p q, t = t1 ++ c :: t2 /\ split_char c p q /\ firstn k (utf8_text t) = utf8_text t1 ++ p /\ skipn k (utf8_text t) = q ++ utf8_text t2).
Proof.
  induction t as [|c t IH]; intros k Hs Hk.
  - left. exists [], []. cbn in Hk. destruct k; [|lia]. auto.
  - inversion Hs as [|? ? Hc Hs']; subst. cbn [utf8_text flat_map] in *. fold (utf8_text t) in *.
    destruct (Nat.le_gt_cases (length (utf8 c)) k) as [L|L].
    + rewrite app_length in Hk. destruct (IH (k - length (utf8 c))%nat Hs' ltac:(lia)) as [(t1 & t2 & E & F & G)|(t1 & x & t2 & p & q & E & SC & F & G)].
      * left. exists (c :: t1), t2. rewrite E at 1. split; [reflexivity|]. rewrite firstn_app, skipn_app, firstn_all2, skipn_all2, F, G by lia. auto.
      * right. exists (c :: t1), x, t2, p, q. rewrite E at 1. split; [reflexivity|]. split; [exact SC|].
        rewrite firstn_app, skipn_app, firstn_all2, skipn_all2, F, G by lia. split; [|reflexivity]. cbn [utf8_text flat_map]. rewrite <- app_assoc. reflexivity.
    + destruct k as [|k].
      { left. exists [], (c :: t). auto. }
      assert (K0 : (0 < S k)%nat) by lia. set (kk := S k) in *. clearbody kk.
      right. exists [], c, t, (firstn kk (utf8 c)), (skipn kk (utf8 c)). split; [reflexivity|].
      rewrite firstn_app, skipn_app. replace (kk - length (utf8 c))%nat with O by lia. cbn [firstn skipn app utf8_text flat_map]. rewrite app_nil_r.
      split; [|auto]. assert (Hhi : (0x80 <= c)%N).
      { destruct (N.ltb_spec c 0x80); [|assumption]. exfalso. unfold utf8 in L. destruct (N.ltb_spec c 0x80); [|lia]. cbn in L. lia. }
      split; [exact Hc|]. split; [exact Hhi|]. split; [symmetry; apply firstn_skipn|]. split.
      * intros K. apply (f_equal (@length N)) in K. rewrite firstn_length in K. cbn [length] in K. lia.
      * intros K. apply (f_equal (@length N)) in K. rewrite skipn_length in K. cbn [length] in K. lia.
Qed.

Lemma minv_start u : minv (mst (sstate0 u)).
Proof. cbn. repeat split; cbn; lia. Qed.
Lemma mst_next st : mst (next_buffer st) = mst st. Proof. reflexivity. Qed.
Lemma same_mem st st' m m' : mst st = clear_here m -> mst st' = clear_here m' -> same_but_here m m' ->
  d_exp (s_utf8 st) = 0%N -> d_exp (s_utf8 st') = 0%N -> same_memory st st'.
Proof.
  intros E1 E2 S D1 D2. rewrite (same_clear m m' S), <- E2 in E1. destruct st, st'. unfold mst in E1. cbn in E1. injection E1 as -> -> -> ->.
  unfold same_memory. cbn in *. auto 8.
Qed.
Lemma plain_printing u t : ucd_scan_ok u -> Forall plain_text t -> Forall (printing u) t.
Proof.
  intros SOK H. eapply Forall_impl; [|exact H]. intros c [H1 H2]. split; [exact H1|]. intros L. apply (sok_ascii u SOK c). lia.
Qed.
Lemma plain_text_cp t : Forall plain_text t -> Forall text_cp t.
Proof. intros H. eapply Forall_impl; [|exact H]. intros c [H1 H2]. exact H1. Qed.

Lemma counts_additive u uchar i st t k max : ucd_width_ok u -> widths_le2 u -> ucd_scan_ok u ->
  d_exp (s_utf8 st) = 0%N -> s_next st = None -> minv (mst st) ->
  scalars t -> Forall plain_text t -> ~ In 0xFE0E%N t -> 2 * Z.of_nat (length t) < max -> (k <= length (utf8_text t))%nat ->
  exists r st' ev r1 st1 ev1 r2 st2 ev2,
    scan_text u uchar i st (utf8_text t) max = Ok (r, st', ev) /\
    scan_text u uchar i st (firstn k (utf8_text t)) max = Ok (r1, st1, ev1) /\
    scan_text u uchar i (next_buffer st1) (skipn k (utf8_text t)) max = Ok (r2, st2, ev2) /\
    r_count r1 + r_count r2 = r_count r /\ same_memory st2 st'.
Proof.
  intros OK HW SOK Hd Hn Hi Hs Ht Hv Hm Hk.
  pose proof (plain_printing u t SOK Ht) as HP. pose proof (plain_text_cp t Ht) as HT.
  assert (Hm0 : 0 < max) by lia.
  assert (ST : stopper []) by (left; reflexivity).
  assert (Hf : fits u max 0 (mst st) t) by (apply minv_fits; auto).
  destruct (scan_text_m u uchar i st t [] max) as (r & st' & ev & E & R1 & R2 & R3 & R4 & R5 & R6); auto. rewrite app_nil_r in E. specialize (R6 eq_refl).
  destruct (cut_text t k Hs Hk) as [(t1 & t2 & Et & F & G)|(t1 & c & t2 & p & q & Et & SC & F & G)].
  - rewrite F, G. rewrite Et in Hs, Ht, HP, HT, Hm, Hf, R1, R6. rewrite app_length in Hm.
    apply Forall_app in Hs, HP, HT. destruct Hs, HP, HT. apply fits_app in Hf. destruct Hf as [Hf1 Hf2].
    destruct (scan_text_m u uchar i st t1 [] max) as (r1 & st1 & ev1 & E1 & S1 & S2 & S3 & S4 & S5 & S6); auto. rewrite app_nil_r in E1. specialize (S6 eq_refl).
    assert (HI : minv (snd (mrun u (mst st) t1))) by (apply minv_run; auto).
    destruct (scan_text_m u uchar i (next_buffer st1) t2 [] max) as (r2 & st2 & ev2 & E2 & T1 & T2 & T3 & T4 & T5 & T6); auto.
    { rewrite mst_next, S6. apply minv_fits; auto; [apply minv_clear; exact HI|lia]. }
    rewrite app_nil_r in E2. specialize (T6 eq_refl). rewrite mst_next, S6 in T1, T6.
    destruct (mrun_same u OK HW t2 (snd (mrun u (mst st) t1)) (clear_here (snd (mrun u (mst st) t1)))) as [X1 X2]; auto.
    { intros K. apply Hv. rewrite Et. apply in_or_app. auto. }
    { apply clear_same. }
    exists r, st', ev, r1, st1, ev1, r2, st2, ev2. split; [exact E|]. split; [exact E1|]. split; [exact E2|].
    rewrite mrun_app in R1, R6. cbn [fst snd] in R1, R6. split; [lia|].
    eapply same_mem; [exact T6|exact R6| |exact T5|exact R5]. destruct X2 as (Y1 & Y2 & Y3 & Y4). repeat split; congruence.
  - rewrite F, G. rewrite Et in Hs, Ht, HP, HT, Hm, Hf, R1, R6. rewrite app_length in Hm.
    apply Forall_app in Hs, HP, HT. destruct Hs, HP, HT. apply fits_app in Hf. destruct Hf as [Hf1 Hf2].
    destruct (scan_text_p u uchar i st t1 c p q max) as (r1 & st1 & ev1 & d & E1 & S1 & S2 & S3 & S4 & S5 & S6 & S7); auto.
    assert (HI : minv (snd (mrun u (mst st) t1))) by (apply minv_run; auto).
    destruct (scan_text_resume u uchar i (next_buffer st1) d t2 c p q max) as (r2 & st2 & ev2 & E2 & T1 & T3 & T4 & T5 & T6); auto.
    { inversion H0; assumption. }
    { inversion H4; assumption. }
    { rewrite mst_next, S7. apply minv_fits; auto; [apply minv_clear; exact HI|lia]. }
    rewrite mst_next, S7 in T1, T6.
    destruct (mrun_same u OK HW (c :: t2) (snd (mrun u (mst st) t1)) (clear_here (snd (mrun u (mst st) t1)))) as [X1 X2]; auto.
    { intros K. apply Hv. rewrite Et. apply in_or_app. auto. }
    { apply clear_same. }
    exists r, st', ev, r1, st1, ev1, r2, st2, ev2. split; [exact E|]. split; [exact E1|]. split; [exact E2|].
    rewrite mrun_app in R1, R6. cbn [fst snd] in R1, R6. split; [lia|].
    eapply same_mem; [exact T6|exact R6| |exact T5|exact R5]. destruct X2 as (Y1 & Y2 & Y3 & Y4). repeat split; congruence.
Qed.

(** the scan loop hands the start pointer through *)
Lemma scan_loop_start u uchar i buf max : forall fuel st cx off r ev,
  scan_loop u uchar i fuel buf max st cx off r ev =
  match scan_loop u uchar i fuel buf max st cx off (SR (r_count r) 0 (r_end r)) ev with
  | Ok (r', st', ev') => Ok (SR (r_count r') (r_start r) (r_end r'), st', ev')
  | UB => UB
  | NoFuel => NoFuel
  end.
Proof.
  induction fuel as [|fuel IH]; intros st cx off r ev; cbn [scan_loop r_count r_start r_end].
  - destruct ((r_count r <? max) && _); [reflexivity|]. destruct r; reflexivity.
  - destruct ((r_count r <? max) && _); [|destruct r; reflexivity]. destruct cx.
    + destruct (nonascii u st off (skipn (Z.to_nat off) buf) (max - r_count r) ev) as [[[[c s] e] st'] ev'].
      destruct (e - s =? 0); [reflexivity|]. rewrite (IH st' false _ (SR (r_count r + c) (r_start r) e)). reflexivity.
    + destruct (scan_for_text_ascii _ _ _ _ _) as [n| |]; cbn [bindR]; [|reflexivity|reflexivity]. destruct n; [destruct r; reflexivity|].
      rewrite (IH _ true _ (SR _ (r_start r) _)). reflexivity.
Qed.
(** a 7-bit byte interrupts a pending character *)
Lemma scan_text_interrupted u uchar i st b rest max : d_exp (s_utf8 st) <> 0%N -> 0 <= max -> (b < 0x80)%N -> Forall byte rest ->
  exists r' st' ev' a chunks pend rst, scan_text u uchar i st (b :: rest) max = Ok (r', st', ev') /\
    r_end r' = Z.of_nat (length a) /\ s_next st' = Some (Z.of_nat (length (a ++ concat chunks ++ pend))) /\ b :: rest = a ++ concat chunks ++ pend ++ rst.
Proof.
  intros Hd Hm Hb Hr. unfold scan_text. cbn [s_utf8]. destruct (N.eqb_spec (d_exp (s_utf8 st)) 0) as [K|_]; [congruence|].
  unfold nonascii. cbn [s_utf8 s_hint s_g s_acc s_rep]. destruct (N.eqb_spec (d_exp (s_utf8 st)) 0) as [K|_]; [congruence|].
  cbn [na_loop l_count]. destruct (Z.leb_spec 0 max); [|lia].
  replace (is_control b || negb (is_complex b) || _) with true.
  2:{ symmetry. rewrite hi_not_complex by lia. destruct (N.ltb_spec b 0x80); [|lia]. rewrite orb_true_r. reflexivity. }
  unfold stop_at_control. cbn [flush l_cstart l_utf8 l_count l_ev l_bytes l_here l_rend l_hint l_g l_acc l_rep].
  change (0 <? 0) with false. cbv iota. cbn [l_utf8 l_count l_ev l_bytes l_here l_rend l_hint l_g l_acc l_rep l_cstart].
  destruct (N.eqb_spec (d_exp (s_utf8 st)) 0) as [K|_]; [congruence|]. cbn [negb app r_end].
  change (0 <? 0) with false. cbv iota.
  destruct (Z.eqb_spec 0 (Z.of_nat (length (b :: rest)))) as [E|E]; [cbn [length] in E; lia|].
  replace ((0 <? 0) || (Z.of_nat (length (b :: rest)) <? 0)) with false by (symmetry; apply orb_false_iff; split; [reflexivity|apply Z.ltb_ge; lia]).
  assert (HB : Forall (fun b => (b < 256)%N) (b :: rest)).
  { constructor; [lia|exact Hr]. }
  rewrite scan_loop_start. cbn [r_count r_start r_end].
  match goal with |- context [scan_loop u uchar i ?f ?bf max ?s ?cx0 ?o ?rr ?ee] =>
    destruct (scan_loop_spec u uchar i bf max HB Hm f [] bf s cx0 ee (SR (0 + 1) 0 0)) as (r' & st' & ev' & a & chunks & pend & rs & E3 & P) end;
    cbn [s_utf8 s_rep s_next r_start r_end r_count length app]; auto; try lia.
  - right. cbn. lia.
  - split; [constructor|]. intros p x q K. destruct p; discriminate.
  - left. reflexivity.
  - cbn [length] in E3. change (Z.of_nat 0) with 0 in E3. change (length (b :: rest)) with (S (length rest)) in E3 |- *. rewrite E3. destruct P. do 3 eexists. exists a, chunks, pend, rs.
    split; [reflexivity|]. cbn [r_end]. auto.
Qed.
