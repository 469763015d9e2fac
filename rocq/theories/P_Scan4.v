(** scan_text on control-free text: the count is the sum of the cluster widths. *)
From Verif Require Import Base Spec_Utf M_Utf8 P_Utf8 P_Utf8b M_Convert M_AsciiScan P_AsciiScan M_Ucd M_Grapheme M_Width
  Spec_Grapheme P_Grapheme Spec_Width P_Width M_Scan Spec_Scan P_Scan P_Scan2 P_Scan3.
Open Scope Z_scope.

(** ** The machine's steps are small *)
Definition minv (m : cm) : Prop := m_rep m = acc_width (m_acc m) /\ 0 <= a_cur (m_acc m) <= 2 /\ 0 <= m_here m.
Lemma push_cur u s c : widths_le2 u -> 0 <= a_cur s <= 2 -> 0 <= a_cur (push u s c) <= 2.
Proof.
  intros HW H. pose proof (cp_width_pos u c) as Hp. assert (Hp2 : cp_width u c <= 2) by (unfold cp_width; specialize (HW c); lia).
  unfold push. repeat match goal with |- context [if ?x then _ else _] => destruct x end; cbn [a_cur]; lia.
Qed.
Lemma push_grow u s c : widths_le2 u -> 0 <= a_cur s <= 2 -> acc_width (push u s c) <= acc_width s + 2.
Proof.
  intros HW H. pose proof (cp_width_pos u c) as Hp. assert (Hp2 : cp_width u c <= 2) by (unfold cp_width; specialize (HW c); lia).
  unfold push. 
  destruct (Z.eqb_spec (a_cur s) 0) as [E0|E0]; destruct (Z.eqb_spec (cp_width u c) 0) as [E1|E1]; cbn [negb];
  repeat match goal with |- context [if ?x then _ else _] => lazymatch x with (_ <? _)%Z => fail | _ => destruct x end end;
  unfold acc_width; cbn [a_total a_cur];
  repeat match goal with |- context [if 0 <? ?x then _ else _] => destruct (Z.ltb_spec 0 x) end; lia.
Qed.
(** without U+FE0E the width never shrinks *)
Lemma push_mono u s c : c <> 0xFE0E%N -> 0 <= a_cur s <= 2 -> acc_width s <= acc_width (push u s c).
Proof.
  intros Hc H. pose proof (cp_width_pos u c) as Hp. unfold push. apply N.eqb_neq in Hc. rewrite Hc. cbn [andb].
  destruct (Z.eqb_spec (a_cur s) 0) as [E0|E0]; destruct (Z.eqb_spec (cp_width u c) 0) as [E1|E1]; cbn [negb];
  repeat match goal with |- context [if ?x then _ else _] => lazymatch x with (_ <? _)%Z => fail | _ => destruct x end end;
  unfold acc_width; cbn [a_total a_cur];
  repeat match goal with |- context [if 0 <? ?x then _ else _] => destruct (Z.ltb_spec 0 x) end; lia.
Qed.

(** 7-bit characters other than controls and DEL *)
Definition printing (u : ucd) (c : N) : Prop := (0x20 <= c)%N /\ ((c < 0x80)%N -> p_width (u c) = 1%N).
Lemma ascii_acc u c : ucd_width_ok u -> p_width (u c) = 1%N -> acc_width (push u acc0 c) = 1.
Proof. intros OK H. rewrite (single_push u c OK). unfold cp_width. rewrite H. reflexivity. Qed.

Lemma mstep_minv u c m : ucd_width_ok u -> widths_le2 u -> printing u c -> minv m ->
  minv (snd (mstep u c m)) /\ fst (mstep u c m) <= 2.
Proof.
  intros OK HW [Hc1 Hc2] (H1 & H2 & H3). unfold mstep. assert (A0 : 0 <= a_cur acc0 <= 2) by (cbn; lia).
  destruct (N.ltb_spec c 0x80) as [L|L].
  - cbn [fst snd]. split; [|lia]. split; cbn [m_rep m_acc m_here]; [symmetry; apply ascii_acc; auto|]. split; [apply push_cur; assumption|lia].
  - pose proof (acc_width_nonneg (push u acc0 c)).
    unfold mhi. destruct (if (m_hint m =? 0)%N then _ else _) as [brk g]. destruct brk.
    + cbn [fst snd]. split; [split; cbn [m_rep m_acc m_here]; [reflexivity|split; [apply push_cur; assumption|lia]]|].
      pose proof (push_grow u acc0 c HW A0). change (acc_width acc0) with 0 in *. lia.
    + pose proof (push_grow u (m_acc m) c HW H2) as G. pose proof (acc_width_nonneg (push u (m_acc m) c)). pose proof (acc_width_nonneg (m_acc m)).
      destruct (Z.leb_spec (m_rep m) (acc_width (push u (m_acc m) c))); cbn [fst snd].
      * split; [split; cbn [m_rep m_acc m_here]; [reflexivity|split; [apply push_cur; assumption|lia]]|]. lia.
      * split; [split; cbn [m_rep m_acc m_here]; [reflexivity|split; [apply push_cur; assumption|lia]]|]. lia.
Qed.
Lemma minv_fits u max : ucd_width_ok u -> widths_le2 u -> forall cs m count, Forall (printing u) cs -> minv m ->
  count + 2 * Z.of_nat (length cs) < max -> fits u max count m cs.
Proof.
  intros OK HW. induction cs as [|c cs IH]; intros m count Hc Hm H; [exact I|]. inversion Hc; subst. cbn [fits length] in *.
  destruct (mstep_minv u c m OK HW) as [I1 I2]; auto. destruct (mstep u c m) as [d m']. cbn [fst snd] in *. split; [lia|].
  apply IH; auto. lia.
Qed.
Lemma minv_run u : ucd_width_ok u -> widths_le2 u -> forall cs m, Forall (printing u) cs -> minv m -> minv (snd (mrun u m cs)).
Proof.
  intros OK HW. induction cs as [|c cs IH]; intros m Hc Hm; [exact Hm|]. inversion Hc; subst. cbn [mrun].
  destruct (mstep_minv u c m OK HW) as [I1 _]; auto. destruct (mstep u c m) as [d m']. cbn [snd] in I1. specialize (IH m' ltac:(assumption) I1).
  destruct (mrun u m' cs). exact IH.
Qed.
Lemma minv_clear m : minv m -> minv (clear_here m).
Proof. intros (H1 & H2 & H3). split; [exact H1|]. split; [exact H2|]. cbn. lia. Qed.

(** ** Context beyond a 7-bit character does not matter *)
Lemma ist_cut u loc a older : p_incb (u a) = INone -> ist u ((loc ++ [a]) ++ older) = ist u (loc ++ [a]).
Proof. intros H. induction loc as [|c loc IH]; cbn [app ist]; [rewrite H; reflexivity|]. rewrite IH. reflexivity. Qed.
Lemma est_cut u loc a older : p_extpic (u a) = false -> p_gcb (u a) <> GExtend -> p_gcb (u a) <> GZWJ -> est u ((loc ++ [a]) ++ older) = est u (loc ++ [a]).
Proof.
  intros H H1 H2. induction loc as [|c loc IH]; cbn [app est]; [|rewrite IH; reflexivity].
  unfold ext_update. rewrite H, (beq_neq _ _ H1), (beq_neq _ _ H2). cbn. rewrite orb_false_r. destruct (N.eqb_spec (est u older) 0) as [->|]; reflexivity.
Qed.
Lemma rst_cut u loc a older : p_gcb (u a) <> GRI -> rst u ((loc ++ [a]) ++ older) = rst u (loc ++ [a]).
Proof.
  intros H. induction loc as [|c loc IH]; cbn [app rst]; [rewrite (beq_neq _ _ H); reflexivity|].
  destruct (gcb_beq (p_gcb (u c)) GRI); [|reflexivity]. rewrite IH. destruct loc; reflexivity.
Qed.
(** the character stands alone as far as segmentation state goes *)
Definition neutral (u : ucd) (a : N) : Prop := p_gcb (u a) = GOther /\ p_incb (u a) = INone /\ p_extpic (u a) = false.
Lemma loose_cut u loc a older b : neutral u a -> loose_b u ((loc ++ [a]) ++ older) b = loose_b u (loc ++ [a]) b.
Proof.
  intros (H1 & H2 & H3). unfold loose_b. destruct loc as [|c loc]; cbn [app].
  - change (a :: older) with (([] ++ [a]) ++ older). rewrite (ist_cut u [] a older H2), (est_cut u [] a older H3), (rst_cut u [] a older) by (rewrite H1; discriminate). reflexivity.
  - change (c :: (loc ++ [a]) ++ older) with (((c :: loc) ++ [a]) ++ older). change (c :: loc ++ [a]) with ((c :: loc) ++ [a]).
    rewrite (ist_cut u _ a older H2), (est_cut u _ a older H3), (rst_cut u _ a older) by (rewrite H1; discriminate). reflexivity.
Qed.

(** ** A cluster opened by a 7-bit character never shrinks below one column *)
Definition asc_ok (u : ucd) (s : acc) : Prop :=
  0 <= a_total s /\ 1 <= a_cur s /\ p_varbase (u (a_last s)) && (a_lastw s =? 2) = false.
Lemma asc_push u s b : ezs u b -> (p_varbase (u b) = true -> p_width (u b) <> 2%N) -> asc_ok u s -> asc_ok u (push u s b).
Proof.
  intros Hb Hv (H1 & H2 & H3). pose proof (cp_width_pos u b) as Hp.
  assert (HR : gcb_beq (p_gcb (u b)) GRI = false) by (destruct Hb as [->|[->| ->]]; reflexivity).
  assert (HV : p_varbase (u b) && (cp_width u b =? 2) = false).
  { destruct (p_varbase (u b)); [|reflexivity]. cbn [andb]. apply Z.eqb_neq. specialize (Hv eq_refl). unfold cp_width. lia. }
  unfold push. rewrite HR, H3. cbn [andb].
  destruct (Z.eqb_spec (cp_width u b) 0) as [E1|E1]; cbn [negb];
  repeat match goal with |- asc_ok _ (if ?x then _ else _) => destruct x end;
  unfold asc_ok; cbn [a_total a_cur a_last a_lastw]; rewrite ?H3, ?HV;
  repeat match goal with |- context [if ?x then _ else _] => destruct x end; repeat split; try lia; try reflexivity.
  all: rewrite ?andb_false_r; try reflexivity.
Qed.
Lemma asc_first u c : ucd_width_ok u -> p_gcb (u c) = GOther -> (c < 0x80)%N -> p_width (u c) = 1%N -> asc_ok u (push u acc0 c).
Proof.
  intros OK Hg Hc Hw. rewrite push_base.
  - unfold asc_ok, cp_width. cbn [a_total a_cur a_last a_lastw acc0]. rewrite Hw. cbn. rewrite andb_false_r. repeat split; lia.
  - unfold base. rewrite Hw, Hg. repeat split; try discriminate; lia.
  - reflexivity.
  - reflexivity.
  - reflexivity.
Qed.
Lemma asc_width u s : asc_ok u s -> 1 <= acc_width s.
Proof. intros (H1 & H2 & _). unfold acc_width. destruct (Z.ltb_spec 0 (a_total s + a_cur s)); lia. Qed.

(** ** The machine against the segmenter *)
Record kinv (u : ucd) (before cur : list N) (m : cm) : Prop := {
  k_loc : exists loc older, before = loc ++ older /\ sinv u loc (m_g m) /\
            (older = [] \/ exists l a, loc = l ++ [a] /\ neutral u a);
  k_hint : m_hint m <> 0%N;
  k_acc : m_acc m = pushes u acc0 (rev cur);
  k_rep : m_rep m = acc_width (m_acc m);
  k_here : m_here m = m_rep m \/
           (m_here m = m_rep m - 1 /\ asc_ok u (m_acc m) /\ ist u before = 0%N /\ est u before = 0%N /\
            exists a r, before = a :: r /\ (p_gcb (u a) = GOther \/ ezs u a))
}.
(** adjacent characters the scanner treats as the segmenter does *)
Definition pairs_ok (u : ucd) (first : bool) (a b : N) : Prop :=
  (p_gcb (u a) = GRI -> p_gcb (u b) = GRI -> first = true) /\ (p_gcb (u a) = GPrepend -> (0x80 <= b)%N).

Lemma kinv_run u : ucd_grapheme_ok u -> ucd_width_ok u -> ucd_scan_ok u ->
  forall rest before cur m gs, kinv u before cur m -> ginv u before gs -> Forall plain_text rest ->
  (forall l a b r, rev before ++ rest = l ++ a :: b :: r -> pairs_ok u (match l with [] => true | _ => false end) a b) ->
  zsum (map (cluster_width u) (group cur rest (flags u gs rest))) = m_rep m + fst (mrun u m rest).
Proof.
  intros OK WOK SOK. induction rest as [|b rest IH]; intros before cur m gs K G Ht HP.
  { cbn [flags group map zsum fold_right mrun fst]. rewrite (cluster_width_acc u _ WOK), <- (k_acc _ _ _ _ K), <- (k_rep _ _ _ _ K). lia. }
  inversion Ht as [|? ? [Hb1 Hb2] Ht']; subst.
  assert (HCW : cluster_width u (rev cur) = m_rep m) by (rewrite (cluster_width_acc u _ WOK), <- (k_acc _ _ _ _ K), <- (k_rep _ _ _ _ K); reflexivity).
  pose proof (process_breakable_spec u before gs b OK G) as SG.
  destruct G as (a & r0 & Ebef & _). 
  assert (HPab : pairs_ok u (match r0 with [] => true | _ => false end) a b).
  { specialize (HP (rev r0) a b rest). rewrite Ebef in HP. cbn [rev] in HP. rewrite <- app_assoc in HP. specialize (HP eq_refl).
    destruct r0 as [|x r0]; [exact HP|]. destruct (rev (x :: r0)) eqn:E; [|exact HP]. apply (f_equal (@length N)) in E. rewrite rev_length in E. discriminate. }
  assert (HPn : forall l a b0 r, rev (b :: before) ++ rest = l ++ a :: b0 :: r -> pairs_ok u (match l with [] => true | _ => false end) a b0).
  { intros l a' b' r E. apply (HP l a' b' r). rewrite <- E. cbn [rev]. rewrite <- app_assoc. reflexivity. }
  cbn [flags]. destruct (process_breakable u b gs) as [brk gs'] eqn:EGS. destruct SG as [SB SG].
  cbn [mrun]. unfold mstep. destruct (N.ltb_spec b 0x80) as [Lb|Lb].
  - (* 7-bit *)
    destruct (sok_ascii u SOK b ltac:(lia)) as [Hw Hg]. destruct (ok_ascii u OK b ltac:(lia)) as (_ & Hi & He).
    assert (Hbrk : brk = true).
    { rewrite SB, Ebef. unfold loose_b. rewrite Hg, Hi, He. destruct HPab as [_ HPP].
      assert (HnP : gcb_beq (p_gcb (u a)) GPrepend = false) by (apply beq_neq; intros K1; specialize (HPP K1); lia).
      rewrite HnP. cbn. rewrite !andb_false_r, !orb_false_r. cbn. destruct (is_ctl _); reflexivity. }
    rewrite Hbrk in *. clear Hbrk. cbn [group map zsum fold_right]. fold (zsum (map (cluster_width u) (group [b] rest (flags u (process_init u b) rest)))).
    set (m' := CM b (process_init u b) (push u acc0 b) 1 0).
    assert (K' : kinv u (b :: before) [b] m').
    { constructor; cbn [m' m_g m_hint m_acc m_rep m_here].
      - exists [b], before. split; [reflexivity|]. split; [apply process_init_sinv|]. right. exists [], b. split; [reflexivity|]. repeat split; assumption.
      - lia.
      - reflexivity.
      - symmetry. apply ascii_acc; assumption.
      - right. split; [reflexivity|]. split; [apply asc_first; auto|]. cbn [ist est]. rewrite Hi. split; [reflexivity|].
        unfold ext_update. rewrite He, Hg. cbn. rewrite orb_false_r. split; [destruct (N.eqb_spec (est u before) 0) as [->|]; reflexivity|].
        exists b, before. auto. }
    rewrite (IH (b :: before) [b] m' (process_init u b) K' SG Ht' HPn). destruct (mrun u m' rest) as [d2 m2]. cbn [fst]. rewrite HCW.
    cbn [m' m_rep]. lia.
  - (* the machine takes the same decision *)
    destruct (k_loc _ _ _ _ K) as (loc & older & El & SV & Hold).
    pose proof (stateful_spec u loc (m_g m) b OK SV) as SS.
    unfold mhi. destruct (N.eqb_spec (m_hint m) 0) as [E0|_]; [destruct (k_hint _ _ _ _ K E0)|].
    destruct (process_breakable u b (m_g m)) as [brk2 g2]. destruct SS as [SB2 SG2].
    assert (Hloc : loc <> []) by (destruct SV as (x & y & -> & _); discriminate).
    assert (Ebrk : brk2 = brk).
    { rewrite SB2, SB, stateful_is_loose; auto.
      - rewrite El. destruct Hold as [->|(l' & a' & -> & Hn)]; [rewrite app_nil_r; reflexivity|symmetry; apply loose_cut, Hn].
      - intros a' r' E1 Ra Rb. destruct loc as [|x loc']; [discriminate|]. injection E1 as -> ->. 
        rewrite El in Ebef. cbn [app] in Ebef. injection Ebef as -> <-.
        destruct HPab as [HPR _]. specialize (HPR Ra Rb). destruct (r' ++ older) eqn:E1; [|discriminate]. apply app_eq_nil in E1. tauto. }
    rewrite Ebrk in *. clear Ebrk brk2.
    assert (KL : forall gg, sinv u (b :: loc) gg -> exists loc0 older0, b :: before = loc0 ++ older0 /\ sinv u loc0 gg /\
               (older0 = [] \/ exists l a0, loc0 = l ++ [a0] /\ neutral u a0)).
    { intros gg S. exists (b :: loc), older. rewrite El. split; [reflexivity|]. split; [exact S|]. destruct Hold as [->|(l' & a' & -> & Hn)]; [left; reflexivity|right].
      exists (b :: l'), a'. auto. }
    destruct brk.
    + cbn [group map zsum fold_right]. fold (zsum (map (cluster_width u) (group [b] rest (flags u (process_init u b) rest)))).
      set (m' := CM b g2 (push u acc0 b) (acc_width (push u acc0 b)) (acc_width (push u acc0 b))).
      assert (K' : kinv u (b :: before) [b] m').
      { constructor; cbn [m' m_g m_hint m_acc m_rep m_here]; [apply KL, SG2|lia|reflexivity|reflexivity|left; reflexivity]. }
      rewrite (IH (b :: before) [b] m' (process_init u b) K' SG Ht' HPn). destruct (mrun u m' rest) as [d2 m2]. cbn [fst]. rewrite HCW.
      cbn [m' m_rep]. lia.
    + cbn [group]. set (a2 := push u (m_acc m) b).
      assert (Ha2 : a2 = pushes u acc0 (rev (b :: cur))).
      { unfold a2. rewrite (k_acc _ _ _ _ K). cbn [rev]. rewrite pushes_app. reflexivity. }
      assert (HA : m_here m = m_rep m \/ (m_here m = m_rep m - 1 /\ asc_ok u a2 /\ ist u (b :: before) = 0%N /\ est u (b :: before) = 0%N /\ ezs u b)).
      { destruct (k_here _ _ _ _ K) as [Hh|(Hh & Hok & Hi & He & a' & r' & E1 & Hg)]; [left; exact Hh|]. right.
        rewrite Ebef in E1. injection E1 as <- <-.
        assert (Hez : ezs u b).
        { symmetry in SB. rewrite Ebef in SB. unfold loose_b in SB. rewrite <- Ebef, Hi, He in SB.
          change (0 =? 2)%N with false in SB. change (0 =? 1)%N with false in SB. rewrite !andb_false_r, !orb_false_r in SB.
          destruct HPab as [HPR _].
          unfold ezs in *. destruct Hg as [Hg|[Hg|[Hg|Hg]]]; rewrite Hg in SB; cbn in SB; destruct (p_gcb (u b)); cbn in SB; try discriminate; auto. }
        split; [exact Hh|]. split; [apply asc_push; auto; intros V W; exact (sok_wide u SOK b V W Hez)|].
        assert (Hnc : p_incb (u b) <> IConsonant).
        { intros K1. pose proof (ok_consonant u OK b K1) as K2. unfold ezs in Hez. rewrite K2 in Hez. destruct Hez as [|[|]]; discriminate. }
        assert (Hne : p_extpic (u b) = false).
        { destruct (p_extpic (u b)) eqn:K1; [|reflexivity]. pose proof (ok_extpic u OK b K1) as K2. unfold ezs in Hez. rewrite K2 in Hez. destruct Hez as [|[|]]; discriminate. }
        cbn [ist est]. rewrite Hi, He. unfold ext_update. rewrite Hne. cbn. split; [destruct (p_incb (u b)); try reflexivity; congruence|]. auto. }
      pose proof (acc_width_nonneg a2) as Hpos. pose proof (k_rep _ _ _ _ K) as Hrep. pose proof (acc_width_nonneg (m_acc m)) as Hpos2.
      assert (STEP : forall d hh, d = acc_width a2 - m_rep m -> hh = m_here m + d ->
        zsum (map (cluster_width u) (group (b :: cur) rest (flags u gs' rest))) =
        m_rep m + fst (let '(d2, m2) := mrun u (CM b g2 a2 (acc_width a2) hh) rest in (d + d2, m2))).
      { intros d hh Ed Eh. set (m' := CM b g2 a2 (acc_width a2) hh).
        assert (K' : kinv u (b :: before) (b :: cur) m').
        { constructor; cbn [m' m_g m_hint m_acc m_rep m_here]; [apply KL, SG2|lia|exact Ha2|reflexivity|].
          destruct HA as [HA|(HA & HA1 & HA2 & HA3 & HA4)]; [left; lia|right]. split; [lia|]. split; [exact HA1|]. split; [exact HA2|]. split; [exact HA3|].
          exists b, before. auto. }
        rewrite (IH (b :: before) (b :: cur) m' gs' K' SG Ht' HPn). destruct (mrun u m' rest) as [d2 m2]. cbn [fst]. cbn [m' m_rep]. lia. }
      destruct (Z.leb_spec (m_rep m) (acc_width a2)) as [LE|LE].
      * apply STEP; lia.
      * assert (HM : Z.min (m_rep m - acc_width a2) (m_here m) = m_rep m - acc_width a2).
        { destruct HA as [HA|(HA & HA1 & _)]; [lia|]. pose proof (asc_width u a2 HA1). lia. }
        rewrite HM. apply STEP; lia.
Qed.

Lemma mrun_clusters u t m : ucd_grapheme_ok u -> ucd_width_ok u -> ucd_scan_ok u -> m_hint m = 0%N -> Forall plain_text t ->
  (forall l a b r, t = l ++ a :: b :: r -> pairs_ok u (match l with [] => true | _ => false end) a b) ->
  fst (mrun u m t) = zsum (map (cluster_width u) (clusters_of u t)).
Proof.
  intros OK WOK SOK Hh Ht HP. destruct t as [|c t]; [reflexivity|]. inversion Ht as [|? ? [Hc1 Hc2] Ht']; subst.
  cbn [clusters_of mrun]. unfold mstep. destruct (N.ltb_spec c 0x80) as [L|L].
  - destruct (sok_ascii u SOK c ltac:(lia)) as [Hw Hg]. destruct (ok_ascii u OK c ltac:(lia)) as (_ & Hi & He).
    set (m' := CM c (process_init u c) (push u acc0 c) 1 0).
    assert (K' : kinv u [c] [c] m').
    { constructor; cbn [m' m_g m_hint m_acc m_rep m_here].
      - exists [c], []. split; [reflexivity|]. split; [apply process_init_sinv|]. left. reflexivity.
      - lia.
      - reflexivity.
      - symmetry. apply ascii_acc; assumption.
      - right. split; [reflexivity|]. split; [apply asc_first; auto|]. cbn [ist est]. rewrite Hi. split; [reflexivity|].
        unfold ext_update. rewrite He. cbn. split; [reflexivity|]. exists c, []. auto. }
    rewrite (kinv_run u OK WOK SOK t [c] [c] m' (process_init u c) K' (process_init_inv u c) Ht').
    + destruct (mrun u m' t). reflexivity.
    + cbn [rev app]. exact HP.
  - unfold mhi. rewrite Hh. change (0 =? 0)%N with true. cbv iota.
    set (m' := CM c (process_init u c) (push u acc0 c) (acc_width (push u acc0 c)) (acc_width (push u acc0 c))).
    assert (K' : kinv u [c] [c] m').
    { constructor; cbn [m' m_g m_hint m_acc m_rep m_here].
      - exists [c], []. split; [reflexivity|]. split; [apply process_init_sinv|]. left. reflexivity.
      - lia.
      - reflexivity.
      - reflexivity.
      - left. reflexivity. }
    rewrite (kinv_run u OK WOK SOK t [c] [c] m' (process_init u c) K' (process_init_inv u c) Ht').
    + destruct (mrun u m' t). reflexivity.
    + cbn [rev app]. exact HP.
Qed.
