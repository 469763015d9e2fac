(** The pieces scan_text measures, on every control-free text: the segmenter's clusters, cut further before 7-bit characters and
    between regional indicators that are not at the start. *)
From Verif Require Import Base Spec_Utf M_Utf8 P_Utf8 P_Utf8b M_Convert M_AsciiScan P_AsciiScan M_Ucd M_Grapheme M_Width
  Spec_Grapheme P_Grapheme Spec_Width P_Width M_Scan Spec_Scan P_Scan P_Scan2 P_Scan3 P_Scan4.
Open Scope Z_scope.

Definition ri_b (u : ucd) (before : list N) (b : N) : bool :=
  match before with a :: _ :: _ => gcb_beq (p_gcb (u a)) GRI && gcb_beq (p_gcb (u b)) GRI | _ => false end.
Definition term_b (u : ucd) (before : list N) (b : N) : bool := (b <? 0x80)%N || ri_b u before b || loose_b u before b.
Fixpoint tflags (u : ucd) (before rest : list N) : list bool :=
  match rest with [] => [] | b :: rest' => term_b u before b :: tflags u (b :: before) rest' end.
Lemma tflags_length u : forall rest before, length (tflags u before rest) = length rest.
Proof. induction rest as [|b rest IH]; intros before; [reflexivity|]. cbn [tflags length]. f_equal. apply IH. Qed.
Lemma tflags_nth u : forall rest before k b post, rest = firstn k rest ++ b :: post -> (k < length rest)%nat ->
  nth_error (tflags u before rest) k = Some (term_b u (rev (firstn k rest) ++ before) b).
Proof.
  induction rest as [|c rest IH]; intros before k b post E Hk; [cbn in Hk; lia|]. cbn [tflags]. destruct k as [|k].
  - cbn [firstn app] in E. injection E as -> <-. reflexivity.
  - cbn [firstn app] in E. injection E as E. cbn [nth_error firstn rev]. rewrite <- app_assoc. cbn [app]. eapply IH; [exact E|]. cbn in Hk. lia.
Qed.
Lemma stateful_term u loc older b : ucd_grapheme_ok u -> (0x80 <= b)%N -> loc <> [] ->
  (older = [] \/ exists l a, loc = l ++ [a] /\ neutral u a) -> stateful_b u loc b = term_b u (loc ++ older) b.
Proof.
  intros OK Lb Hne Hold. unfold term_b. destruct (N.ltb_spec b 0x80); [lia|]. cbn [orb].
  destruct loc as [|a r]; [congruence|].
  destruct (gcb_eq_dec (p_gcb (u a)) GRI) as [EA|EA]; [destruct (gcb_eq_dec (p_gcb (u b)) GRI) as [EB|EB]|].
  - rewrite (stateful_ri u a r b OK EA EB). destruct r as [|x r].
    + destruct Hold as [->|(l & a' & E & Hn & _)].
      * cbn [app ri_b orb]. rewrite <- (stateful_is_loose u [a] b OK) by (congruence || (intros ? ? X; injection X as <- <-; auto)).
        symmetry. apply (stateful_ri u a [] b OK EA EB).
      * exfalso. destruct l as [|? [|]]; try discriminate. injection E as <-. congruence.
    + cbn [app ri_b]. rewrite EA, EB. reflexivity.
  - assert (R : ri_b u ((a :: r) ++ older) b = false) by (cbn [app]; unfold ri_b; destruct (r ++ older); [reflexivity|]; rewrite (beq_neq _ _ EB); apply andb_false_r).
    rewrite R. cbn [orb]. rewrite (stateful_is_loose u (a :: r) b OK Hne) by (intros ? ? X _ Y; contradiction).
    destruct Hold as [->|(l & a' & -> & Hn)]; [rewrite app_nil_r; reflexivity|]. symmetry. apply loose_cut, Hn.
  - assert (R : ri_b u ((a :: r) ++ older) b = false) by (cbn [app]; unfold ri_b; destruct (r ++ older); [reflexivity|]; rewrite (beq_neq _ _ EA); reflexivity).
    rewrite R. cbn [orb]. rewrite (stateful_is_loose u (a :: r) b OK Hne) by (intros ? ? X Y _; injection X as <- <-; contradiction).
    destruct Hold as [->|(l & a' & -> & Hn)]; [rewrite app_nil_r; reflexivity|]. symmetry. apply loose_cut, Hn.
Qed.

Lemma kinv_trun u : ucd_grapheme_ok u -> ucd_width_ok u -> ucd_scan_ok u ->
  forall rest before cur m, kinv u before cur m -> before <> [] -> Forall plain_text rest ->
  zsum (map (cluster_width u) (group cur rest (tflags u before rest))) = m_rep m + fst (mrun u m rest).
Proof.
  intros OK WOK SOK. induction rest as [|b rest IH]; intros before cur m K G Ht.
  { cbn [tflags group map zsum fold_right mrun fst]. rewrite (cluster_width_acc u _ WOK), <- (k_acc _ _ _ _ K), <- (k_rep _ _ _ _ K). lia. }
  inversion Ht as [|? ? [Hb1 Hb2] Ht']; subst.
  assert (HCW : cluster_width u (rev cur) = m_rep m) by (rewrite (cluster_width_acc u _ WOK), <- (k_acc _ _ _ _ K), <- (k_rep _ _ _ _ K); reflexivity).
  assert (Ebef : exists a r0, before = a :: r0) by (destruct before as [|a r0]; [congruence|eauto]). destruct Ebef as (a & r0 & Ebef).
  cbn [tflags]. remember (term_b u before b) as brk eqn:SB.
  cbn [mrun]. unfold mstep. destruct (N.ltb_spec b 0x80) as [Lb|Lb].
  - (* 7-bit *)
    destruct (sok_ascii u SOK b ltac:(lia)) as [Hw Hg]. destruct (ok_ascii u OK b ltac:(lia)) as (_ & Hi & He).
    assert (Hbrk : brk = true) by (rewrite SB; unfold term_b; destruct (N.ltb_spec b 0x80); [reflexivity|lia]).
    rewrite Hbrk in *. clear Hbrk. cbn [group map zsum fold_right]. fold (zsum (map (cluster_width u) (group [b] rest (tflags u (b :: before) rest)))).
    set (m' := CM b (process_init u b) (push u acc0 b) 1 0).
    assert (K' : kinv u (b :: before) [b] m').
    { constructor; cbn [m' m_g m_hint m_acc m_rep m_here].
      - exists [b], before. split; [reflexivity|]. split; [apply process_init_sinv|]. right. exists [], b. split; [reflexivity|]. repeat split; assumption.
      - lia.
      - reflexivity.
      - symmetry. apply ascii_acc; assumption.
      - right. split; [reflexivity|]. split; [apply asc_first; auto|]. cbn [ist est]. rewrite Hi. split; [reflexivity|].
        unfold ext_update. rewrite He, Hg. cbn. rewrite orb_false_r. split; [destruct (N.eqb_spec (est u before) 0) as [->|]; reflexivity|].
        exists b, before. auto. }
    rewrite (IH (b :: before) [b] m' K' ltac:(discriminate) Ht'). destruct (mrun u m' rest) as [d2 m2]. cbn [fst]. rewrite HCW.
    cbn [m' m_rep]. lia.
  - (* the machine takes the same decision *)
    destruct (k_loc _ _ _ _ K) as (loc & older & El & SV & Hold).
    pose proof (stateful_spec u loc (m_g m) b OK SV) as SS.
    unfold mhi. destruct (N.eqb_spec (m_hint m) 0) as [E0|_]; [destruct (k_hint _ _ _ _ K E0)|].
    destruct (process_breakable u b (m_g m)) as [brk2 g2]. destruct SS as [SB2 SG2].
    assert (Hloc : loc <> []) by (destruct SV as (x & y & -> & _); discriminate).
    assert (Ebrk : brk2 = brk) by (rewrite SB2, SB, El; apply stateful_term; assumption).
    rewrite Ebrk in *. clear Ebrk brk2.
    assert (KL : forall gg, sinv u (b :: loc) gg -> exists loc0 older0, b :: before = loc0 ++ older0 /\ sinv u loc0 gg /\
               (older0 = [] \/ exists l a0, loc0 = l ++ [a0] /\ neutral u a0)).
    { intros gg S. exists (b :: loc), older. rewrite El. split; [reflexivity|]. split; [exact S|]. destruct Hold as [->|(l' & a' & -> & Hn)]; [left; reflexivity|right].
      exists (b :: l'), a'. auto. }
    destruct brk.
    + cbn [group map zsum fold_right]. fold (zsum (map (cluster_width u) (group [b] rest (tflags u (b :: before) rest)))).
      set (m' := CM b g2 (push u acc0 b) (acc_width (push u acc0 b)) (acc_width (push u acc0 b))).
      assert (K' : kinv u (b :: before) [b] m').
      { constructor; cbn [m' m_g m_hint m_acc m_rep m_here]; [apply KL, SG2|lia|reflexivity|reflexivity|left; reflexivity]. }
      rewrite (IH (b :: before) [b] m' K' ltac:(discriminate) Ht'). destruct (mrun u m' rest) as [d2 m2]. cbn [fst]. rewrite HCW.
      cbn [m' m_rep]. lia.
    + cbn [group]. set (a2 := push u (m_acc m) b).
      assert (Ha2 : a2 = pushes u acc0 (rev (b :: cur))).
      { unfold a2. rewrite (k_acc _ _ _ _ K). cbn [rev]. rewrite pushes_app. reflexivity. }
      assert (HA : m_here m = m_rep m \/ (m_here m = m_rep m - 1 /\ asc_ok u a2 /\ ist u (b :: before) = 0%N /\ est u (b :: before) = 0%N /\ ezs u b)).
      { destruct (k_here _ _ _ _ K) as [Hh|(Hh & Hok & Hi & He & a' & r' & E1 & Hg)]; [left; exact Hh|]. right.
        rewrite Ebef in E1. injection E1 as <- <-.
        assert (Hez : ezs u b).
        { symmetry in SB. unfold term_b in SB. apply orb_false_iff in SB as [_ SB]. rewrite Ebef in SB. unfold loose_b in SB. rewrite <- Ebef, Hi, He in SB.
          change (0 =? 2)%N with false in SB. change (0 =? 1)%N with false in SB. rewrite !andb_false_r, !orb_false_r in SB.
          unfold ezs in *. destruct Hg as [Hg|[Hg|[Hg|Hg]]]; rewrite Hg in SB; cbn in SB; destruct (p_gcb (u b)); cbn in SB; try discriminate; auto. }
        split; [exact Hh|]. split; [apply asc_push; auto; intros V W; exact (sok_wide u SOK b V W Hez)|].
        assert (Hnc : p_incb (u b) <> IConsonant).
        { intros K1. pose proof (ok_consonant u OK b K1) as K2. unfold ezs in Hez. rewrite K2 in Hez. destruct Hez as [|[|]]; discriminate. }
        assert (Hne : p_extpic (u b) = false).
        { destruct (p_extpic (u b)) eqn:K1; [|reflexivity]. pose proof (ok_extpic u OK b K1) as K2. unfold ezs in Hez. rewrite K2 in Hez. destruct Hez as [|[|]]; discriminate. }
        cbn [ist est]. rewrite Hi, He. unfold ext_update. rewrite Hne. cbn. split; [destruct (p_incb (u b)); try reflexivity; congruence|]. auto. }
      pose proof (acc_width_nonneg a2) as Hpos. pose proof (k_rep _ _ _ _ K) as Hrep. pose proof (acc_width_nonneg (m_acc m)) as Hpos2.
      assert (STEP : forall d hh, d = acc_width a2 - m_rep m -> hh = m_here m + d ->
        zsum (map (cluster_width u) (group (b :: cur) rest (tflags u (b :: before) rest))) =
        m_rep m + fst (let '(d2, m2) := mrun u (CM b g2 a2 (acc_width a2) hh) rest in (d + d2, m2))).
      { intros d hh Ed Eh. set (m' := CM b g2 a2 (acc_width a2) hh).
        assert (K' : kinv u (b :: before) (b :: cur) m').
        { constructor; cbn [m' m_g m_hint m_acc m_rep m_here]; [apply KL, SG2|lia|exact Ha2|reflexivity|].
          destruct HA as [HA|(HA & HA1 & HA2 & HA3 & HA4)]; [left; lia|right]. split; [lia|]. split; [exact HA1|]. split; [exact HA2|]. split; [exact HA3|].
          exists b, before. auto. }
        rewrite (IH (b :: before) (b :: cur) m' K' ltac:(discriminate) Ht'). destruct (mrun u m' rest) as [d2 m2]. cbn [fst]. cbn [m' m_rep]. lia. }
      destruct (Z.leb_spec (m_rep m) (acc_width a2)) as [LE|LE].
      * apply STEP; lia.
      * assert (HM : Z.min (m_rep m - acc_width a2) (m_here m) = m_rep m - acc_width a2).
        { destruct HA as [HA|(HA & HA1 & _)]; [lia|]. pose proof (asc_width u a2 HA1). lia. }
        rewrite HM. apply STEP; lia.
Qed.

Definition terms_of (u : ucd) (t : list N) : list (list N) := match t with [] => [] | c :: t' => group [c] t' (tflags u [c] t') end.
Lemma mrun_terms u t m : ucd_grapheme_ok u -> ucd_width_ok u -> ucd_scan_ok u -> m_hint m = 0%N -> Forall plain_text t ->
  fst (mrun u m t) = zsum (map (cluster_width u) (terms_of u t)).
Proof.
  intros OK WOK SOK Hh Ht. destruct t as [|c t]; [reflexivity|]. inversion Ht as [|? ? [Hc1 Hc2] Ht']; subst.
  cbn [terms_of mrun]. unfold mstep. destruct (N.ltb_spec c 0x80) as [L|L].
  - destruct (sok_ascii u SOK c ltac:(lia)) as [Hw Hg]. destruct (ok_ascii u OK c ltac:(lia)) as (_ & Hi & He).
    set (m' := CM c (process_init u c) (push u acc0 c) 1 0).
    assert (K' : kinv u [c] [c] m').
    { constructor; cbn [m' m_g m_hint m_acc m_rep m_here].
      - exists [c], []. split; [reflexivity|]. split; [apply process_init_sinv|]. left. reflexivity.
      - lia.
      - reflexivity.
      - symmetry. apply ascii_acc; assumption.
      - right. split; [reflexivity|]. split; [apply asc_first; auto|]. cbn [ist est]. rewrite Hi. split; [reflexivity|].
        unfold ext_update. rewrite He. cbn. split; [reflexivity|]. exists c, []. auto. }
    rewrite (kinv_trun u OK WOK SOK t [c] [c] m' K' ltac:(discriminate) Ht'). destruct (mrun u m' t). reflexivity.
  - unfold mhi. rewrite Hh. change (0 =? 0)%N with true. cbv iota.
    set (m' := CM c (process_init u c) (push u acc0 c) (acc_width (push u acc0 c)) (acc_width (push u acc0 c))).
    assert (K' : kinv u [c] [c] m').
    { constructor; cbn [m' m_g m_hint m_acc m_rep m_here].
      - exists [c], []. split; [reflexivity|]. split; [apply process_init_sinv|]. left. reflexivity.
      - lia.
      - reflexivity.
      - reflexivity.
      - left. reflexivity. }
    rewrite (kinv_trun u OK WOK SOK t [c] [c] m' K' ltac:(discriminate) Ht'). destruct (mrun u m' t). reflexivity.
Qed.

Lemma some_inj {A} (a b : A) : Some a = Some b -> a = b.
Proof. congruence. Qed.
Lemma terms_cuts u t k : ucd_grapheme_ok u -> (cut_at (terms_of u t) k <-> cut_at (clusters_of u t) k \/
  exists l a b r, t = l ++ a :: b :: r /\ k = S (length l) /\ ((b < 0x80)%N \/ (l <> [] /\ p_gcb (u a) = GRI /\ p_gcb (u b) = GRI))).
Proof.
  intros OK. destruct t as [|c rest].
  { cbn [terms_of clusters_of]. rewrite cut_at_cons, !cut_at_nil. cbn [length]. split; [auto|].
    intros [[H|[_ H]]|(l & a & b & r & E & _)]; [exact H|rewrite Nat.sub_0_r in H; exact H|destruct l; discriminate]. }
  cbn [terms_of clusters_of]. rewrite !group_cuts by (rewrite ?flags_length, ?tflags_length; try reflexivity; discriminate). cbn [length].
  destruct k as [|k]; [split; auto|]. replace (S k - 1)%nat with k by lia.
  destruct (Nat.lt_ge_cases k (length rest)) as [Hk|Hk].
  2:{ assert (N1 : nth_error (tflags u [c] rest) k = None) by (apply nth_error_None; rewrite tflags_length; lia).
      assert (N2 : nth_error (flags u (process_init u c) rest) k = None) by (apply nth_error_None; rewrite flags_length; lia).
      rewrite N1, N2. split; [intros [K|[K|[_ K]]]; [lia|left; right; left; exact K|discriminate]|].
      intros [[K|[K|[_ K]]]|(l & a & b & r & E & K & _)]; [lia|auto|discriminate|].
      apply (f_equal (@length N)) in E. rewrite app_length in E. cbn [length] in E. lia. }
  destruct (split_at rest k Hk) as (b & post & E).
  rewrite (tflags_nth u rest [c] k b post E Hk). rewrite (flags_spec u OK rest [c] _ (process_init_inv u c) k b post E Hk).
  assert (Eb : exists a l, rev (firstn k rest) ++ [c] = a :: rev l /\ c :: rest = l ++ a :: b :: post /\ length l = k).
  { destruct (rev (firstn k rest) ++ [c]) as [|a l] eqn:Q; [destruct (rev (firstn k rest)); discriminate|].
    exists a, (rev l). rewrite rev_involutive. split; [reflexivity|].
    assert (E3 : c :: firstn k rest = rev l ++ [a]) by (rewrite <- (rev_involutive (c :: firstn k rest)); cbn [rev]; rewrite Q; reflexivity).
    split.
    - rewrite E at 1. change (c :: firstn k rest ++ b :: post) with ((c :: firstn k rest) ++ b :: post). rewrite E3, <- app_assoc. reflexivity.
    - apply (f_equal (@length N)) in E3. rewrite app_length in E3. cbn [length] in E3. rewrite firstn_length in E3. lia. }
  destruct Eb as (a & l & -> & El & Ll).
  assert (Q : forall l' a' b' r, c :: rest = l' ++ a' :: b' :: r -> S k = S (length l') -> l' = l /\ a' = a /\ b' = b).
  { intros l' a' b' r H1 H2. rewrite El in H1. destruct (app_len_inj l l' _ _ ltac:(lia) H1) as [<- H3]. injection H3 as -> -> _. auto. }
  split.
  - intros [K|[K|[_ K]]]; [lia|left; auto|]. apply some_inj in K. unfold term_b in K. apply orb_true_iff in K as [K|K]; [apply orb_true_iff in K as [K|K]|].
    + right. exists l, a, b, post. split; [exact El|]. split; [lia|]. left. apply N.ltb_lt, K.
    + right. exists l, a, b, post. split; [exact El|]. split; [lia|]. right. destruct l as [|x l]; [discriminate|]. split; [discriminate|].
      unfold ri_b in K. destruct (rev (x :: l)) eqn:Er; [discriminate|]. apply andb_true_iff in K as [K1 K2]. rewrite gcb_beq_eq in K1, K2. auto.
    + left. right. right. split; [lia|]. rewrite K. reflexivity.
  - intros [[K|[K|[_ K]]]|(l' & a' & b' & r & H1 & H2 & H3)]; [lia|auto|right; right; split; [lia|]; apply some_inj in K; unfold term_b; rewrite K, orb_true_r; reflexivity|].
    destruct (Q l' a' b' r H1 H2) as (-> & -> & ->). right. right. split; [lia|]. f_equal. unfold term_b. destruct H3 as [H3|(H3 & H4 & H5)].
    + apply N.ltb_lt in H3. rewrite H3. reflexivity.
    + assert (R : ri_b u (a :: rev l) b = true).
      { unfold ri_b. destruct (rev l) as [|y q] eqn:Er; [apply (f_equal (@rev N)) in Er; rewrite rev_involutive in Er; contradiction|]. rewrite H4, H5. reflexivity. }
      rewrite R, orb_true_r. reflexivity.
Qed.
Lemma terms_partition u t : partition_of t (terms_of u t).
Proof.
  destruct t as [|c t]; [split; [reflexivity|constructor]|]. cbn [terms_of]. split.
  - rewrite group_concat by apply tflags_length. reflexivity.
  - apply group_nonempty. discriminate.
Qed.
