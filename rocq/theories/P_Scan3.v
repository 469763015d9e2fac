(** scan_text on well-formed, control-free text whose width fits: the count as a machine over code points. *)
From Verif Require Import Base Spec_Utf M_Utf8 P_Utf8 P_Utf8b M_Convert M_AsciiScan P_AsciiScan M_Ucd M_Grapheme M_Width
  Spec_Grapheme P_Grapheme Spec_Width P_Width M_Scan Spec_Scan P_Scan P_Scan2.
Open Scope Z_scope.

Record cm := CM { m_hint : N; m_g : gstate; m_acc : acc; m_rep : Z; m_here : Z }.
Definition mhi (u : ucd) (c : N) (m : cm) : Z * cm :=
  let '(brk, g) := if (m_hint m =? 0)%N then (true, process_init u c) else process_breakable u c (m_g m) in
  if brk then let w := acc_width (push u acc0 c) in (w, CM c g (push u acc0 c) w w)
  else
    let a := push u (m_acc m) c in
    let upd := acc_width a in
    if m_rep m <=? upd then (upd - m_rep m, CM c g a upd (m_here m + (upd - m_rep m)))
    else let rm := Z.min (m_rep m - upd) (m_here m) in (- rm, CM c g a upd (m_here m - rm)).
Definition mstep (u : ucd) (c : N) (m : cm) : Z * cm :=
  if (c <? 0x80)%N then (1, CM c (process_init u c) (push u acc0 c) 1 0) else mhi u c m.
Fixpoint mrun (u : ucd) (m : cm) (cs : list N) : Z * cm :=
  match cs with
  | [] => (0, m)
  | c :: cs' => let '(d, m') := mstep u c m in let '(d2, m2) := mrun u m' cs' in (d + d2, m2)
  end.
Fixpoint fits (u : ucd) (max count : Z) (m : cm) (cs : list N) : Prop :=
  match cs with
  | [] => True
  | c :: cs' => let '(d, m') := mstep u c m in count + d < max /\ fits u max (count + d) m' cs'
  end.
Definition mof (l : lp) : cm := CM (l_hint l) (l_g l) (l_acc l) (l_rep l) (l_here l).
Definition mst (st : sstate) : cm := CM (s_hint st) (s_g st) (s_acc st) (s_rep st) 0.
Definition clear_here (m : cm) : cm := CM (m_hint m) (m_g m) (m_acc m) (m_rep m) 0.

Lemma mrun_app u a b : forall m, mrun u m (a ++ b) =
  (fst (mrun u m a) + fst (mrun u (snd (mrun u m a)) b), snd (mrun u (snd (mrun u m a)) b)).
Proof.
  induction a as [|c a IH]; intros m; cbn [app mrun fst snd].
  - destruct (mrun u m b). reflexivity.
  - destruct (mstep u c m) as [d m']. rewrite IH. destruct (mrun u m' a) as [d2 m2]. cbn [fst snd].
    destruct (mrun u m2 b) as [d3 m3]. cbn [fst snd]. f_equal. lia.
Qed.
Lemma fits_app u max b : forall a count m, fits u max count m (a ++ b) <->
  fits u max count m a /\ fits u max (count + fst (mrun u m a)) (snd (mrun u m a)) b.
Proof.
  induction a as [|c a IH]; intros count m; cbn [app fits mrun fst snd].
  - rewrite Z.add_0_r. tauto.
  - destruct (mstep u c m) as [d m']. rewrite IH. destruct (mrun u m' a) as [d2 m2]. cbn [fst snd]. rewrite Z.add_assoc. tauto.
Qed.
Lemma fits_shift u max k : forall cs count m, fits u max count m cs <-> fits u (max - k) (count - k) m cs.
Proof.
  induction cs as [|c cs IH]; intros count m; cbn [fits]; [tauto|]. destruct (mstep u c m) as [d m'].
  replace (count - k + d) with (count + d - k) by lia. rewrite IH. intuition lia.
Qed.
Lemma fits_last u max : forall cs count m, cs <> [] -> fits u max count m cs -> count + fst (mrun u m cs) < max.
Proof.
  induction cs as [|c cs IH]; intros count m Hne H; [congruence|]. cbn [fits mrun] in *. destruct (mstep u c m) as [d m']. destruct H as [H1 H2].
  destruct cs as [|c2 cs2]; [cbn; lia|]. specialize (IH (count + d) m' ltac:(discriminate) H2). destruct (mrun u m' (c2 :: cs2)). cbn [fst] in *. lia.
Qed.

Lemma on_codepoint_m u max c input l : let '(d, m') := mhi u c (mof l) in l_count l + d <= max ->
  exists l', on_codepoint u max c input l = (l', None) /\ mof l' = m' /\ l_count l' = l_count l + d /\ l_utf8 l' = l_utf8 l /\
    l_bytes l' = 0 /\ l_rend l' = input.
Proof.
  unfold mhi, on_codepoint, mof. cbn [m_hint m_g m_acc m_rep m_here].
  destruct (if (l_hint l =? 0)%N then _ else _) as [brk g].
  cbn [l_count l_bytes l_here l_cstart l_rend l_utf8 l_hint l_g l_acc l_rep l_ev]. destruct brk.
  - intros H. destruct (Z.ltb_spec max (l_count l + acc_width (push u acc0 c))); [lia|].
    eexists. split; [reflexivity|]. cbn [flush l_count l_bytes l_here l_cstart l_rend l_utf8 l_hint l_g l_acc l_rep l_ev]. auto.
  - destruct (Z.leb_spec (l_rep l) (acc_width (push u (l_acc l) c))) as [L|L].
    + intros H. replace (negb _ && _) with false.
      2:{ symmetry. apply andb_false_iff. right. apply Z.ltb_ge. lia. }
      eexists. split; [reflexivity|]. cbn [flush l_count l_bytes l_here l_cstart l_rend l_utf8 l_hint l_g l_acc l_rep l_ev]. auto.
    + intros H. eexists. split; [reflexivity|]. cbn [flush l_count l_bytes l_here l_cstart l_rend l_utf8 l_hint l_g l_acc l_rep l_ev]. split; [reflexivity|]. split; [lia|auto].
Qed.
Lemma mstep_hi u c m : (0x80 <= c)%N -> mstep u c m = mhi u c m.
Proof. intros H. unfold mstep. destruct (N.ltb_spec c 0x80); [lia|reflexivity]. Qed.

Lemma na_run_m u max tail : forall cs input l, scalars cs -> Forall (fun c => (0x80 <= c)%N) cs ->
  d_exp (l_utf8 l) = 0%N -> l_count l <= max -> l_rend l = input -> l_bytes l = 0 -> fits u max (l_count l) (mof l) cs ->
  exists l', na_loop u max (utf8_text cs ++ tail) input l = na_loop u max tail (input + bl cs) l' /\
    mof l' = snd (mrun u (mof l) cs) /\ l_count l' = l_count l + fst (mrun u (mof l) cs) /\ d_exp (l_utf8 l') = 0%N /\
    l_rend l' = input + bl cs /\ l_bytes l' = 0 /\ l_count l' <= max.
Proof.
  induction cs as [|c cs IH]; intros input l Hs Hc Hd Hm Hr Hb Hf.
  - exists l. unfold bl. cbn [utf8_text flat_map length mrun fst snd app]. change (Z.of_nat 0) with 0. rewrite !Z.add_0_r. auto 10.
  - inversion Hs as [|? ? Hsc Hs']; subst. inversion Hc as [|? ? Hcc Hc']; subst.
    cbn [utf8_text flat_map]. rewrite <- app_assoc. fold (utf8_text cs).
    destruct (na_char u max c l (utf8_text cs ++ tail) (l_rend l) Hsc Hcc Hd Hm) as (d' & Hd' & E). rewrite E. clear E.
    cbn [fits mrun] in Hf |- *. rewrite mstep_hi in Hf |- * by exact Hcc.
    match goal with |- context [on_codepoint u max c ?p ?x] => pose proof (on_codepoint_m u max c p x) as O end.
    unfold mof in O at 1. cbn [l_count l_bytes l_here l_cstart l_rend l_utf8 l_hint l_g l_acc l_rep l_ev] in O. fold (mof l) in O.
    destruct (mhi u c (mof l)) as [d m']. destruct Hf as [Hf1 Hf2].
    destruct (O ltac:(lia)) as (l' & E & M1 & M2 & M3 & M4 & M5). rewrite E. 
    destruct (IH (l_rend l + Z.of_nat (length (utf8 c))) l') as (l2 & E2 & I1 & I2 & I3 & I4 & I5 & I6); auto.
    + rewrite M3. exact Hd'.
    + lia.
    + rewrite M2, M1. exact Hf2.
    + exists l2. rewrite E2. rewrite M1 in I1, I2. destruct (mrun u m' cs) as [d2 m2]. cbn [fst snd] in *.
      assert (B : bl (c :: cs) = Z.of_nat (length (utf8 c)) + bl cs) by (change (c :: cs) with ([c] ++ cs); rewrite bl_app, bl_one; reflexivity).
      rewrite B, Z.add_assoc. auto with zarith.
      split; [reflexivity|]. split; [exact I1|]. split; [lia|]. auto.
Qed.

(** one call of the non-ASCII scanner, idle *)
Lemma nonascii_m u st start cs tl max ev : d_exp (s_utf8 st) = 0%N -> 0 <= max ->
  scalars cs -> Forall (fun c => (0x80 <= c)%N) cs -> (tl = [] \/ exists b r, tl = b :: r /\ ((b < 0x80)%N \/ c1 b)) -> fits u max 0 (mst st) cs ->
  exists st' ev', nonascii u st start (utf8_text cs ++ tl) max ev = ((fst (mrun u (mst st) cs), start, start + bl cs), st', ev') /\
    s_next st' = Some (start + bl cs) /\ d_exp (s_utf8 st') = 0%N /\ (tl = [] -> mst st' = clear_here (snd (mrun u (mst st) cs))).
Proof.
  intros Hd Hm Hs Hc Ht Hf. unfold nonascii. rewrite Hd. change (0 =? 0)%N with true. cbv iota.
  set (l0 := LP _ _ _ _ _ _ _ _ _ _ _).
  destruct (na_run_m u max tl cs start l0) as (l' & E & I1 & I2 & I3 & I4 & I5 & I6); auto.
  rewrite E. change (l_count l0) with 0 in I2. change (mof l0) with (mst st) in *. rewrite Z.add_0_l in I2.
  destruct Ht as [->|(b & q & -> & Hb)].
  - cbn [na_loop]. cbn [flush l_count l_rend l_utf8 l_hint l_g l_acc l_rep]. rewrite I2, I4.
    do 2 eexists. split; [reflexivity|]. cbn [s_next s_utf8]. split; [reflexivity|]. split; [exact I3|]. intros _.
    rewrite <- I1. reflexivity.
  - cbn [na_loop]. destruct (Z.leb_spec (l_count l') max); [|lia].
    replace (is_control b || negb (is_complex b) || _) with true.
    2:{ symmetry. destruct Hb as [Hb|[Hb1 Hb2]].
        - rewrite hi_not_complex by lia. destruct (N.ltb_spec b 0x80); [|lia]. rewrite orb_true_r. reflexivity.
        - rewrite I3. apply orb_true_iff. right. unfold is_c1_control. destruct (N.leb_spec 0x80 b), (N.leb_spec b 0x9F); lia || reflexivity. }
    unfold stop_at_control. cbn [flush l_count l_rend l_utf8 l_hint l_g l_acc l_rep]. rewrite I3. change (0 =? 0)%N with true. cbn [negb].
    rewrite I2. do 2 eexists. split; [reflexivity|]. cbn [s_next s_utf8]. split; [reflexivity|]. split; [exact I3|]. discriminate.
Qed.

Definition text_cp (c : N) : Prop := (0x20 <= c)%N.
(** leading 7-bit characters *)
Fixpoint lo_run (t : list N) : list N * list N :=
  match t with
  | [] => ([], [])
  | c :: t' => if (c <? 0x80)%N then let (a, b) := lo_run t' in (c :: a, b) else ([], t)
  end.
Lemma lo_run_spec t : let (a, b) := lo_run t in t = a ++ b /\ Forall (fun c => (c < 0x80)%N) a /\
  (b = [] \/ exists c r, b = c :: r /\ (0x80 <= c)%N).
Proof.
  induction t as [|c t IH]; cbn [lo_run]; [auto|]. destruct (N.ltb_spec c 0x80).
  - destruct (lo_run t) as [a b]. destruct IH as (-> & I2 & I3). split; [reflexivity|]. split; [constructor; assumption|exact I3].
  - split; [reflexivity|]. split; [constructor|]. right. eauto.
Qed.
Lemma mrun_ascii u : forall cs c m, Forall (fun c => (c < 0x80)%N) (c :: cs) ->
  mrun u m (c :: cs) = (Z.of_nat (length (c :: cs)), let x := last (c :: cs) 0%N in CM x (process_init u x) (push u acc0 x) 1 0).
Proof.
  induction cs as [|c2 cs IH]; intros c m H; inversion H as [|? ? H1 H2]; subst; cbn [mrun].
  - unfold mstep. destruct (N.ltb_spec c 0x80); [|lia]. reflexivity.
  - unfold mstep at 1. destruct (N.ltb_spec c 0x80); [|lia]. specialize (IH c2 (CM c (process_init u c) (push u acc0 c) 1 0) H2). cbn [mrun] in IH. rewrite IH.
    cbn [length last]. f_equal. lia.
Qed.
Lemma fits_ascii u max : forall cs count m, Forall (fun c => (c < 0x80)%N) cs -> cs <> [] -> fits u max count m cs -> count + Z.of_nat (length cs) < max.
Proof.
  intros [|c cs] count m H Hne Hf; [congruence|]. pose proof (fits_last u max (c :: cs) count m Hne Hf) as L.
  rewrite (mrun_ascii u cs c m H) in L. exact L.
Qed.
(** the machine forgets everything at a 7-bit character *)
Lemma mrun_ascii_head u m m' c cs : (c < 0x80)%N -> mrun u m (c :: cs) = mrun u m' (c :: cs).
Proof. intros H. cbn [mrun]. unfold mstep. destruct (N.ltb_spec c 0x80); [reflexivity|lia]. Qed.
Lemma fits_ascii_head u max count m m' c cs : (c < 0x80)%N -> fits u max count m (c :: cs) <-> fits u max count m' (c :: cs).
Proof. intros H. cbn [fits]. unfold mstep. destruct (N.ltb_spec c 0x80); [tauto|lia]. Qed.

Definition head_hi (t : list N) : bool := match t with [] => false | c :: _ => (0x80 <=? c)%N end.
Lemma nth_last_eq (l : list N) c : nth (length l) (c :: l) 0%N = last (c :: l) 0%N.
Proof. revert c. induction l as [|x l IH]; intros c; [reflexivity|]. cbn [length nth last] in *. apply IH. Qed.

(** what stops a scan: the end of the buffer, a C0 control, or a C1 control *)
Definition stopper (tail : list N) : Prop := tail = [] \/ exists b r, tail = b :: r /\ (c0 b \/ c1 b).
Lemma scan_loop_m u uchar i max tail : stopper tail -> Forall byte tail -> forall fuel pre ts st cx r ev,
  scalars ts -> Forall text_cp ts -> (length (utf8_text ts ++ tail) < fuel)%nat ->
  d_exp (s_utf8 st) = 0%N -> s_next st = Some (Z.of_nat (length pre)) -> r_end r = Z.of_nat (length pre) ->
  (ts = [] \/ cx = head_hi ts) -> r_count r < max -> fits u max (r_count r) (mst st) ts ->
  exists r' st' ev', scan_loop u uchar i fuel (pre ++ utf8_text ts ++ tail) max st cx (Z.of_nat (length pre)) r ev = Ok (r', st', ev') /\
    r_count r' = r_count r + fst (mrun u (mst st) ts) /\ r_start r' = r_start r /\ r_end r' = Z.of_nat (length (pre ++ utf8_text ts)) /\
    s_next st' = Some (Z.of_nat (length (pre ++ utf8_text ts))) /\ d_exp (s_utf8 st') = 0%N /\
    (tail = [] -> mst st' = clear_here (snd (mrun u (mst st) ts))).
Proof.
  intros Hstop Hbt. induction fuel as [|fuel IH]; intros pre ts st cx r ev Hs Ht Hf Hd Hn He Hcx Hc Hfit; [lia|].
  cbn [scan_loop]. rewrite Hn. destruct (Z.ltb_spec (r_count r) max); [|lia]. cbn [andb].
  destruct ts as [|c0' ts0].
  { cbn [utf8_text flat_map app]. destruct Hstop as [->|(b & q & Et & Hb)].
    - rewrite app_nil_r, Z.eqb_refl. cbn [negb]. do 3 eexists. split; [reflexivity|]. cbn [mrun fst snd].
      split; [lia|]. split; [reflexivity|]. split; [exact He|]. split; [exact Hn|]. split; [exact Hd|]. reflexivity.
    - destruct (Z.eqb_spec (Z.of_nat (length pre)) (Z.of_nat (length (pre ++ tail)))) as [E|E].
      { subst tail. rewrite app_length in E. cbn [length] in E. lia. }
      cbn [negb]. rewrite Nat2Z.id, skipn_app, skipn_all, Nat.sub_diag. cbn [skipn app]. rewrite app_nil_r.
      destruct cx.
      + destruct (nonascii_m u st (Z.of_nat (length pre)) [] tail (max - r_count r) ev Hd ltac:(lia) ltac:(constructor) ltac:(constructor))
          as (st' & ev' & EN & N1 & N2 & N3).
        { right. exists b, q. split; [exact Et|]. unfold c0, c1 in *. lia. }
        { exact I. }
        cbn [utf8_text flat_map app] in EN. rewrite EN. change (bl []) with 0. rewrite !Z.add_0_r, Z.sub_diag. change (0 =? 0) with true. cbv iota.
        change (bl []) with 0 in N1. rewrite Z.add_0_r in N1.
        do 3 eexists. split; [reflexivity|]. cbn [mrun fst snd r_count r_start r_end]. split; [lia|]. split; [reflexivity|]. split; [reflexivity|].
        split; [exact N1|]. split; [exact N2|]. intros K. subst tail. discriminate.
      + destruct (scan_for_text_ascii_spec uchar i tail (Z.to_nat (max - r_count r)) Hbt) as (n & E' & EP).
        assert (n = O).
        { destruct EP as (_ & EP & _). destruct n; [reflexivity|]. subst tail. cbn [firstn] in EP. inversion EP as [|? ? Hp _]; subst.
          unfold printable, c0, c1 in *. lia. }
        subst n. rewrite E'. cbn [bindR]. do 3 eexists. split; [reflexivity|]. cbn [mrun fst snd].
        split; [lia|]. split; [reflexivity|]. split; [exact He|]. split; [exact Hn|]. split; [exact Hd|]. intros _. reflexivity. }
  destruct Hcx as [Hcx|Hcx]; [discriminate|].
  set (ts := c0' :: ts0) in *.
  assert (Hne : (0 < length (utf8_text ts))%nat) by (pose proof (bl_pos ts ltac:(discriminate)) as P; unfold bl in P; lia).
  destruct (Z.eqb_spec (Z.of_nat (length pre)) (Z.of_nat (length (pre ++ utf8_text ts ++ tail)))) as [E|E]; [rewrite !app_length in E; lia|]. cbn [negb].
  rewrite Nat2Z.id, skipn_app, skipn_all, Nat.sub_diag. cbn [skipn app].
  destruct cx.
  - pose proof (hi_run_spec ts) as HR. destruct (hi_run ts) as [cs tl] eqn:Eh. destruct HR as (E2 & Hhi & Htl).
    assert (Hcs : cs <> []).
    { intros ->. destruct Htl as [->|(b & q & -> & Hb)]; [discriminate|]. cbn [app] in E2. unfold ts in E2. injection E2 as -> _.
      cbn [head_hi] in Hcx. unfold ts in Hcx. cbn [head_hi] in Hcx. destruct (N.leb_spec 0x80 b); [lia|discriminate]. }
    rewrite E2 in Hs, Ht, Hfit. apply Forall_app in Hs, Ht. destruct Hs as [Hs1 Hs2]. destruct Ht as [Ht1 Ht2].
    apply fits_app in Hfit. destruct Hfit as [Hfit1 Hfit2].
    pose proof (fits_last u max cs _ _ Hcs Hfit1) as Hlast.
    destruct (nonascii_m u st (Z.of_nat (length pre)) cs (utf8_text tl ++ tail) (max - r_count r) ev Hd ltac:(lia) Hs1 Hhi) as (st' & ev' & EN & N1 & N2 & N3).
    { destruct Htl as [->|(b & q & -> & Hb)].
      - cbn [utf8_text flat_map app]. destruct Hstop as [->|(b & q & Et & Hb)]; [left; reflexivity|]. right. exists b, q. split; [exact Et|].
        unfold c0, c1 in *. lia.
      - right. exists b, (utf8_text q ++ tail). rewrite utf8_text_head_ascii by exact Hb. auto. }
    { apply (fits_shift u max (r_count r)) in Hfit1. rewrite Z.sub_diag in Hfit1. exact Hfit1. }
    assert (Etx : utf8_text ts = utf8_text cs ++ utf8_text tl) by (rewrite E2; apply utf8_text_app).
    rewrite Etx, <- (app_assoc (utf8_text cs)). rewrite EN.
    replace (Z.of_nat (length pre) + bl cs - Z.of_nat (length pre)) with (bl cs) by lia.
    pose proof (bl_pos cs Hcs) as Pcs. destruct (Z.eqb_spec (bl cs) 0); [lia|].
    replace (Z.of_nat (length pre) + bl cs) with (Z.of_nat (length (pre ++ utf8_text cs))) in * by (rewrite app_length; unfold bl; lia).
    rewrite E2, mrun_app.
    set (m1 := snd (mrun u (mst st) cs)) in *. set (d1 := fst (mrun u (mst st) cs)) in *.
    assert (HM : fst (mrun u (mst st') tl) = fst (mrun u m1 tl) /\
                 (tail = [] -> clear_here (snd (mrun u (mst st') tl)) = clear_here (snd (mrun u m1 tl))) /\
                 (fits u max (r_count r + d1) m1 tl -> fits u max (r_count r + d1) (mst st') tl)).
    { destruct Htl as [->|(b & q & -> & Hb)].
      - split; [reflexivity|]. split; [|reflexivity]. intros ->. rewrite (N3 eq_refl). reflexivity.
      - rewrite (mrun_ascii_head u (mst st') m1 b q Hb). split; [reflexivity|]. split; [reflexivity|]. apply fits_ascii_head, Hb. }
    destruct HM as (HM1 & HM2 & HM3).
    rewrite !(app_assoc pre).
    destruct (IH (pre ++ utf8_text cs) tl st' false (SR (r_count r + d1) (r_start r) (Z.of_nat (length (pre ++ utf8_text cs)))) ev')
      as (r' & st2 & ev2 & E' & R1 & R2 & R3 & R4 & R5 & R6); cbn [r_start r_end r_count] in *; auto.
    + rewrite E2, utf8_text_app, !app_length in Hf. rewrite app_length. unfold bl in Pcs. lia.
    + destruct Htl as [->|(b & q & -> & Hb)]; [left; reflexivity|right]. cbn [head_hi]. destruct (N.leb_spec 0x80 b); [lia|reflexivity].
    + exists r', st2, ev2. split; [exact E'|]. cbn [fst snd]. split; [rewrite R1, HM1; lia|]. split; [exact R2|]. split; [exact R3|]. split; [exact R4|].
      split; [exact R5|]. intros K. rewrite (R6 K). exact (HM2 K).
  - pose proof (lo_run_spec ts) as HR. destruct (lo_run ts) as [cs tl] eqn:Eh. destruct HR as (E2 & Hlo & Htl).
    assert (Hcs : cs <> []).
    { intros ->. cbn [app] in E2. destruct Htl as [->|(b & q & -> & Hb)]; [discriminate|]. unfold ts in E2, Hcx. injection E2 as -> _. cbn [head_hi] in Hcx.
      destruct (N.leb_spec 0x80 b); [discriminate|lia]. }
    assert (Hb : Forall byte (utf8_text ts ++ tail)) by (apply Forall_app; split; [apply utf8_text_bytes; exact Hs|exact Hbt]).
    rewrite E2 in Hs, Ht, Hfit. apply Forall_app in Hs, Ht. destruct Hs as [Hs1 Hs2]. destruct Ht as [Ht1 Ht2].
    apply fits_app in Hfit. destruct Hfit as [Hfit1 Hfit2].
    pose proof (fits_ascii u max cs _ _ Hlo Hcs Hfit1) as Hlen.
    destruct (scan_for_text_ascii_spec uchar i (utf8_text ts ++ tail) (Z.to_nat (max - r_count r)) Hb) as (n & E' & EP).
    assert (Etx : utf8_text ts = cs ++ utf8_text tl) by (rewrite E2, utf8_text_app, (utf8_text_ascii cs Hlo); reflexivity).
    assert (Etext : utf8_text ts ++ tail = cs ++ utf8_text tl ++ tail) by (rewrite Etx, app_assoc; reflexivity).
    assert (EP2 : exact_prefix (utf8_text ts ++ tail) (Z.to_nat (max - r_count r)) (length cs)).
    { rewrite Etext. unfold exact_prefix. rewrite app_length. split; [lia|].
      rewrite firstn_app, firstn_all, Nat.sub_diag, app_nil_r. split.
      - rewrite Forall_forall in *. intros x Hx. split; [apply Ht1, Hx|apply Hlo, Hx].
      - destruct Htl as [->|(b & q & -> & Hbb)].
        + cbn [utf8_text flat_map app length]. destruct Hstop as [->|(b & q & Et & Hb2)]; [left; cbn; lia|]. right. exists b. split.
          * rewrite nth_error_app2, Nat.sub_diag by lia. rewrite Et. reflexivity.
          * unfold printable, c0, c1 in *. lia.
        + right. destruct (utf8 b) as [|y ys] eqn:Eu; [destruct (utf8_nonempty b Eu)|]. exists y. split.
          * rewrite nth_error_app2, Nat.sub_diag by lia. cbn [utf8_text flat_map]. rewrite Eu. reflexivity.
          * inversion Hs2 as [|? ? Hsb _]; subst. destruct (utf8_high b Hsb Hbb) as [Hh _]. rewrite Eu in Hh. inversion Hh; subst. unfold printable. lia. }
    assert (n = length cs) by (eapply exact_prefix_unique; eassumption). subst n.
    rewrite E'. cbn [bindR]. destruct cs as [|c1 cs1]; [congruence|]. cbn [length].
    assert (Hl : nth (length cs1) (utf8_text ts ++ tail) 0%N = last (c1 :: cs1) 0%N).
    { rewrite Etext, app_nth1 by (cbn; lia). apply nth_last_eq. }
    rewrite Hl. rewrite Etx, <- (app_assoc (c1 :: cs1)), !(app_assoc pre).
    replace (Z.of_nat (length pre) + Z.of_nat (S (length cs1))) with (Z.of_nat (length (pre ++ c1 :: cs1))) by (rewrite app_length; cbn [length]; lia).
    rewrite E2, mrun_app. rewrite (mrun_ascii u cs1 c1 (mst st) Hlo) in Hfit2 |- *. cbn [fst snd] in Hfit2 |- *.
    set (x := last (c1 :: cs1) 0%N) in *. cbv zeta in *.
    match goal with |- context [scan_loop u uchar i fuel _ max ?s ?cx0 ?o ?rr ?ee] =>
      destruct (IH (pre ++ c1 :: cs1) tl s cx0 rr ee) as (r' & st2 & ev2 & E3 & R1 & R2 & R3 & R4 & R5 & R6) end;
      cbn [r_start r_end r_count s_utf8 s_next s_hint s_g s_acc s_rep mst] in *; auto.
    + rewrite Etx, !app_length in Hf. cbn [length] in Hf. rewrite app_length. lia.
    + rewrite app_length. cbn [length]. lia.
    + destruct Htl as [->|(b & q & -> & Hbb)]; [left; reflexivity|right]. cbn [head_hi]. destruct (N.leb_spec 0x80 b); [reflexivity|lia].
    + exists r', st2, ev2. split; [exact E3|]. split; [rewrite R1, <- Z.add_assoc; reflexivity|]. auto 8.
Qed.
