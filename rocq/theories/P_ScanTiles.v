(** The byte ranges given to the receiver, for arbitrary bytes. *)
From Verif Require Import Base Spec_Utf M_Utf8 P_Utf8 M_Convert P_Convert M_AsciiScan P_AsciiScan M_Ucd M_Grapheme M_Width M_Scan Spec_Scan P_Scan Spec_ScanTiles.
Open Scope Z_scope.

Lemma tiles_app P : forall a b x y z, tiles P a x y -> tiles P b y z -> tiles P (a ++ b) x z.
Proof. induction a as [|[p q|p q w|] a IH]; intros b x y z; cbn [app tiles]; [intros ->; auto| | |]; try (intros (-> & L & Pp & H) K; repeat split; auto; eapply IH; eauto). intros H K. eapply IH; eauto. Qed.

Section T.
Variable buf : list N.
Hypothesis Hb : Forall (fun b => (b < 256)%N) buf.
Let P := char_start buf.
Section Loop.
Variables (u : ucd) (max base : Z) (ev0 : list event).
Record tinv (pos : Z) (l : lp) (evs : list event) : Prop := {
  t_ev : l_ev l = ev0 ++ evs; t_tiles : tiles P evs base (l_cstart l); t_c : l_cstart l <= pos - l_bytes l; t_b : 0 <= l_bytes l;
  t_pc : P (l_cstart l); t_pp : P (pos - l_bytes l); t_dec : dlike (fold_left stream_step (firstn (Z.to_nat pos) buf) dinit) (l_utf8 l) }.
Lemma flush_tiles l evs e : l_ev l = ev0 ++ evs -> tiles P evs base (l_cstart l) -> P (l_cstart l) -> l_cstart l <= e ->
  exists evs', l_ev (flush l e) = ev0 ++ evs' /\ tiles P evs' base e.
Proof.
  intros E T HP L. unfold flush. cbn [l_ev]. destruct (Z.ltb_spec (l_cstart l) e).
  - exists (evs ++ [ECluster (l_cstart l) e (l_rep l)]). rewrite E, app_assoc. split; [reflexivity|]. eapply tiles_app; [exact T|]. cbn. auto.
  - exists evs. split; [exact E|]. replace e with (l_cstart l) by lia. exact T.
Qed.
Lemma flush_done l e evs : l_cstart l = e -> l_ev l = ev0 ++ evs -> tiles P evs base e -> exists evs', l_ev (flush l e) = ev0 ++ evs' /\ tiles P evs' base e.
Proof. intros C E T. exists evs. unfold flush. cbn [l_ev]. rewrite C, Z.ltb_irrefl. auto. Qed.
Lemma na_tiles : forall rest pos l evs, rest = skipn (Z.to_nat pos) buf -> 0 <= pos -> tinv pos l evs ->
  exists evs', let '(l', input') := na_loop u max rest pos l in l_ev (flush l' input') = ev0 ++ evs' /\ tiles P evs' base input'.
Proof.
  induction rest as [|b rest IH]; intros pos l evs ER Hp I; cbn [na_loop].
  - destruct I. apply flush_tiles with (evs := evs); auto. lia.
  - destruct (l_count l <=? max). 2:{ destruct I. apply flush_tiles with (evs := evs); auto. lia. }
    assert (Hbb : (b < 256)%N).
    { rewrite <- (firstn_skipn (Z.to_nat pos) buf), <- ER in Hb. apply Forall_app in Hb. destruct Hb as [_ K]. exact (Forall_inv K). }
    assert (Hf : firstn (Z.to_nat (pos + 1)) buf = firstn (Z.to_nat pos) buf ++ [b]).
    { replace (Z.to_nat (pos + 1)) with (Z.to_nat pos + 1)%nat by lia. rewrite <- (firstn_skipn (Z.to_nat pos) buf) at 1. rewrite <- ER.
      assert (L : length (firstn (Z.to_nat pos) buf) = Z.to_nat pos).
      { apply firstn_length_le. apply (f_equal (@length N)) in ER. rewrite skipn_length in ER. cbn [length] in ER. lia. }
      rewrite firstn_app, L. replace (Z.to_nat pos + 1 - Z.to_nat pos)%nat with 1%nat by lia. rewrite firstn_all2 by lia. reflexivity. }
    assert (ER' : rest = skipn (Z.to_nat (pos + 1)) buf).
    { replace (Z.to_nat (pos + 1)) with (Z.to_nat pos + 1)%nat by lia. rewrite <- skipn_skipn, <- ER. reflexivity. }
    destruct (is_control b || negb (is_complex b) || ((d_exp (l_utf8 l) =? 0)%N && is_c1_control b)) eqn:Hctl.
    + destruct I. destruct (flush_tiles l evs pos) as (e2 & E2 & T2); auto; [lia|].
      unfold stop_at_control. destruct (negb (d_exp (l_utf8 (flush l pos)) =? 0)%N).
      * apply (flush_done _ _ (e2 ++ [EInvalid])); [reflexivity| |]; cbn [l_ev l_cstart].
        -- rewrite E2, <- app_assoc. reflexivity.
        -- eapply tiles_app; [exact T2|]. cbn. reflexivity.
      * apply (flush_done _ _ e2); [reflexivity|exact E2|exact T2].
    + assert (Hhi : (0x80 <= b)%N).
      { apply orb_false_iff in Hctl. destruct Hctl as [C _]. apply orb_false_iff in C. destruct C as [_ C]. rewrite hi_not_complex in C by exact Hbb. apply N.ltb_ge, C. }
      destruct (dlike_step _ _ b (t_dec _ _ _ I) Hhi Hbb) as [B1 B2].
      assert (HF : fold_left stream_step (firstn (Z.to_nat (pos + 1)) buf) dinit = stream_step (fold_left stream_step (firstn (Z.to_nat pos) buf) dinit) b).
      { rewrite Hf, fold_left_app. reflexivity. }
      rewrite stream_hi in HF by exact Hhi.
      destruct (from_utf8 (l_utf8 l) b) as [d r] eqn:EU. destruct (from_utf8 (fold_left stream_step (firstn (Z.to_nat pos) buf) dinit) b) as [d2 r2] eqn:EU2. cbn [fst snd] in *. subst r2.
      destruct r as [| |cp].
      * (* Invalid *)
        assert (PB : P (pos + 1)) by (left; unfold at_boundary; rewrite HF; reflexivity).
        set (l1 := LP _ _ _ _ _ _ _ _ _ _ _). destruct (flush_tiles l1 evs (pos + 1 - l_bytes l1)) as (e2 & E2 & T2); try (unfold l1; cbn [l_ev l_cstart l_bytes]; destruct I; auto; lia).
        apply (IH _ _ (e2 ++ [EInvalid])); [exact ER'|lia|]. unfold on_invalid. constructor; cbn [l_ev l_cstart l_bytes l_utf8]; try lia.
        -- rewrite E2, <- app_assoc. reflexivity.
        -- unfold flush at 1. cbn [l_cstart]. eapply tiles_app; [exact T2|reflexivity].
        -- unfold flush, l1. cbn [l_cstart l_bytes]. destruct I. lia.
        -- unfold flush, l1. cbn [l_cstart l_bytes]. destruct I. replace (pos + 1 - (l_bytes l + 1)) with (pos - l_bytes l) by lia. assumption.
        -- rewrite Z.sub_0_r. exact PB.
        -- rewrite HF. split; [reflexivity|]. cbn. congruence.
      * (* Incomplete *)
        specialize (B2 eq_refl). apply (IH _ _ evs); [exact ER'|lia|]. destruct I. constructor; cbn [l_ev l_cstart l_bytes l_utf8]; auto; try lia.
        -- replace (pos + 1 - (l_bytes l + 1)) with (pos - l_bytes l) by lia. assumption.
        -- rewrite HF, B2. apply dlike_refl.
      * (* Success *)
        pose proof (from_utf8_success_idle _ _ _ _ EU) as Hid. pose proof (from_utf8_success_idle _ _ _ _ EU2) as Hid2.
        assert (PB : P (pos + 1)) by (left; unfold at_boundary; rewrite HF; exact Hid2).
        set (l1 := LP _ _ _ _ _ _ _ _ _ _ _). unfold on_codepoint.
        replace (pos + 1 - l_bytes l1) with (pos - l_bytes l) by (unfold l1; cbn [l_bytes]; lia).
        destruct (if (l_hint l1 =? 0)%N then _ else _) as [brk g].
        cbn [l_count l_bytes l_here l_cstart l_rend l_utf8 l_hint l_g l_acc l_rep l_ev].
        change (l_cstart l1) with (l_cstart l). change (l_ev l1) with (l_ev l). change (l_utf8 l1) with d.
        assert (DL : dlike (fold_left stream_step (firstn (Z.to_nat (pos + 1)) buf) dinit) d) by (rewrite HF; split; congruence).
        destruct brk.
        -- destruct (_ <? _).
           ++ destruct I. apply flush_tiles with (evs := evs); cbn [l_ev l_cstart]; auto.
           ++ match goal with |- context [flush ?x (pos - l_bytes l)] => set (l2 := x) end. destruct (flush_tiles l2 evs (pos - l_bytes l)) as (e2 & E2 & T2); try (unfold l2; cbn [l_ev l_cstart l_bytes]; destruct I; auto; lia).
              apply (IH _ _ e2); [exact ER'|lia|]. destruct I. constructor; cbn [l_ev l_cstart l_bytes l_utf8]; auto; try lia.
              ** unfold flush. cbn [l_cstart]. lia.
              ** rewrite Z.sub_0_r. exact PB.
        -- destruct (_ <=? _).
           ++ destruct (negb _ && _).
              ** destruct I. apply (flush_done _ _ evs); [reflexivity|exact t_ev0|exact t_tiles0].
              ** apply (IH _ _ evs); [exact ER'|lia|]. destruct I. constructor; cbn [l_ev l_cstart l_bytes l_utf8]; auto; try lia. rewrite Z.sub_0_r. exact PB.
           ++ apply (IH _ _ evs); [exact ER'|lia|]. destruct I. constructor; cbn [l_ev l_cstart l_bytes l_utf8]; auto; try lia. rewrite Z.sub_0_r. exact PB.
Qed.
End Loop.

Lemma nonascii_tiles u st start text max ev : d_exp (s_utf8 st) = 0%N -> 0 <= start -> text = skipn (Z.to_nat start) buf -> at_boundary (firstn (Z.to_nat start) buf) ->
  exists c s e st' evs n, nonascii u st start text max ev = ((c, s, e), st', ev ++ evs) /\ s_next st' = Some n /\ tiles P evs start n.
Proof.
  intros Hd Hs Et Hbd. unfold nonascii. rewrite Hd. change (0 =? 0)%N with true. cbv iota. set (l0 := LP _ _ _ _ _ _ _ _ _ _ _).
  destruct (na_tiles u max start ev text start l0 [] Et Hs) as (evs & H).
  - unfold l0. constructor; cbn [l_ev l_cstart l_bytes l_utf8]; try lia; try (left; rewrite ?Z.sub_0_r; exact Hbd); try reflexivity.
    + rewrite app_nil_r. reflexivity.
    + unfold at_boundary in Hbd. split; congruence.
  - destruct (na_loop u max text start l0) as [l' i']. destruct H as [H1 H2]. do 4 eexists. exists evs, i'. rewrite H1. split; [reflexivity|]. split; [reflexivity|exact H2].
Qed.

Lemma scan_loop_tiles u uchar i max : forall fuel pre text st (cx : bool) ev r,
  buf = pre ++ text -> (length text < fuel)%nat ->
  d_exp (s_utf8 st) = 0%N -> 0 <= s_rep st -> s_next st = Some (Z.of_nat (length pre)) -> 
  (at_boundary pre \/ cx = false) -> tiles P ev 0 (Z.of_nat (length pre)) ->
  forall r' st' ev', scan_loop u uchar i fuel buf max st cx (Z.of_nat (length pre)) r ev = Ok (r', st', ev') ->
  exists n, s_next st' = Some n /\ tiles P ev' 0 n.
Proof.
  induction fuel as [|fuel IH]; intros pre text st cx ev r Ebuf Hf Hd Hrep Hn Hbd HT r' st' ev' E; [lia|].
  cbn [scan_loop] in E. rewrite Hn in E. destruct (Z.ltb_spec (r_count r) max) as [Hlt|Hge]; cbn [andb] in E.
  2:{ injection E as <- <- <-. eauto. }
  destruct (Z.eqb_spec (Z.of_nat (length pre)) (Z.of_nat (length buf))) as [En|En]; cbn [negb] in E.
  { injection E as <- <- <-. eauto. }
  assert (Hskip : skipn (Z.to_nat (Z.of_nat (length pre))) buf = text).
  { rewrite Nat2Z.id, Ebuf, skipn_app, skipn_all, Nat.sub_diag. reflexivity. }
  assert (Hfirst : firstn (Z.to_nat (Z.of_nat (length pre))) buf = pre).
  { rewrite Nat2Z.id, Ebuf, firstn_app, firstn_all, Nat.sub_diag, app_nil_r. reflexivity. }
  rewrite Hskip in E.
  assert (Hbt : Forall (fun b => (b < 256)%N) text) by (rewrite Ebuf in Hb; apply Forall_app in Hb; tauto).
  destruct cx.
  - assert (Hbp : at_boundary pre) by (destruct Hbd; [assumption|discriminate]).
    destruct (nonascii_spec u st (Z.of_nat (length pre)) text (max - r_count r) ev pre Hd Hrep ltac:(lia) Hbp Hbt)
      as (c & s & e & st1 & ev1 & seen & a & chunks & pend & EN & R).
    destruct (nonascii_tiles u st (Z.of_nat (length pre)) text (max - r_count r) ev Hd ltac:(lia) (eq_sym Hskip)) as (c' & s' & e' & st2 & evs & n & EN2 & Hn2 & HT2); [rewrite Hfirst; exact Hbp|].
    rewrite EN in EN2. injection EN2 as <- <- <- <- EV. rewrite EN in E. destruct R. subst s e.
    assert (HT3 : tiles P ev1 0 n) by (rewrite EV; eapply tiles_app; eassumption).
    replace (Z.of_nat (length pre) + Z.of_nat (length a) - Z.of_nat (length pre)) with (Z.of_nat (length a)) in E by lia.
    destruct nr_text as [rest Et].
    destruct (Z.eqb_spec (Z.of_nat (length a)) 0) as [Ea|Ea]; [injection E as <- <- <-; eauto|].
    destruct (concat chunks ++ pend) as [|x q] eqn:Ecp.
    + assert (pend = []) by (destruct (concat chunks); [exact Ecp|discriminate]). subst pend.
      rewrite app_nil_r in nr_seen. subst seen.
      replace (Z.of_nat (length pre) + Z.of_nat (length a)) with (Z.of_nat (length (pre ++ a))) in * by (rewrite app_length; lia).
      eapply (IH (pre ++ a) rest); [| | | | | | |exact E]; auto.
      * rewrite Ebuf, Et, <- app_assoc. reflexivity.
      * rewrite Et, app_length in Hf. lia.
      * rewrite nr_next in Hn2. injection Hn2 as <-. exact HT3.
    + assert (Htext : skipn (length (pre ++ a)) buf = x :: q ++ rest).
      { rewrite Ebuf, Et, nr_seen. replace (pre ++ (a ++ x :: q) ++ rest) with ((pre ++ a) ++ x :: q ++ rest) by (rewrite <- !app_assoc; reflexivity).
        rewrite skipn_app, skipn_all, Nat.sub_diag. reflexivity. }
      assert (Hx : (0x80 <= x)%N).
      { rewrite nr_seen in nr_hi. apply Forall_app in nr_hi. destruct nr_hi as [_ K]. inversion K; lia. }
      destruct fuel as [|fuel]; [rewrite Et, nr_seen, !app_length in Hf; cbn [length] in Hf; lia|].
      cbn [scan_loop r_count] in E. destruct (_ && _); [|injection E as <- <- <-; eauto].
      replace (Z.to_nat (Z.of_nat (length pre) + Z.of_nat (length a))) with (length (pre ++ a)) in E by (rewrite app_length; lia).
      rewrite Htext in E.
      destruct (scan_for_text_ascii_spec uchar i (x :: q ++ rest) (Z.to_nat (max - (r_count r + c)))) as (k & E0 & EP).
      { assert (K : Forall (fun b => (b < 256)%N) (skipn (length (pre ++ a)) buf)).
        { rewrite <- (firstn_skipn (length (pre ++ a)) buf) in Hb. apply Forall_app in Hb. tauto. }
        rewrite Htext in K. exact K. }
      rewrite E0 in E. cbn [bindR] in E. destruct k as [|k]; [injection E as <- <- <-; eauto|]. destruct EP as (_ & PP & _). cbn [firstn] in PP. pose proof (Forall_inv PP) as [_ B]. lia.
  - destruct (scan_for_text_ascii_spec uchar i text (Z.to_nat (max - r_count r)) Hbt) as (k & E0 & EP).
    rewrite E0 in E. cbn [bindR] in E. destruct k as [|k]; [injection E as <- <- <-; eauto|]. destruct EP as (EL & EPr & _).
    assert (Lk : length (firstn (S k) text) = S k) by (rewrite firstn_length; lia).
    replace (Z.of_nat (length pre) + Z.of_nat (S k)) with (Z.of_nat (length (pre ++ firstn (S k) text))) in E by (rewrite app_length; lia).
    eapply (IH (pre ++ firstn (S k) text) (skipn (S k) text)); [| | | | | | |exact E]; cbn [s_utf8 s_rep s_next]; auto; try lia.
    + rewrite <- app_assoc, firstn_skipn. exact Ebuf.
    + rewrite skipn_length. lia.
    + left. destruct (exists_last (l := firstn (S k) text)) as (p & z & Ez); [intros K; rewrite K in Lk; discriminate|]. rewrite Ez in EPr. apply Forall_app in EPr. destruct EPr as [_ EPr].
      pose proof (Forall_inv EPr) as [_ Hz]. rewrite Ez, app_assoc. unfold at_boundary. rewrite fold_left_app. cbn [fold_left]. unfold stream_step at 1. destruct (N.ltb_spec z 0x80); [reflexivity|lia].
    + eapply tiles_app; [exact HT|]. cbn [tiles]. rewrite app_length, Lk. repeat split; try lia.
      right. rewrite Nat2Z.id, Ebuf, app_nth2 by lia. rewrite Nat.sub_diag. destruct text as [|z text]; [cbn in EL; lia|]. cbn [nth firstn] in *. pose proof (Forall_inv EPr) as [_ Hz]. exact Hz.
Qed.

Lemma scan_text_tiles u uchar i st max : 0 <= max -> d_exp (s_utf8 st) = 0%N -> 0 <= s_rep st -> s_next st = None ->
  forall r st' ev, scan_text u uchar i st buf max = Ok (r, st', ev) -> exists n, s_next st' = Some n /\ tiles P ev 0 n.
Proof.
  intros Hm Hd Hrep Hn r st' ev E. unfold scan_text in E. cbn [s_utf8] in E. rewrite Hd, Hn in E. change (0 =? 0)%N with true in E. cbv iota in E. cbn [r_end] in E.
  destruct (Z.eqb_spec 0 (Z.of_nat (length buf))); [injection E as <- <- <-; exists 0; cbn; auto|].
  replace ((0 <? 0) || (Z.of_nat (length buf) <? 0)) with false in E by (symmetry; apply orb_false_iff; split; [reflexivity|apply Z.ltb_ge; lia]).
  eapply (scan_loop_tiles u uchar i max (S (length buf)) [] buf); [| | | | | | |exact E]; cbn [s_utf8 s_rep s_next]; auto; try reflexivity. left. reflexivity.
Qed.
End T.
