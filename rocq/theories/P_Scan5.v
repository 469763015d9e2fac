(** scan_text from an idle state, and across buffer boundaries. *)
From Verif Require Import Base Spec_Utf M_Utf8 P_Utf8 P_Utf8b M_Convert M_AsciiScan P_AsciiScan M_Ucd M_Grapheme M_Width
  Spec_Grapheme P_Grapheme Spec_Width P_Width M_Scan Spec_Scan P_Scan P_Scan2 P_Scan3 P_Scan4.
Open Scope Z_scope.

Lemma complex_head t tail : scalars t -> t <> [] -> is_complex (nth 0 (utf8_text t ++ tail) 0%N) = head_hi t.
Proof.
  intros Hs Hne. destruct t as [|c t]; [congruence|]. inversion Hs; subst. cbn [utf8_text flat_map head_hi].
  destruct (N.leb_spec 0x80 c) as [L|L].
  - destruct (utf8_high c ltac:(assumption) L) as [Hh _]. destruct (utf8 c) as [|y ys] eqn:E; [destruct (utf8_nonempty c E)|].
    inversion Hh; subst. cbn [app nth]. rewrite complex_iff by lia. apply N.leb_le. lia.
  - unfold utf8. destruct (N.ltb_spec c 0x80); [|lia]. cbn [app nth]. rewrite complex_iff by lia. apply N.leb_gt. lia.
Qed.
Lemma scan_text_m u uchar i st t tail max : stopper tail -> Forall byte tail -> scalars t -> Forall text_cp t ->
  d_exp (s_utf8 st) = 0%N -> (s_next st = None \/ s_next st = Some 0) -> 0 < max -> fits u max 0 (mst st) t ->
  exists r' st' ev', scan_text u uchar i st (utf8_text t ++ tail) max = Ok (r', st', ev') /\
    r_count r' = fst (mrun u (mst st) t) /\ r_start r' = 0 /\ r_end r' = bl t /\ s_next st' = Some (bl t) /\ d_exp (s_utf8 st') = 0%N /\
    (tail = [] -> mst st' = clear_here (snd (mrun u (mst st) t))).
Proof.
  intros Hst Hbt Hs Ht Hd Hn Hm Hf. unfold scan_text. cbn [s_utf8]. rewrite Hd. change (0 =? 0)%N with true. cbv iota. cbn [r_end].
  replace (match s_next st with Some z => Some z | None => Some 0 end) with (Some 0) by (destruct Hn as [-> | ->]; reflexivity).
  destruct (Z.eqb_spec 0 (Z.of_nat (length (utf8_text t ++ tail)))) as [E|E].
  - assert (Et : t = []) by (destruct t as [|c t]; [reflexivity|]; pose proof (bl_pos (c :: t) ltac:(discriminate)); unfold bl in *; rewrite app_length in E; lia).
    subst t. do 3 eexists. split; [reflexivity|]. cbn [r_count r_start r_end s_next s_utf8 mrun fst snd]. repeat split; auto.
  - replace ((0 <? 0) || (Z.of_nat (length (utf8_text t ++ tail)) <? 0)) with false by (symmetry; apply orb_false_iff; split; [reflexivity|apply Z.ltb_ge; lia]).
    change (Z.to_nat 0) with O.
    match goal with |- context [scan_loop u uchar i _ _ max ?s ?cx0 0 ?rr ?ee] =>
      destruct (scan_loop_m u uchar i max tail Hst Hbt (S (length (utf8_text t ++ tail))) [] t s cx0 rr ee) as (r' & st2 & ev2 & E3 & R1 & R2 & R3 & R4 & R5 & R6) end;
      cbn [r_start r_end r_count s_utf8 s_next s_hint s_g s_acc s_rep mst length] in *; auto.
    + destruct t as [|c t]; [left; reflexivity|right]. apply complex_head; [exact Hs|discriminate].
    + cbn [app] in *. change (Z.of_nat 0) with 0 in E3. do 3 eexists. split; [exact E3|]. unfold bl. auto 8.
Qed.

(** ** A buffer that ends inside a character *)
Lemma na_pend u max : forall p l input, Forall (eq Incomplete) (snd (from_utf8_run (l_utf8 l) p)) ->
  Forall (fun b => (0x80 <= b < 256)%N) p -> (d_exp (l_utf8 l) = 0%N -> p <> [] -> ~ c1 (hd 0%N p)) -> l_count l <= max ->
  na_loop u max p input l =
  (LP (l_count l) (l_bytes l + Z.of_nat (length p)) (l_here l) (l_cstart l) (l_rend l) (fst (from_utf8_run (l_utf8 l) p))
      (l_hint l) (l_g l) (l_acc l) (l_rep l) (l_ev l), input + Z.of_nat (length p)).
Proof.
  induction p as [|b p IH]; intros l input Hr Hh Hc Hm.
  - cbn. destruct l. cbn. rewrite !Z.add_0_r. reflexivity.
  - cbn [na_loop]. destruct (Z.leb_spec (l_count l) max); [|lia]. inversion Hh as [|? ? Hb Hq]; subst.
    assert (Hctl : is_control b || negb (is_complex b) || ((d_exp (l_utf8 l) =? 0)%N && is_c1_control b) = false).
    { rewrite hi_not_complex by lia. unfold is_control. destruct (N.ltb_spec b 0x20); [lia|]. destruct (N.ltb_spec b 0x80); [lia|]. cbn [orb].
      destruct (N.eqb_spec (d_exp (l_utf8 l)) 0) as [E|E]; [|reflexivity]. cbn [andb]. specialize (Hc E ltac:(discriminate)). cbn [hd] in Hc. unfold c1 in Hc.
      unfold is_c1_control. destruct (N.leb_spec 0x80 b), (N.leb_spec b 0x9F); try reflexivity. exfalso. apply Hc. lia. }
    rewrite Hctl. cbn [from_utf8_run] in Hr |- *. destruct (from_utf8 (l_utf8 l) b) as [d r] eqn:EF.
    destruct (from_utf8_run d p) as [d2 rs] eqn:ER. cbn [fst snd] in *. inversion Hr as [|? ? Hx Hrs]; subst.
    rewrite (IH (LP _ _ _ _ _ _ _ _ _ _ _)); cbn [l_count l_bytes l_here l_cstart l_rend l_utf8 l_hint l_g l_acc l_rep l_ev].
    + rewrite ER. cbn [fst length]. f_equal; [f_equal; lia|lia].
    + rewrite ER. exact Hrs.
    + exact Hq.
    + intros K. exfalso. apply (from_utf8_pending _ _ _ EF K).
    + exact Hm.
Qed.

Lemma app_inj_len {A} (a b c d : list A) : length a = length c -> a ++ b = c ++ d -> a = c /\ b = d.
Proof.
  revert c. induction a as [|x a IH]; intros [|y c] L E; try discriminate; [auto|]. cbn [app length] in *.
  injection E as -> E. injection L as L. destruct (IH c L E) as [-> ->]. auto.
Qed.
(** [p], non-empty, begins the character [c]; [q], non-empty, ends it *)
Definition split_char (c : N) (p q : list N) : Prop := scalar c /\ (0x80 <= c)%N /\ utf8 c = p ++ q /\ p <> [] /\ q <> [].
Lemma split_results c p q d : split_char c p q -> d_exp d = 0%N ->
  exists d', Forall (eq Incomplete) (snd (from_utf8_run d p)) /\
    from_utf8_run (fst (from_utf8_run d p)) q = (d', repeat Incomplete (length q - 1) ++ [Success c]) /\ d_exp d' = 0%N /\
    d_exp (fst (from_utf8_run d p)) <> 0%N.
Proof.
  intros (Hs & Hc & E & Hp & Hq) Hd. destruct (from_utf8_run_char d c Hd Hs) as (d' & R & Hd' & _).
  rewrite E in R. rewrite from_utf8_run_app in R. injection R as R1 R2. unfold char_results in R2. rewrite E in R2.
  assert (Lq : (0 < length q)%nat) by (destruct q; [congruence|cbn; lia]).
  pose proof (run_length d p) as LR.
  rewrite app_length in R2. replace (length p + length q - 1)%nat with (length p + (length q - 1))%nat in R2 by lia.
  rewrite repeat_app, <- app_assoc in R2.
  assert (R3 : snd (from_utf8_run d p) = repeat Incomplete (length p) /\
          snd (from_utf8_run (fst (from_utf8_run d p)) q) = repeat Incomplete (length q - 1) ++ [Success c]).
  { apply app_inj_len; [rewrite repeat_length; exact LR|exact R2]. }
  destruct R3 as [R3 R4]. exists d'. split.
  - rewrite R3. apply Forall_forall. intros x Hx. symmetry. exact (repeat_spec _ _ _ Hx).
  - split; [|split; [exact Hd'|]].
    + rewrite <- R4, <- R1. apply surjective_pairing.
    + destruct (exists_last Hp) as (p' & b & ->). rewrite run_snoc in R3 |- *. cbn [fst snd] in *.
      rewrite app_length in R3. cbn [length] in R3. rewrite Nat.add_1_r in R3. cbn [repeat] in R3; rewrite repeat_cons in R3.
      destruct (from_utf8 (fst (from_utf8_run d p')) b) as [d1 r1] eqn:EF. cbn [fst snd] in *.
      apply app_inj_tail in R3. destruct R3 as [_ R3]. subst r1. exact (from_utf8_pending _ _ _ EF).
Qed.

Lemma nonascii_p u st start cs c p q max ev : d_exp (s_utf8 st) = 0%N -> 0 <= max ->
  scalars cs -> Forall (fun c => (0x80 <= c)%N) cs -> split_char c p q -> fits u max 0 (mst st) cs ->
  exists st' ev' d, nonascii u st start (utf8_text cs ++ p) max ev = ((fst (mrun u (mst st) cs), start, start + bl cs), st', ev') /\
    s_next st' = Some (start + bl cs + Z.of_nat (length p)) /\ d_exp d = 0%N /\ s_utf8 st' = fst (from_utf8_run d p) /\
    mst st' = clear_here (snd (mrun u (mst st) cs)).
Proof.
  intros Hd Hm Hs Hc Hp Hf. unfold nonascii. rewrite Hd. change (0 =? 0)%N with true. cbv iota.
  set (l0 := LP _ _ _ _ _ _ _ _ _ _ _).
  destruct (na_run_m u max p cs start l0) as (l' & E & I1 & I2 & I3 & I4 & I5 & I6); auto.
  rewrite E. change (l_count l0) with 0 in I2. change (mof l0) with (mst st) in *. rewrite Z.add_0_l in I2.
  destruct (split_results c p q (l_utf8 l') Hp I3) as (d' & S1 & S2 & S3 & S4).
  destruct Hp as (P1 & P2 & P3 & P4 & P5). destruct (utf8_high c P1 P2) as [H1 H2]. rewrite P3 in H1, H2. apply Forall_app in H1.
  rewrite na_pend; [|exact S1|apply H1| |exact I6].
  2:{ intros _ _ K. apply H2. destruct p; [congruence|exact K]. }
  cbn [flush l_count l_rend l_utf8 l_hint l_g l_acc l_rep]. rewrite I2, I4.
  do 2 eexists. exists (l_utf8 l'). split; [reflexivity|]. cbn [s_next s_utf8]. split; [reflexivity|]. split; [exact I3|]. split; [reflexivity|].
  rewrite <- I1. reflexivity.
Qed.

(** the first buffer ends inside the character [c] *)
Lemma scan_loop_p u uchar i max c p q : split_char c p q -> forall fuel pre ts st cx r ev,
  scalars ts -> Forall text_cp ts -> (length (utf8_text ts ++ p) < fuel)%nat ->
  d_exp (s_utf8 st) = 0%N -> s_next st = Some (Z.of_nat (length pre)) -> r_end r = Z.of_nat (length pre) ->
  cx = head_hi (ts ++ [c]) -> r_count r < max -> fits u max (r_count r) (mst st) ts ->
  exists r' st' ev' d, scan_loop u uchar i fuel (pre ++ utf8_text ts ++ p) max st cx (Z.of_nat (length pre)) r ev = Ok (r', st', ev') /\
    r_count r' = r_count r + fst (mrun u (mst st) ts) /\ r_start r' = r_start r /\ r_end r' = Z.of_nat (length (pre ++ utf8_text ts)) /\
    s_next st' = Some (Z.of_nat (length (pre ++ utf8_text ts ++ p))) /\ d_exp d = 0%N /\ s_utf8 st' = fst (from_utf8_run d p) /\
    mst st' = clear_here (snd (mrun u (mst st) ts)).
Proof.
  intros HP. pose proof HP as (P1 & P2 & P3 & P4 & P5). destruct (utf8_high c P1 P2) as [H1 H2]. rewrite P3 in H1, H2. apply Forall_app in H1. destruct H1 as [H1 _].
  assert (Hpl : (0 < length p)%nat) by (destruct p; [congruence|cbn; lia]).
  induction fuel as [|fuel IH]; intros pre ts st cx r ev Hs Ht Hf Hd Hn He Hcx Hc Hfit; [lia|].
  cbn [scan_loop]. rewrite Hn. destruct (Z.ltb_spec (r_count r) max); [|lia]. cbn [andb].
  destruct (Z.eqb_spec (Z.of_nat (length pre)) (Z.of_nat (length (pre ++ utf8_text ts ++ p)))) as [E|E]; [rewrite !app_length in E; lia|]. cbn [negb].
  rewrite Nat2Z.id, skipn_app, skipn_all, Nat.sub_diag. cbn [skipn app].
  destruct cx.
  - pose proof (hi_run_spec ts) as HR. destruct (hi_run ts) as [cs tl] eqn:Eh. destruct HR as (E2 & Hhi & Htl).
    rewrite E2 in Hs, Ht, Hfit. apply Forall_app in Hs, Ht. destruct Hs as [Hs1 Hs2]. destruct Ht as [Ht1 Ht2].
    apply fits_app in Hfit. destruct Hfit as [Hfit1 Hfit2].
    assert (Hlast : r_count r + fst (mrun u (mst st) cs) < max).
    { destruct cs as [|x cs]; [cbn; lia|]. apply fits_last; [discriminate|exact Hfit1]. }
    assert (Hfit1' : fits u (max - r_count r) 0 (mst st) cs) by (apply (fits_shift u max (r_count r)) in Hfit1; rewrite Z.sub_diag in Hfit1; exact Hfit1).
    assert (Etx : utf8_text ts = utf8_text cs ++ utf8_text tl) by (rewrite E2; apply utf8_text_app).
    rewrite Etx, <- (app_assoc (utf8_text cs)).
    destruct Htl as [->|(b & q0 & -> & Hb)].
    + cbn [utf8_text flat_map app]. destruct (nonascii_p u st (Z.of_nat (length pre)) cs c p q (max - r_count r) ev) as (st' & ev' & d & EN & N1 & N2 & N3 & N4); auto; [lia|].
      rewrite EN. replace (Z.of_nat (length pre) + bl cs - Z.of_nat (length pre)) with (bl cs) by lia.
      rewrite E2, mrun_app. cbn [mrun fst snd]. rewrite Z.add_0_r, app_nil_r.
      assert (EB : Z.of_nat (length pre) + bl cs = Z.of_nat (length (pre ++ utf8_text cs))) by (rewrite app_length; unfold bl; lia).
      assert (EB2 : Z.of_nat (length pre) + bl cs + Z.of_nat (length p) = Z.of_nat (length (pre ++ utf8_text cs ++ p))) by (rewrite !app_length; unfold bl; lia).
      rewrite EB2 in N1.
      destruct (Z.eqb_spec (bl cs) 0) as [E0|E0].
      * do 3 eexists. exists d. split; [reflexivity|]. cbn [r_count r_start r_end]. rewrite EB. auto 10.
      * do 3 eexists. exists d. split.
        { destruct fuel; cbn [scan_loop]; rewrite N1, Z.eqb_refl; cbn [negb r_count]; rewrite andb_false_r; reflexivity. }
        cbn [r_count r_start r_end]. rewrite EB. auto 10.
    + assert (Hcs : cs <> []).
      { intros ->. cbn [app] in E2. rewrite E2 in Hcx. cbn [app head_hi] in Hcx. destruct (N.leb_spec 0x80 b); [lia|discriminate]. }
      destruct (nonascii_m u st (Z.of_nat (length pre)) cs (utf8_text (b :: q0) ++ p) (max - r_count r) ev Hd ltac:(lia) Hs1 Hhi) as (st' & ev' & EN & N1 & N2 & N3).
      { right. exists b, (utf8_text q0 ++ p). rewrite utf8_text_head_ascii by exact Hb. auto. }
      { exact Hfit1'. }
      rewrite EN.
      replace (Z.of_nat (length pre) + bl cs - Z.of_nat (length pre)) with (bl cs) by lia.
      pose proof (bl_pos cs Hcs) as Pcs. destruct (Z.eqb_spec (bl cs) 0); [lia|].
      replace (Z.of_nat (length pre) + bl cs) with (Z.of_nat (length (pre ++ utf8_text cs))) in * by (rewrite app_length; unfold bl; lia).
      rewrite E2, mrun_app.
      set (m1 := snd (mrun u (mst st) cs)) in *. set (d1 := fst (mrun u (mst st) cs)) in *.
      rewrite !(app_assoc pre).
      destruct (IH (pre ++ utf8_text cs) (b :: q0) st' false (SR (r_count r + d1) (r_start r) (Z.of_nat (length (pre ++ utf8_text cs)))) ev')
        as (r' & st2 & ev2 & d & E' & R1 & R2 & R3 & R4 & R5 & R6 & R7); cbn [r_start r_end r_count] in *; auto.
      * rewrite E2, utf8_text_app, !app_length in Hf. rewrite app_length. unfold bl in Pcs. lia.
      * cbn [app head_hi]. destruct (N.leb_spec 0x80 b); [lia|reflexivity].
      * apply (fits_ascii_head u max _ m1 (mst st') b q0 Hb). exact Hfit2.
      * exists r', st2, ev2, d. split; [exact E'|]. rewrite (mrun_ascii_head u m1 (mst st') b q0 Hb). cbn [fst snd]. split; [rewrite R1; lia|]. auto 10.
  - destruct ts as [|c0' ts0].
    { cbn [app head_hi] in Hcx. destruct (N.leb_spec 0x80 c); [discriminate|lia]. }
    set (ts := c0' :: ts0) in *.
    pose proof (lo_run_spec ts) as HR. destruct (lo_run ts) as [cs tl] eqn:Eh. destruct HR as (E2 & Hlo & Htl).
    assert (Hcs : cs <> []).
    { intros ->. cbn [app] in E2. destruct Htl as [->|(b & q0 & -> & Hb)]; [discriminate|]. unfold ts in E2, Hcx. injection E2 as -> _. cbn [app head_hi] in Hcx.
      destruct (N.leb_spec 0x80 b); [discriminate|lia]. }
    assert (Hbp : Forall byte p) by (eapply Forall_impl; [|exact H1]; intros x Hx; unfold byte; cbn in Hx; lia).
    assert (Hb : Forall byte (utf8_text ts ++ p)) by (apply Forall_app; split; [apply utf8_text_bytes; exact Hs|exact Hbp]).
    rewrite E2 in Hs, Ht, Hfit. apply Forall_app in Hs, Ht. destruct Hs as [Hs1 Hs2]. destruct Ht as [Ht1 Ht2].
    apply fits_app in Hfit. destruct Hfit as [Hfit1 Hfit2].
    pose proof (fits_ascii u max cs _ _ Hlo Hcs Hfit1) as Hlen.
    destruct (scan_for_text_ascii_spec uchar i (utf8_text ts ++ p) (Z.to_nat (max - r_count r)) Hb) as (n & E' & EP).
    assert (Etx : utf8_text ts = cs ++ utf8_text tl) by (rewrite E2, utf8_text_app, (utf8_text_ascii cs Hlo); reflexivity).
    assert (Etext : utf8_text ts ++ p = cs ++ utf8_text tl ++ p) by (rewrite Etx, app_assoc; reflexivity).
    assert (EP2 : exact_prefix (utf8_text ts ++ p) (Z.to_nat (max - r_count r)) (length cs)).
    { rewrite Etext. unfold exact_prefix. rewrite app_length. split; [lia|].
      rewrite firstn_app, firstn_all, Nat.sub_diag, app_nil_r. split.
      - rewrite Forall_forall in *. intros x Hx. split; [apply Ht1, Hx|apply Hlo, Hx].
      - right. destruct Htl as [->|(b & q0 & -> & Hbb)].
        + destruct p as [|y p']; [congruence|]. exists y. cbn [utf8_text flat_map app length]. split.
          * rewrite nth_error_app2, Nat.sub_diag by lia. reflexivity.
          * inversion H1; subst. unfold printable. lia.
        + destruct (utf8 b) as [|y ys] eqn:Eu; [destruct (utf8_nonempty b Eu)|]. exists y. split.
          * rewrite nth_error_app2, Nat.sub_diag by lia. cbn [utf8_text flat_map]. rewrite Eu. reflexivity.
          * inversion Hs2 as [|? ? Hsb _]; subst. destruct (utf8_high b Hsb Hbb) as [Hh _]. rewrite Eu in Hh. inversion Hh; subst. unfold printable. lia. }
    assert (n = length cs) by (eapply exact_prefix_unique; eassumption). subst n.
    rewrite E'. cbn [bindR]. destruct cs as [|c1 cs1]; [congruence|]. cbn [length].
    assert (Hl : nth (length cs1) (utf8_text ts ++ p) 0%N = last (c1 :: cs1) 0%N).
    { rewrite Etext, app_nth1 by (cbn; lia). apply nth_last_eq. }
    rewrite Hl. rewrite Etx, <- (app_assoc (c1 :: cs1)), !(app_assoc pre).
    replace (Z.of_nat (length pre) + Z.of_nat (S (length cs1))) with (Z.of_nat (length (pre ++ c1 :: cs1))) by (rewrite app_length; cbn [length]; lia).
    rewrite E2, mrun_app. rewrite (mrun_ascii u cs1 c1 (mst st) Hlo) in Hfit2 |- *. cbn [fst snd] in Hfit2 |- *.
    set (x := last (c1 :: cs1) 0%N) in *. cbv zeta in *.
    match goal with |- context [scan_loop u uchar i fuel _ max ?s ?cx0 ?o ?rr ?ee] =>
      destruct (IH (pre ++ c1 :: cs1) tl s cx0 rr ee) as (r' & st2 & ev2 & d & E3 & R1 & R2 & R3 & R4 & R5 & R6 & R7) end;
      cbn [r_start r_end r_count s_utf8 s_next s_hint s_g s_acc s_rep mst] in *; auto.
    + rewrite Etx, !app_length in Hf. cbn [length] in Hf. rewrite app_length. lia.
    + rewrite app_length. cbn [length]. lia.
    + destruct Htl as [->|(b & q0 & -> & Hbb)]; cbn [app head_hi]; symmetry; apply N.leb_le; assumption.
    + exists r', st2, ev2, d. split; [exact E3|]. split; [rewrite R1, <- Z.add_assoc; reflexivity|]. auto 10.
Qed.
Lemma scan_text_p u uchar i st t c p q max : split_char c p q -> scalars t -> Forall text_cp t ->
  d_exp (s_utf8 st) = 0%N -> (s_next st = None \/ s_next st = Some 0) -> 0 < max -> fits u max 0 (mst st) t ->
  exists r' st' ev' d, scan_text u uchar i st (utf8_text t ++ p) max = Ok (r', st', ev') /\
    r_count r' = fst (mrun u (mst st) t) /\ r_start r' = 0 /\ r_end r' = bl t /\ s_next st' = Some (bl t + Z.of_nat (length p)) /\
    d_exp d = 0%N /\ s_utf8 st' = fst (from_utf8_run d p) /\ mst st' = clear_here (snd (mrun u (mst st) t)).
Proof.
  intros HP Hs Ht Hd Hn Hm Hf. unfold scan_text. cbn [s_utf8]. rewrite Hd. change (0 =? 0)%N with true. cbv iota. cbn [r_end].
  pose proof HP as (P1 & P2 & P3 & P4 & P5).
  assert (Hpl : (0 < length p)%nat) by (destruct p; [congruence|cbn; lia]).
  replace (match s_next st with Some z => Some z | None => Some 0 end) with (Some 0) by (destruct Hn as [-> | ->]; reflexivity).
  destruct (Z.eqb_spec 0 (Z.of_nat (length (utf8_text t ++ p)))) as [E|E]; [rewrite app_length in E; lia|].
  replace ((0 <? 0) || (Z.of_nat (length (utf8_text t ++ p)) <? 0)) with false by (symmetry; apply orb_false_iff; split; [reflexivity|apply Z.ltb_ge; lia]).
  change (Z.to_nat 0) with O.
  match goal with |- context [scan_loop u uchar i _ _ max ?s ?cx0 0 ?rr ?ee] =>
      destruct (scan_loop_p u uchar i max c p q HP (S (length (utf8_text t ++ p))) [] t s cx0 rr ee) as (r' & st2 & ev2 & d & E3 & R1 & R2 & R3 & R4 & R5 & R6 & R7) end;
      cbn [r_start r_end r_count s_utf8 s_next s_hint s_g s_acc s_rep mst length] in *; auto.
  - destruct t as [|c' t].
    + cbn [utf8_text flat_map app head_hi]. destruct (utf8_high c P1 P2) as [H1 _]. rewrite P3 in H1. destruct p as [|y p]; [congruence|].
      cbn [app] in H1. inversion H1; subst. cbn [nth]. rewrite complex_iff by lia. transitivity true; [apply N.leb_le; lia|symmetry; apply N.leb_le; lia].
    + rewrite complex_head; [reflexivity|exact Hs|discriminate].
  - cbn [app] in *. change (Z.of_nat 0) with 0 in E3. do 3 eexists. exists d. split; [exact E3|]. unfold bl. rewrite app_length, Nat2Z.inj_add in R4. auto 10.
Qed.

(** ** The next buffer completes the character *)
Lemma scan_text_resume u uchar i st d t c p q max : split_char c p q -> d_exp d = 0%N -> s_utf8 st = fst (from_utf8_run d p) ->
  scalars t -> Forall text_cp t -> 0 < max -> fits u max 0 (mst st) (c :: t) ->
  exists r' st' ev', scan_text u uchar i st (q ++ utf8_text t) max = Ok (r', st', ev') /\
    r_count r' = fst (mrun u (mst st) (c :: t)) /\ r_end r' = Z.of_nat (length (q ++ utf8_text t)) /\
    s_next st' = Some (Z.of_nat (length (q ++ utf8_text t))) /\
    d_exp (s_utf8 st') = 0%N /\ mst st' = clear_here (snd (mrun u (mst st) (c :: t))).
Proof.
  intros HP Hd Hu Hs Ht Hm Hf. destruct (split_results c p q d HP Hd) as (d' & S1 & S2 & S3 & S4).
  pose proof HP as (P1 & P2 & P3 & P4 & P5). destruct (utf8_high c P1 P2) as [H1 _]. rewrite P3 in H1. apply Forall_app in H1. destruct H1 as [_ H1].
  unfold scan_text. cbn [s_utf8]. rewrite Hu. destruct (N.eqb_spec (d_exp (fst (from_utf8_run d p))) 0) as [E0|_]; [congruence|].
  pose proof (hi_run_spec t) as HR. destruct (hi_run t) as [cs tl]. destruct HR as (E2 & Hhi & Htl). subst t.
  apply Forall_app in Hs, Ht. destruct Hs as [Hs1 Hs2]. destruct Ht as [Ht1 Ht2].
  change (c :: cs ++ tl) with ((c :: cs) ++ tl) in *. apply fits_app in Hf. destruct Hf as [Hf1 Hf2].
  set (nx := match s_next st with None => Some 0 | n => n end). set (st0 := SS _ _ _ _ _ nx).
  assert (EN : exists st' ev', nonascii u st0 0 (q ++ utf8_text (cs ++ tl)) max [] =
     ((fst (mrun u (mst st) (c :: cs)), 0 - Z.of_N (d_cur (fst (from_utf8_run d p))), Z.of_nat (length (q ++ utf8_text cs))), st', ev') /\
     s_next st' = Some (Z.of_nat (length (q ++ utf8_text cs))) /\ d_exp (s_utf8 st') = 0%N /\
     (tl = [] -> mst st' = clear_here (snd (mrun u (mst st) (c :: cs))))).
  { unfold nonascii. cbn [st0 s_utf8 s_hint s_g s_acc s_rep]. destruct (N.eqb_spec (d_exp (fst (from_utf8_run d p))) 0) as [E0|_]; [congruence|].
    set (l0 := LP _ _ _ _ _ _ _ _ _ _ _).
    rewrite (na_tail u max c q l0 (utf8_text (cs ++ tl)) 0 d'); [|exact S2|exact P5|exact H1|intros K; cbn in K; congruence|cbn; lia].
    cbn [fits mrun] in Hf1 |- *. rewrite mstep_hi in Hf1 |- * by exact P2.
    match goal with |- context [on_codepoint u max c ?pp ?x] => pose proof (on_codepoint_m u max c pp x) as O end.
    unfold mof in O at 1. cbn [l0 l_count l_bytes l_here l_cstart l_rend l_utf8 l_hint l_g l_acc l_rep l_ev] in O. fold (mst st) in O.
    destruct (mhi u c (mst st)) as [dd m']. destruct Hf1 as [Hf1 Hf1'].
    destruct (O ltac:(lia)) as (l' & E & M1 & M2 & M3 & M4 & M5). 
    cbn [l0 l_count l_bytes l_here l_cstart l_rend l_utf8 l_hint l_g l_acc l_rep l_ev]. rewrite E.
    rewrite utf8_text_app.
    destruct (na_run_m u max (utf8_text tl) cs (0 + Z.of_nat (length q)) l') as (l2 & E3 & I1 & I2 & I3 & I4 & I5 & I6); auto.
    + rewrite M3. exact S3.
    + lia.
    + rewrite M1, M2. exact Hf1'.
    + rewrite E3. rewrite M1 in I1, I2. destruct (mrun u m' cs) as [d2 m2]. cbn [fst snd] in *. rewrite M2, Z.add_0_l in I2.
      assert (EL : 0 + Z.of_nat (length q) + bl cs = Z.of_nat (length (q ++ utf8_text cs))) by (rewrite app_length; unfold bl; lia).
      rewrite EL in *.
      destruct Htl as [->|(b & q0 & -> & Hb)].
      * cbn [utf8_text flat_map na_loop flush l_count l_rend l_utf8 l_hint l_g l_acc l_rep]. rewrite I2, I4.
        do 2 eexists. split; [reflexivity|]. cbn [s_next s_utf8]. split; [reflexivity|]. split; [exact I3|]. intros _. rewrite <- I1. reflexivity.
      * rewrite utf8_text_head_ascii by exact Hb. cbn [na_loop]. destruct (Z.leb_spec (l_count l2) max); [|lia].
        replace (is_control b || negb (is_complex b) || _) with true.
        2:{ symmetry. rewrite hi_not_complex by lia. destruct (N.ltb_spec b 0x80); [|lia]. rewrite orb_true_r. reflexivity. }
        unfold stop_at_control. cbn [flush l_count l_rend l_utf8 l_hint l_g l_acc l_rep]. rewrite I3. change (0 =? 0)%N with true. cbn [negb].
        rewrite I2. do 2 eexists. split; [reflexivity|]. cbn [s_next s_utf8]. split; [reflexivity|]. split; [exact I3|]. discriminate. }
  destruct EN as (st' & ev' & EN & N1 & N2 & N3). rewrite EN. cbn [r_end].
  rewrite mrun_app. cbn [fst snd]. rewrite utf8_text_app, (app_assoc q).
  set (pre := q ++ utf8_text cs) in *. pose proof (fits_last u max (c :: cs) 0 (mst st) ltac:(discriminate) Hf1) as Hlast.
  destruct Htl as [->|(b & q0 & -> & Hb)].
  - cbn [utf8_text flat_map]. rewrite app_nil_r, Z.eqb_refl. do 3 eexists. split; [reflexivity|]. cbn [r_count r_end mrun fst snd].
    split; [lia|]. split; [reflexivity|]. split; [exact N1|]. split; [exact N2|]. apply N3. reflexivity.
  - pose proof (bl_pos (b :: q0) ltac:(discriminate)) as Bp. unfold bl in Bp.
    destruct (Z.eqb_spec (Z.of_nat (length pre)) (Z.of_nat (length (pre ++ utf8_text (b :: q0))))) as [E|E]; [rewrite app_length in E; lia|].
    replace ((Z.of_nat (length pre) <? 0) || _) with false.
    2:{ symmetry. apply orb_false_iff. rewrite app_length. split; apply Z.ltb_ge; lia. }
    set (m1 := snd (mrun u (mst st) (c :: cs))) in *. set (d1 := fst (mrun u (mst st) (c :: cs))) in *.
    match goal with |- context [scan_loop u uchar i ?f _ max ?s ?cx0 ?o ?rr ?ee] =>
      destruct (scan_loop_m u uchar i max [] ltac:(left; reflexivity) ltac:(constructor) f pre (b :: q0) s cx0 rr ee) as (r' & st2 & ev2 & E3 & R1 & R2 & R3 & R4 & R5 & R6) end;
      cbn [r_start r_end r_count] in *; auto.
    + rewrite !app_length. cbn [length]. lia.
    + right. rewrite Nat2Z.id, app_nth2, Nat.sub_diag by lia. rewrite utf8_text_head_ascii by exact Hb. cbn [nth head_hi].
      rewrite complex_iff by lia. reflexivity.
    + apply (fits_ascii_head u max _ m1 (mst st') b q0 Hb). exact Hf2.
    + rewrite app_nil_r in E3. exists r', st2, ev2. split; [exact E3|]. rewrite (mrun_ascii_head u m1 (mst st') b q0 Hb).
      split; [exact R1|]. auto 10.
Qed.
