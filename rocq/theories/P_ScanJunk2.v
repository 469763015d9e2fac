(** scan_text on text with ill-formed sequences in it: the loop of scan_text. *)
From Verif Require Import Base Spec_Utf M_Utf8 M_Convert M_AsciiScan M_Ucd M_Grapheme M_Width M_Scan Spec_Scan Spec_ScanJunk Spec_Width P_Utf8 P_AsciiScan P_Scan P_Scan2 P_Scan3 P_Scan4 P_Scan5 P_Scan6 P_ScanJunk.
Open Scope Z_scope.

Definition byte_hi (l : list N) : bool := match l with [] => false | b :: _ => (0x80 <=? b)%N end.
Lemma flush_inv l e : invalids (l_ev (flush l e)) = invalids (l_ev l).
Proof. unfold flush. cbn [l_ev]. destruct (l_cstart l <? e); [|reflexivity]. rewrite invalids_app. cbn. lia. Qed.

Lemma nonascii_stream u st start max p ev t0 rest : ucd_width_ok u -> widths_le2 u -> unfinished p -> Forall (fun b => (0x80 <= b < 256)%N) p ->
  all_plain u t0 rest -> flaws rest -> d_exp (s_utf8 st) = 0%N -> minv (mst st) -> 2 * Z.of_nat (size t0 rest) < max ->
  exists c e st' ev', nonascii u st start (bytes_of t0 rest ++ p) max ev = ((c, start, e), st', ev') /\
    ((s_next st' = Some (start + Z.of_nat (length (bytes_of t0 rest ++ p))) /\ c = tot u (mst st) t0 rest /\
      invalids ev' = (invalids ev + length rest)%nat /\
      (last_text t0 rest <> [] \/ rest = [] -> e = start + Z.of_nat (length (bytes_of t0 rest)))) \/
     (exists b tl rest' skipped, (b < 0x80)%N /\ bytes_of t0 rest ++ p = skipped ++ bytes_of (b :: tl) rest' ++ p /\ all_plain u (b :: tl) rest' /\ flaws rest' /\
      s_next st' = Some (start + Z.of_nat (length skipped)) /\ e = start + Z.of_nat (length skipped) /\ d_exp (s_utf8 st') = 0%N /\ mst st' = m0 u /\
      c + tot u (m0 u) (b :: tl) rest' = tot u (mst st) t0 rest /\ c + 2 * Z.of_nat (size (b :: tl) rest') <= 2 * Z.of_nat (size t0 rest) /\
      (invalids ev' + length rest' = invalids ev + length rest)%nat /\
      (last_text t0 rest <> [] -> last_text (b :: tl) rest' <> []) /\ (rest = [] -> rest' = []) /\ (skipped = [] -> exists q, t0 = b :: q))).
Proof.
  intros OK HW Hp Hpb Hpl Hfl Hd Hmi Hbound. unfold nonascii. rewrite Hd. change (0 =? 0)%N with true. cbv iota.
  set (l0 := LP _ _ _ _ _ _ _ _ _ _ _).
  destruct (na_stream u max p OK HW Hp Hpb rest t0 start l0 Hpl Hfl Hd eq_refl Hmi) as (l' & inp & E & C); [cbn [l0 l_count]; lia|].
  rewrite E. change (l_count l0) with 0 in C. change (mof l0) with (mst st) in C. change (l_ev l0) with ev in C. change (l_rend l0) with start in C.
  do 4 eexists. split; [reflexivity|]. rewrite flush_inv. cbn [s_next s_utf8].
  destruct C as [(C1 & C2 & C3 & C4 & C5)|(b & tl & rest' & sk & C1 & C2 & C3 & C4 & C5 & C6 & C7 & C8 & C9 & C10 & C11 & C12 & C13 & C14 & C15 & C16 & C17)].
  - left. split; [now rewrite C1|]. split; [exact C2|]. split; [exact C3|]. cbn [flush l_rend]. intros [H|H]; [exact (C4 H)|].
    destruct t0 as [|c t0]; [|apply C4; subst rest; unfold last_text; cbn; discriminate]. subst rest. rewrite (C5 eq_refl eq_refl). cbn. lia.
  - right. exists b, tl, rest', sk. cbn [flush l_count l_rend l_utf8 l_hint l_g l_acc l_rep]. split; [exact C1|]. split; [exact C2|]. split; [exact C3|]. split; [exact C4|].
    split; [now rewrite C5|]. split; [now rewrite C6|]. split; [exact C7|]. split; [unfold mst, m0; cbn [s_hint s_g s_acc s_rep]; now rewrite C8, C9, C10, C11|].
    split; [exact C12|]. split; [lia|]. split; [exact C14|]. split; [exact C16|]. split; [|exact C17].
    intros ->. cbn [length] in C14. destruct rest' as [|x r']; [reflexivity|]. exfalso.
    (* number of invalid reports: none can have been made *)
    cbn [size tot bytes_of] in *. assert (invalids ev <= invalids (l_ev l'))%nat; [|cbn [length] in *; lia].
    clear -E. assert (M : forall rest l i, (invalids (l_ev l) <= invalids (l_ev (fst (na_loop u max rest i l))))%nat).
    { induction rest as [|b rest IH]; intros l i; cbn [na_loop fst]; [lia|]. destruct (l_count l <=? max); [|cbn [fst]; lia].
      destruct (is_control b || _ || _).
      - cbn [fst]. unfold stop_at_control. cbn [l_ev]. destruct (negb _); rewrite ?invalids_app; rewrite flush_inv; lia.
      - destruct (from_utf8 (l_utf8 l) b) as [d r]. destruct r.
        + eapply Nat.le_trans; [|apply IH]. unfold on_invalid. cbn [l_ev]. rewrite invalids_app, flush_inv. cbn [l_ev]. lia.
        + eapply Nat.le_trans; [|apply IH]. cbn [l_ev]. lia.
        + match goal with |- context [on_codepoint u max ?c ?p ?x] => pose proof (on_codepoint_inv u max c p x) as OI; destruct (on_codepoint u max c p x) as [l2 [o|]] end; cbn [fst l_ev] in *.
          * lia.
          * eapply Nat.le_trans; [|apply IH]. lia. }
    specialize (M ((utf8_text t0 ++ []) ++ p) l0 start). rewrite E in M. exact M.
Qed.
Lemma bytes_of_bytes u rest : forall t0, all_plain u t0 rest -> flaws rest -> Forall byte (bytes_of t0 rest).
Proof.
  induction rest as [|[j t] rest IH]; intros t0 Hpl Hfl; pose proof (Forall_inv Hpl) as (Hs & _ & _); cbn [bytes_of]; apply Forall_app; (split; [apply utf8_text_bytes; exact Hs|]).
  - constructor.
  - destruct Hfl as [Hj Hfl]. apply Forall_app. split; [|apply IH; [exact (Forall_inv_tail Hpl)|exact Hfl]].
    assert (Forall (fun b => (0x80 <= b < 256)%N) j) as Hb by (destruct Hj as [(_ & H & _)|((_ & H & _) & _)]; exact H).
    eapply Forall_impl; [|exact Hb]. unfold byte. intros; lia.
Qed.
Lemma junk_head j : (ill_formed j \/ cut_short j) -> exists b j', j = b :: j' /\ (0x80 <= b < 256)%N.
Proof.
  intros H. destruct j as [|b j'].
  - exfalso. destruct H as [((n & H) & _)|(_ & _ & H)]; [destruct n; discriminate|congruence].
  - exists b, j'. split; [reflexivity|]. destruct H as [(_ & H & _)|(_ & H & _)]; exact (Forall_inv H).
Qed.
(** what stands behind the leading 7-bit characters of a text *)
Lemma behind_ascii u p tl rest : Forall (fun b => (0x80 <= b < 256)%N) p -> all_plain u tl rest -> flaws rest -> (tl = [] \/ exists c r, tl = c :: r /\ (0x80 <= c)%N) ->
  match rest with (j, t) :: _ => tl = [] -> True | [] => True end ->
  bytes_of tl rest ++ p = [] \/ exists y ys, bytes_of tl rest ++ p = y :: ys /\ (0x80 <= y < 256)%N.
Proof.
  intros Hp Hpl Hfl Htl _. destruct Htl as [->|(c & r & -> & Hc)].
  - destruct rest as [|[j t] rest]; cbn [bytes_of utf8_text flat_map app].
    + destruct p as [|y ys]; [left; reflexivity|right]. exists y, ys. split; [reflexivity|exact (Forall_inv Hp)].
    + destruct Hfl as [Hj _]. destruct (junk_head j) as (b & j' & -> & Hb); [tauto|]. right. cbn [app]. eauto.
  - right. pose proof (Forall_inv Hpl) as (Hs & _ & _). pose proof (Forall_inv Hs) as Hsc. destruct (utf8_high c Hsc Hc) as [Hh _]. pose proof (utf8_text_bytes [c] (Forall_cons _ Hsc (Forall_nil _))) as Hb.
    cbn [utf8_text flat_map] in Hb. rewrite app_nil_r in Hb.
    destruct (utf8 c) as [|y ys] eqn:Eu; [destruct (utf8_nonempty c Eu)|]. exists y. 
    destruct rest as [|[j t] rest]; cbn [bytes_of utf8_text flat_map]; rewrite Eu; cbn [app]; eexists; (split; [reflexivity|]); pose proof (Forall_inv Hh); pose proof (Forall_inv Hb); unfold byte in *; lia.
Qed.
Lemma bytes_of_app a b rest : bytes_of (a ++ b) rest = utf8_text a ++ bytes_of b rest.
Proof. destruct rest as [|[j t] rest]; cbn [bytes_of]; rewrite utf8_text_app, <- app_assoc; reflexivity. Qed.
Lemma tot_app u m a b rest : tot u m (a ++ b) rest = fst (mrun u m a) + tot u (snd (mrun u m a)) b rest.
Proof. destruct rest as [|[j t] rest]; cbn [tot]; rewrite mrun_app; cbn [fst]; lia. Qed.
Lemma size_app a b rest : size (a ++ b) rest = (length a + size b rest)%nat.
Proof. destruct rest as [|[j t] rest]; cbn [size]; rewrite app_length; lia. Qed.
Lemma tot_nil_like u m m' b q rest : (b < 0x80)%N -> tot u m (b :: q) rest = tot u m' (b :: q) rest.
Proof. intros H. destruct rest as [|[j t] rest]; cbn [tot]; rewrite (mrun_ascii_head u m m' b q H); reflexivity. Qed.
Lemma last_text_app a b rest : last_text (a ++ b) rest <> [] -> rest = [] \/ last_text b rest <> [].
Proof. unfold last_text. destruct rest as [|x rest]; [auto|]. right. cbn [map last] in *. intros K. apply H. revert K. clear. generalize (snd x). induction (map snd rest) as [|y ys IH]; intros z K; [exact K|]. cbn [last] in *. apply (IH y K). Qed.

Lemma scan_loop_stream u uchar i max p : ucd_width_ok u -> widths_le2 u -> unfinished p -> Forall (fun b => (0x80 <= b < 256)%N) p ->
  forall fuel pre t0 rest st cx r ev, all_plain u t0 rest -> flaws rest -> (length (bytes_of t0 rest ++ p) < fuel)%nat ->
  d_exp (s_utf8 st) = 0%N -> minv (mst st) -> s_next st = Some (Z.of_nat (length pre)) -> r_end r = Z.of_nat (length pre) ->
  (bytes_of t0 rest ++ p = [] \/ cx = byte_hi (bytes_of t0 rest ++ p)) -> r_count r + 2 * Z.of_nat (size t0 rest) < max ->
  exists r' st' ev', scan_loop u uchar i fuel (pre ++ bytes_of t0 rest ++ p) max st cx (Z.of_nat (length pre)) r ev = Ok (r', st', ev') /\
    r_count r' = r_count r + tot u (mst st) t0 rest /\ s_next st' = Some (Z.of_nat (length (pre ++ bytes_of t0 rest ++ p))) /\
    invalids ev' = (invalids ev + length rest)%nat /\
    (last_text t0 rest <> [] \/ rest = [] -> r_end r' = Z.of_nat (length (pre ++ bytes_of t0 rest))).
Proof.
  intros OK HW Hp Hpb. induction fuel as [|fuel IH]; intros pre t0 rest st cx r ev Hpl Hfl Hf Hd Hmi Hn He Hcx Hbound; [lia|].
  cbn [scan_loop]. rewrite Hn. destruct (Z.ltb_spec (r_count r) max); [|lia]. cbn [andb].
  destruct (bytes_of t0 rest ++ p) as [|y0 ys0] eqn:EB.
  { assert (t0 = [] /\ rest = [] /\ p = []) as (-> & -> & ->).
    { apply app_eq_nil in EB as [EB ->]. destruct rest as [|[j t] rest]; cbn [bytes_of] in EB.
      - rewrite app_nil_r in EB. split; [|auto]. destruct t0 as [|c t0]; [reflexivity|]. cbn [utf8_text flat_map] in EB. apply app_eq_nil in EB as [EB _]. destruct (utf8_nonempty c EB).
      - exfalso. apply app_eq_nil in EB as [_ EB]. apply app_eq_nil in EB as [EB _]. destruct Hfl as [Hj _]. destruct (junk_head j) as (b & j' & Ej & _); [tauto|]. congruence. }
    rewrite app_nil_r, Z.eqb_refl. cbn [negb]. do 3 eexists. split; [reflexivity|]. cbn [tot mrun fst length bytes_of utf8_text flat_map app]. rewrite !app_nil_r.
    split; [lia|]. split; [exact Hn|]. split; [lia|]. intros _. exact He. }
  rewrite <- EB in *. destruct Hcx as [Hcx|Hcx]; [congruence|].
  assert (Hne : (0 < length (bytes_of t0 rest ++ p))%nat) by (rewrite EB; cbn; lia).
  destruct (Z.eqb_spec (Z.of_nat (length pre)) (Z.of_nat (length (pre ++ bytes_of t0 rest ++ p)))) as [E|E]; [rewrite app_length in E; lia|]. cbn [negb].
  rewrite Nat2Z.id, skipn_app, skipn_all, Nat.sub_diag. cbn [skipn app].
  destruct cx.
  - destruct (nonascii_stream u st (Z.of_nat (length pre)) (max - r_count r) p ev t0 rest OK HW Hp Hpb Hpl Hfl Hd Hmi ltac:(lia)) as (c & e & st' & ev' & EN & C).
    rewrite EN. destruct C as [(C1 & C2 & C3 & C4)|(b & tl & rest' & sk & C1 & C2 & C3 & C4 & C5 & C6 & C7 & C8 & C9 & C10 & C11 & C12 & C13 & C14)].
    + assert (EE : s_next st' = Some (Z.of_nat (length (pre ++ bytes_of t0 rest ++ p)))) by (rewrite C1, (app_length pre); f_equal; lia).
      exists (SR (r_count r + c) (r_start r) e), st', ev'. split.
      * destruct (Z.eqb_spec (e - Z.of_nat (length pre)) 0); [reflexivity|]. destruct fuel; cbn [scan_loop]; rewrite EE, Z.eqb_refl; cbn [negb]; rewrite andb_false_r; reflexivity.
      * cbn [r_count r_end]. split; [lia|]. split; [exact EE|]. split; [exact C3|]. intros H0. rewrite (C4 H0), (app_length pre). lia.
    + assert (Hsk : sk <> []).
      { intros Z0. destruct (C14 Z0) as (q & ->). clear -C1 Hcx Hpl. pose proof (Forall_inv Hpl) as (Hs & _ & _).
        destruct rest as [|[j t] rest]; cbn [bytes_of] in Hcx; rewrite utf8_text_head_ascii in Hcx by exact C1; cbn [app byte_hi] in Hcx; destruct (N.leb_spec 0x80 b); lia || discriminate. }
      assert (Ls : (0 < length sk)%nat) by (destruct sk; [congruence|cbn; lia]).
      subst e. destruct (Z.eqb_spec (Z.of_nat (length pre) + Z.of_nat (length sk) - Z.of_nat (length pre)) 0) as [Q|Q]; [lia|].
      replace (Z.of_nat (length pre) + (Z.of_nat (length pre) + Z.of_nat (length sk) - Z.of_nat (length pre))) with (Z.of_nat (length (pre ++ sk))) by (rewrite app_length; lia).
      rewrite C2, (app_assoc pre sk).
      destruct (IH (pre ++ sk) (b :: tl) rest' st' false (SR (r_count r + c) (r_start r) (Z.of_nat (length pre) + Z.of_nat (length sk))) ev') as (r' & st2 & ev2 & E3 & R1 & R2 & R3 & R4);
        cbn [r_count r_end]; auto.
      * rewrite C2, app_length in Hf. lia.
      * rewrite C8. apply minv_m0.
      * rewrite C5, app_length. f_equal. lia.
      * rewrite app_length. lia.
      * right. destruct rest' as [|[j t] rest']; cbn [bytes_of]; rewrite utf8_text_head_ascii by exact C1; cbn [app byte_hi]; destruct (N.leb_spec 0x80 b); lia || reflexivity.
      * lia.
      * exists r', st2, ev2. split; [exact E3|]. rewrite C8 in R1. cbn [r_count] in R1. split; [lia|]. split; [exact R2|]. split; [lia|].
        intros H0. rewrite R4.
        -- assert (X : bytes_of t0 rest = sk ++ bytes_of (b :: tl) rest') by (rewrite app_assoc in C2; apply app_inv_tail in C2; exact C2). rewrite X, app_assoc. reflexivity.
        -- destruct H0 as [H0|H0]; [left; exact (C12 H0)|right; exact (C13 H0)].
  - pose proof (lo_run_spec t0) as HR. destruct (lo_run t0) as [cs tl] eqn:Eh. destruct HR as (E2 & Hlo & Htl).
    pose proof (Forall_inv Hpl) as (Hs & Htc & Hpr). pose proof (Forall_inv_tail Hpl) as Hpl'.
    rewrite E2 in Hs, Htc, Hpr. apply Forall_app in Hs, Htc, Hpr. destruct Hs as [Hs1 Hs2], Htc as [Htc1 Htc2], Hpr as [Hpr1 Hpr2].
    assert (Hpl2 : all_plain u tl rest) by (constructor; [auto|exact Hpl']).
    assert (EX : bytes_of t0 rest = cs ++ bytes_of tl rest) by (rewrite E2, bytes_of_app, (utf8_text_ascii cs Hlo); reflexivity).
    pose proof (behind_ascii u p tl rest Hpb Hpl2 Hfl Htl ltac:(destruct rest as [|[? ?] ?]; auto)) as HB.
    assert (Hcs : cs <> []).
    { intros ->. rewrite EX in Hcx, Hne. cbn [app] in Hcx, Hne. destruct HB as [HB|(y & ys & HB & Hy)]; [rewrite HB in Hne; cbn in Hne; lia|].
      rewrite HB in Hcx. cbn [byte_hi] in Hcx. destruct (N.leb_spec 0x80 y); [discriminate|lia]. }
    assert (Hb : Forall byte (bytes_of t0 rest ++ p)).
    { apply Forall_app. split; [apply (bytes_of_bytes u); assumption|]. eapply Forall_impl; [|exact Hpb]. unfold byte. intros; lia. }
    assert (Sz : size t0 rest = (length cs + size tl rest)%nat) by (rewrite E2; apply size_app).
    destruct (scan_for_text_ascii_spec uchar i (bytes_of t0 rest ++ p) (Z.to_nat (max - r_count r)) Hb) as (n & E' & EP).
    assert (EP2 : exact_prefix (bytes_of t0 rest ++ p) (Z.to_nat (max - r_count r)) (length cs)).
    { rewrite EX, <- app_assoc. unfold exact_prefix. rewrite app_length. split; [lia|].
      rewrite firstn_app, firstn_all, Nat.sub_diag, app_nil_r. split.
      - rewrite Forall_forall in *. intros x Hx. split; [apply Htc1, Hx|apply Hlo, Hx].
      - destruct HB as [HB|(y & ys & HB & Hy)]; rewrite HB.
        + left. cbn. lia.
        + right. exists y. split; [rewrite nth_error_app2, Nat.sub_diag by lia; reflexivity|]. unfold printable. lia. }
    assert (n = length cs) by (eapply exact_prefix_unique; eassumption). subst n.
    rewrite E'. cbn [bindR]. destruct cs as [|c1 cs1]; [congruence|]. cbn [length].
    assert (Hl : nth (length cs1) (bytes_of t0 rest ++ p) 0%N = last (c1 :: cs1) 0%N).
    { rewrite EX, <- app_assoc, app_nth1 by (cbn; lia). apply nth_last_eq. }
    rewrite Hl. rewrite EX, <- (app_assoc (c1 :: cs1)), !(app_assoc pre).
    replace (Z.of_nat (length pre) + Z.of_nat (S (length cs1))) with (Z.of_nat (length (pre ++ c1 :: cs1))) by (rewrite app_length; cbn [length]; lia).
    pose proof (minv_run u OK HW (c1 :: cs1) (mst st) Hpr1 Hmi) as Hmi2.
    rewrite E2, tot_app. rewrite (mrun_ascii u cs1 c1 (mst st) Hlo) in Hmi2 |- *. cbn [fst snd] in Hmi2 |- *.
    set (x := last (c1 :: cs1) 0%N) in *. cbv zeta in *. cbn [length] in Sz.
    match goal with |- context [scan_loop u uchar i fuel _ max ?s ?cx0 ?o ?rr ?ee] =>
      destruct (IH (pre ++ c1 :: cs1) tl rest s cx0 rr ee) as (r' & st2 & ev2 & E3 & R1 & R2 & R3 & R4) end;
      cbn [r_start r_end r_count s_utf8 s_next s_hint s_g s_acc s_rep mst] in *; auto.
    + rewrite EX, <- app_assoc, app_length in Hf. cbn [length] in Hf. lia.
    + rewrite app_length. cbn [length]. lia.
    + destruct HB as [HB|(y & ys & HB & Hy)]; [left; exact HB|right]. rewrite HB. cbn [byte_hi]. destruct (N.leb_spec 0x80 y); [reflexivity|lia].
    + lia.
    + exists r', st2, ev2. split; [exact E3|]. split; [rewrite R1, <- Z.add_assoc; reflexivity|]. split; [exact R2|].
      split; [rewrite R3, invalids_app; cbn; lia|]. intros H0. apply R4. destruct H0 as [H0|H0]; [|auto]. apply last_text_app in H0. tauto.
Qed.

Lemma scan_text_stream u uchar i st t0 rest p max : ucd_width_ok u -> widths_le2 u -> unfinished p -> Forall (fun b => (0x80 <= b < 256)%N) p ->
  all_plain u t0 rest -> flaws rest -> d_exp (s_utf8 st) = 0%N -> minv (mst st) -> (s_next st = None \/ s_next st = Some 0) ->
  2 * Z.of_nat (size t0 rest) < max ->
  exists r' st' ev', scan_text u uchar i st (bytes_of t0 rest ++ p) max = Ok (r', st', ev') /\
    r_count r' = tot u (mst st) t0 rest /\ s_next st' = Some (Z.of_nat (length (bytes_of t0 rest ++ p))) /\ invalids ev' = length rest /\
    (last_text t0 rest <> [] \/ rest = [] -> r_end r' = Z.of_nat (length (bytes_of t0 rest))).
Proof.
  intros OK HW Hp Hpb Hpl Hfl Hd Hmi Hn Hbound. unfold scan_text. cbn [s_utf8]. rewrite Hd. change (0 =? 0)%N with true. cbv iota. cbn [r_end].
  replace (match s_next st with Some z => Some z | None => Some 0 end) with (Some 0) by (destruct Hn as [-> | ->]; reflexivity).
  destruct (Z.eqb_spec 0 (Z.of_nat (length (bytes_of t0 rest ++ p)))) as [E|E].
  - assert (E0 : bytes_of t0 rest ++ p = []) by (destruct (bytes_of t0 rest ++ p); [reflexivity|cbn in E; lia]).
    pose proof (scan_loop_stream u uchar i max p OK HW Hp Hpb (S (length (bytes_of t0 rest ++ p))) [] t0 rest (SS (s_utf8 st) (s_hint st) (s_g st) (s_acc st) (s_rep st) (Some 0)) true (SR 0 0 0) [] Hpl Hfl) as L.
    destruct L as (r' & st2 & ev2 & E3 & R1 & R2 & R3 & R4); cbn [s_utf8 s_next r_end r_count]; auto.
    cbn [app length scan_loop s_next r_count] in E3. rewrite E0 in *. cbn [length] in *. change (Z.of_nat 0) with 0 in *. rewrite Z.eqb_refl in E3. cbn [negb] in E3. rewrite andb_false_r in E3.
    injection E3 as <- <- <-. do 3 eexists. split; [reflexivity|]. cbn [r_count r_end s_next] in *. split; [exact R1|]. split; [reflexivity|]. split; [exact R3|exact R4].
  - replace ((0 <? 0) || (Z.of_nat (length (bytes_of t0 rest ++ p)) <? 0)) with false by (symmetry; apply orb_false_iff; split; [reflexivity|apply Z.ltb_ge; lia]).
    change (Z.to_nat 0) with O.
    match goal with |- context [scan_loop u uchar i _ _ max ?s ?cx0 0 ?rr ?ee] =>
      destruct (scan_loop_stream u uchar i max p OK HW Hp Hpb (S (length (bytes_of t0 rest ++ p))) [] t0 rest s cx0 rr ee Hpl Hfl) as (r' & st2 & ev2 & E3 & R1 & R2 & R3 & R4) end;
      cbn [r_start r_end r_count s_utf8 s_next s_hint s_g s_acc s_rep mst length] in *; auto.
    + right. assert (Hb : Forall byte (bytes_of t0 rest ++ p)).
      { apply Forall_app. split; [apply (bytes_of_bytes u); assumption|]. eapply Forall_impl; [|exact Hpb]. unfold byte. intros; lia. }
      destruct (bytes_of t0 rest ++ p) as [|y ys]; [cbn in E; lia|]. cbn [nth byte_hi]. apply complex_iff. exact (Forall_inv Hb).
    + cbn [app] in *. change (Z.of_nat 0) with 0 in E3. do 3 eexists. split; [exact E3|]. auto.
Qed.
