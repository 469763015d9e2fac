(** The columns announced to the receiver against the column count. *)
From Verif Require Import Base Spec_Utf M_Utf8 P_Utf8 M_Convert M_AsciiScan P_AsciiScan M_Ucd M_Grapheme Spec_Grapheme P_Grapheme M_Width Spec_Width P_Width M_Scan Spec_Scan
  P_Scan P_Scan2 P_Scan3 P_Scan4 Spec_ScanCols.
Open Scope Z_scope.

Lemma attachments_snoc u : forall l a b, attachments u ((l ++ [a]) ++ [b]) = attachments u (l ++ [a]) + (if attaches u a b then 1 else 0).
Proof.
  induction l as [|x l IH]; intros a b; [cbn; lia|]. destruct l as [|y l]; [cbn; lia|].
  cbn [app] in *. specialize (IH a b). cbn [attachments] in *. lia.
Qed.
Lemma attachments_hi u : forall xs l a, Forall (fun c => (0x80 <= c)%N) xs ->
  attachments u ((l ++ [a]) ++ xs) = attachments u (l ++ [a]) + match xs with [] => 0 | b :: _ => if attaches u a b then 1 else 0 end.
Proof.
  intros xs. induction xs as [|x xs IH] using rev_ind; intros l a H; [rewrite app_nil_r; lia|].
  apply Forall_app in H. destruct H as [H Hx]. rewrite app_assoc. destruct (exists_last (l := (l ++ [a]) ++ xs)) as (p & z & E); [destruct l; discriminate|].
  pose proof (attachments_snoc u p z x) as S. rewrite <- E in S. rewrite S, IH by exact H. destruct xs as [|b xs].
  - rewrite app_nil_r in E. apply app_inj_tail in E. destruct E as [_ <-]. cbn [app]. lia.
  - cbn [app]. assert (Z : (0x80 <= z)%N).
    { destruct (exists_last (l := b :: xs) ltac:(discriminate)) as (q & z' & Eq). rewrite Eq in E, H. rewrite app_assoc in E. apply app_inj_tail in E. destruct E as [_ <-].
      apply Forall_app in H. destruct H as [_ H]. exact (Forall_inv H). }
    replace (attaches u z x) with false; [lia|]. unfold attaches. destruct (N.ltb_spec z 0x7F); [lia|reflexivity].
Qed.
Lemma attachments_all_hi u xs : Forall (fun c => (0x80 <= c)%N) xs -> attachments u xs = 0.
Proof.
  induction 1 as [|x xs Hx H IH]; [reflexivity|]. destruct xs as [|b xs]; [reflexivity|]. cbn [attachments] in *. rewrite IH.
  replace (attaches u x b) with false; [lia|]. unfold attaches. destruct (N.ltb_spec x 0x7F); [lia|reflexivity].
Qed.
Lemma attachments_ascii u : forall xs l, Forall (fun c => (c < 0x80)%N) xs -> attachments u (l ++ xs) = attachments u l.
Proof.
  intros xs. induction xs as [|x xs IH] using rev_ind; intros l H; [rewrite app_nil_r; reflexivity|].
  apply Forall_app in H. destruct H as [H Hx]. apply Forall_inv in Hx. rewrite app_assoc. 
  destruct (list_eq_dec N.eq_dec (l ++ xs) []) as [E|E].
  - apply app_eq_nil in E. destruct E as [-> ->]. reflexivity.
  - destruct (exists_last E) as (p & z & Ez). rewrite <- (IH l H), Ez, attachments_snoc.
    replace (attaches u z x) with false; [lia|]. unfold attaches. destruct (N.leb_spec 0x80 x); [lia|]. rewrite andb_false_r. reflexivity.
Qed.

Section Cols.
Variable u : ucd.
Hypothesis OK : ucd_grapheme_ok u. Hypothesis WOK : ucd_width_ok u. Hypothesis SOK : ucd_scan_ok u.

(** inside a cluster opened by a 7-bit character *)
Definition on_ascii (g : gstate) (s : acc) : Prop := asc_ok u s /\ exists before, ginv u before g /\ ist u before = 0%N /\ est u before = 0%N /\
  exists a r, before = a :: r /\ (p_gcb (u a) = GOther \/ ezs u a).
Lemma on_ascii_push g s b : on_ascii g s -> fst (process_breakable u b g) = false -> on_ascii (snd (process_breakable u b g)) (push u s b).
Proof.
  intros (A & bef & G & Hi & He & a & r & E & Hg) F. pose proof (process_breakable_spec u bef g b OK G) as S.
  destruct (process_breakable u b g) as [brk g']. cbn [fst snd] in *. subst brk. destruct S as [SB SG].
  assert (Hez : ezs u b).
  { symmetry in SB. rewrite E in SB. unfold loose_b in SB. rewrite <- E, Hi, He in SB.
    change (0 =? 2)%N with false in SB. change (0 =? 1)%N with false in SB. rewrite !andb_false_r, !orb_false_r in SB.
    unfold ezs in *. destruct Hg as [Hg|[Hg|[Hg|Hg]]]; rewrite Hg in SB; cbn in SB; destruct (p_gcb (u b)); cbn in SB; try discriminate; auto. }
  split; [apply asc_push; auto; intros V W; exact (sok_wide u SOK b V W Hez)|].
  exists (b :: bef). split; [exact SG|].
  assert (Hnc : p_incb (u b) <> IConsonant).
  { intros K1. pose proof (ok_consonant u OK b K1) as K2. unfold ezs in Hez. rewrite K2 in Hez. destruct Hez as [|[|]]; discriminate. }
  assert (Hne : p_extpic (u b) = false).
  { destruct (p_extpic (u b)) eqn:K1; [|reflexivity]. pose proof (ok_extpic u OK b K1) as K2. unfold ezs in Hez. rewrite K2 in Hez. destruct Hez as [|[|]]; discriminate. }
  cbn [ist est]. rewrite Hi, He. unfold ext_update. rewrite Hne. cbn. split; [destruct (p_incb (u b)); try reflexivity; congruence|]. split; [reflexivity|].
  exists b, bef. auto.
Qed.
Lemma on_ascii_start c : (0x20 <= c < 0x7F)%N -> on_ascii (process_init u c) (push u acc0 c).
Proof.
  intros H. destruct (sok_ascii u SOK c H) as [Hw Hg]. destruct (ok_ascii u OK c ltac:(lia)) as (_ & Hi & He).
  split; [apply asc_first; auto; lia|]. exists [c]. split; [apply process_init_inv|]. cbn [ist est]. rewrite Hi. split; [reflexivity|].
  unfold ext_update. rewrite He. cbn. split; [reflexivity|]. exists c, []. auto.
Qed.
Lemma joins_attaches c b : (0x20 <= c < 0x7F)%N -> (0x80 <= b)%N -> fst (process_breakable u b (process_init u c)) = negb (attaches u c b).
Proof.
  intros H Hb. destruct (sok_ascii u SOK c H) as [Hw Hg]. destruct (ok_ascii u OK c ltac:(lia)) as (_ & Hi & He).
  pose proof (process_breakable_spec u [c] (process_init u c) b OK (process_init_inv u c)) as S.
  destruct (process_breakable u b (process_init u c)) as [brk g]. destruct S as [-> _]. cbn [fst loose_b ist est].
  rewrite Hi, Hg. unfold ext_update. rewrite He. cbn [incb_update].
  change (0 =? 2)%N with false. change (negb (0 =? 0)%N || false) with false. cbv iota. change (0 =? 1)%N with false.
  rewrite !andb_false_r, !orb_false_r. unfold attaches. destruct (N.ltb_spec c 0x7F); [|lia]. destruct (N.leb_spec 0x80 b); [|lia].
  cbn. destruct (p_gcb (u b)); reflexivity.
Qed.

(** ** the loop *)
Section Run.
Variables (max base : Z) (ev0 : list event) (hint0 : N) (g0 : gstate).
(** 1 if the first character joins the open cluster *)
Definition jz (xs : list N) : Z :=
  match xs with [] => 0 | c :: _ => if negb (hint0 =? 0)%N && negb (fst (process_breakable u c g0)) then 1 else 0 end.
Lemma jz_app xs ys : xs <> [] -> jz (xs ++ ys) = jz xs.
Proof. destruct xs; [congruence|reflexivity]. Qed.
Record colinv (ds : list N) (l : lp) (ds1 ds2 : list N) (evs : list event) : Prop := {
  q_rend : l_rend l = base + bl ds; q_bytes : l_bytes l = 0; q_idle : d_exp (l_utf8 l) = 0%N;
  q_max : l_count l <= max; q_here : 0 <= l_here l <= l_count l; q_split : ds = ds1 ++ ds2; q_cstart : l_cstart l = base + bl ds1; q_ev : l_ev l = ev0 ++ evs;
  q_cols : (ds = [] /\ evs = [] /\ l_count l = 0 /\ l_here l = 0 /\ l_hint l = hint0 /\ l_g l = g0 /\ (hint0 = 0%N \/ (l_rep l = 1 /\ acc_width (l_acc l) = 1 /\ on_ascii (l_g l) (l_acc l)) \/ forall c, (0x80 <= c)%N -> fst (process_breakable u c g0) = true)) \/
           (ds <> [] /\ ds1 = [] /\ evs = [] /\ jz ds = 1 /\ l_count l = l_rep l - 1 /\ l_here l = l_rep l - 1 /\ l_rep l = acc_width (l_acc l) /\ l_hint l <> 0%N /\ on_ascii (l_g l) (l_acc l)) \/
           (ds2 <> [] /\ l_count l + jz ds = announced evs + l_rep l /\ l_here l = l_rep l /\ jz ds1 = jz ds) }.
Record colpost (all : list N) (l : lp) (input : Z) (xs ys : list N) (evs : list event) : Prop := {
  cq_all : all = xs ++ ys; cq_input : input = base + bl xs; cq_rend : l_rend l = input; cq_idle : d_exp (l_utf8 l) = 0%N;
  cq_count : 0 <= l_count l <= max; cq_ev : l_ev (flush l input) = ev0 ++ evs; cq_cols : announced evs = l_count l + jz xs }.

Lemma flush_cols l e evs : l_ev l = ev0 ++ evs -> l_cstart l <= e ->
  exists evs', l_ev (flush l e) = ev0 ++ evs' /\ announced evs' = announced evs + (if l_cstart l <? e then l_rep l else 0).
Proof.
  intros E L. unfold flush. cbn [l_ev]. destruct (l_cstart l <? e).
  - exists (evs ++ [ECluster (l_cstart l) e (l_rep l)]). rewrite E, app_assoc. split; [reflexivity|]. rewrite columns_app. cbn [announced]. lia.
  - exists evs. split; [exact E|lia].
Qed.
Lemma inv_flush ds l ds1 ds2 evs : colinv ds l ds1 ds2 evs -> exists evs', l_ev (flush l (base + bl ds)) = ev0 ++ evs' /\ announced evs' = l_count l + jz ds.
Proof.
  intros []. destruct (flush_cols l (base + bl ds) evs q_ev0) as (evs' & F1 & F2).
  { rewrite q_cstart0, q_split0, bl_app. pose proof (bl_nonneg ds2). lia. }
  exists evs'. split; [exact F1|]. rewrite F2, q_cstart0. destruct q_cols0 as [(-> & -> & E & _)|[(K1 & -> & -> & K4 & K5 & K6 & _)|(K1 & K2 & K3 & K4)]].
  - symmetry in q_split0. apply app_eq_nil in q_split0. destruct q_split0 as [-> ->]. rewrite Z.ltb_irrefl. cbn. lia.
  - rewrite K4. pose proof (bl_pos ds K1). destruct (Z.ltb_spec (base + bl []) (base + bl ds)) as [_|L]; [cbn; lia|]. change (bl []) with 0 in L. lia.
  - pose proof (bl_pos ds2 K1). rewrite q_split0 at 1. rewrite bl_app. destruct (Z.ltb_spec (base + bl ds1) (base + (bl ds1 + bl ds2))); lia.
Qed.
Lemma cols_run tail : (tail = [] \/ exists b r, tail = b :: r /\ (b < 0x80)%N) ->
  forall cs ds l ds1 ds2 evs, Forall scalar cs -> Forall (fun c => (0x80 <= c)%N) cs -> colinv ds l ds1 ds2 evs ->
  exists xs ys evs', let '(l', input') := na_loop u max (utf8_text cs ++ tail) (base + bl ds) l in colpost (ds ++ cs) l' input' xs ys evs'.
Proof.
  intros Ht. induction cs as [|c cs IH]; intros ds l ds1 ds2 evs Hs Hc I; destruct (inv_flush _ _ _ _ _ I) as (evs' & F1 & F2).
  - cbn [utf8_text flat_map app]. rewrite app_nil_r. exists ds, [], evs'. destruct Ht as [->|(b & r & -> & Hb)]; cbn [na_loop].
    + destruct I. constructor; auto; try lia. rewrite app_nil_r. reflexivity.
    + destruct (Z.leb_spec (l_count l) max) as [K|K]; [|destruct I; lia].
      replace (is_control b || negb (is_complex b) || _) with true.
      2:{ rewrite hi_not_complex by lia. destruct (N.ltb_spec b 0x80); [|lia]. rewrite orb_true_r. reflexivity. }
      assert (Hd : d_exp (l_utf8 l) = 0%N) by (destruct I; assumption).
      unfold stop_at_control. cbn [flush l_utf8]. rewrite Hd. change (0 =? 0)%N with true. cbn [negb].
      constructor; cbn [flush l_count l_bytes l_here l_cstart l_rend l_utf8 l_hint l_g l_acc l_rep l_ev]; auto; try (destruct I; lia).
      * rewrite app_nil_r. reflexivity.
      * rewrite Z.ltb_irrefl. exact F1.
  - assert (Hsc : scalar c) by exact (Forall_inv Hs). assert (Hcc : (0x80 <= c)%N) by exact (Forall_inv Hc).
    assert (Hs' : Forall scalar cs) by exact (Forall_inv_tail Hs). assert (Hc' : Forall (fun c => (0x80 <= c)%N) cs) by exact (Forall_inv_tail Hc).
    cbn [utf8_text flat_map]. rewrite <- app_assoc. fold (utf8_text cs).
    destruct (na_char u max c l (utf8_text cs ++ tail) (base + bl ds) Hsc Hcc) as (d' & Hd' & E); [destruct I; assumption|destruct I; assumption|].
    rewrite E. clear E.
    assert (Hlen : base + bl ds + Z.of_nat (length (utf8 c)) = base + bl (ds ++ [c])) by (rewrite bl_app, bl_one; lia).
    rewrite Hlen. replace (l_bytes l + Z.of_nat (length (utf8 c))) with (bl [c]) by (rewrite bl_one; destruct I; lia).
    match goal with |- context [on_codepoint u max c _ ?x] => set (l0 := x) end.
    replace (ds ++ c :: cs) with ((ds ++ [c]) ++ cs) by (rewrite <- app_assoc; reflexivity).
    unfold on_codepoint.
    replace (base + bl (ds ++ [c]) - l_bytes l0) with (base + bl ds) by (unfold l0; cbn [l_bytes]; rewrite bl_app; lia).
    change (l_hint l0) with (l_hint l). change (l_g l0) with (l_g l).
    destruct (if (l_hint l =? 0)%N then (true, process_init u c) else process_breakable u c (l_g l)) as [brk g] eqn:EB.
    cbn [l_count l_bytes l_here l_cstart l_rend l_utf8 l_hint l_g l_acc l_rep l_ev].
    change (l_count l0) with (l_count l). change (l_here l0) with (l_here l). change (l_cstart l0) with (l_cstart l).
    change (l_rend l0) with (l_rend l). change (l_utf8 l0) with d'. change (l_acc l0) with (l_acc l). change (l_rep l0) with (l_rep l).
    change (l_ev l0) with (l_ev l). clearbody l0. clear l0.
    destruct brk.
    + pose proof (acc_width_nonneg (push u acc0 c)) as Hw.
      destruct (Z.ltb_spec max (l_count l + acc_width (push u acc0 c))).
      * exists ds, (c :: cs), evs'. destruct I. constructor; cbn [l_count l_rend l_utf8]; auto; try lia. rewrite <- app_assoc. reflexivity.
      * assert (JZ : jz (ds ++ [c]) = jz ds).
        { destruct ds as [|x ds]; [|apply jz_app; discriminate]. cbn [app jz]. destruct I. destruct q_cols0 as [(_ & _ & _ & _ & Eh & Eg & _)|[(K & _)|(K & _)]].
          - rewrite <- Eh, <- Eg. destruct (N.eqb_spec (l_hint l) 0); [reflexivity|]. rewrite EB. reflexivity.
          - congruence.
          - symmetry in q_split0. apply app_eq_nil in q_split0. destruct q_split0 as [_ ->]. congruence. }
        unfold flush in F1. cbn [l_ev] in F1.
        eapply (IH (ds ++ [c]) _ ds [c] evs'); auto.
        destruct I. constructor; cbn [flush l_count l_bytes l_here l_cstart l_rend l_utf8 l_hint l_g l_acc l_rep l_ev]; auto; try lia.
        right. right. split; [discriminate|]. rewrite JZ. split; [lia|]. split; reflexivity.
    + pose proof (acc_width_nonneg (push u (l_acc l) c)) as Hw.
      assert (HNZ : l_hint l <> 0%N) by (intros K; rewrite K in EB; discriminate EB).
      assert (EB2 : process_breakable u c (l_g l) = (false, g)) by (destruct (N.eqb_spec (l_hint l) 0); [contradiction|exact EB]).
      (* the first character, inside the first cluster, or later *)
      assert (ST : (jz (ds ++ [c]) = 1 /\ ds1 = [] /\ evs = [] /\ l_count l = l_rep l - 1 /\ l_here l = l_rep l - 1 /\ on_ascii g (push u (l_acc l) c)) \/
                   (ds2 <> [] /\ jz (ds ++ [c]) = jz ds /\ l_count l + jz ds = announced evs + l_rep l /\ l_here l = l_rep l /\ jz ds1 = jz ds)).
      { destruct I. destruct q_cols0 as [(-> & -> & K3 & K4 & K5 & K6 & K7)|[(K1 & K2 & K3 & K4 & K5 & K6 & K7 & K8 & K9)|(K1 & K2 & K3 & K4)]].
        - left. symmetry in q_split0. apply app_eq_nil in q_split0. destruct q_split0 as [-> ->].
          destruct K7 as [K7|[(K7 & K8 & K9)|K7]]; [congruence| |].
          2:{ specialize (K7 c Hcc). rewrite <- K6, EB2 in K7. discriminate. }
          pose proof (on_ascii_push _ _ c K9) as Q. rewrite EB2 in Q. specialize (Q eq_refl). cbn [snd] in Q.
          split; [cbn [app jz]; rewrite <- K5, <- K6, EB2; destruct (N.eqb_spec (l_hint l) 0); [contradiction|reflexivity]|]. repeat split; auto; try lia; apply Q.
        - left. pose proof (on_ascii_push _ _ c K9) as Q. rewrite EB2 in Q. specialize (Q eq_refl). cbn [snd] in Q. rewrite jz_app by exact K1. repeat split; auto; apply Q.
        - right. assert (ds <> []) by (rewrite q_split0; destruct ds1; [exact K1|discriminate]). rewrite jz_app by assumption. auto. }
      assert (NX : forall cnt here, (l_here l = l_rep l - 1 -> cnt - l_count l = acc_width (push u (l_acc l) c) - l_rep l /\ here - l_here l = cnt - l_count l) ->
         (l_here l = l_rep l -> cnt - l_count l = acc_width (push u (l_acc l) c) - l_rep l /\ here - l_here l = cnt - l_count l) ->
         cnt <= max -> 0 <= here <= cnt ->
         colinv (ds ++ [c]) (LP cnt 0 here (l_cstart l) (base + bl (ds ++ [c])) d' c g (push u (l_acc l) c) (acc_width (push u (l_acc l) c)) (l_ev l)) ds1 (ds2 ++ [c]) evs).
      { intros cnt here N1 N2 N3 N4. destruct I. constructor; cbn [l_count l_bytes l_here l_cstart l_rend l_utf8 l_hint l_g l_acc l_rep l_ev]; auto.
        - rewrite q_split0, <- app_assoc. reflexivity.
        - right. destruct ST as [(S1 & S2 & S3 & S4 & S5 & S6)|(S1 & S2 & S3 & S4 & S5)].
          + left. specialize (N1 S5). split; [destruct ds; discriminate|]. split; [exact S2|]. split; [exact S3|]. split; [exact S1|]. split; [lia|]. split; [lia|]. split; [reflexivity|]. split; [lia|exact S6].
          + right. specialize (N2 S4). split; [destruct ds2; discriminate|]. rewrite S2. split; [lia|]. split; [lia|exact S5]. }
      destruct (Z.leb_spec (l_rep l) (acc_width (push u (l_acc l) c))).
      * destruct (negb _ && _) eqn:EE.
        -- exists ds1, (ds2 ++ c :: cs), evs. destruct I. constructor; cbn [l_count l_rend l_utf8 l_rep]; auto; try lia.
           ++ rewrite q_split0, <- !app_assoc. reflexivity.
           ++ unfold flush. cbn [l_ev l_cstart]. rewrite q_cstart0, Z.ltb_irrefl. exact q_ev0.
           ++ destruct ST as [(S1 & -> & -> & S4 & S5 & S6)|(S1 & S2 & S3 & S4 & S5)]; [cbn; lia|]. rewrite S5. lia.
        -- assert (l_count l + (acc_width (push u (l_acc l) c) - l_rep l) <= max).
           { apply andb_false_iff in EE. destruct EE as [EE|EE]; [apply negb_false_iff, Z.eqb_eq in EE; destruct I; lia|apply Z.ltb_ge in EE; lia]. }
           eapply (IH (ds ++ [c]) _ ds1 (ds2 ++ [c]) evs); auto. apply NX; try (intros _; lia); destruct I; lia.
      * assert (HM : Z.min (l_rep l - acc_width (push u (l_acc l) c)) (l_here l) = l_rep l - acc_width (push u (l_acc l) c)).
        { destruct ST as [(S1 & S2 & S3 & S4 & S5 & S6)|(S1 & S2 & S3 & S4 & S5)]; [|lia]. pose proof (asc_width u _ (proj1 S6)). lia. }
        rewrite HM. eapply (IH (ds ++ [c]) _ ds1 (ds2 ++ [c]) evs); auto. apply NX; try (intros _; lia); try (destruct I; lia).
Qed.
End Run.

Definition seeded (st : sstate) : Prop := s_hint st = 0%N \/ (s_rep st = 1 /\ acc_width (s_acc st) = 1 /\ on_ascii (s_g st) (s_acc st)) \/
  forall c, (0x80 <= c)%N -> fst (process_breakable u c (s_g st)) = true.
Lemma nonascii_cols st start cs tl max ev : d_exp (s_utf8 st) = 0%N -> 0 <= max -> seeded st ->
  scalars cs -> Forall (fun c => (0x80 <= c)%N) cs -> (tl = [] \/ exists b r, tl = b :: r /\ (b < 0x80)%N) ->
  exists c e st' xs ys evs, nonascii u st start (utf8_text cs ++ tl) max ev = ((c, start, e), st', ev ++ evs) /\
    cs = xs ++ ys /\ e = start + bl xs /\ s_next st' = Some e /\ d_exp (s_utf8 st') = 0%N /\ 0 <= c <= max /\ announced evs = c + jz (s_hint st) (s_g st) xs.
Proof.
  intros Hd Hm HK Hs Hc Ht. unfold nonascii. rewrite Hd. change (0 =? 0)%N with true. cbv iota.
  set (l0 := LP _ _ _ _ _ _ _ _ _ _ _).
  destruct (cols_run max start ev (s_hint st) (s_g st) tl Ht cs [] l0 [] [] []) as (xs & ys & evs & H); auto.
  - unfold l0. constructor; cbn [l_count l_bytes l_here l_cstart l_rend l_utf8 l_hint l_g l_acc l_rep l_ev app]; auto; try lia.
    + change (bl []) with 0. lia.
    + change (bl []) with 0. lia.
    + rewrite app_nil_r. reflexivity.
    + left. repeat split; auto.
  - change (bl []) with 0 in H. rewrite Z.add_0_r in H.
    destruct (na_loop u max (utf8_text cs ++ tl) start l0) as [l' i']. destruct H. cbn [app] in *.
    exists (l_count l'), i', (SS (l_utf8 l') (l_hint l') (l_g l') (l_acc l') (l_rep l') (Some i')), xs, ys, evs.
    rewrite cq_ev0. cbn [flush l_count l_rend l_utf8 l_hint l_g l_acc l_rep s_next s_utf8]. rewrite cq_rend0.
    split; [reflexivity|]. auto 12.
Qed.

Hypothesis DEL : p_gcb (u 0x7F%N) = GControl.
(** the state the ASCII branch leaves behind *)
Definition after (t1 : list N) (st : sstate) : Prop :=
  (t1 = [] /\ s_hint st = 0%N) \/ exists l a, t1 = l ++ [a] /\ (0x20 <= a < 0x80)%N /\ s_hint st = a /\ s_g st = process_init u a /\ s_acc st = push u acc0 a /\ s_rep st = 1.
Lemma del_breaks c : (0x80 <= c)%N -> fst (process_breakable u c (process_init u 0x7F%N)) = true.
Proof.
  intros H. pose proof (process_breakable_spec u [0x7F%N] (process_init u 0x7F%N) c OK (process_init_inv u _)) as S.
  destruct (process_breakable u c (process_init u 0x7F%N)) as [brk g]. destruct S as [-> _]. cbn [fst loose_b]. rewrite DEL. reflexivity.
Qed.
Lemma after_seeded t1 st : after t1 st -> seeded st.
Proof.
  intros [[_ H]|(l & a & _ & Ha & H1 & H2 & H3 & H4)]; [left; exact H|]. right. destruct (N.eq_dec a 0x7F) as [E|E].
  - right. rewrite H2, E. exact del_breaks.
  - left. rewrite H2, H3. pose proof (on_ascii_start a ltac:(lia)) as A. split; [exact H4|]. split; [apply (ascii_acc u); auto; exact (proj1 (sok_ascii u SOK a ltac:(lia)))|exact A].
Qed.
Lemma after_jz t1 st xs : after t1 st -> Forall (fun c => (0x80 <= c)%N) xs -> attachments u (t1 ++ xs) = attachments u t1 + jz (s_hint st) (s_g st) xs.
Proof.
  intros [[-> H]|(l & a & -> & Ha & H1 & H2 & _)] Hx.
  - cbn [app]. rewrite attachments_all_hi by exact Hx. destruct xs; cbn [jz]; [reflexivity|]. rewrite H. reflexivity.
  - rewrite attachments_hi by exact Hx. f_equal. destruct xs as [|b xs]; [reflexivity|]. cbn [jz]. rewrite H1, H2. destruct (N.eqb_spec a 0); [lia|]. cbn [negb andb].
    pose proof (Forall_inv Hx) as Hb. destruct (N.eq_dec a 0x7F) as [E|E].
    + rewrite E, del_breaks by exact Hb. cbn. unfold attaches. reflexivity.
    + rewrite joins_attaches by (auto; lia). rewrite negb_involutive. reflexivity.
Qed.

Record colres (t : list N) (max : Z) (r : sresult) (ev : list event) (xs ys : list N) : Prop := {
  cr_t : t = xs ++ ys; cr_end : r_end r = bl xs; cr_count : 0 <= r_count r <= max; cr_cols : announced ev = r_count r + attachments u xs }.

Lemma scan_loop_cols uchar i t max : scalars t -> forall fuel t1 t2 st (cx : bool) r ev,
  t = t1 ++ t2 -> (length (utf8_text t2) < fuel)%nat ->
  d_exp (s_utf8 st) = 0%N -> s_next st = Some (bl t1) ->
  r_end r = bl t1 -> 0 <= r_count r <= max -> announced ev = r_count r + attachments u t1 -> (cx = true -> after t1 st) ->
  exists r' st' ev' xs ys, scan_loop u uchar i fuel (utf8_text t) max st cx (bl t1) r ev = Ok (r', st', ev') /\ colres t max r' ev' xs ys.
Proof.
  intros Hs. induction fuel as [|fuel IH]; intros t1 t2 st cx r ev Et Hf Hd Hn He Hc Hcols Haf; [lia|].
  assert (FIN : colres t max r ev t1 t2) by (constructor; auto).
  cbn [scan_loop]. rewrite Hn.
  destruct (Z.ltb_spec (r_count r) max) as [Hlt|Hge]; cbn [andb]; [|exists r, st, ev, t1, t2; auto].
  destruct (Z.eqb_spec (bl t1) (Z.of_nat (length (utf8_text t)))) as [En|En]; cbn [negb]; [exists r, st, ev, t1, t2; auto|].
  assert (Hskip : skipn (Z.to_nat (bl t1)) (utf8_text t) = utf8_text t2).
  { unfold bl. rewrite Nat2Z.id, Et, utf8_text_app, skipn_app, skipn_all, Nat.sub_diag. reflexivity. }
  rewrite Hskip.
  assert (Hs2 : scalars t2) by (rewrite Et in Hs; apply Forall_app in Hs; tauto).
  destruct cx.
  - specialize (Haf eq_refl). pose proof (hi_run_spec t2) as HR. destruct (hi_run t2) as [cs tl] eqn:Eh. destruct HR as (E2 & Hhi & Htl).
    assert (Hscs : scalars cs) by (rewrite E2 in Hs2; apply Forall_app in Hs2; tauto).
    destruct (nonascii_cols st (bl t1) cs (utf8_text tl) (max - r_count r) ev Hd ltac:(lia) (after_seeded _ _ Haf) Hscs Hhi)
      as (c & e & st' & xs & ys & evs & EN & Ecs & Ee & Hn' & Hd' & Hc' & Hcols').
    { destruct Htl as [->|(b & q & -> & Hb)]; [left; reflexivity|]. right. exists b, (utf8_text q). rewrite utf8_text_head_ascii by exact Hb. auto. }
    replace (utf8_text t2) with (utf8_text cs ++ utf8_text tl) by (rewrite E2; symmetry; apply utf8_text_app). rewrite EN.
    replace (e - bl t1) with (bl xs) by lia.
    assert (EX : bl (t1 ++ xs) = e) by (rewrite bl_app; lia).
    assert (FIN2 : colres t max (SR (r_count r + c) (r_start r) e) (ev ++ evs) (t1 ++ xs) (ys ++ tl)).
    { constructor; cbn [r_start r_end r_count]; rewrite ?EX; auto; try lia.
      - rewrite Et, E2, Ecs, <- !app_assoc. reflexivity.
      - rewrite columns_app, Hcols, Hcols', (after_jz _ _ xs Haf); [lia|]. rewrite Ecs in Hhi. apply Forall_app in Hhi. tauto. }
    destruct (Z.eqb_spec (bl xs) 0) as [Ez|Ez]; [do 5 eexists; split; [reflexivity|exact FIN2]|].
    assert (Hxs : xs <> []) by (intros ->; apply Ez; reflexivity).
    rewrite <- bl_app.
    destruct FIN2. apply (IH (t1 ++ xs) (ys ++ tl)); cbn [r_start r_end r_count] in *; auto; try discriminate.
    + assert (L : length (utf8_text t2) = (length (utf8_text xs) + length (utf8_text (ys ++ tl)))%nat).
      { rewrite E2, Ecs, <- app_assoc, utf8_text_app, app_length. reflexivity. }
      pose proof (bl_pos xs Hxs) as P. unfold bl in P. lia.
    + rewrite EX. exact Hn'.
  - destruct (scan_for_text_ascii_spec uchar i (utf8_text t2) (Z.to_nat (max - r_count r)) ltac:(apply utf8_text_bytes; exact Hs2)) as (n & E & EP).
    rewrite E. cbn [bindR]. destruct n as [|n]; [exists r, st, ev, t1, t2; auto|].
    destruct EP as (EL & EPr & _).
    destruct (ascii_prefix_text (S n) t2 Hs2 ltac:(lia)) as (A1 & A2 & A3).
    { eapply Forall_impl; [|exact EPr]. intros b [_ B]. exact B. }
    assert (Lf : length (firstn (S n) t2) = S n) by (rewrite firstn_length; lia).
    assert (Lb : bl (firstn (S n) t2) = Z.of_nat (S n)) by (unfold bl; rewrite utf8_text_ascii by exact A3; lia).
    assert (Hlast : nth n (utf8_text t2) 0%N = nth n t2 0%N).
    { rewrite (nth_firstn_S n (utf8_text t2)), (nth_firstn_S n t2), A1. reflexivity. }
    rewrite Hlast.
    rewrite <- Lb, <- bl_app. apply (IH (t1 ++ firstn (S n) t2) (skipn (S n) t2)); cbn [s_utf8 s_rep s_next s_hint s_g r_start r_end r_count]; auto.
    + rewrite <- app_assoc, firstn_skipn. exact Et.
    + assert (L : length (utf8_text t2) = (length (utf8_text (firstn (S n) t2)) + length (utf8_text (skipn (S n) t2)))%nat).
      { rewrite <- (firstn_skipn (S n) t2) at 1. rewrite utf8_text_app, app_length. reflexivity. }
      unfold bl in Lb. lia.
    + rewrite bl_app. lia.
    + lia.
    + rewrite columns_app, Hcols, attachments_ascii by exact A3. cbn [announced]. rewrite bl_app. lia.
    + intros _. right. destruct (split_last_nth n t2 A2) as (l' & El). exists (t1 ++ l'), (nth n t2 0%N).
      rewrite El, app_assoc. split; [reflexivity|]. split; [|auto]. rewrite A1, El in EPr. apply Forall_app in EPr. destruct EPr as [_ EPr]. apply Forall_inv in EPr. unfold printable in EPr. lia.
Qed.

Lemma scan_text_cols uchar i st t max : scalars t -> 0 <= max ->
  d_exp (s_utf8 st) = 0%N -> s_hint st = 0%N -> (s_next st = None \/ s_next st = Some 0) ->
  exists r' st' ev' xs ys, scan_text u uchar i st (utf8_text t) max = Ok (r', st', ev') /\ colres t max r' ev' xs ys.
Proof.
  intros Hs Hm Hd Hh Hn. unfold scan_text. cbn [s_utf8]. rewrite Hd. change (0 =? 0)%N with true. cbv iota. cbn [r_end].
  replace (match s_next st with Some z => Some z | None => Some 0 end) with (Some 0) by (destruct Hn as [-> | ->]; reflexivity).
  destruct (Z.eqb_spec 0 (Z.of_nat (length (utf8_text t)))) as [E|E].
  - do 3 eexists. exists [], t. split; [reflexivity|].
    constructor; cbn [r_start r_end r_count s_next s_utf8 s_rep covers announced app]; auto; lia.
  - replace ((0 <? 0) || (Z.of_nat (length (utf8_text t)) <? 0)) with false by (symmetry; apply orb_false_iff; split; [reflexivity|apply Z.ltb_ge; lia]).
    apply (scan_loop_cols uchar i t max Hs (S (length (utf8_text t))) [] t); cbn [s_utf8 s_rep s_next s_hint s_g r_start r_end r_count]; auto.
    + lia.
    + intros _. left. auto.
Qed.
End Cols.
