(** scan_text with a column limit, on well-formed text: as a machine over code points. *)
From Verif Require Import Base Spec_Utf M_Utf8 P_Utf8 P_Utf8b M_Convert M_AsciiScan P_AsciiScan M_Ucd M_Grapheme M_Width
  Spec_Grapheme P_Grapheme Spec_Width P_Width M_Scan Spec_Scan P_Scan P_Scan2 P_Scan3 P_Scan4 P_Scan5.
Open Scope Z_scope.

Definition brk_at (u : ucd) (m : cm) (c : N) : bool := fst (if (m_hint m =? 0)%N then (true, process_init u c) else process_breakable u c (m_g m)).
Definition gnext (u : ucd) (m : cm) (c : N) : gstate := snd (if (m_hint m =? 0)%N then (true, process_init u c) else process_breakable u c (m_g m)).
(** The character before is known, and is no Prepend character. *)
Definition after_np (u : ucd) (h : N) (g : gstate) : Prop := h = 0%N \/ exists a loc, sinv u (a :: loc) g /\ p_gcb (u a) <> GPrepend.
Definition G (u : ucd) (m : cm) : Prop := after_np u (m_hint m) (m_g m).
Definition np (u : ucd) (c : N) : Prop := p_gcb (u c) <> GPrepend.
Lemma after_next u m c : ucd_grapheme_ok u -> G u m -> np u c -> after_np u c (gnext u m c).
Proof.
  intros OK H Hc. right. unfold gnext. destruct (N.eqb_spec (m_hint m) 0) as [E|E].
  - exists c, []. split; [apply process_init_sinv|exact Hc].
  - destruct H as [H|(a & loc & H & _)]; [contradiction|]. pose proof (stateful_spec u (a :: loc) (m_g m) c OK H) as S. destruct (process_breakable u c (m_g m)) as [b g].
    exists c, (a :: loc). cbn [snd]. split; [apply S|exact Hc].
Qed.
(** [None]: taken; [Some false]: stop in front of [c]; [Some true]: stop in front of the open cluster *)
Definition hstop (u : ucd) (max n : Z) (m : cm) (c : N) : option bool :=
  let '(d, m') := mhi u c m in
  if brk_at u m c then if max <? n + d then Some false else None
  else if (m_rep m <? m_rep m') && (max <? n + d) then Some true else None.
Fixpoint hrun (u : ucd) (max n : Z) (m : cm) (done opn cs : list N) : Z * list N * bool :=
  match cs with
  | [] => (n, done ++ opn, true)
  | c :: cs' =>
      let '(d, m') := mhi u c m in
      match hstop u max n m c with
      | Some false => (n, done ++ opn, false)
      | Some true => (n - m_here m, done, false)
      | None => if brk_at u m c then hrun u max (n + d) m' (done ++ opn) [c] cs' else hrun u max (n + d) m' done (opn ++ [c]) cs'
      end
  end.
Fixpoint lim (u : ucd) (max n : Z) (m : cm) (done opn : list N) (hi : bool) (ts : list N) : Z * list N :=
  match ts with
  | [] => (n, done ++ opn)
  | c :: ts' =>
      if (c <? 0x80)%N then
        if max <=? n then (n, done ++ opn)
        else lim u max (n + 1) (CM c (process_init u c) (push u acc0 c) 1 0) ((done ++ opn) ++ [c]) [] false ts'
      else if negb hi && (max <=? n) then (n, done ++ opn)
      else
        let '(d, m') := mhi u c m in
        match hstop u max n m c with
        | Some false => (n, done ++ opn)
        | Some true => (n - m_here m, done)
        | None => if brk_at u m c then lim u max (n + d) m' (done ++ opn) [c] true ts' else lim u max (n + d) m' done (opn ++ [c]) true ts'
        end
  end.

Lemma on_codepoint_lim u max c input l : l_count l <= max ->
  let d := fst (mhi u c (mof l)) in let m' := snd (mhi u c (mof l)) in
  match hstop u max (l_count l) (mof l) c with
  | Some false => exists l', on_codepoint u max c input l = (l', Some (input - l_bytes l)) /\ l_count l' = l_count l /\ l_rend l' = l_rend l /\ l_utf8 l' = l_utf8 l /\ l_hint l' = c /\ l_g l' = gnext u (mof l) c
  | Some true => exists l', on_codepoint u max c input l = (l', Some (l_cstart l)) /\ l_count l' = l_count l - l_here l /\ l_rend l' = l_cstart l /\ l_utf8 l' = l_utf8 l /\ l_hint l' = c /\ l_g l' = gnext u (mof l) c
  | None => exists l', on_codepoint u max c input l = (l', None) /\ mof l' = m' /\ l_count l' = l_count l + d /\ l_utf8 l' = l_utf8 l /\
      l_bytes l' = 0 /\ l_rend l' = input /\ l_cstart l' = (if brk_at u (mof l) c then input - l_bytes l else l_cstart l) /\
      (brk_at u (mof l) c = true \/ m_rep (mof l) < m_rep m' -> l_count l' <= max) /\ l_hint l' = c /\ l_g l' = gnext u (mof l) c
  end.
Proof.
  intros HM. unfold gnext, hstop, brk_at, mhi, on_codepoint, mof. cbn [m_hint m_g m_acc m_rep m_here].
  destruct (if (l_hint l =? 0)%N then _ else _) as [brk g]. cbn [fst snd].
  cbn [l_count l_bytes l_here l_cstart l_rend l_utf8 l_hint l_g l_acc l_rep l_ev]. destruct brk.
  - cbv zeta. destruct (Z.ltb_spec max (l_count l + acc_width (push u acc0 c))); cbn [fst snd].
    + eexists. split; [reflexivity|]. cbn. auto 8.
    + eexists. split; [reflexivity|]. cbn [flush l_count l_bytes l_here l_cstart l_rend l_utf8 l_hint l_g l_acc l_rep l_ev]. repeat split; auto; lia.
  - cbv zeta. destruct (Z.leb_spec (l_rep l) (acc_width (push u (l_acc l) c))) as [L|L]; cbn [fst snd m_rep].
    + assert (E : (l_rep l <? acc_width (push u (l_acc l) c)) = negb (acc_width (push u (l_acc l) c) - l_rep l =? 0)).
      { destruct (Z.ltb_spec (l_rep l) (acc_width (push u (l_acc l) c))), (Z.eqb_spec (acc_width (push u (l_acc l) c) - l_rep l) 0); try reflexivity; lia. }
      rewrite <- E. destruct (Z.ltb_spec (l_rep l) (acc_width (push u (l_acc l) c))) as [L2|L2]; cbn [andb].
      * destruct (Z.ltb_spec max (l_count l + (acc_width (push u (l_acc l) c) - l_rep l))).
        -- eexists. split; [reflexivity|]. cbn. auto 8.
        -- eexists. split; [reflexivity|]. cbn [flush l_count l_bytes l_here l_cstart l_rend l_utf8 l_hint l_g l_acc l_rep l_ev]. repeat split; auto; lia.
      * eexists. split; [reflexivity|]. cbn [flush l_count l_bytes l_here l_cstart l_rend l_utf8 l_hint l_g l_acc l_rep l_ev]. repeat split; auto; try (intros [K|K]; try discriminate; lia).
    + destruct (Z.ltb_spec (l_rep l) (acc_width (push u (l_acc l) c))) as [L2|L2]; [lia|]. cbn [andb].
      eexists. split; [reflexivity|]. cbn [flush l_count l_bytes l_here l_cstart l_rend l_utf8 l_hint l_g l_acc l_rep l_ev]. repeat split; auto; try lia; try (intros [K|K]; try discriminate; lia).
Qed.
Lemma mhi_here u c m : 0 <= m_here m -> 0 <= m_here (snd (mhi u c m)).
Proof.
  intros H. unfold mhi. destruct (if (m_hint m =? 0)%N then _ else _) as [brk g]. destruct brk; [cbn; apply acc_width_nonneg|].
  cbv zeta. destruct (Z.leb_spec (m_rep m) (acc_width (push u (m_acc m) c))); cbn [snd m_here]; lia.
Qed.
Lemma mhi_shrink u c m : 0 <= m_here m -> brk_at u m c = false -> ~ m_rep m < m_rep (snd (mhi u c m)) -> fst (mhi u c m) <= 0.
Proof.
  intros H B K. unfold mhi, brk_at in *. destruct (if (m_hint m =? 0)%N then _ else _) as [brk g]. cbn [fst] in B. subst brk.
  cbv zeta in *. destruct (Z.leb_spec (m_rep m) (acc_width (push u (m_acc m) c))); cbn [fst snd m_rep] in *; lia.
Qed.

Lemma na_run_lim u max tail base : forall cs input l done opn, scalars cs -> Forall (fun c => (0x80 <= c)%N) cs ->
  d_exp (l_utf8 l) = 0%N -> l_count l <= max -> input = base + bl (done ++ opn) -> l_cstart l = base + bl done -> l_rend l = input -> l_bytes l = 0 -> 0 <= l_here l ->
  let '(n, tk, ok) := hrun u max (l_count l) (mof l) done opn cs in
  exists l', l_count l' = n /\ d_exp (l_utf8 l') = 0%N /\ l_rend l' = base + bl tk /\ (ucd_grapheme_ok u -> G u (mof l) -> Forall (np u) cs -> G u (mof l')) /\
    (if ok : bool then tk = done ++ opn ++ cs /\ l_count l' <= max /\ l_bytes l' = 0 /\ na_loop u max (utf8_text cs ++ tail) input l = na_loop u max tail (base + bl tk) l' /\
       mof l' = snd (mrun u (mof l) cs)
     else na_loop u max (utf8_text cs ++ tail) input l = (l', base + bl tk)).
Proof.
  induction cs as [|c cs IH]; intros input l done opn Hs Hc Hd Hm Hi Hcs Hr Hb Hh.
  - cbn [hrun]. exists l. split; [reflexivity|]. split; [exact Hd|]. split; [congruence|]. split; [auto|]. rewrite app_nil_r. split; [reflexivity|]. split; [exact Hm|]. split; [exact Hb|].
    split; [|reflexivity]. rewrite Hi. reflexivity.
  - inversion Hs as [|? ? Hsc Hs']; subst. inversion Hc as [|? ? Hcc Hc']; subst.
    set (input := base + bl (done ++ opn)) in *.
    cbn [utf8_text flat_map]. rewrite <- app_assoc. fold (utf8_text cs).
    destruct (na_char u max c l (utf8_text cs ++ tail) input Hsc Hcc Hd Hm) as (d' & Hd' & E). rewrite E. clear E.
    match goal with |- context [on_codepoint u max c ?p ?x] => set (l0 := x); pose proof (on_codepoint_lim u max c p l0 Hm) as O end.
    change (mof l0) with (mof l) in O. change (l_count l0) with (l_count l) in O. change (l_utf8 l0) with d' in O. change (l_rend l0) with (l_rend l) in O.
    change (l_cstart l0) with (l_cstart l) in O. change (l_here l0) with (l_here l) in O.
    assert (Hin : input + Z.of_nat (length (utf8 c)) - l_bytes l0 = input) by (unfold l0; cbn [l_bytes]; lia). rewrite Hin in O.
    cbn [hrun mrun]. rewrite mstep_hi by exact Hcc.
    pose proof (mhi_here u c (mof l) Hh) as Hh'. pose proof (mhi_shrink u c (mof l) Hh) as HSH.
    destruct (mhi u c (mof l)) as [d m']. cbn [fst snd] in *.
    destruct (hstop u max (l_count l) (mof l) c) as [[|]|].
    + destruct O as (l' & E & O1 & O2 & O3 & O8 & O9). exists l'. rewrite E. change (m_here (mof l)) with (l_here l). split; [exact O1|]. split; [rewrite O3; exact Hd'|].
      split; [congruence|]. split; [intros OK HG HN; apply Forall_inv in HN; unfold G; cbn [mof m_hint m_g]; rewrite O8, O9; apply after_next; assumption|]. rewrite Hcs. reflexivity.
    + destruct O as (l' & E & O1 & O2 & O3 & O8 & O9). exists l'. rewrite E. split; [exact O1|]. split; [rewrite O3; exact Hd'|]. split; [rewrite O2; exact Hr|].
      split; [intros OK HG HN; apply Forall_inv in HN; unfold G; cbn [mof m_hint m_g]; rewrite O8, O9; apply after_next; assumption|]. reflexivity.
    + destruct O as (l' & E & O1 & O2 & O3 & O4 & O5 & O6 & O7 & O8 & O9). rewrite E.
      assert (HG' : ucd_grapheme_ok u -> G u (mof l) -> Forall (np u) (c :: cs) -> G u m' /\ Forall (np u) cs).
      { intros OK HG HN. pose proof (Forall_inv HN). split; [|exact (Forall_inv_tail HN)]. rewrite <- O1. unfold G. cbn [mof m_hint m_g]. rewrite O8, O9. apply after_next; assumption. }
      clear O8 O9.
      assert (HM' : l_count l' <= max).
      { destruct (brk_at u (mof l) c) eqn:EB; [apply O7; auto|]. destruct (Z.lt_ge_cases (m_rep (mof l)) (m_rep m')) as [L|L]; [apply O7; auto|]. specialize (HSH eq_refl). lia. }
      assert (Hin2 : forall x, bl (x ++ [c]) = bl x + Z.of_nat (length (utf8 c))) by (intros x; rewrite bl_app, bl_one; reflexivity).
      assert (HL : 0 <= l_here l') by (change (l_here l') with (m_here (mof l')); rewrite O1; exact Hh').
      destruct (brk_at u (mof l) c).
      * specialize (IH (input + Z.of_nat (length (utf8 c))) l' (done ++ opn) [c] Hs' Hc'). rewrite O1, O2, O3 in IH.
        rewrite Hin2 in IH. specialize (IH Hd' ltac:(lia) ltac:(unfold input; lia) O6 O5 O4 HL).
        destruct (hrun u max (l_count l + d) m' (done ++ opn) [c] cs) as [[n tk] ok].
        destruct IH as (l2 & I1 & I2 & I3 & IG & I4). exists l2. split; [exact I1|]. split; [exact I2|]. split; [exact I3|]. split; [intros OK HG HN; destruct (HG' OK HG HN); auto|].
        destruct ok; [|exact I4]. destruct I4 as (I4 & I5 & I6 & I7 & I8). split; [rewrite I4, <- app_assoc; reflexivity|]. split; [exact I5|]. split; [exact I6|]. split; [exact I7|].
        rewrite I8. destruct (mrun u m' cs); reflexivity.
      * specialize (IH (input + Z.of_nat (length (utf8 c))) l' done (opn ++ [c]) Hs' Hc'). rewrite O1, O2, O3, O6 in IH.
        rewrite app_assoc, Hin2 in IH. specialize (IH Hd' ltac:(lia) ltac:(unfold input; lia) Hcs O5 O4 HL).
        destruct (hrun u max (l_count l + d) m' done (opn ++ [c]) cs) as [[n tk] ok].
        destruct IH as (l2 & I1 & I2 & I3 & IG & I4). exists l2. split; [exact I1|]. split; [exact I2|]. split; [exact I3|]. split; [intros OK HG HN; destruct (HG' OK HG HN); auto|].
        destruct ok; [|exact I4]. destruct I4 as (I4 & I5 & I6 & I7 & I8). split; [rewrite I4, <- app_assoc; reflexivity|]. split; [exact I5|]. split; [exact I6|]. split; [exact I7|].
        rewrite I8. destruct (mrun u m' cs); reflexivity.
Qed.

Lemma nonascii_lim u st start cs tl max ev : d_exp (s_utf8 st) = 0%N -> 0 <= max ->
  scalars cs -> Forall (fun c => (0x80 <= c)%N) cs -> (tl = [] \/ exists b r, tl = b :: r /\ ((b < 0x80)%N \/ c1 b)) ->
  let '(n, tk, ok) := hrun u max 0 (mst st) [] [] cs in
  exists st' ev', nonascii u st start (utf8_text cs ++ tl) max ev = ((n, start, start + bl tk), st', ev') /\
    s_next st' = Some (start + bl tk) /\ d_exp (s_utf8 st') = 0%N /\ (ok = true -> tk = cs) /\ (ucd_grapheme_ok u -> G u (mst st) -> Forall (np u) cs -> G u (mst st')).
Proof.
  intros Hd Hm Hs Hc Ht. unfold nonascii. rewrite Hd. change (0 =? 0)%N with true. cbv iota.
  set (l0 := LP _ _ _ _ _ _ _ _ _ _ _).
  pose proof (na_run_lim u max tl start cs start l0 [] [] Hs Hc Hd Hm ltac:(cbn; lia) ltac:(cbn; lia) eq_refl eq_refl ltac:(cbn; lia)) as R.
  change (l_count l0) with 0 in R. change (mof l0) with (mst st) in R. cbn [app] in R.
  destruct (hrun u max 0 (mst st) [] [] cs) as [[n tk] ok]. destruct R as (l' & R1 & R2 & R3 & RG & R4). destruct ok.
  - destruct R4 as (R4 & R5 & R6 & R7 & R8). rewrite R7.
    destruct Ht as [->|(b & q & -> & Hb)].
    + cbn [na_loop]. cbn [flush l_count l_rend l_utf8 l_hint l_g l_acc l_rep]. rewrite R1, R3.
      do 2 eexists. split; [reflexivity|]. cbn [s_next s_utf8]. split; [reflexivity|]. split; [exact R2|]. split; [auto|]. exact RG.
    + cbn [na_loop]. destruct (Z.leb_spec (l_count l') max); [|lia].
      replace (is_control b || negb (is_complex b) || _) with true.
      2:{ symmetry. destruct Hb as [Hb|[Hb1 Hb2]].
        - rewrite hi_not_complex by lia. destruct (N.ltb_spec b 0x80); [|lia]. rewrite orb_true_r. reflexivity.
        - rewrite R2. apply orb_true_iff. right. unfold is_c1_control. destruct (N.leb_spec 0x80 b), (N.leb_spec b 0x9F); lia || reflexivity. }
      unfold stop_at_control. cbn [flush l_count l_rend l_utf8 l_hint l_g l_acc l_rep]. rewrite R2. change (0 =? 0)%N with true. cbn [negb].
      rewrite R1. do 2 eexists. split; [reflexivity|]. cbn [s_next s_utf8]. split; [reflexivity|]. split; [exact R2|]. split; [auto|]. intros _ _ _. left. reflexivity.
  - rewrite R4. cbn [flush l_count l_rend l_utf8 l_hint l_g l_acc l_rep]. rewrite R1, R3. do 2 eexists. split; [reflexivity|]. cbn [s_next s_utf8]. split; [reflexivity|]. split; [exact R2|]. split; [discriminate|]. exact RG.
Qed.

Lemma hrun_ok u max : forall cs n m done opn, let '(n', tk, ok) := hrun u max n m done opn cs in
  if ok : bool then tk = done ++ opn ++ cs else exists r c q, done ++ opn ++ cs = tk ++ r ++ c :: q /\ cs <> [].
Proof.
  induction cs as [|c cs IH]; intros n m done opn; cbn [hrun]; [rewrite app_nil_r; reflexivity|].
  destruct (mhi u c m) as [d m']. destruct (hstop u max n m c) as [[|]|].
  - exists opn, c, cs. split; [reflexivity|discriminate].
  - exists [], c, cs. split; [rewrite <- app_assoc; reflexivity|discriminate].
  - destruct (brk_at u m c).
    + specialize (IH (n + d) m' (done ++ opn) [c]). destruct (hrun u max (n + d) m' (done ++ opn) [c] cs) as [[n' tk] ok]. destruct ok.
      * rewrite IH, <- app_assoc. reflexivity.
      * destruct IH as (r & c' & q & E & _). exists r, c', q. split; [rewrite <- E, <- app_assoc; reflexivity|discriminate].
    + specialize (IH (n + d) m' done (opn ++ [c])). destruct (hrun u max (n + d) m' done (opn ++ [c]) cs) as [[n' tk] ok]. destruct ok.
      * rewrite IH, <- app_assoc. reflexivity.
      * destruct IH as (r & c' & q & E & _). exists r, c', q. split; [rewrite <- E, <- app_assoc; reflexivity|discriminate].
Qed.
(** [lim] over a run of characters that are not 7-bit *)
Lemma lim_hi u max tl : (tl = [] \/ exists c r, tl = c :: r /\ (c < 0x80)%N) -> forall cs n m done opn, Forall (fun c => (0x80 <= c)%N) cs ->
  lim u max n m done opn true (cs ++ tl) =
  let '(n', tk, ok) := hrun u max n m done opn cs in if ok : bool then lim u max n' m tk [] true tl else (n', tk).
Proof.
  intros Htl. induction cs as [|c cs IH]; intros n m done opn Hc.
  - cbn [app hrun]. destruct Htl as [->|(c & r & -> & Hc1)]; cbn [lim]; [rewrite app_nil_r; reflexivity|].
    destruct (N.ltb_spec c 0x80); [|lia]. rewrite app_nil_r. reflexivity.
  - inversion Hc as [|? ? Hc1 Hc2]; subst. cbn [app lim hrun]. destruct (N.ltb_spec c 0x80); [lia|]. cbn [negb andb].
    destruct (mhi u c m) as [d m']. destruct (hstop u max n m c) as [[|]|]; [reflexivity|reflexivity|].
    assert (X : forall m1 n1 tk, lim u max n1 m1 tk [] true tl = lim u max n1 m tk [] true tl).
    { intros. destruct Htl as [->|(c' & r & -> & Hc')]; cbn [lim]; [reflexivity|]. destruct (N.ltb_spec c' 0x80); [reflexivity|lia]. }
    destruct (brk_at u m c); rewrite IH by exact Hc2.
    + destruct (hrun u max (n + d) m' (done ++ opn) [c] cs) as [[n' tk] ok]. destruct ok; [apply X|reflexivity].
    + destruct (hrun u max (n + d) m' done (opn ++ [c]) cs) as [[n' tk] ok]. destruct ok; [apply X|reflexivity].
Qed.
Lemma lim_reset u max n m m' done opn hi tl : (tl = [] \/ exists c r, tl = c :: r /\ (c < 0x80)%N) ->
  lim u max n m done opn hi tl = lim u max n m' (done ++ opn) [] false tl.
Proof.
  intros [->|(c & r & -> & Hc)]; cbn [lim]; rewrite app_nil_r; [reflexivity|]. destruct (N.ltb_spec c 0x80); [reflexivity|lia].
Qed.
Lemma lim_done u max d0 : forall ts n m done opn hi,
  lim u max n m (d0 ++ done) opn hi ts = let '(n', tk) := lim u max n m done opn hi ts in (n', d0 ++ tk).
Proof.
  induction ts as [|c ts IH]; intros n m done opn hi; cbn [lim]; [rewrite <- app_assoc; reflexivity|].
  destruct (c <? 0x80)%N; [destruct (max <=? n); [rewrite <- app_assoc; reflexivity|]; rewrite <- !app_assoc; apply IH|].
  destruct (negb hi && (max <=? n)); [rewrite <- app_assoc; reflexivity|]. destruct (mhi u c m) as [d m'].
  destruct (hstop u max n m c) as [[|]|]; [reflexivity|rewrite <- app_assoc; reflexivity|].
  destruct (brk_at u m c); [rewrite <- app_assoc, IH; reflexivity|apply IH].
Qed.
Lemma hrun_shift u max k : forall cs n m done opn, hrun u max n m done opn cs = let '(n', tk, ok) := hrun u (max - k) (n - k) m done opn cs in (n' + k, tk, ok).
Proof.
  induction cs as [|c cs IH]; intros n m done opn; cbn [hrun]; [repeat f_equal; lia|]. 
  assert (E : hstop u (max - k) (n - k) m c = hstop u max n m c).
  { unfold hstop. destruct (mhi u c m) as [d m']. replace (max - k <? n - k + d) with (max <? n + d); [reflexivity|].
    destruct (Z.ltb_spec max (n + d)), (Z.ltb_spec (max - k) (n - k + d)); try reflexivity; lia. }
  rewrite E. destruct (mhi u c m) as [d m']. destruct (hstop u max n m c) as [[|]|]; [f_equal; f_equal; lia|f_equal; f_equal; lia|].
  destruct (brk_at u m c); rewrite IH; replace (n + d - k) with (n - k + d) by lia; reflexivity.
Qed.
Lemma lim_ascii u max rest : forall cs c n m done opn hi, Forall (fun c => (c < 0x80)%N) (c :: cs) -> n + Z.of_nat (length (c :: cs)) <= max ->
  lim u max n m done opn hi ((c :: cs) ++ rest) =
  lim u max (n + Z.of_nat (length (c :: cs))) (let x := last (c :: cs) 0%N in CM x (process_init u x) (push u acc0 x) 1 0) (done ++ opn ++ c :: cs) [] false rest.
Proof.
  induction cs as [|c2 cs IH]; intros c n m done opn hi Hc Hn; inversion Hc as [|? ? H1 H2]; subst.
  - cbn [app lim length last]. destruct (N.ltb_spec c 0x80); [|lia]. cbn [length] in Hn. destruct (Z.leb_spec max n); [lia|]. rewrite <- app_assoc. reflexivity.
  - change ((c :: c2 :: cs) ++ rest) with (c :: ((c2 :: cs) ++ rest)). cbn [length] in Hn.
    assert (E : forall r, lim u max n m done opn hi (c :: r) = lim u max (n + 1) (CM c (process_init u c) (push u acc0 c) 1 0) ((done ++ opn) ++ [c]) [] false r).
    { intros r. cbn [lim]. destruct (N.ltb_spec c 0x80); [|lia]. destruct (Z.leb_spec max n); [lia|reflexivity]. }
    rewrite E, IH by (try exact H2; cbn [length]; lia). cbn [length last app]. f_equal; [lia|]. rewrite <- !app_assoc. reflexivity.
Qed.

Lemma last_in (l : list N) d : l <> [] -> In (last l d) l.
Proof. induction l as [|x l IH]; intros H; [congruence|]. destruct l; [left; reflexivity|right; apply IH; discriminate]. Qed.
Lemma scan_loop_lim u uchar i max tail : stopper tail -> Forall byte tail -> forall fuel pre ts st cx r ev,
  scalars ts -> Forall text_cp ts -> (length (utf8_text ts ++ tail) < fuel)%nat ->
  d_exp (s_utf8 st) = 0%N -> s_next st = Some (Z.of_nat (length pre)) -> r_end r = Z.of_nat (length pre) ->
  (max <= r_count r \/ ts = [] \/ cx = head_hi ts) ->
  let '(n, tk) := lim u max (r_count r) (mst st) [] [] false ts in
  exists r' st' ev', scan_loop u uchar i fuel (pre ++ utf8_text ts ++ tail) max st cx (Z.of_nat (length pre)) r ev = Ok (r', st', ev') /\
    r_count r' = n /\ r_start r' = r_start r /\ r_end r' = Z.of_nat (length (pre ++ utf8_text tk)) /\
    s_next st' = Some (Z.of_nat (length (pre ++ utf8_text tk))) /\ d_exp (s_utf8 st') = 0%N /\
    (ucd_grapheme_ok u -> G u (mst st) -> Forall (np u) ts -> G u (mst st')).
Proof.
  intros Hstop Hbt. induction fuel as [|fuel IH]; intros pre ts st cx r ev Hs Ht Hf Hd Hn He Hcx; [lia|].
  assert (STOP : forall k, lim u max (r_count r) (mst st) [] [] false ts = (r_count r, []) -> k = Ok (r, st, ev) ->
    let '(n, tk) := lim u max (r_count r) (mst st) [] [] false ts in
    exists r' st' ev', k = Ok (r', st', ev') /\ r_count r' = n /\ r_start r' = r_start r /\ r_end r' = Z.of_nat (length (pre ++ utf8_text tk)) /\
      s_next st' = Some (Z.of_nat (length (pre ++ utf8_text tk))) /\ d_exp (s_utf8 st') = 0%N /\
      (ucd_grapheme_ok u -> G u (mst st) -> Forall (np u) ts -> G u (mst st'))).
  { intros k -> ->. cbn [utf8_text flat_map]. rewrite app_nil_r. do 3 eexists. split; [reflexivity|]. auto 9. }
  cbn [scan_loop]. rewrite Hn. destruct (Z.ltb_spec (r_count r) max) as [Hc|Hc].
  2:{ cbn [andb]. apply STOP; [|reflexivity]. destruct ts as [|c ts]; cbn [lim app]; [reflexivity|]. destruct (Z.leb_spec max (r_count r)); [|lia]. cbn [negb andb]. destruct (c <? 0x80)%N; reflexivity. }
  destruct Hcx as [Hcx|Hcx]; [lia|]. cbn [andb].
  destruct ts as [|c0' ts0].
  { cbn [utf8_text flat_map app lim]. destruct Hstop as [->|(b & q & Et & Hb)].
    - rewrite !app_nil_r, Z.eqb_refl. cbn [negb]. do 3 eexists. split; [reflexivity|]. auto 9.
    - destruct (Z.eqb_spec (Z.of_nat (length pre)) (Z.of_nat (length (pre ++ tail)))) as [E|E].
      { subst tail. rewrite app_length in E. cbn [length] in E. lia. }
      cbn [negb]. rewrite Nat2Z.id, skipn_app, skipn_all, Nat.sub_diag. cbn [skipn app]. cbn [utf8_text flat_map] in STOP. rewrite app_nil_r in *.
      destruct cx.
      + pose proof (nonascii_lim u st (Z.of_nat (length pre)) [] tail (max - r_count r) ev Hd ltac:(lia) ltac:(constructor) ltac:(constructor)) as NL.
        cbn [hrun app] in NL. destruct NL as (st' & ev' & EN & N1 & N2 & N3 & NG).
        { right. exists b, q. split; [exact Et|]. unfold c0, c1 in *. lia. }
        cbn [utf8_text flat_map app] in EN. rewrite EN. change (bl []) with 0. rewrite !Z.add_0_r, Z.sub_diag. change (0 =? 0) with true. cbv iota.
        change (bl []) with 0 in N1. rewrite Z.add_0_r in N1.
        do 3 eexists. split; [reflexivity|]. cbn [mrun fst snd r_count r_start r_end]. split; [lia|]. split; [reflexivity|]. split; [reflexivity|].
        split; [exact N1|]. split; [exact N2|exact NG].
      + destruct (scan_for_text_ascii_spec uchar i tail (Z.to_nat (max - r_count r)) Hbt) as (n & E' & EP).
        assert (n = O).
        { destruct EP as (_ & EP & _). destruct n; [reflexivity|]. subst tail. cbn [firstn] in EP. inversion EP as [|? ? Hp _]; subst.
          unfold printable, c0, c1 in *. lia. }
        subst n. rewrite E'. cbn [bindR]. do 3 eexists. split; [reflexivity|]. auto 9. }
  destruct Hcx as [Hcx|Hcx]; [discriminate|].
  set (ts := c0' :: ts0) in *.
  assert (Hne : (0 < length (utf8_text ts))%nat) by (pose proof (bl_pos ts ltac:(discriminate)) as P; unfold bl in P; lia).
  destruct (Z.eqb_spec (Z.of_nat (length pre)) (Z.of_nat (length (pre ++ utf8_text ts ++ tail)))) as [E|E]; [rewrite !app_length in E; lia|]. cbn [negb].
  rewrite Nat2Z.id, skipn_app, skipn_all, Nat.sub_diag. cbn [skipn app].
  destruct cx.
  - pose proof (hi_run_spec ts) as HR. destruct (hi_run ts) as [cs tl] eqn:Eh. destruct HR as (E2 & Hhi & Htl).
    assert (Hcs : cs <> []).
    { intros ->. destruct Htl as [->|(b & q & -> & Hb)]; [discriminate|]. cbn [app] in E2. unfold ts in E2. injection E2 as -> _.
      cbn [head_hi] in Hcx. unfold ts in Hcx. cbn [head_hi] in Hcx. destruct (N.leb_spec 0x80 b); [lia|discriminate]. }
    rewrite E2 in Hs, Ht. apply Forall_app in Hs, Ht. destruct Hs as [Hs1 Hs2]. destruct Ht as [Ht1 Ht2].
    pose proof (nonascii_lim u st (Z.of_nat (length pre)) cs (utf8_text tl ++ tail) (max - r_count r) ev Hd ltac:(lia) Hs1 Hhi) as NL.
    assert (EL : lim u max (r_count r) (mst st) [] [] false ts =
      let '(n', tk, ok) := hrun u (max - r_count r) 0 (mst st) [] [] cs in if ok : bool then lim u max (n' + r_count r) (mst st) tk [] true tl else (n' + r_count r, tk)).
    { assert (E1 : lim u max (r_count r) (mst st) [] [] false ts = lim u max (r_count r) (mst st) [] [] true ts).
      { unfold ts. cbn [lim]. destruct (Z.leb_spec max (r_count r)); [lia|]. reflexivity. }
      rewrite E1, E2, (lim_hi u max tl Htl) by exact Hhi. rewrite (hrun_shift u max (r_count r)), Z.sub_diag.
      destruct (hrun u (max - r_count r) 0 (mst st) [] [] cs) as [[n' tk] ok]. reflexivity. }
    pose proof (hrun_ok u (max - r_count r) cs 0 (mst st) [] []) as HK.
    destruct (hrun u (max - r_count r) 0 (mst st) [] [] cs) as [[n' tk] ok].
    destruct NL as (st' & ev' & EN & N1 & N2 & N3 & N4).
    { destruct Htl as [->|(b & q & -> & Hb)].
      - cbn [utf8_text flat_map app]. destruct Hstop as [->|(b & q & Et & Hb)]; [left; reflexivity|]. right. exists b, q. split; [exact Et|].
        unfold c0, c1 in *. lia.
      - right. exists b, (utf8_text q ++ tail). rewrite utf8_text_head_ascii by exact Hb. auto. }
    assert (Etx : utf8_text ts = utf8_text cs ++ utf8_text tl) by (rewrite E2; apply utf8_text_app).
    rewrite Etx, <- (app_assoc (utf8_text cs)). rewrite EN.
    replace (Z.of_nat (length pre) + bl tk - Z.of_nat (length pre)) with (bl tk) by lia.
    replace (Z.of_nat (length pre) + bl tk) with (Z.of_nat (length (pre ++ utf8_text tk))) in * by (rewrite app_length; unfold bl; lia).
    rewrite EL. cbn [app] in HK. destruct ok.
    + subst tk. pose proof (bl_pos cs Hcs) as Pcs. destruct (Z.eqb_spec (bl cs) 0); [lia|].
      rewrite (lim_reset u max (n' + r_count r) (mst st) (mst st') cs [] true tl Htl), app_nil_r.
      pose proof (lim_done u max cs tl (n' + r_count r) (mst st') [] [] false) as LD. rewrite app_nil_r in LD. rewrite LD. clear LD.
      rewrite !(app_assoc pre).
      specialize (IH (pre ++ utf8_text cs) tl st' false (SR (r_count r + n') (r_start r) (Z.of_nat (length (pre ++ utf8_text cs)))) ev').
      cbn [r_start r_end r_count] in IH. rewrite (Z.add_comm n').
      destruct (lim u max (r_count r + n') (mst st') [] [] false tl) as [n2 tk2].
      destruct IH as (r' & st2 & ev2 & E' & R1 & R2 & R3 & R4 & R5 & RG); auto.
      * rewrite E2, utf8_text_app, !app_length in Hf. rewrite app_length. unfold bl in Pcs. lia.
      * right. destruct Htl as [->|(b & q & -> & Hb)]; [left; reflexivity|right]. cbn [head_hi]. destruct (N.leb_spec 0x80 b); [lia|reflexivity].
      * exists r', st2, ev2. split; [exact E'|]. rewrite utf8_text_app, app_assoc. split; [exact R1|]. split; [exact R2|]. split; [exact R3|]. split; [exact R4|]. split; [exact R5|].
        intros OK HG HN. rewrite E2 in HN. apply Forall_app in HN as [HN1 HN2]. auto.
    + destruct HK as (q0 & c & q & EK & _). rewrite (Z.add_comm n').
      assert (HT : exists hb ht, utf8_text (q0 ++ c :: q) = hb :: ht /\ (0x80 <= hb)%N).
      { assert (HH : Forall (fun c => (0x80 <= c)%N) (q0 ++ c :: q)) by (rewrite EK in Hhi; apply Forall_app in Hhi; apply Hhi).
        assert (HS : scalars (q0 ++ c :: q)) by (unfold scalars in *; rewrite EK in Hs1; apply Forall_app in Hs1; apply Hs1).
        destruct (q0 ++ c :: q) as [|x xs] eqn:Q; [destruct q0; discriminate|]. inversion HH; subst. inversion HS; subst.
        destruct (utf8_high x) as [HX _]; [assumption|assumption|]. cbn [utf8_text flat_map]. destruct (utf8 x) as [|y ys] eqn:Eu; [destruct (utf8_nonempty x Eu)|].
        cbn [app]. exists y. eexists. split; [reflexivity|]. inversion HX; subst. lia. }
      destruct HT as (hb & ht & HT & Hhb).
      destruct (Z.eqb_spec (bl tk) 0) as [E0|E0].
      * do 3 eexists. split; [reflexivity|]. cbn [r_count r_start r_end]. split; [reflexivity|]. split; [reflexivity|]. split; [reflexivity|]. split; [exact N1|]. split; [exact N2|].
        intros OK HG HN. rewrite E2 in HN. apply Forall_app in HN as [HN1 HN2]. auto.
      * assert (Erest : pre ++ utf8_text cs ++ utf8_text tl ++ tail = (pre ++ utf8_text tk) ++ hb :: (ht ++ utf8_text tl ++ tail)).
        { rewrite EK, utf8_text_app, HT, <- !app_assoc. reflexivity. }
        rewrite Erest. destruct fuel as [|f].
        { exfalso. pose proof (bl_pos tk) as P. assert (tk <> []) by (intros ->; apply E0; reflexivity). rewrite E2, EK, utf8_text_app, (utf8_text_app tk), !app_length in Hf. specialize (P H). unfold bl in P. lia. }
        cbn [scan_loop r_count]. rewrite N1. replace (Z.of_nat (length pre) + bl tk) with (Z.of_nat (length (pre ++ utf8_text tk))) by (rewrite app_length; unfold bl; lia).
        rewrite Nat2Z.id, skipn_app, skipn_all, Nat.sub_diag. cbn [skipn app].
        assert (Hbx : Forall byte (hb :: ht ++ utf8_text tl ++ tail)).
        { assert (B1 : Forall byte (utf8_text ts ++ tail)) by (apply Forall_app; split; [apply utf8_text_bytes; unfold scalars; rewrite E2; apply Forall_app; auto|exact Hbt]).
          rewrite Etx, EK, utf8_text_app, HT, <- !app_assoc in B1. apply Forall_app in B1 as [_ B1]. exact B1. }
        destruct (scan_for_text_ascii_spec uchar i (hb :: ht ++ utf8_text tl ++ tail) (Z.to_nat (max - (r_count r + n'))) Hbx) as (n & E' & EP).
        assert (n = O).
        { destruct EP as (_ & EP & _). destruct n; [reflexivity|]. cbn [firstn] in EP. inversion EP as [|? ? Hp _]; subst. unfold printable in *. lia. }
        subst n. rewrite E'. cbn [bindR].
        exists (SR (r_count r + n') (r_start r) (Z.of_nat (length (pre ++ utf8_text tk)))), st', ev'. split; [destruct (_ && _); reflexivity|]. cbn [r_count r_start r_end].
        split; [reflexivity|]. split; [reflexivity|]. split; [reflexivity|]. split; [exact N1|]. split; [exact N2|].
        intros OK HG HN. rewrite E2 in HN. apply Forall_app in HN as [HN1 HN2]. auto.
  - pose proof (lo_run_spec ts) as HR. destruct (lo_run ts) as [cs0 tl0] eqn:Eh. destruct HR as (E0 & Hlo0 & Htl0).
    assert (Hcs0 : cs0 <> []).
    { intros ->. cbn [app] in E0. destruct Htl0 as [->|(b & q & -> & Hb)]; [discriminate|]. unfold ts in E0, Hcx. injection E0 as -> _. cbn [head_hi] in Hcx.
      destruct (N.leb_spec 0x80 b); [discriminate|lia]. }
    set (k := Nat.min (length cs0) (Z.to_nat (max - r_count r))).
    set (cs := firstn k cs0). set (tl := skipn k cs0 ++ tl0).
    assert (E2 : ts = cs ++ tl) by (unfold cs, tl; rewrite app_assoc, firstn_skipn; exact E0).
    assert (Lcs : length cs = k) by (unfold cs, k; rewrite firstn_length; lia).
    assert (Hlo : Forall (fun c => (c < 0x80)%N) cs) by (rewrite <- (firstn_skipn k cs0) in Hlo0; apply Forall_app in Hlo0; apply Hlo0).
    assert (Hk : (0 < k)%nat) by (unfold k; destruct cs0; [congruence|cbn [length]; lia]).
    assert (Hcs : cs <> []) by (intros K; rewrite K in Lcs; cbn in Lcs; lia).
    assert (Hb : Forall byte (utf8_text ts ++ tail)) by (apply Forall_app; split; [apply utf8_text_bytes; exact Hs|exact Hbt]).
    rewrite E2 in Hs, Ht. apply Forall_app in Hs, Ht. destruct Hs as [Hs1 Hs2]. destruct Ht as [Ht1 Ht2].
    destruct (scan_for_text_ascii_spec uchar i (utf8_text ts ++ tail) (Z.to_nat (max - r_count r)) Hb) as (n & E' & EP).
    assert (Etx : utf8_text ts = cs ++ utf8_text tl) by (rewrite E2, utf8_text_app, (utf8_text_ascii cs Hlo); reflexivity).
    assert (Etext : utf8_text ts ++ tail = cs ++ utf8_text tl ++ tail) by (rewrite Etx, app_assoc; reflexivity).
    assert (Hfull : length cs0 = k -> tl = tl0) by (intros K; unfold tl; rewrite <- K, skipn_all; reflexivity).
    assert (EP2 : exact_prefix (utf8_text ts ++ tail) (Z.to_nat (max - r_count r)) (length cs)).
    { rewrite Etext. unfold exact_prefix. rewrite app_length. split; [unfold k in *; lia|].
      rewrite firstn_app, firstn_all, Nat.sub_diag, app_nil_r. split.
      - rewrite Forall_forall in *. intros x Hx. split; [apply Ht1, Hx|apply Hlo, Hx].
      - destruct (Nat.eq_dec (length cs0) k) as [K|K]; [|left; rewrite Lcs; unfold k in *; lia]. rewrite (Hfull K) in *.
        destruct Htl0 as [->|(b & q & -> & Hbb)].
        + cbn [utf8_text flat_map app length]. destruct Hstop as [->|(b & q & Et & Hb2)]; [left; cbn; lia|]. right. exists b. split.
          * rewrite nth_error_app2, Nat.sub_diag by lia. rewrite Et. reflexivity.
          * unfold printable, c0, c1 in *. lia.
        + right. destruct (utf8 b) as [|y ys] eqn:Eu; [destruct (utf8_nonempty b Eu)|]. exists y. split.
          * rewrite nth_error_app2, Nat.sub_diag by lia. cbn [utf8_text flat_map]. rewrite Eu. reflexivity.
          * inversion Hs2 as [|? ? Hsb _]; subst. destruct (utf8_high b Hsb Hbb) as [Hh _]. rewrite Eu in Hh. inversion Hh; subst. unfold printable. lia. }
    assert (n = length cs) by (eapply exact_prefix_unique; eassumption). subst n.
    assert (Hroom : r_count r + Z.of_nat (length cs) <= max) by (rewrite Lcs; unfold k; lia).
    assert (Hafter : max <= r_count r + Z.of_nat (length cs) \/ tl = tl0).
    { destruct (Nat.eq_dec (length cs0) k) as [K|K]; [right; auto|left; rewrite Lcs; unfold k in *; lia]. }
    rewrite E'. cbn [bindR]. clearbody cs tl. destruct cs as [|c1 cs1]; [congruence|]. 
    assert (EL : lim u max (r_count r) (mst st) [] [] false ts = lim u max (r_count r + Z.of_nat (length (c1 :: cs1)))
       (let x := last (c1 :: cs1) 0%N in CM x (process_init u x) (push u acc0 x) 1 0) (c1 :: cs1) [] false tl).
    { rewrite E2, lim_ascii by assumption. reflexivity. }
    rewrite EL.
    match goal with |- context [lim u max ?n1 ?m1 (c1 :: cs1) [] false tl] => pose proof (lim_done u max (c1 :: cs1) tl n1 m1 [] [] false) as LD end.
    rewrite app_nil_r in LD. rewrite LD. clear LD. cbn [length] in *.
    assert (Hl : nth (length cs1) (utf8_text ts ++ tail) 0%N = last (c1 :: cs1) 0%N).
    { rewrite Etext, app_nth1 by (cbn; lia). apply nth_last_eq. }
    rewrite Hl. rewrite Etx, <- (app_assoc (c1 :: cs1)), !(app_assoc pre).
    replace (Z.of_nat (length pre) + Z.of_nat (S (length cs1))) with (Z.of_nat (length (pre ++ c1 :: cs1))) by (rewrite app_length; cbn [length]; lia).
    cbv zeta. set (x := last (c1 :: cs1) 0%N) in *.
    match goal with |- context [scan_loop u uchar i fuel _ max ?s ?cx0 ?o ?rr ?ee] => specialize (IH (pre ++ c1 :: cs1) tl s cx0 rr ee) end.
    unfold mst in IH. cbn [r_start r_end r_count s_utf8 s_next s_hint s_g s_acc s_rep] in IH.
    destruct (lim u max (r_count r + Z.of_nat (S (length cs1))) (CM x (process_init u x) (push u acc0 x) 1 0) [] [] false tl) as [n2 tk2].
    destruct IH as (r' & st2 & ev2 & E3 & R1 & R2 & R3 & R4 & R5 & RG); auto.
    + rewrite Etx, !app_length in Hf. cbn [length] in Hf. rewrite app_length. lia.
    + rewrite He, app_length. cbn [length]. lia.
    + destruct Hafter as [Ha| ->]; [left; exact Ha|right]. destruct Htl0 as [->|(b & q & -> & Hbb)]; [left; reflexivity|right]. cbn [head_hi]. destruct (N.leb_spec 0x80 b); [reflexivity|lia].
    + exists r', st2, ev2. split; [exact E3|]. rewrite utf8_text_app, (utf8_text_ascii _ Hlo), app_assoc.
      split; [exact R1|]. split; [exact R2|]. split; [exact R3|]. split; [exact R4|]. split; [exact R5|].
      intros OK HG HN. rewrite E2 in HN. apply Forall_app in HN as [HN1 HN2]. apply RG; [exact OK| |exact HN2].
      right. exists x, []. split; [apply process_init_sinv|]. rewrite Forall_forall in HN1. apply HN1. unfold x. apply last_in. discriminate.
Qed.

Lemma scan_text_lim u uchar i st t tail max : stopper tail -> Forall byte tail -> scalars t -> Forall text_cp t ->
  d_exp (s_utf8 st) = 0%N -> (s_next st = None \/ s_next st = Some 0) ->
  let '(n, tk) := lim u max 0 (mst st) [] [] false t in
  exists r' st' ev', scan_text u uchar i st (utf8_text t ++ tail) max = Ok (r', st', ev') /\
    r_count r' = n /\ r_start r' = 0 /\ r_end r' = bl tk /\ s_next st' = Some (bl tk) /\ d_exp (s_utf8 st') = 0%N /\
    (ucd_grapheme_ok u -> G u (mst st) -> Forall (np u) t -> G u (mst st')).
Proof.
  intros Hst Hbt Hs Ht Hd Hn. unfold scan_text. cbn [s_utf8]. rewrite Hd. change (0 =? 0)%N with true. cbv iota. cbn [r_end].
  replace (match s_next st with Some z => Some z | None => Some 0 end) with (Some 0) by (destruct Hn as [-> | ->]; reflexivity).
  destruct (Z.eqb_spec 0 (Z.of_nat (length (utf8_text t ++ tail)))) as [E|E].
  - assert (Et : t = []) by (destruct t as [|c t]; [reflexivity|]; pose proof (bl_pos (c :: t) ltac:(discriminate)); unfold bl in *; rewrite app_length in E; lia).
    subst t. cbn [lim app]. do 3 eexists. split; [reflexivity|]. cbn [r_count r_start r_end s_next s_utf8 mrun fst snd]. repeat split; auto.
  - replace ((0 <? 0) || (Z.of_nat (length (utf8_text t ++ tail)) <? 0)) with false by (symmetry; apply orb_false_iff; split; [reflexivity|apply Z.ltb_ge; lia]).
    change (Z.to_nat 0) with O.
    match goal with |- context [scan_loop u uchar i _ _ max ?s ?cx0 0 ?rr ?ee] =>
      pose proof (scan_loop_lim u uchar i max tail Hst Hbt (S (length (utf8_text t ++ tail))) [] t s cx0 rr ee) as R end.
    unfold mst in R. cbn [r_start r_end r_count s_utf8 s_next s_hint s_g s_acc s_rep length] in R. fold (mst st) in R.
    destruct (lim u max 0 (mst st) [] [] false t) as [n tk].
    destruct R as (r' & st2 & ev2 & E3 & R1 & R2 & R3 & R4 & R5 & RG); auto.
    + right. destruct t as [|c t]; [left; reflexivity|right]. apply complex_head; [exact Hs|discriminate].
    + cbn [app] in *. change (Z.of_nat 0) with 0 in E3. do 3 eexists. split; [exact E3|]. unfold bl. auto 9.
Qed.
