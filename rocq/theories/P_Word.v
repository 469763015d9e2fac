(** Proofs about the word segmenter. *)
From Verif Require Import Base M_Ucd M_Word Spec_Grapheme Spec_Word P_Grapheme.
Open Scope N_scope.

Lemma wbc_beq_eq a b : wbc_beq a b = true <-> a = b.
Proof. split; [apply internal_wbc_dec_bl|apply internal_wbc_dec_lb]. Qed.
Lemma transparent_iff w : is_transparent w = true <-> ignorable w.
Proof. unfold is_transparent, ignorable. rewrite !orb_true_iff, !wbc_beq_eq. tauto. Qed.
Lemma newline_iff w : is_newline_class w = true <-> newline w.
Proof. unfold is_newline_class, newline. rewrite !orb_true_iff, !wbc_beq_eq. tauto. Qed.
Lemma AHLetter_iff w : is_AHLetter w = true <-> AHLetter w.
Proof. unfold is_AHLetter, AHLetter. rewrite !orb_true_iff, !wbc_beq_eq. tauto. Qed.
Lemma MidLetter_iff w : is_MidLetterLike w = true <-> MidLetterQ w.
Proof. unfold is_MidLetterLike, is_MidNumLetQ, MidLetterQ, MidNumLetQ. rewrite !orb_true_iff, !wbc_beq_eq. tauto. Qed.
Lemma MidNum_iff w : is_MidNumLike w = true <-> MidNumQ w.
Proof. unfold is_MidNumLike, is_MidNumLetQ, MidNumQ, MidNumLetQ. rewrite !orb_true_iff, !wbc_beq_eq. tauto. Qed.

(** ** From the iterator to break flags *)
Fixpoint wflags (u : ucd) (st : wstate) (rest : list N) : list bool :=
  match rest with
  | [] => []
  | c :: rest' =>
      let '(brk, st') := word_breakable u c rest' st in
      brk :: wflags u (if brk then word_init u c st' else st') rest'
  end.

Lemma extend_word_group u st rest cur : let n := fst (extend_word u st rest) in
  let st' := snd (extend_word u st rest) in
  (n <= length rest)%nat /\
  group cur rest (wflags u st rest) =
    match skipn n rest with
    | [] => [rev cur ++ firstn n rest]
    | c :: r => (rev cur ++ firstn n rest) :: group [c] r (wflags u (word_init u c st') r)
    end.
Proof.
  revert st cur. induction rest as [|c rest IH]; intros st cur; cbn [extend_word wflags group].
  - cbn. rewrite app_nil_r. split; [lia|reflexivity].
  - destruct (word_breakable u c rest st) as [brk st'] eqn:E. destruct brk.
    + cbn. rewrite app_nil_r. split; [lia|reflexivity].
    + destruct (extend_word u st' rest) as [n st''] eqn:E2. specialize (IH st' (c :: cur)).
      rewrite E2 in IH. cbn [fst snd] in *. destruct IH as [H1 H2]. split; [cbn [length]; lia|].
      cbn [skipn firstn]. rewrite H2. cbn [rev]. rewrite <- !app_assoc. reflexivity.
Qed.

Definition words_from (u : ucd) (st : wstate) (t : list N) : list (list N) :=
  match t with [] => [[]] | c :: r => group [c] r (wflags u (word_init u c st) r) end.

Lemma wseg_collect_spec u text : forall fuel k st, (k <= length text)%nat -> (length text - k <= fuel)%nat ->
  wseg_collect u fuel (wseg_next u (mkWSeg text k k st)) = Ok (words_from u st (skipn k text)).
Proof.
  induction fuel as [|fuel IH]; intros k st Hk Hf.
  - assert (k = length text) by lia. subst k. unfold wseg_next. cbn [ws_right ws_text]. rewrite skipn_all. cbn [wseg_collect].
    unfold wseg_available. cbn [ws_right ws_text]. rewrite Nat.eqb_refl. cbn [negb]. unfold wseg_value. cbn. rewrite Nat.sub_diag. reflexivity.
  - unfold wseg_next. cbn [ws_right ws_text ws_state]. destruct (skipn k text) as [|c rest] eqn:E.
    + assert (k = length text) by (apply skipn_nil_iff in E; lia). subst k.
      cbn [wseg_collect]. unfold wseg_available. cbn [ws_right ws_text]. rewrite Nat.eqb_refl. cbn [negb]. unfold wseg_value. cbn.
      rewrite Nat.sub_diag. reflexivity.
    + destruct (extend_word u (word_init u c st) rest) as [n st'] eqn:E2.
      pose proof (extend_word_group u (word_init u c st) rest [c]) as HG. rewrite E2 in HG. cbn [fst snd] in HG. destruct HG as [Hn HG].
      assert (Hlen : length text = (k + 1 + length rest)%nat).
      { apply (f_equal (@length N)) in E. rewrite skipn_length in E. cbn [length] in E. lia. }
      assert (Hval : wseg_value (mkWSeg text k (k + 1 + n) st') = c :: firstn n rest).
      { unfold wseg_value. cbn [ws_right ws_left ws_text]. replace (k + 1 + n - k)%nat with (S n) by lia. rewrite E. reflexivity. }
      assert (Hsk : skipn (k + 1 + n) text = skipn n rest) by (apply (skipn_step _ _ _ _ _ E)).
      cbn [wseg_collect]. unfold wseg_available. cbn [ws_right ws_text].
      destruct (Nat.eqb_spec (k + 1 + n) (length text)) as [He|He]; cbn [negb].
      * rewrite Hval. cbn [words_from]. rewrite HG.
        replace (skipn n rest) with (@nil N) by (symmetry; apply skipn_nil_iff; lia). reflexivity.
      * assert (Hnx : wseg_next u (mkWSeg text k (k + 1 + n) st') = wseg_next u (mkWSeg text (k + 1 + n) (k + 1 + n) st')) by reflexivity.
        rewrite Hnx, IH by lia. cbn [bindR]. rewrite Hval, Hsk. cbn [words_from]. rewrite HG.
        destruct (skipn n rest) as [|c' r'] eqn:E3.
        -- apply skipn_nil_iff in E3. lia.
        -- reflexivity.
Qed.

Definition words_of (u : ucd) (t : list N) := words_from u wstate0 t.
Lemma word_segments_eq u text : word_segments u text = Ok (words_of u text).
Proof. unfold word_segments, wseg_make. rewrite wseg_collect_spec by lia. reflexivity. Qed.

Lemma wflags_length u st rest : length (wflags u st rest) = length rest.
Proof.
  revert st. induction rest as [|c rest IH]; intros st; cbn [wflags]; [reflexivity|].
  destruct (word_breakable u c rest st) as [brk st']. cbn [length]. rewrite IH. reflexivity.
Qed.

(** ** The effective text *)
Fixpoint eff (u : ucd) (before : list N) : list N :=
  match before with
  | [] => []
  | c :: r =>
      if is_transparent (p_wb (u c)) && match r with [] => false | p :: _ => negb (is_newline_class (p_wb (u p))) end
      then eff u r else c :: eff u r
  end.
Lemma skips_eff u before e : skips u before e <-> e = eff u before.
Proof.
  split.
  - induction 1 as [|c p r e Hc Hp _ IH|c r e Hc _ IH]; [reflexivity|..].
    + cbn [eff]. apply transparent_iff in Hc. rewrite Hc.
      assert (Hn : is_newline_class (p_wb (u p)) = false) by (destruct (is_newline_class (p_wb (u p))) eqn:E; [apply newline_iff in E; tauto|reflexivity]).
      rewrite Hn. cbn [andb negb]. exact IH.
    + cbn [eff]. replace (is_transparent (p_wb (u c)) && match r with [] => false | p :: _ => negb (is_newline_class (p_wb (u p))) end) with false.
      * congruence.
      * symmetry. apply andb_false_iff. destruct Hc as [Hc|[->|(p & r' & -> & Hp)]].
        -- left. destruct (is_transparent (p_wb (u c))) eqn:E; [apply transparent_iff in E; tauto|reflexivity].
        -- right. reflexivity.
        -- right. apply newline_iff in Hp. rewrite Hp. reflexivity.
  - revert e. induction before as [|c r IH]; intros e ->; cbn [eff]; [constructor|].
    destruct (is_transparent (p_wb (u c)) && match r with [] => false | p :: _ => negb (is_newline_class (p_wb (u p))) end) eqn:E.
    + apply andb_true_iff in E as [E1 E2]. destruct r as [|p r]; [discriminate|].
      apply skips_drop; [apply transparent_iff, E1| |apply IH; reflexivity].
      apply negb_true_iff in E2. intros H. apply newline_iff in H. congruence.
    + apply skips_keep; [|apply IH; reflexivity]. apply andb_false_iff in E as [E|E].
      * left. intros H. apply transparent_iff in H. congruence.
      * right. destruct r as [|p r]; [left; reflexivity|right]. exists p, r. split; [reflexivity|].
        apply negb_false_iff in E. apply newline_iff, E.
Qed.

Definition norm (w : wbc) : wbc := if is_transparent w then WOther else w.
Definition P1 (u : ucd) (before : list N) : wbc := match eff u before with a :: _ => norm (p_wb (u a)) | [] => WOther end.
Definition P2 (u : ucd) (before : list N) : wbc := match eff u before with _ :: a :: _ => norm (p_wb (u a)) | _ => WOther end.
Fixpoint lead_ri (u : ucd) (e : list N) : nat :=
  match e with c :: r => if wbc_beq (p_wb (u c)) WRI then S (lead_ri u r) else O | [] => O end.
Definition absorbed (u : ucd) (before : list N) : bool :=
  match before with
  | c :: p :: _ => is_transparent (p_wb (u c)) && negb (is_newline_class (p_wb (u p)))
  | _ => false
  end.

Definition fires (pp a b : wbc) : bool :=
  (is_MidLetterLike a && is_AHLetter b && is_AHLetter pp) || (wbc_beq a WDoubleQuote && wbc_beq b WHebrew && wbc_beq pp WHebrew)
  || (is_MidNumLike a && wbc_beq b WNumeric && wbc_beq pp WNumeric).
(** lookahead rules WB6, WB7b, WB12 *)
Definition ahead (a b : wbc) (nx : option wbc) : bool :=
  match nx with
  | None => false
  | Some n => (is_AHLetter a && is_MidLetterLike b && is_AHLetter n) || (wbc_beq a WHebrew && wbc_beq b WDoubleQuote && wbc_beq n WHebrew)
              || (wbc_beq a WNumeric && is_MidNumLike b && wbc_beq n WNumeric)
  end.
Definition pairwise (a b : wbc) (saw odd : bool) : bool :=
  (wbc_beq a WWSegSpace && wbc_beq b WWSegSpace && negb saw) || (is_AHLetter a && is_AHLetter b)
  || (wbc_beq a WHebrew && wbc_beq b WSingleQuote) || (wbc_beq a WNumeric && wbc_beq b WNumeric)
  || (is_AHLetter a && wbc_beq b WNumeric) || (wbc_beq a WNumeric && is_AHLetter b) || (wbc_beq a WKatakana && wbc_beq b WKatakana)
  || (wbc_beq b WExtendNumLet && (is_AHLetter a || wbc_beq a WNumeric || wbc_beq a WKatakana || wbc_beq a WExtendNumLet))
  || (wbc_beq a WExtendNumLet && (is_AHLetter b || wbc_beq b WNumeric || wbc_beq b WKatakana))
  || (wbc_beq a WRI && wbc_beq b WRI && odd).
Definition joins (a pp b : wbc) (saw odd : bool) (nx : option wbc) : bool := pairwise a b saw odd || fires pp a b || ahead a b nx.

(** the boolean form of the specification *)
Definition word_b (u : ucd) (before : list N) (b : N) (rest : list N) : bool :=
  match before with
  | [] => true
  | r :: _ =>
    let R := p_wb (u r) in let B := p_wb (u b) in
    negb (wbc_beq R WCR && wbc_beq B WLF) &&
    (is_newline_class R || is_newline_class B ||
     negb ((wbc_beq R WZWJ && p_extpic (u b)) || is_transparent B
           || joins (P1 u before) (P2 u before) B (absorbed u before) (Nat.odd (lead_ri u (eff u before))) (peek u rest)))
  end.

Lemma word_breakable_eq u c rest st :
  word_breakable u c rest st =
  let B := p_wb (u c) in let up := update_effective B st in
  if wbc_beq (w_raw st) WCR && wbc_beq B WLF then (false, up)
  else if is_newline_class (w_raw st) then (true, if is_transparent B then mkW B WOther WOther 0 (w_saw st) else up)
  else if is_newline_class B then (true, up)
  else if wbc_beq (w_raw st) WZWJ && p_extpic (u c) then (false, up)
  else if is_transparent B then (false, mkW B (w_prev st) (w_pp st) (w_ri st) true)
  else (negb (joins (w_prev st) (w_pp st) B (w_saw st) (w_ri st mod 2 =? 1) (peek u rest)), up).
Proof.
  unfold word_breakable. cbv zeta. set (B := p_wb (u c)). set (up := update_effective B st).
  destruct (wbc_beq (w_raw st) WCR && wbc_beq B WLF); [reflexivity|].
  destruct (is_newline_class (w_raw st)); [reflexivity|].
  destruct (is_newline_class B); [reflexivity|].
  destruct (wbc_beq (w_raw st) WZWJ && p_extpic (u c)); [reflexivity|].
  destruct (is_transparent B); [reflexivity|].
  unfold joins, pairwise, fires, ahead, peek_is.
  destruct (peek u rest) as [n|].
  - repeat match goal with |- (if ?x then (false, ?s) else _) = _ => let H := fresh "C" in destruct x eqn:H end;
    rewrite ?orb_true_r, ?orb_true_l, ?orb_false_l; cbn [negb]; try reflexivity.
  - rewrite !andb_false_r.
    repeat match goal with |- (if ?x then (false, ?s) else _) = _ => let H := fresh "C" in destruct x eqn:H end;
    rewrite ?orb_true_r, ?orb_true_l, ?orb_false_l; cbn [negb]; try reflexivity.
Qed.

Definition winv (u : ucd) (before rest : list N) (st : wstate) : Prop :=
  exists c r, before = c :: r /\ w_raw st = p_wb (u c) /\ w_prev st = P1 u before /\
    w_saw st = absorbed u before /\ w_ri st mod 2 = N.of_nat (lead_ri u (eff u before)) mod 2 /\
    (forall n, peek u rest = Some n -> fires (w_pp st) (w_prev st) n = fires (P2 u before) (w_prev st) n).

Lemma to_u8_mod2 n : to_u8 n mod 2 = n mod 2.
Proof.
  unfold to_u8. lia.
Qed.
Lemma odd_of_mod2 n m : n mod 2 = N.of_nat m mod 2 -> (n mod 2 =? 1) = Nat.odd m.
Proof.
  intros ->. destruct (Nat.odd m) eqn:E.
  - apply Nat.odd_spec in E. apply odd_mod2 in E. rewrite E. reflexivity.
  - destruct (N.eqb_spec (N.of_nat m mod 2) 1) as [K|K]; [|reflexivity].
    apply odd_mod2, Nat.odd_spec in K. congruence.
Qed.
Lemma fires_newline pp a b : is_newline_class pp = true -> fires pp a b = false.
Proof. destruct pp; try discriminate; intros _; unfold fires; cbn; rewrite !andb_false_r; reflexivity. Qed.
Lemma fires_other pp b : fires pp WOther b = false.
Proof. reflexivity. Qed.
Lemma fires_pp_other a b : fires WOther a b = false.
Proof. unfold fires. cbn. rewrite !andb_false_r. reflexivity. Qed.
Lemma norm_id w : is_transparent w = false -> norm w = w.
Proof. unfold norm. intros ->. reflexivity. Qed.

Lemma eff_keep u c before : is_transparent (p_wb (u c)) = false -> eff u (c :: before) = c :: eff u before.
Proof. intros H. cbn [eff]. rewrite H. reflexivity. Qed.

(** The state reached by update_effective on a non-transparent code point *)
Lemma up_inv u before rest st c : is_transparent (p_wb (u c)) = false -> winv u before (c :: rest) st ->
  winv u (c :: before) rest (update_effective (p_wb (u c)) st).
Proof.
  intros HT (r0 & r & Eb & Hraw & Hprev & Hsaw & Hri & Hf). exists c, before.
  unfold update_effective. cbn [w_raw w_prev w_pp w_ri w_saw]. split; [reflexivity|]. split; [reflexivity|].
  unfold P1, P2. rewrite (eff_keep u c before HT), (norm_id _ HT). split; [reflexivity|]. split; [|split].
  - cbn [absorbed]. destruct before; [reflexivity|]. rewrite HT. reflexivity.
  - cbn [lead_ri]. destruct (wbc_beq (p_wb (u c)) WRI); [|reflexivity]. rewrite to_u8_mod2. lia.
  - intros n Hn. f_equal. rewrite Hprev. unfold P1. destruct (eff u before); reflexivity.
Qed.

Lemma absorbed_step u c before : before <> [] ->
  is_transparent (p_wb (u c)) = true -> (exists p r, before = p :: r /\ is_newline_class (p_wb (u p)) = false) ->
  eff u (c :: before) = eff u before /\ absorbed u (c :: before) = true.
Proof.
  intros _ HT (p & r & -> & Hp). cbn [eff absorbed]. rewrite HT, Hp. cbn [andb negb]. split; reflexivity.
Qed.

Lemma eff_nonempty u before : before <> [] -> eff u before <> [].
Proof.
  induction before as [|c r IH]; [congruence|]. intros _. cbn [eff].
  destruct r as [|p r]; [rewrite andb_false_r; discriminate|].
  destruct (is_transparent (p_wb (u c)) && negb (is_newline_class (p_wb (u p)))); [apply IH; discriminate|discriminate].
Qed.

Lemma newline_not_transparent w : is_newline_class w = true -> is_transparent w = false.
Proof. destruct w; cbn; congruence. Qed.

(** The state of a fresh word_init after a break before [c] *)
Lemma init_inv u c before rest st : w_saw st = false ->
  (is_transparent (p_wb (u c)) = true -> match before with p :: _ => is_newline_class (p_wb (u p)) = true | [] => True end) ->
  (forall n, peek u rest = Some n -> fires (P1 u before) (p_wb (u c)) n = false) ->
  (p_wb (u c) = WRI -> Nat.odd (lead_ri u (eff u before)) = false) ->
  winv u (c :: before) rest (word_init u c st).
Proof.
  intros Hsaw HT Hf Hri. exists c, before. unfold word_init. split; [reflexivity|].
  destruct (is_transparent (p_wb (u c))) eqn:ET; cbn [w_raw w_prev w_pp w_ri w_saw].
  - assert (E : eff u (c :: before) = c :: eff u before /\ absorbed u (c :: before) = false).
    { cbn [eff absorbed]. rewrite ET. destruct before as [|p r]; [split; reflexivity|]. rewrite (HT eq_refl). split; reflexivity. }
    destruct E as [E1 E2]. split; [reflexivity|]. unfold P1, P2. rewrite E1, E2. unfold norm at 1 2. rewrite ET.
    split; [reflexivity|]. split; [assumption|]. split.
    + cbn [lead_ri]. destruct (p_wb (u c)); try discriminate ET; reflexivity.
    + intros n Hn. rewrite !fires_other. reflexivity.
  - split; [reflexivity|]. unfold P1, P2. rewrite (eff_keep u c before ET), (norm_id _ ET). split; [reflexivity|]. split; [|split].
    + rewrite Hsaw. cbn [absorbed]. rewrite ET. destruct before; reflexivity.
    + cbn [lead_ri]. destruct (wbc_beq (p_wb (u c)) WRI) eqn:ER; [|reflexivity]. apply wbc_beq_eq in ER. specialize (Hri ER).
      assert (K : N.of_nat (lead_ri u (eff u before)) mod 2 = 0).
      { destruct (N.eq_dec (N.of_nat (lead_ri u (eff u before)) mod 2) 1) as [K|K]; [|lia].
        apply odd_mod2, Nat.odd_spec in K. congruence. }
      lia.
    + intros n Hn. rewrite fires_pp_other. symmetry. specialize (Hf n Hn). unfold P1 in Hf.
      destruct (eff u before); [apply fires_pp_other|exact Hf].
Qed.

Lemma absorbed_false u c r : is_transparent (p_wb (u c)) = false -> absorbed u (c :: r) = false.
Proof. intros H. cbn [absorbed]. destruct r; [reflexivity|]. rewrite H. reflexivity. Qed.

Lemma lead_ri_head u before : P1 u before <> WRI -> lead_ri u (eff u before) = O.
Proof.
  unfold P1. destruct (eff u before) as [|a e]; [reflexivity|]. intros H. cbn [lead_ri].
  destruct (wbc_beq (p_wb (u a)) WRI) eqn:E; [|reflexivity]. apply wbc_beq_eq in E. rewrite E in H. cbn in H. congruence.
Qed.

Lemma word_breakable_spec u before rest st c : ucd_word_ok u -> winv u before (c :: rest) st ->
  let '(brk, st') := word_breakable u c rest st in
  brk = word_b u before c rest /\ winv u (c :: before) rest (if brk then word_init u c st' else st').
Proof.
  intros OK I. pose proof I as (r0 & r & Eb & Hraw & Hprev & Hsaw & Hri & Hf).
  rewrite word_breakable_eq. cbv zeta. unfold word_b. subst before. rewrite <- Hraw.
  set (B := p_wb (u c)).
  destruct (wbc_beq (w_raw st) WCR && wbc_beq B WLF) eqn:E3.
  { split; [reflexivity|]. apply up_inv; [|exact I]. apply andb_true_iff in E3 as [_ E3]. apply wbc_beq_eq in E3. fold B. rewrite E3. reflexivity. }
  destruct (is_newline_class (w_raw st)) eqn:ENR.
  { split; [reflexivity|]. rewrite Hraw in ENR.
    assert (HS : w_saw st = false) by (rewrite Hsaw; apply absorbed_false, newline_not_transparent, ENR).
    assert (HP : P1 u (r0 :: r) = p_wb (u r0)).
    { unfold P1. rewrite eff_keep, norm_id by (apply newline_not_transparent, ENR). reflexivity. }
    apply init_inv.
    - destruct (is_transparent B); [exact HS|reflexivity].
    - intros _. exact ENR.
    - intros n _. rewrite HP. apply fires_newline, ENR.
    - intros _. rewrite lead_ri_head; [reflexivity|]. rewrite HP. intros K. rewrite K in ENR. discriminate. }
  destruct (is_newline_class B) eqn:ENB.
  { split; [reflexivity|]. apply init_inv.
    - reflexivity.
    - fold B. intros K. apply newline_not_transparent in ENB. congruence.
    - intros n _. fold B. destruct B; try discriminate ENB; reflexivity.
    - intros K. fold B in K. rewrite K in ENB. discriminate. }
  cbn [orb negb andb].
  destruct (wbc_beq (w_raw st) WZWJ && p_extpic (u c)) eqn:E3c.
  { split; [reflexivity|]. apply up_inv; [|exact I]. apply andb_true_iff in E3c as [_ E3c]. apply OK in E3c.
    destruct (is_transparent (p_wb (u c))) eqn:ET; [|reflexivity]. apply transparent_iff in ET. tauto. }
  destruct (is_transparent B) eqn:ET.
  { split; [reflexivity|]. destruct (absorbed_step u c (r0 :: r)) as [E1 E2]; [discriminate|exact ET|exists r0, r; rewrite <- Hraw; auto|].
    exists c, (r0 :: r). cbn [w_raw w_prev w_pp w_ri w_saw]. unfold P1, P2. rewrite E1, E2.
    split; [reflexivity|]. split; [reflexivity|]. split; [exact Hprev|]. split; [reflexivity|]. split; [exact Hri|].
    intros n Hn. apply Hf. cbn [peek]. fold B. rewrite ET. exact Hn. }
  cbn [orb].
  assert (EJ : joins (w_prev st) (w_pp st) B (w_saw st) (w_ri st mod 2 =? 1) (peek u rest) =
               joins (P1 u (r0 :: r)) (P2 u (r0 :: r)) B (absorbed u (r0 :: r)) (Nat.odd (lead_ri u (eff u (r0 :: r)))) (peek u rest)).
  { unfold joins. rewrite (Hf B) by (cbn [peek]; fold B; rewrite ET; reflexivity). rewrite (odd_of_mod2 _ _ Hri), Hsaw, Hprev. reflexivity. }
  rewrite EJ. split; [reflexivity|].
  destruct (joins (P1 u (r0 :: r)) (P2 u (r0 :: r)) B (absorbed u (r0 :: r)) (Nat.odd (lead_ri u (eff u (r0 :: r)))) (peek u rest)) eqn:EJ2; cbn [negb].
  - apply up_inv; assumption.
  - unfold joins in EJ2. apply orb_false_iff in EJ2 as [EJ2 EA]. apply orb_false_iff in EJ2 as [EP _].
    apply init_inv.
    + reflexivity.
    + fold B. congruence.
    + intros n Hn. rewrite Hn in EA. fold B. unfold ahead in EA. unfold fires.
      rewrite <- EA. f_equal; [f_equal|].
      * rewrite <- !andb_assoc. rewrite (andb_comm (is_AHLetter (P1 u (r0 :: r)))), <- !andb_assoc. reflexivity.
      * rewrite <- !andb_assoc. rewrite (andb_comm (wbc_beq (P1 u (r0 :: r)) WHebrew)), <- !andb_assoc. reflexivity.
      * rewrite <- !andb_assoc. rewrite (andb_comm (wbc_beq (P1 u (r0 :: r)) WNumeric)), <- !andb_assoc. reflexivity.
    + fold B. intros K. unfold pairwise in EP. apply orb_false_iff in EP as [_ EP]. rewrite K in EP. cbn [wbc_beq] in EP. rewrite andb_true_r in EP.
      destruct (wbc_beq (P1 u (r0 :: r)) WRI) eqn:ER; [exact EP|]. rewrite lead_ri_head; [reflexivity|].
      intros K2. rewrite K2 in ER. discriminate.
Qed.

(** ** The boolean form is the specification *)
Lemma norm_f (f : wbc -> bool) w : f WExtend = false -> f WFormat = false -> f WZWJ = false -> f WOther = false -> f (norm w) = f w.
Proof. intros H1 H2 H3 H4. unfold norm. destruct w; cbn; congruence. Qed.

Lemma prev1_b u before (f : wbc -> bool) (F : wbc -> Prop) : (forall w, f w = true <-> F w) ->
  f WExtend = false -> f WFormat = false -> f WZWJ = false -> f WOther = false ->
  (prev1 u before F <-> f (P1 u before) = true).
Proof.
  intros HF H1 H2 H3 H4. unfold prev1, P1. split.
  - intros (a & e & Hs & Ha). apply skips_eff in Hs. rewrite <- Hs. rewrite norm_f by assumption. apply HF, Ha.
  - destruct (eff u before) as [|a e] eqn:E; [congruence|]. rewrite norm_f by assumption. intros H.
    exists a, e. split; [apply skips_eff; congruence|apply HF, H].
Qed.
Lemma prev2_b u before (f2 f1 : wbc -> bool) (F2 F1 : wbc -> Prop) : (forall w, f1 w = true <-> F1 w) -> (forall w, f2 w = true <-> F2 w) ->
  f1 WExtend = false -> f1 WFormat = false -> f1 WZWJ = false -> f1 WOther = false ->
  f2 WExtend = false -> f2 WFormat = false -> f2 WZWJ = false -> f2 WOther = false ->
  (prev2 u before F2 F1 <-> f1 (P1 u before) = true /\ f2 (P2 u before) = true).
Proof.
  intros HF1 HF2 A1 A2 A3 A4 B1 B2 B3 B4. unfold prev2, P1, P2. split.
  - intros (a2 & a1 & e & Hs & Ha2 & Ha1). apply skips_eff in Hs. rewrite <- Hs. rewrite !norm_f by assumption.
    split; [apply HF1, Ha1|apply HF2, Ha2].
  - destruct (eff u before) as [|a1 [|a2 e]] eqn:E; intros [K1 K2]; try congruence. rewrite norm_f in K1, K2 by assumption.
    exists a2, a1, e. split; [apply skips_eff; congruence|split; [apply HF2, K2|apply HF1, K1]].
Qed.
Lemma next1_b u rest (f : wbc -> bool) (F : wbc -> Prop) : (forall w, f w = true <-> F w) ->
  (next1 u rest F <-> exists n, peek u rest = Some n /\ f n = true).
Proof.
  intros HF. unfold next1. induction rest as [|c rest IH]; cbn [peek].
  - split; [intros (ts & b & r & E & _); destruct ts; discriminate|intros (n & H & _); discriminate].
  - destruct (is_transparent (p_wb (u c))) eqn:ET.
    + rewrite <- IH. split.
      * intros (ts & b & r & E & A1 & A2 & A3). destruct ts as [|t ts].
        -- injection E as -> ->. apply transparent_iff in ET. tauto.
        -- injection E as -> ->. inversion A1; subst. exists ts, b, r. auto.
      * intros (ts & b & r & E & A1 & A2 & A3). exists (c :: ts), b, r. rewrite E. repeat split; auto.
        constructor; [apply transparent_iff, ET|exact A1].
    + split.
      * intros (ts & b & r & E & A1 & A2 & A3). destruct ts as [|t ts].
        -- injection E as -> ->. exists (p_wb (u b)). split; [reflexivity|apply HF, A3].
        -- injection E as -> ->. inversion A1 as [|? ? K _]; subst. apply transparent_iff in K. congruence.
      * intros (n & H & Hn). injection H as <-. exists [], c, rest. repeat split; [constructor| |apply HF, Hn].
        intros K. apply transparent_iff in K. congruence.
Qed.
Lemma raw1_b u before (f : wbc -> bool) (F : wbc -> Prop) : (forall w, f w = true <-> F w) ->
  forall c r, before = c :: r -> (raw1 u before F <-> f (p_wb (u c)) = true).
Proof.
  intros HF c r ->. unfold raw1. split.
  - intros (a & r' & E & H). injection E as <- <-. apply HF, H.
  - intros H. exists c, r. split; [reflexivity|apply HF, H].
Qed.
Lemma is_iff w x : wbc_beq x w = true <-> is w x.
Proof. unfold is. apply wbc_beq_eq. Qed.

Lemma lead_ri_split u e : exists ris e', e = ris ++ e' /\ Forall (fun c => p_wb (u c) = WRI) ris /\ length ris = lead_ri u e /\
  (forall x r, e' = x :: r -> p_wb (u x) <> WRI).
Proof.
  induction e as [|c e IH]; cbn [lead_ri].
  - exists [], []. repeat split; auto. intros; discriminate.
  - destruct (wbc_beq (p_wb (u c)) WRI) eqn:E.
    + destruct IH as (ris & e' & -> & A1 & A2 & A3). exists (c :: ris), e'. repeat split; [|cbn; lia|exact A3].
      constructor; [apply wbc_beq_eq, E|exact A1].
    + exists [], (c :: e). repeat split; [constructor|]. intros x r K H. injection K as -> ->. rewrite H in E. discriminate.
Qed.
Lemma lead_ri_unique u : forall ris e, Forall (fun c => p_wb (u c) = WRI) ris -> (forall x r, e = x :: r -> p_wb (u x) <> WRI) ->
  lead_ri u (ris ++ e) = length ris.
Proof.
  induction ris as [|c ris IH]; intros e HF He; cbn [app lead_ri length].
  - destruct e as [|x e]; [reflexivity|]. cbn [lead_ri]. destruct (wbc_beq (p_wb (u x)) WRI) eqn:E; [|reflexivity].
    apply wbc_beq_eq in E. exfalso. eapply He; eauto.
  - inversion HF as [|? ? Hc HF']; subst. rewrite Hc. cbn [wbc_beq]. rewrite IH; auto.
Qed.

Lemma word_b_iff u c r b rest : word_b u (c :: r) b rest = true <-> word_boundary u (c :: r) b rest.
Proof.
  set (before := c :: r). assert (EB : before = c :: r) by reflexivity.
  unfold word_boundary, no_break, WB3, WB3a, WB3b, WB3c, WB3d, WB4, WB5, WB6, WB7, WB7a, WB7b, WB7c, WB8, WB9, WB10, WB11, WB12, WB13, WB13a, WB13b.
  rewrite (raw1_b u before (fun w => wbc_beq w WCR) _ (is_iff WCR) c r EB).
  rewrite (raw1_b u before is_newline_class _ newline_iff c r EB).
  rewrite (raw1_b u before (fun w => wbc_beq w WZWJ) _ (is_iff WZWJ) c r EB).
  rewrite (raw1_b u before (fun w => wbc_beq w WWSegSpace) _ (is_iff WWSegSpace) c r EB).
  rewrite !(prev1_b u before is_AHLetter _ AHLetter_iff) by reflexivity.
  rewrite !(prev1_b u before (fun w => wbc_beq w WHebrew) _ (is_iff WHebrew)) by reflexivity.
  rewrite !(prev1_b u before (fun w => wbc_beq w WNumeric) _ (is_iff WNumeric)) by reflexivity.
  rewrite !(prev1_b u before (fun w => wbc_beq w WKatakana) _ (is_iff WKatakana)) by reflexivity.
  rewrite !(prev1_b u before (fun w => wbc_beq w WExtendNumLet) _ (is_iff WExtendNumLet)) by reflexivity.
  rewrite !(prev1_b u before (fun w => is_AHLetter w || wbc_beq w WNumeric || wbc_beq w WKatakana || wbc_beq w WExtendNumLet)
       (fun w => AHLetter w \/ w = WNumeric \/ w = WKatakana \/ w = WExtendNumLet))
    by (reflexivity || (intros w; rewrite !orb_true_iff, AHLetter_iff, !wbc_beq_eq; tauto)).
  rewrite (prev2_b u before is_AHLetter is_MidLetterLike _ _ MidLetter_iff AHLetter_iff) by reflexivity.
  rewrite (prev2_b u before (fun w => wbc_beq w WHebrew) (fun w => wbc_beq w WDoubleQuote) _ _ (is_iff WDoubleQuote) (is_iff WHebrew)) by reflexivity.
  rewrite (prev2_b u before (fun w => wbc_beq w WNumeric) is_MidNumLike _ _ MidNum_iff (is_iff WNumeric)) by reflexivity.
  rewrite (next1_b u rest is_AHLetter _ AHLetter_iff).
  rewrite (next1_b u rest (fun w => wbc_beq w WHebrew) _ (is_iff WHebrew)).
  rewrite (next1_b u rest (fun w => wbc_beq w WNumeric) _ (is_iff WNumeric)).
  assert (E15 : WB15_16 u before b rest <-> (wbc_beq (P1 u before) WRI = true /\ p_wb (u b) = WRI) /\ Nat.odd (lead_ri u (eff u before)) = true).
  { unfold WB15_16. split.
    - intros (ris & e & Hs & A1 & A2 & A3 & A4). apply skips_eff in Hs.
      assert (K : lead_ri u (eff u before) = length ris) by (rewrite <- Hs; apply lead_ri_unique; assumption).
      rewrite K. split; [split; [|exact A4]|apply Nat.odd_spec, A2].
      destruct ris as [|x ris]; [destruct A2 as [? A2]; cbn in A2; lia|]. unfold P1. rewrite <- Hs. cbn [app].
      inversion A1 as [|? ? Hx _]; subst. rewrite Hx. reflexivity.
    - intros ((_ & A4) & A2). destruct (lead_ri_split u (eff u before)) as (ris & e & E & A1 & L & A3).
      exists ris, e. rewrite <- L in A2. repeat split; auto; [apply skips_eff; congruence|apply Nat.odd_spec, A2]. }
  rewrite E15. clear E15.
  (* WB3d: raw adjacency *)
  assert (ED : wbc_beq (p_wb (u c)) WWSegSpace = true <-> wbc_beq (P1 u before) WWSegSpace = true /\ absorbed u before = false).
  { unfold P1, before. split.
    - intros H. apply wbc_beq_eq in H. assert (HT : is_transparent (p_wb (u c)) = false) by (rewrite H; reflexivity).
      rewrite (eff_keep u c r HT), (norm_id _ HT), H. split; [reflexivity|apply absorbed_false, HT].
    - intros [H1 H2]. cbn [absorbed eff] in *. destruct r as [|p r].
      + rewrite andb_false_r in H1. unfold norm in H1. destruct (is_transparent (p_wb (u c))); [discriminate|exact H1].
      + rewrite H2 in H1. unfold norm in H1. destruct (is_transparent (p_wb (u c))); [discriminate|exact H1]. }
  unfold word_b. unfold before at 1. cbv match. fold before. cbv zeta.
  rewrite andb_true_iff, !orb_true_iff, !negb_iff, !orb_true_iff, !andb_true_iff.
  rewrite transparent_iff, (newline_iff (p_wb (u b))).
  unfold joins, pairwise, fires. rewrite !orb_true_iff, !andb_true_iff, !orb_true_iff, !negb_true_iff.
  assert (EA : ahead (P1 u before) (p_wb (u b)) (peek u rest) = true <->
     (is_AHLetter (P1 u before) = true /\ MidLetterQ (p_wb (u b)) /\ exists n, peek u rest = Some n /\ is_AHLetter n = true) \/
     (wbc_beq (P1 u before) WHebrew = true /\ p_wb (u b) = WDoubleQuote /\ exists n, peek u rest = Some n /\ wbc_beq n WHebrew = true) \/
     (wbc_beq (P1 u before) WNumeric = true /\ MidNumQ (p_wb (u b)) /\ exists n, peek u rest = Some n /\ wbc_beq n WNumeric = true)).
  { unfold ahead. destruct (peek u rest) as [n|].
    - rewrite !orb_true_iff, !andb_true_iff, MidLetter_iff, MidNum_iff. rewrite !(wbc_beq_eq (p_wb (u b))).
      split.
      + intros [[H|H]|H]; [left|right; left|right; right]; (repeat split; try tauto; exists n; tauto).
      + intros [(A1 & A2 & m & E & A3)|[(A1 & A2 & m & E & A3)|(A1 & A2 & m & E & A3)]]; injection E as ->; tauto.
    - split; [discriminate|]. intros [(A1 & A2 & m & E & A3)|[(A1 & A2 & m & E & A3)|(A1 & A2 & m & E & A3)]]; discriminate. }
  rewrite EA. clear EA. rewrite !(wbc_beq_eq (p_wb (u b))), !(AHLetter_iff (p_wb (u b))). rewrite ED.
  clear. tauto.
Qed.

Lemma wflags_spec u : ucd_word_ok u -> forall rest before st, winv u before rest st ->
  forall k b post, rest = firstn k rest ++ b :: post -> (k < length rest)%nat ->
  nth_error (wflags u st rest) k = Some (word_b u (rev (firstn k rest) ++ before) b post).
Proof.
  intros OK. induction rest as [|c rest IH]; intros before st I k b post E Hk; [cbn in Hk; lia|].
  pose proof (word_breakable_spec u before rest st c OK I) as S. cbn [wflags].
  destruct (word_breakable u c rest st) as [brk st']. destruct S as [S1 S2].
  destruct k as [|k].
  - cbn [firstn app] in E. injection E as -> <-. cbn. f_equal. exact S1.
  - cbn [firstn app] in E. injection E as E. cbn [nth_error firstn rev]. rewrite <- app_assoc. cbn [app].
    eapply IH; [exact S2|exact E|]. cbn in Hk. lia.
Qed.

Lemma word_init_inv u c rest : winv u [c] rest (word_init u c wstate0).
Proof.
  apply init_inv; [reflexivity| | |].
  - intros _. exact I.
  - intros n _. unfold P1. cbn [eff]. apply fires_pp_other.
  - intros _. reflexivity.
Qed.

Lemma words_cuts u text k : ucd_word_ok u -> text <> [] ->
  (cut_at (words_of u text) k <-> word_boundary_at u text k).
Proof.
  intros OK Hne. destruct text as [|c rest]; [congruence|]. unfold words_of. cbn [words_from].
  rewrite group_cuts by (rewrite ?wflags_length; try reflexivity; discriminate). cbn [length].
  unfold word_boundary_at. cbn [length]. split.
  - intros [H|[H|[H1 H2]]]; [auto|right; left; lia|]. right; right.
    destruct k as [|k]; [lia|]. replace (S k - 1)%nat with k in H2 by lia.
    assert (Hk : (k < length rest)%nat).
    { assert (K : nth_error (wflags u (word_init u c wstate0) rest) k <> None) by congruence. apply nth_error_Some in K.
      rewrite wflags_length in K. exact K. }
    destruct (split_at rest k Hk) as (b & post & E). exists b, post. cbn [firstn app]. split; [f_equal; exact E|]. split; [lia|].
    rewrite (wflags_spec u OK rest [c] _ (word_init_inv u c rest) k b post E Hk) in H2. injection H2 as H2.
    cbn [rev]. destruct (rev (firstn k rest) ++ [c]) as [|a r] eqn:E2; [destruct (rev (firstn k rest)); discriminate|].
    apply word_b_iff in H2; assumption.
  - intros [H|[H|(b & post & E & Hk & H)]]; [auto|right; left; lia|]. destruct k as [|k]; [auto|]. right; right. split; [lia|].
    replace (S k - 1)%nat with k by lia. cbn [firstn app] in E. injection E as E.
    rewrite (wflags_spec u OK rest [c] _ (word_init_inv u c rest) k b post E) by lia.
    f_equal. cbn [firstn rev] in H. destruct (rev (firstn k rest) ++ [c]) as [|a r] eqn:E2; [destruct (rev (firstn k rest)); discriminate|].
    apply word_b_iff; assumption.
Qed.
