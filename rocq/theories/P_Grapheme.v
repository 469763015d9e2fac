(** Proofs about the grapheme segmenter. *)
From Verif Require Import Base M_Ucd M_Grapheme Spec_Grapheme.
Open Scope N_scope.

Lemma gcb_beq_eq a b : gcb_beq a b = true <-> a = b.
Proof. split; [apply internal_gcb_dec_bl|apply internal_gcb_dec_lb]. Qed.
Lemma gcb_beq_refl a : gcb_beq a a = true.
Proof. apply gcb_beq_eq; reflexivity. Qed.
Lemma incb_beq_eq a b : incb_beq a b = true <-> a = b.
Proof. split; [apply internal_incb_dec_bl|apply internal_incb_dec_lb]. Qed.
Lemma is_ctl_iff g : is_ctl g = true <-> ctl g.
Proof. unfold is_ctl, ctl. rewrite !orb_true_iff, !gcb_beq_eq. tauto. Qed.

(** ** Break flags: one answer per code point after the first, re-initialising after every break. *)
Fixpoint flags (u : ucd) (st : gstate) (rest : list N) : list bool :=
  match rest with
  | [] => []
  | c :: rest' =>
      let '(brk, st') := process_breakable u c st in
      brk :: flags u (if brk then process_init u c else st') rest'
  end.

(** Grouping a text by break flags; [cur] is the cluster under construction (reversed). *)
Fixpoint group {A} (cur : list A) (rest : list A) (fl : list bool) : list (list A) :=
  match rest, fl with
  | c :: rest', true :: fl' => rev cur :: group [c] rest' fl'
  | c :: rest', false :: fl' => group (c :: cur) rest' fl'
  | _, _ => [rev cur]
  end.

Lemma extend_group u st rest cur : let n := fst (extend_cluster u st rest) in
  (n <= length rest)%nat /\
  group cur rest (flags u st rest) =
    match skipn n rest with
    | [] => [rev cur ++ firstn n rest]
    | c :: r => (rev cur ++ firstn n rest) :: group [c] r (flags u (process_init u c) r)
    end.
Proof.
  revert st cur. induction rest as [|c rest IH]; intros st cur; cbn [extend_cluster flags group].
  - cbn. rewrite app_nil_r. split; [lia|reflexivity].
  - destruct (process_breakable u c st) as [brk st'] eqn:E. destruct brk.
    + cbn. rewrite app_nil_r. split; [lia|reflexivity].
    + destruct (extend_cluster u st' rest) as [n st''] eqn:E2. specialize (IH st' (c :: cur)).
      rewrite E2 in IH. cbn [fst] in *. destruct IH as [H1 H2]. split; [cbn [length]; lia|].
      cbn [skipn firstn]. rewrite H2. cbn [rev]. rewrite <- !app_assoc. reflexivity.
Qed.

(** The remaining clusters from offset [k]. *)
Definition clusters_of (u : ucd) (t : list N) : list (list N) :=
  match t with [] => [[]] | c :: r => group [c] r (flags u (process_init u c) r) end.

Lemma skipn_nil_iff {A} n (l : list A) : skipn n l = [] <-> (length l <= n)%nat.
Proof.
  split; intros H.
  - apply (f_equal (@length A)) in H. rewrite skipn_length in H. cbn in H. lia.
  - apply skipn_all2, H.
Qed.

Lemma skipn_step {A} (c : A) rest n : forall k l, skipn k l = c :: rest -> skipn (k + 1 + n) l = skipn n rest.
Proof.
  induction k as [|k IH]; intros l E.
  - cbn [skipn] in E. subst l. reflexivity.
  - destruct l as [|x l]; [discriminate|]. cbn [skipn] in E. cbn [Nat.add skipn]. apply IH, E.
Qed.

Lemma seg_collect_spec u text : forall fuel k st, (k <= length text)%nat -> (length text - k <= fuel)%nat ->
  seg_collect u (fuel) (seg_next u (mkSeg text k k st)) = Ok (clusters_of u (skipn k text)).
Proof.
  induction fuel as [|fuel IH]; intros k st Hk Hf.
  - assert (k = length text) by lia. subst k. unfold seg_next. cbn [sg_right sg_text]. rewrite skipn_all. cbn [seg_collect].
    unfold seg_available. cbn [sg_right sg_text]. rewrite Nat.eqb_refl. cbn [negb]. unfold seg_value. cbn. rewrite Nat.sub_diag. reflexivity.
  - unfold seg_next. cbn [sg_right sg_text sg_state]. destruct (skipn k text) as [|c rest] eqn:E.
    + assert (k = length text) by (apply skipn_nil_iff in E; lia). subst k.
      cbn [seg_collect]. unfold seg_available. cbn [sg_right sg_text]. rewrite Nat.eqb_refl. cbn [negb]. unfold seg_value. cbn.
      rewrite Nat.sub_diag. reflexivity.
    + destruct (extend_cluster u (process_init u c) rest) as [n st'] eqn:E2.
      pose proof (extend_group u (process_init u c) rest [c]) as HG. rewrite E2 in HG. cbn [fst] in HG. destruct HG as [Hn HG].
      assert (Hlen : length text = (k + 1 + length rest)%nat).
      { apply (f_equal (@length N)) in E. rewrite skipn_length in E. cbn [length] in E. lia. }
      assert (Hval : seg_value (mkSeg text k (k + 1 + n) st') = c :: firstn n rest).
      { unfold seg_value. cbn [sg_right sg_left sg_text]. replace (k + 1 + n - k)%nat with (S n) by lia. rewrite E. reflexivity. }
      assert (Hsk : skipn (k + 1 + n) text = skipn n rest).
      { apply (skipn_step _ _ _ _ _ E). }
      cbn [seg_collect]. unfold seg_available. cbn [sg_right sg_text].
      destruct (Nat.eqb_spec (k + 1 + n) (length text)) as [He|He]; cbn [negb].
      * rewrite Hval. cbn [clusters_of]. rewrite HG.
        replace (skipn n rest) with (@nil N) by (symmetry; apply skipn_nil_iff; lia). reflexivity.
      * assert (Hnx : seg_next u (mkSeg text k (k + 1 + n) st') = seg_next u (mkSeg text (k + 1 + n) (k + 1 + n) st')) by reflexivity.
        rewrite Hnx, IH by lia. cbn [bindR]. rewrite Hval, Hsk. cbn [clusters_of]. rewrite HG.
        destruct (skipn n rest) as [|c' r'] eqn:E3.
        -- apply skipn_nil_iff in E3. lia.
        -- reflexivity.
Qed.

Lemma grapheme_clusters_eq u text : grapheme_clusters u text = Ok (clusters_of u text).
Proof.
  unfold grapheme_clusters, seg_make. rewrite seg_collect_spec by lia. reflexivity.
Qed.

Lemma flags_length u st rest : length (flags u st rest) = length rest.
Proof.
  revert st. induction rest as [|c rest IH]; intros st; cbn [flags]; [reflexivity|].
  destruct (process_breakable u c st) as [brk st']. cbn [length]. rewrite IH. reflexivity.
Qed.

Lemma group_concat {A} (rest : list A) : forall cur fl, length fl = length rest ->
  concat (group cur rest fl) = rev cur ++ rest.
Proof.
  induction rest as [|c rest IH]; intros cur fl Hl; destruct fl as [|b fl]; try discriminate; cbn [group].
  - cbn. reflexivity.
  - cbn [length] in Hl. destruct b.
    + cbn [concat]. rewrite IH by lia. cbn [rev app]. reflexivity.
    + rewrite IH by lia. cbn [rev]. rewrite <- app_assoc. reflexivity.
Qed.
Lemma group_nonempty {A} (rest : list A) : forall cur fl, cur <> [] ->
  Forall (fun c => c <> []) (group cur rest fl).
Proof.
  assert (Hr : forall cur : list A, cur <> [] -> rev cur <> []).
  { intros cur H E. apply H. rewrite <- (rev_involutive cur), E. reflexivity. }
  induction rest as [|c rest IH]; intros cur fl Hc; destruct fl as [|b fl]; cbn [group]; auto.
  destruct b; [constructor; [auto|]|]; apply IH; discriminate.
Qed.
Lemma group_length {A} (rest : list A) : forall cur fl, (length (group cur rest fl) <= S (length rest))%nat.
Proof.
  induction rest as [|c rest IH]; intros cur fl; destruct fl as [|b fl]; cbn [group length]; try lia.
  destruct b; cbn [length]; [specialize (IH [c] fl)|specialize (IH (c :: cur) fl)]; lia.
Qed.

(** cut positions of a grouping are exactly the set flags *)
Lemma cut_at_cons {A} (p : list A) ps k : cut_at (p :: ps) k <-> k = O \/ (length p <= k /\ cut_at ps (k - length p))%nat.
Proof.
  split.
  - intros (l1 & l2 & E & H). destruct l1 as [|q l1]; [left; cbn in H; lia|]. right.
    injection E as <- E. cbn [concat] in H. rewrite app_length in H. split; [lia|]. exists l1, l2. split; [assumption|lia].
  - intros [->|[H (l1 & l2 & E & H2)]].
    + exists [], (p :: ps). split; reflexivity.
    + exists (p :: l1), l2. rewrite E. split; [reflexivity|]. cbn [concat]. rewrite app_length. lia.
Qed.
Lemma cut_at_nil {A} k : cut_at (@nil (list A)) k <-> k = O.
Proof.
  split.
  - intros (l1 & l2 & E & H). symmetry in E. apply app_eq_nil in E as [-> ->]. cbn in H. lia.
  - intros ->. exists [], []. split; reflexivity.
Qed.

Lemma group_cuts {A} (rest : list A) : forall cur fl k, length fl = length rest -> cur <> [] ->
  cut_at (group cur rest fl) k <->
  k = O \/ k = (length cur + length rest)%nat \/
  ((length cur <= k)%nat /\ nth_error fl (k - length cur) = Some true).
Proof.
  induction rest as [|c rest IH]; intros cur fl k Hl Hc; destruct fl as [|b fl]; try discriminate; cbn [group].
  - rewrite cut_at_cons, cut_at_nil, rev_length. split; [intros [H|H]; [left; assumption|right; left; cbn; lia]|].
    intros [H|[H|[_ H]]]; [left; assumption|right; cbn in H; lia|]. destruct (k - length cur)%nat; discriminate.
  - cbn [length] in Hl. assert (Hcl : (1 <= length cur)%nat) by (destruct cur; [congruence|cbn; lia]). destruct b.
    + rewrite cut_at_cons, rev_length, IH by (try lia; discriminate). cbn [length].
      destruct (Nat.lt_ge_cases k (length cur)) as [Hk|Hk].
      * split; [intros [H|[H _]]; lia|]. intros [H|[H|[H _]]]; try lia. 
      * split.
        -- intros [H|[_ [H|[H|[H1 H2]]]]]; [left; assumption|..].
           ++ right; right. split; [assumption|]. rewrite H. reflexivity.
           ++ right; left. lia.
           ++ right; right. split; [assumption|]. destruct (k - length cur)%nat as [|j] eqn:Ej; [reflexivity|].
              cbn [nth_error]. replace (S j - 1)%nat with j in H2 by lia. assumption.
        -- intros [H|[H|[_ H]]]; [left; assumption|right; split; [assumption|]; right; left; lia|].
           right. split; [assumption|]. destruct (k - length cur)%nat as [|j] eqn:Ej; [left; reflexivity|].
           right. right. split; [lia|]. replace (S j - 1)%nat with j by lia. exact H.
    + rewrite IH by (try lia; discriminate). cbn [length]. split.
      * intros [H|[H|[H1 H2]]]; [left; assumption|right; left; lia|]. right; right. split; [lia|].
        replace (k - length cur)%nat with (S (k - S (length cur))) by lia. exact H2.
      * intros [H|[H|[H1 H2]]]; [left; assumption|right; left; lia|]. right; right.
        destruct (k - length cur)%nat as [|j] eqn:Ej; [discriminate|]. split; [lia|].
        replace (k - S (length cur))%nat with j by lia. exact H2.
Qed.

(** ** What the state remembers about the text *)
Fixpoint ist (u : ucd) (before : list N) : N :=
  match before with [] => 0 | c :: r => incb_update (p_incb (u c)) (ist u r) end.
Fixpoint est (u : ucd) (before : list N) : N :=
  match before with [] => 0 | c :: r => ext_update (u c) (est u r) end.
Fixpoint rst (u : ucd) (before : list N) : N :=
  match before with
  | [] => 0
  | c :: r => if gcb_beq (p_gcb (u c)) GRI then
                match r with
                | [] => 1
                | p :: _ => if gcb_beq (p_gcb (u p)) GPrepend then 0 else (rst u r + 1) mod 2
                end
              else 0
  end.

Lemma ist_range u before : ist u before = 0 \/ ist u before = 1 \/ ist u before = 2.
Proof.
  induction before as [|c r IH]; cbn [ist]; [auto|]. unfold incb_update.
  destruct (p_incb (u c)); auto; destruct (1 <=? ist u r); auto.
Qed.
Lemma est_range u before : est u before = 0 \/ est u before = 1.
Proof.
  induction before as [|c r IH]; cbn [est]; [auto|]. unfold ext_update.
  destruct IH as [-> | ->]; destruct (p_extpic (u c)); cbn; auto.
  destruct (gcb_beq (p_gcb (u c)) GExtend || gcb_beq (p_gcb (u c)) GZWJ); cbn; auto.
Qed.
Lemma rst_range u before : rst u before = 0 \/ rst u before = 1.
Proof.
  destruct before as [|c r]; cbn [rst]; [auto|]. destruct (gcb_beq (p_gcb (u c)) GRI); [|auto].
  destruct r as [|p r]; [auto|]. destruct (gcb_beq (p_gcb (u p)) GPrepend); [auto|].
  assert ((rst u (p :: r) + 1) mod 2 < 2) by (apply N.mod_lt; lia). lia.
Qed.

Definition mid (u : ucd) (x : N) : Prop := p_incb (u x) = IExtend \/ p_incb (u x) = ILinker.

Lemma ist_ge1 u before : 1 <= ist u before <->
  exists m c r, before = m ++ c :: r /\ Forall (mid u) m /\ p_incb (u c) = IConsonant.
Proof.
  induction before as [|x r IH]; cbn [ist].
  - split; [lia|]. intros (m & c & r & E & _). destruct m; discriminate.
  - split.
    + intros H. destruct (p_incb (u x)) eqn:E; cbn [incb_update] in H; [lia|..].
      * destruct (N.leb_spec 1 (ist u r)) as [H1|H1]; [|lia]. apply IH in H1 as (m & c & r' & -> & Hm & Hc).
        exists (x :: m), c, r'. repeat split; [|assumption]. constructor; [right; assumption|assumption].
      * exists [], x, r. repeat split; [constructor|assumption].
      * destruct (N.leb_spec 1 (ist u r)) as [H1|H1]; [|lia]. apply IH in H1 as (m & c & r' & -> & Hm & Hc).
        exists (x :: m), c, r'. repeat split; [|assumption]. constructor; [left; assumption|assumption].
    + intros (m & c & r' & E & Hm & Hc). destruct m as [|y m].
      * injection E as -> ->. rewrite Hc. cbn. lia.
      * injection E as -> ->. inversion Hm as [|? ? Hy Hm']; subst.
        assert (H1 : 1 <= ist u (m ++ c :: r')) by (apply IH; eauto 6).
        destruct Hy as [-> | ->]; cbn [incb_update]; destruct (N.leb_spec 1 (ist u (m ++ c :: r'))); lia.
Qed.
Lemma ist_2 u before : ist u before = 2 <-> exists m2 l m1 c r,
  before = m2 ++ l :: m1 ++ c :: r /\ Forall (mid u) m2 /\ p_incb (u l) = ILinker /\ Forall (mid u) m1 /\ p_incb (u c) = IConsonant.
Proof.
  induction before as [|x r IH]; cbn [ist].
  - split; [discriminate|]. intros (m2 & l & m1 & c & r & E & _). destruct m2; discriminate.
  - split.
    + intros H. destruct (p_incb (u x)) eqn:E; cbn [incb_update] in H; [lia|..|lia|].
      * destruct (N.leb_spec 1 (ist u r)) as [H1|H1]; [|lia]. apply ist_ge1 in H1 as (m & c & r' & -> & Hm & Hc).
        exists [], x, m, c, r'. repeat split; auto.
      * destruct (N.leb_spec 1 (ist u r)) as [H1|H1]; [|lia]. apply IH in H as (m2 & l & m1 & c & r' & -> & A1 & A2 & A3 & A4).
        exists (x :: m2), l, m1, c, r'. repeat split; auto. constructor; [left; assumption|assumption].
    + intros (m2 & l & m1 & c & r' & E & A1 & A2 & A3 & A4). destruct m2 as [|y m2].
      * injection E as -> ->. rewrite A2. cbn [incb_update].
        assert (H1 : 1 <= ist u (m1 ++ c :: r')) by (apply ist_ge1; eauto 6).
        destruct (N.leb_spec 1 (ist u (m1 ++ c :: r'))); lia.
      * injection E as -> ->. inversion A1 as [|? ? Hy A1']; subst.
        assert (H1 : ist u (m2 ++ l :: m1 ++ c :: r') = 2) by (apply IH; exists m2, l, m1, c, r'; auto).
        rewrite H1. destruct Hy as [-> | ->]; reflexivity.
Qed.

Definition extz (u : ucd) (x : N) : Prop := p_gcb (u x) = GExtend \/ p_gcb (u x) = GZWJ.
Lemma est_1 u before : est u before = 1 <->
  exists es e r, before = es ++ e :: r /\ Forall (extz u) es /\ p_extpic (u e) = true.
Proof.
  induction before as [|x r IH]; cbn [est].
  - split; [discriminate|]. intros (es & e & r & E & _). destruct es; discriminate.
  - unfold ext_update. destruct (p_extpic (u x)) eqn:Ex.
    + rewrite orb_true_r. split; [|reflexivity]. intros _. exists [], x, r. auto.
    + rewrite orb_false_r. split.
      * intros H. destruct (est_range u r) as [H0|H1]; [rewrite H0 in H; discriminate|]. rewrite H1 in H.
        change (negb (1 =? 0)) with true in H. change (1 =? 1) with true in H. cbn match in H. rewrite andb_true_r in H.
        apply IH in H1 as (es & e & r' & -> & Hes & He).
        destruct (gcb_beq (p_gcb (u x)) GExtend || gcb_beq (p_gcb (u x)) GZWJ) eqn:Eb; [|discriminate].
        apply orb_true_iff in Eb. rewrite !gcb_beq_eq in Eb.
        exists (x :: es), e, r'. repeat split; [|assumption]. constructor; assumption.
      * intros (es & e & r' & E & Hes & He). destruct es as [|y es]; [injection E as -> ->; congruence|].
        injection E as -> ->. inversion Hes as [|? ? Hy Hes']; subst.
        assert (H1 : est u (es ++ e :: r') = 1) by (apply IH; eauto 6). rewrite H1.
        assert (Hb : gcb_beq (p_gcb (u y)) GExtend || gcb_beq (p_gcb (u y)) GZWJ = true)
          by (rewrite orb_true_iff, !gcb_beq_eq; exact Hy).
        rewrite Hb. reflexivity.
Qed.

Definition ri_tail (u : ucd) (r : list N) : Prop :=
  forall x r', r = x :: r' -> p_gcb (u x) <> GPrepend /\ (p_gcb (u x) = GRI -> exists p r'', r' = p :: r'' /\ p_gcb (u p) = GPrepend).

Lemma rst_par u before : (exists c r, before = c :: r /\ p_gcb (u c) = GRI) ->
  exists ris r, before = ris ++ r /\ Forall (fun x => p_gcb (u x) = GRI) ris /\ ri_tail u r /\
                rst u before = N.of_nat (length ris) mod 2.
Proof.
  induction before as [|c r IH]; intros (c' & r' & E & Hc); [discriminate|]. injection E as <- <-.
  cbn [rst]. rewrite Hc, gcb_beq_refl. destruct r as [|p r].
  - exists [c], []. split; [reflexivity|]. split; [constructor; auto|]. split; [intros x r' E; discriminate|reflexivity].
  - destruct (gcb_beq (p_gcb (u p)) GPrepend) eqn:Ep.
    + apply gcb_beq_eq in Ep. exists [], (c :: p :: r). split; [reflexivity|]. split; [constructor|]. split; [|reflexivity].
      intros x r' E. injection E as <- <-. split; [congruence|]. intros _. exists p, r. auto.
    + destruct (gcb_eq_dec (p_gcb (u p)) GRI) as [Hp|Hp].
      * destruct IH as (ris & rr & E & Hris & Ht & Hr); [eauto|]. exists (c :: ris), rr.
        split; [cbn; f_equal; assumption|]. split; [constructor; assumption|]. split; [exact Ht|].
        rewrite Hr. cbn [length]. lia.
      * exists [c], (p :: r). split; [reflexivity|]. split; [constructor; auto|]. split.
        { intros x r' E. injection E as <- <-. split; [|congruence]. intros H2. rewrite H2 in Ep. discriminate. }
        cbn [rst]. destruct (gcb_beq (p_gcb (u p)) GRI) eqn:E2; [apply gcb_beq_eq in E2; congruence|]. reflexivity.
Qed.

(** decompositions into a regional-indicator run and a tail are unique up to the uncounted element *)
Lemma ri_split_unique u : forall ris r ris' r', ris ++ r = ris' ++ r' ->
  Forall (fun x => p_gcb (u x) = GRI) ris -> Forall (fun x => p_gcb (u x) = GRI) ris' ->
  ri_tail u r -> ri_tail u r' -> length ris = length ris'.
Proof.
  induction ris as [|x ris IH]; intros r ris' r' E H1 H2 T1 T2.
  - destruct ris' as [|y ris']; [reflexivity|]. exfalso. cbn in E. subst r.
    inversion H2 as [|? ? Hy H2']; subst. destruct (T1 _ _ eq_refl) as [_ K]. destruct (K Hy) as (p & r'' & E & Hp).
    destruct ris' as [|z ris'].
    + cbn in E. destruct (T2 _ _ E) as [K2 _]. congruence.
    + cbn in E. injection E as <- <-. inversion H2' as [|? ? Hz _]; subst. congruence.
  - destruct ris' as [|y ris'].
    + exfalso. cbn in E. subst r'. inversion H1 as [|? ? Hy H1']; subst. destruct (T2 _ _ eq_refl) as [_ K]. destruct (K Hy) as (p & r'' & E & Hp).
      destruct ris as [|z ris].
      * cbn in E. destruct (T1 _ _ E) as [K2 _]. congruence.
      * cbn in E. injection E as <- <-. inversion H1' as [|? ? Hz _]; subst. congruence.
    + injection E as -> E. inversion H1; inversion H2; subst. cbn [length]. f_equal. eapply IH; eauto.
Qed.

Lemma odd_mod2 n : Nat.Odd n <-> N.of_nat n mod 2 = 1.
Proof.
  split.
  - intros [k ->]. lia.
  - intros H. exists (N.to_nat (N.of_nat n / 2)). lia.
Qed.

Lemma rst_1 u before b : (exists c r, before = c :: r /\ p_gcb (u c) = GRI) -> p_gcb (u b) = GRI ->
  (rst u before = 1 <-> GB12_13_loose u before b).
Proof.
  intros Hh Hb. destruct (rst_par u before Hh) as (ris & r & E & H1 & T & Hr). split.
  - intros H. exists ris, r. split; [assumption|]. split; [assumption|]. split; [apply odd_mod2; congruence|]. split; [exact T|assumption].
  - intros (ris' & r' & E' & H1' & Ho & T' & _). rewrite Hr. apply odd_mod2.
    rewrite (ri_split_unique u ris r ris' r'); auto. congruence.
Qed.

(** ** One step *)
Definition ginv (u : ucd) (before : list N) (st : gstate) : Prop :=
  exists a r, before = a :: r /\ g_cp st = a /\ g_props st = u a /\
    g_ri st = rst u before /\ g_incb st = ist u before /\ g_ext st = est u before.

(** The boolean form of the loose rules *)
Definition loose_b (u : ucd) (before : list N) (b : N) : bool :=
  match before with
  | [] => true
  | a :: _ =>
    let A := p_gcb (u a) in let B := p_gcb (u b) in
    negb (gcb_beq A GCR && gcb_beq B GLF) &&
    (is_ctl A || is_ctl B ||
     negb ((gcb_beq A GL && (gcb_beq B GL || gcb_beq B GV || gcb_beq B GLV || gcb_beq B GLVT))
        || ((gcb_beq A GLV || gcb_beq A GV) && (gcb_beq B GV || gcb_beq B GT))
        || ((gcb_beq A GLVT || gcb_beq A GT) && gcb_beq B GT)
        || (gcb_beq B GExtend || gcb_beq B GZWJ) || gcb_beq B GSpacingMark || gcb_beq A GPrepend
        || (incb_beq (p_incb (u b)) IConsonant && (ist u before =? 2))
        || (gcb_beq A GZWJ && p_extpic (u b) && (est u before =? 1))
        || (gcb_beq A GRI && gcb_beq B GRI && (rst u before =? 1))))
  end.

Lemma negb_iff b : negb b = true <-> ~ (b = true).
Proof. destruct b; cbn; split; congruence. Qed.

Lemma loose_b_iff u a r b : ucd_grapheme_ok u -> (loose_b u (a :: r) b = true <-> loose_boundary u (a :: r) b).
Proof.
  intros OK. unfold loose_b, loose_boundary.
  rewrite andb_true_iff, !orb_true_iff, !negb_iff, !is_ctl_iff.
  rewrite !orb_true_iff, !andb_true_iff, !orb_true_iff, !gcb_beq_eq, !incb_beq_eq, !N.eqb_eq.
  assert (E3 : GB3 u (a :: r) b <-> p_gcb (u a) = GCR /\ p_gcb (u b) = GLF).
  { split; [intros (a' & r' & E & H)|intros H; exists a, r; auto]. injection E as <- <-. exact H. }
  assert (E4 : GB4 u (a :: r) b <-> ctl (p_gcb (u a))).
  { split; [intros (a' & r' & E & H)|intros H; exists a, r; auto]. injection E as <- <-. exact H. }
  assert (E6 : GB6 u (a :: r) b <-> p_gcb (u a) = GL /\ (p_gcb (u b) = GL \/ p_gcb (u b) = GV \/ p_gcb (u b) = GLV \/ p_gcb (u b) = GLVT)).
  { split; [intros (a' & r' & E & H)|intros H; exists a, r; auto]. injection E as <- <-. exact H. }
  assert (E7 : GB7 u (a :: r) b <-> (p_gcb (u a) = GLV \/ p_gcb (u a) = GV) /\ (p_gcb (u b) = GV \/ p_gcb (u b) = GT)).
  { split; [intros (a' & r' & E & H)|intros H; exists a, r; auto]. injection E as <- <-. exact H. }
  assert (E8 : GB8 u (a :: r) b <-> (p_gcb (u a) = GLVT \/ p_gcb (u a) = GT) /\ p_gcb (u b) = GT).
  { split; [intros (a' & r' & E & H)|intros H; exists a, r; auto]. injection E as <- <-. exact H. }
  assert (E9b : GB9b u (a :: r) b <-> p_gcb (u a) = GPrepend).
  { split; [intros (a' & r' & E & H)|intros H; exists a, r; auto]. injection E as <- <-. exact H. }
  assert (E9c : GB9c u (a :: r) b <-> p_incb (u b) = IConsonant /\ ist u (a :: r) = 2).
  { rewrite ist_2. split.
    - intros (m2 & l & m1 & c & r' & E & A1 & A2 & A3 & A4 & A5). split; [assumption|]. exists m2, l, m1, c, r'. auto.
    - intros (A5 & m2 & l & m1 & c & r' & E & A1 & A2 & A3 & A4). exists m2, l, m1, c, r'. repeat split; auto. }
  assert (E11 : GB11_loose u (a :: r) b <-> (p_gcb (u a) = GZWJ /\ p_extpic (u b) = true) /\ est u (a :: r) = 1).
  { rewrite est_1. split.
    - intros (z & es & e & r' & E & A1 & A2 & A3 & A4). injection E as <- ->. split; [auto|].
      exists (a :: es), e, r'. repeat split; auto. constructor; [right; assumption|assumption].
    - intros ((A1 & A2) & es & e & r' & E & A3 & A4). destruct es as [|z es].
      + injection E as -> ->. apply (ok_extpic u OK) in A4. congruence.
      + injection E as -> ->. inversion A3; subst. exists z, es, e, r'. auto. }
  assert (E12 : GB12_13_loose u (a :: r) b <-> (p_gcb (u a) = GRI /\ p_gcb (u b) = GRI) /\ rst u (a :: r) = 1).
  { split.
    - intros H. assert (Ha : p_gcb (u a) = GRI /\ p_gcb (u b) = GRI).
      { destruct H as (ris & r' & E & A1 & [k Ho] & A3 & A4). split; [|assumption].
        destruct ris as [|x ris]; [cbn in Ho; lia|]. injection E as -> ->. inversion A1; assumption. }
      split; [exact Ha|]. destruct Ha. apply rst_1 in H; eauto.
    - intros ((A1 & A2) & A3). apply rst_1; eauto. }
  rewrite E3, E4, E6, E7, E8, E9b, E9c, E11, E12. unfold GB5, GB9, GB9a. tauto.
Qed.

Lemma beq_neq a b : a <> b -> gcb_beq a b = false.
Proof. intros H. destruct (gcb_beq a b) eqn:E; [apply gcb_beq_eq in E; congruence|reflexivity]. Qed.

Lemma process_breakable_spec u before st b : ucd_grapheme_ok u -> ginv u before st ->
  let '(brk, st') := process_breakable u b st in
  brk = loose_b u before b /\ ginv u (b :: before) (if brk then process_init u b else st').
Proof.
  intros OK (a & r & -> & Hcp & Hpr & Hri & Hin & Hex).
  unfold process_breakable. rewrite Hcp, Hpr, Hri, Hin, Hex.
  set (A := p_gcb (u a)). set (B := p_gcb (u b)).
  assert (Hctl_i : is_ctl A = true -> ist u (a :: r) = 0).
  { intros H. cbn [ist]. destruct (p_incb (u a)) eqn:E; [reflexivity|exfalso..].
    - destruct (ok_linker u OK a) as [K|[K|K]]; [auto|..]; unfold A in H; rewrite K in H; discriminate.
    - pose proof (ok_consonant u OK a E) as K. unfold A in H; rewrite K in H; discriminate.
    - destruct (ok_linker u OK a) as [K|[K|K]]; [auto|..]; unfold A in H; rewrite K in H; discriminate. }
  assert (Hctl_e : is_ctl A = true -> est u (a :: r) = 0).
  { intros H. cbn [est]. unfold ext_update. destruct (p_extpic (u a)) eqn:E.
    - apply (ok_extpic u OK) in E. unfold A in H; rewrite E in H; discriminate.
    - unfold A in H. destruct (est_range u r) as [-> | ->]; [reflexivity|].
      destruct (p_gcb (u a)); try discriminate H; reflexivity. }
  (* the state after a break *)
  assert (HB : (is_ctl A = true \/ (B <> GExtend /\ B <> GZWJ /\ B <> GSpacingMark)) ->
    (B = GRI -> A <> GPrepend /\ ~ (A = GRI /\ rst u (a :: r) = 1)) ->
    ginv u (b :: a :: r) (process_init u b)).
  { intros H1 H2. exists b, (a :: r). cbn [process_init g_cp g_props g_ri g_incb g_ext]. repeat split.
    - cbn [rst]. fold A B. destruct (gcb_beq B GRI) eqn:EB; [|reflexivity]. apply gcb_beq_eq in EB.
      destruct (H2 EB) as [K1 K2]. rewrite (beq_neq A GPrepend K1).
      destruct (gcb_eq_dec A GRI) as [K|K].
      + destruct (rst_range u (a :: r)) as [R|R]; cbn [rst] in *; fold A in R, K2; [rewrite R; reflexivity|tauto].
      + rewrite (beq_neq A GRI K). reflexivity.
    - change (ist u (b :: a :: r)) with (incb_update (p_incb (u b)) (ist u (a :: r))).
      destruct (p_incb (u b)) eqn:E; cbn [incb_beq incb_update]; try reflexivity.
      + destruct H1 as [H1|(N1 & N2 & N3)]; [rewrite (Hctl_i H1); reflexivity|].
        destruct (ok_linker u OK b) as [K|[K|K]]; [auto|..]; unfold B in *; congruence.
      + destruct H1 as [H1|(N1 & N2 & N3)]; [rewrite (Hctl_i H1); reflexivity|].
        destruct (ok_linker u OK b) as [K|[K|K]]; [auto|..]; unfold B in *; congruence.
    - change (est u (b :: a :: r)) with (ext_update (u b) (est u (a :: r))). unfold ext_update. fold B.
      destruct (p_extpic (u b)); [rewrite orb_true_r; reflexivity|]. rewrite orb_false_r.
      destruct H1 as [H1|(N1 & N2 & N3)]; [rewrite (Hctl_e H1); reflexivity|].
      rewrite (beq_neq B GExtend N1), (beq_neq B GZWJ N2). cbn [orb andb].
      destruct (est_range u (a :: r)) as [-> | ->]; reflexivity. }
  (* the state when the step does not break *)
  assert (HN : forall ri, ri = rst u (b :: a :: r) ->
    ginv u (b :: a :: r) (mkG b (u b) ri (incb_update (p_incb (u b)) (ist u (a :: r))) (ext_update (u b) (est u (a :: r))))).
  { intros ri ->. exists b, (a :: r). repeat split; reflexivity. }
  assert (Hrst : B <> GRI -> rst u (b :: a :: r) = 0).
  { intros H. cbn [rst]. fold B. rewrite (beq_neq B GRI H). reflexivity. }
  unfold loose_b. fold A B.
  destruct (gcb_beq A GCR && gcb_beq B GLF) eqn:E3.
  { apply andb_true_iff in E3 as [EA EB]. rewrite gcb_beq_eq in EA, EB. split; [reflexivity|].
    assert (K0 : is_ctl A = true) by (rewrite EA; reflexivity).
    rewrite (Hctl_i K0), (Hctl_e K0). rewrite EB. cbn [gcb_beq].
    exists b, (a :: r). cbn [g_cp g_props g_ri g_incb g_ext]. repeat split.
    - symmetry. apply Hrst. congruence.
    - change (ist u (b :: a :: r)) with (incb_update (p_incb (u b)) (ist u (a :: r))). rewrite (Hctl_i K0).
      destruct (p_incb (u b)) eqn:E; try reflexivity. pose proof (ok_consonant u OK b E). unfold B in *; congruence.
    - change (est u (b :: a :: r)) with (ext_update (u b) (est u (a :: r))). rewrite (Hctl_e K0). unfold ext_update.
      destruct (p_extpic (u b)) eqn:E; [|reflexivity]. apply (ok_extpic u OK) in E. unfold B in *; congruence. }
  cbn [negb andb].
  destruct ((a <? 128) && (b <? 128)) eqn:EAS.
  { apply andb_true_iff in EAS as [Ea Eb]. apply N.ltb_lt in Ea, Eb.
    destruct (ok_ascii u OK a Ea) as ([GA|GA] & IA & XA); destruct (ok_ascii u OK b Eb) as ([GB|GB] & IB & XB); fold A in GA; fold B in GB.
    - split.
      + rewrite GA, GB, IB, XB. reflexivity.
      + apply HB; [right; rewrite GB; repeat split; discriminate|]. rewrite GB; discriminate.
    - apply is_ctl_iff in GB. split; [rewrite GB, orb_true_r; reflexivity|].
      apply HB; [right|]; unfold is_ctl in GB; destruct B; try discriminate GB; repeat split; discriminate.
    - apply is_ctl_iff in GA. split; [rewrite GA; reflexivity|].
      apply HB; [left; assumption|]. rewrite GB; discriminate.
    - apply is_ctl_iff in GA. split; [rewrite GA; reflexivity|].
      apply HB; [left; assumption|]. destruct GB as [K|[K|K]]; rewrite K; discriminate. }
  destruct (is_ctl A) eqn:ECA.
  { split; [reflexivity|]. apply HB; [left; reflexivity|]. intros _. destruct A; try discriminate ECA; split; try discriminate; intros [K _]; discriminate. }
  destruct (is_ctl B) eqn:ECB.
  { split; [reflexivity|]. apply HB; [right|]; destruct B; try discriminate ECB; repeat split; discriminate. }
  cbn [orb]. 
  assert (HRI : B <> GRI -> (if gcb_beq B GRI then rst u (a :: r) else 0) = rst u (b :: a :: r)).
  { intros H. rewrite (Hrst H), (beq_neq B GRI H). reflexivity. }
  match goal with |- context [if ?x then (false, ?s) else _] => destruct x eqn:E6 end.
  { split; [reflexivity|]. apply HN, HRI. intros K. rewrite K in E6. rewrite andb_comm in E6. discriminate E6. }
  match goal with |- context [if ?x then (false, ?s) else _] => destruct x eqn:E7 end.
  { split; [reflexivity|]. apply HN, HRI. intros K. rewrite K in E7. rewrite andb_comm in E7. discriminate E7. }
  match goal with |- context [if ?x then (false, ?s) else _] => destruct x eqn:E8 end.
  { split; [reflexivity|]. apply HN, HRI. intros K. rewrite K in E8. rewrite andb_comm in E8. discriminate E8. }
  match goal with |- context [if ?x then (false, ?s) else _] => destruct x eqn:E9 end.
  { split; [reflexivity|]. apply HN, HRI. intros K. rewrite K in E9. discriminate E9. }
  match goal with |- context [if ?x then (false, ?s) else _] => destruct x eqn:E9a end.
  { split; [reflexivity|]. apply HN, HRI. intros K. rewrite K in E9a. discriminate E9a. }
  match goal with |- context [if ?x then (false, ?s) else _] => destruct x eqn:E9b end.
  { split; [reflexivity|]. apply HN. apply gcb_beq_eq in E9b. destruct (gcb_eq_dec B GRI) as [K|K]; [|apply HRI, K].
    rewrite K. cbn [rst]. fold A B. rewrite K, E9b. reflexivity. }
  match goal with |- context [if ?x then (false, ?s) else _] => destruct x eqn:E9c end.
  { split; [reflexivity|]. apply HN, HRI. apply andb_true_iff in E9c as [E9c _]. apply incb_beq_eq in E9c.
    pose proof (ok_consonant u OK b E9c) as K. fold B in K. congruence. }
  match goal with |- context [if ?x then (false, ?s) else _] => destruct x eqn:E11 end.
  { split; [reflexivity|]. apply HN, HRI. apply andb_true_iff in E11 as [E11 _]. apply andb_true_iff in E11 as [_ E11].
    pose proof (ok_extpic u OK b E11) as K. fold B in K. congruence. }
  cbn [orb].
  assert (NB : B <> GExtend /\ B <> GZWJ /\ B <> GSpacingMark).
  { repeat split; intros K; rewrite K in E9, E9a; discriminate. }
  assert (NP : A <> GPrepend) by (intros K; rewrite K in E9b; discriminate).
  destruct (gcb_beq A GRI) eqn:EA; cbn [andb].
  2:{ split; [reflexivity|]. apply HB; [auto|]. intros _. split; [assumption|]. intros [K _]. rewrite K in EA. discriminate. }
  apply gcb_beq_eq in EA. rewrite EA. destruct (gcb_eq_dec B GRI) as [EB|EB].
  - rewrite EB. cbn [gcb_beq andb]. destruct (N.eqb_spec (rst u (a :: r)) 1) as [R|R].
    + split; [reflexivity|]. rewrite R. change ((1 + 1) mod 2) with 0. apply HN.
      change (rst u (b :: a :: r)) with (if gcb_beq B GRI then (if gcb_beq A GPrepend then 0 else (rst u (a :: r) + 1) mod 2) else 0).
      rewrite R, EB, EA. reflexivity.
    + split; [reflexivity|]. apply HB; [auto|]. intros _. split; [assumption|tauto].
  - rewrite (beq_neq GRI B) by congruence. rewrite (beq_neq B GRI) by assumption. cbn [andb]. split; [reflexivity|].
    apply HB; [auto|]. congruence.
Qed.

Lemma process_init_inv u c : ginv u [c] (process_init u c).
Proof.
  exists c, []. cbn [process_init g_cp g_props g_ri g_incb g_ext rst ist est]. repeat split.
  - destruct (p_incb (u c)); reflexivity.
  - unfold ext_update. destruct (p_extpic (u c)); reflexivity.
Qed.

Lemma flags_spec u : ucd_grapheme_ok u -> forall rest before st, ginv u before st ->
  forall k b post, rest = firstn k rest ++ b :: post -> (k < length rest)%nat ->
  nth_error (flags u st rest) k = Some (loose_b u (rev (firstn k rest) ++ before) b).
Proof.
  intros OK. induction rest as [|c rest IH]; intros before st I k b post E Hk; [cbn in Hk; lia|].
  pose proof (process_breakable_spec u before st c OK I) as S. cbn [flags].
  destruct (process_breakable u c st) as [brk st']. destruct S as [S1 S2].
  destruct k as [|k].
  - cbn [firstn app] in E. injection E as -> <-. cbn. f_equal. exact S1.
  - cbn [firstn app] in E. injection E as E. cbn [nth_error firstn rev]. rewrite <- app_assoc. cbn [app].
    eapply IH; [exact S2|exact E|]. cbn in Hk. lia.
Qed.

Lemma split_at {A} (l : list A) k : (k < length l)%nat -> exists b post, l = firstn k l ++ b :: post.
Proof.
  revert k. induction l as [|x l IH]; intros k H; [cbn in H; lia|]. destruct k as [|k].
  - exists x, l. reflexivity.
  - destruct (IH k) as (b & post & E); [cbn in H; lia|]. exists b, post. cbn. f_equal. exact E.
Qed.

Lemma clusters_cuts u text k : ucd_grapheme_ok u -> text <> [] ->
  (cut_at (clusters_of u text) k <-> boundary_in (loose_boundary u) text k).
Proof.
  intros OK Hne. destruct text as [|c rest]; [congruence|]. cbn [clusters_of].
  rewrite group_cuts by (rewrite ?flags_length; try reflexivity; discriminate). cbn [length].
  unfold boundary_in. cbn [length]. split.
  - intros [H|[H|[H1 H2]]]; [auto|right; left; lia|]. right; right.
    destruct k as [|k]; [lia|]. replace (S k - 1)%nat with k in H2 by lia.
    assert (Hk : (k < length rest)%nat).
    { assert (K : nth_error (flags u (process_init u c) rest) k <> None) by congruence. apply nth_error_Some in K.
      rewrite flags_length in K. exact K. }
    destruct (split_at rest k Hk) as (b & post & E). exists b, post. cbn [firstn app]. split; [f_equal; exact E|]. split; [lia|].
    rewrite (flags_spec u OK rest [c] _ (process_init_inv u c) k b post E Hk) in H2. injection H2 as H2.
    cbn [rev]. destruct (rev (firstn k rest) ++ [c]) as [|a r] eqn:E2; [destruct (rev (firstn k rest)); discriminate|].
    apply loose_b_iff in H2; assumption.
  - intros [H|[H|(b & post & E & Hk & H)]]; [auto|right; left; lia|]. destruct k as [|k]; [auto|]. right; right. split; [lia|].
    replace (S k - 1)%nat with k by lia. cbn [firstn app] in E. injection E as E.
    rewrite (flags_spec u OK rest [c] _ (process_init_inv u c) k b post E) by lia.
    f_equal. cbn [firstn rev] in H. destruct (rev (firstn k rest) ++ [c]) as [|a r] eqn:E2; [destruct (rev (firstn k rest)); discriminate|].
    apply loose_b_iff; assumption.
Qed.

(** ** On texts without the two troublesome patterns the loose rules are UAX #29 *)
Lemma loose_is_uax29 u before b rest : no_double_zwj u (rev before ++ b :: rest) -> no_prepend_ri u (rev before ++ b :: rest) ->
  (loose_boundary u before b <-> uax29_boundary u before b).
Proof.
  intros ND NP.
  assert (E11 : GB11_loose u before b <-> GB11 u before b).
  { split; intros (z & es & e & r & E & A1 & A2 & A3 & A4).
    - exists z, es, e, r. repeat split; auto.
      (* no ZWJ inside es *)
      clear A3 A4. assert (G : forall pre, (forall x, In x pre -> p_gcb (u x) = GExtend) -> forall l r', before = z :: pre ++ l ++ r' ->
        Forall (fun x => p_gcb (u x) = GExtend \/ p_gcb (u x) = GZWJ) l -> Forall (fun x => p_gcb (u x) = GExtend) l).
      { intros pre Hpre l. revert pre Hpre. induction l as [|x l IHl]; intros pre Hpre r' E' HF; [constructor|].
        inversion HF as [|? ? [Hx|Hx] HF']; subst.
        - constructor; [assumption|]. apply (IHl (pre ++ [x]) ) with (r' := r').
          + intros y Hy. apply in_app_iff in Hy as [Hy|[<-|[]]]; auto.
          + rewrite E'. f_equal. rewrite <- app_assoc. reflexivity.
          + assumption.
        - exfalso. eapply (ND (rev (l ++ r')) x (rev pre) z (b :: rest)); [|assumption|assumption|].
          + rewrite E'. cbn [rev app]. rewrite !rev_app_distr. cbn [rev]. rewrite !rev_app_distr. repeat (rewrite <- app_assoc; cbn [app]). reflexivity.
          + apply Forall_rev, Forall_forall, Hpre. }
      apply (G [] (fun x H => match H with end) es (e :: r)); [exact E|exact A2].
    - exists z, es, e, r. repeat split; auto. eapply Forall_impl; [|exact A2]. cbn. auto. }
  assert (E12 : GB12_13_loose u before b <-> GB12_13 u before b).
  { split; intros (ris & r & E & A1 & A2 & A3 & A4).
    - exists ris, r. repeat split; auto. intros x r' -> Hx. destruct (A3 _ _ eq_refl) as [_ K]. destruct (K Hx) as (p & r'' & -> & Hp).
      eapply (NP (rev r'') p x (rev ris ++ b :: rest)); [|assumption|assumption].
      rewrite E, !rev_app_distr. cbn [rev]. rewrite <- !app_assoc. reflexivity.
    - exists ris, r. repeat split; auto.
      + intros Hp. destruct ris as [|x0 ris] using rev_ind; [destruct A2 as [? A2]; cbn in A2; lia|]. clear IHris.
        apply Forall_app in A1 as [_ A1]. inversion A1 as [|? ? Hx0 _]; subst.
        eapply (NP (rev r') x x0 (rev ris ++ b :: rest)); [|assumption|assumption].
        rewrite !rev_app_distr. cbn [rev app]. rewrite <- !app_assoc. reflexivity.
      + intros Hp. exfalso. eapply A3; eauto. }
  unfold loose_boundary, uax29_boundary. rewrite E11, E12. tauto.
Qed.

(** ** Prefix stability: the flags of a text are a prefix of the flags of any extension *)
Lemma flags_app u : forall t1 t2 st, exists fl, flags u st (t1 ++ t2) = flags u st t1 ++ fl.
Proof.
  induction t1 as [|c t1 IH]; intros t2 st; [exists (flags u st t2); reflexivity|].
  cbn [app flags]. destruct (process_breakable u c st) as [brk st'].
  destruct (IH t2 (if brk then process_init u c else st')) as [fl ->]. exists fl. reflexivity.
Qed.
Lemma clusters_prefix u t1 t2 k : (k < length t1)%nat ->
  (cut_at (clusters_of u t1) k <-> cut_at (clusters_of u (t1 ++ t2)) k).
Proof.
  intros Hk. destruct t1 as [|c t1]; [cbn in Hk; lia|]. cbn [app clusters_of].
  rewrite !group_cuts by (rewrite ?flags_length; try reflexivity; discriminate). cbn [length] in *.
  rewrite app_length. destruct (flags_app u t1 t2 (process_init u c)) as [fl ->].
  destruct k as [|k]; [split; auto|].
  rewrite nth_error_app1 by (rewrite flags_length; lia).
  split; (intros [H|[H|H]]; [lia|lia|auto]).
Qed.
Lemma clusters_of_concat u t : concat (clusters_of u t) = t.
Proof.
  destruct t as [|c r]; [reflexivity|]. cbn [clusters_of]. rewrite group_concat by apply flags_length. reflexivity.
Qed.

(** ** Without re-initialisation *)
Definition srst (u : ucd) (before : list N) : N :=
  match before with [c] => if gcb_beq (p_gcb (u c)) GRI then 1 else 0 | _ => 0 end.
Definition sinv (u : ucd) (before : list N) (st : gstate) : Prop :=
  exists a r, before = a :: r /\ g_cp st = a /\ g_props st = u a /\
    g_ri st = srst u before /\ g_incb st = ist u before /\ g_ext st = est u before.
Definition stateful_b (u : ucd) (before : list N) (b : N) : bool :=
  match before with
  | [] => true
  | a :: _ =>
    let A := p_gcb (u a) in let B := p_gcb (u b) in
    negb (gcb_beq A GCR && gcb_beq B GLF) &&
    (is_ctl A || is_ctl B ||
     negb ((gcb_beq A GL && (gcb_beq B GL || gcb_beq B GV || gcb_beq B GLV || gcb_beq B GLVT))
        || ((gcb_beq A GLV || gcb_beq A GV) && (gcb_beq B GV || gcb_beq B GT))
        || ((gcb_beq A GLVT || gcb_beq A GT) && gcb_beq B GT)
        || (gcb_beq B GExtend || gcb_beq B GZWJ) || gcb_beq B GSpacingMark || gcb_beq A GPrepend
        || (incb_beq (p_incb (u b)) IConsonant && (ist u before =? 2))
        || (gcb_beq A GZWJ && p_extpic (u b) && (est u before =? 1))
        || (gcb_beq A GRI && gcb_beq B GRI && (srst u before =? 1))))
  end.

Lemma stateful_spec u before st b : ucd_grapheme_ok u -> sinv u before st ->
  let '(brk, st') := process_breakable u b st in brk = stateful_b u before b /\ sinv u (b :: before) st'.
Proof.
  intros OK (a & r & -> & Hcp & Hpr & Hri & Hin & Hex).
  unfold process_breakable. rewrite Hcp, Hpr, Hri, Hin, Hex.
  set (A := p_gcb (u a)). set (B := p_gcb (u b)).
  assert (Hs : gcb_beq A GRI = false -> srst u (a :: r) = 0).
  { intros H. cbn [srst]. destruct r; [|reflexivity]. unfold A in H. rewrite H. reflexivity. }
  unfold stateful_b. fold A B.
  (* the indicator counter after a step that is not the GB12/13 no-break *)
  assert (Hr : ~ (A = GRI /\ B = GRI /\ srst u (a :: r) = 1) -> (if gcb_beq B GRI then srst u (a :: r) else 0) = srst u (b :: a :: r)).
  { intros H. change (srst u (b :: a :: r)) with 0. destruct (gcb_beq B GRI) eqn:EB; [|reflexivity]. apply gcb_beq_eq in EB.
    destruct (gcb_beq A GRI) eqn:EA; [|apply Hs; reflexivity]. apply gcb_beq_eq in EA.
    destruct r as [|r0 r]; [|reflexivity]. cbn [srst] in *. fold A in H |- *. rewrite EA in *. cbn in H. tauto. }
  assert (HN : forall i e, i = ist u (b :: a :: r) -> e = est u (b :: a :: r) ->
     ~ (A = GRI /\ B = GRI /\ srst u (a :: r) = 1) ->
     sinv u (b :: a :: r) (mkG b (u b) (if gcb_beq B GRI then srst u (a :: r) else 0) i e)).
  { intros i e -> -> H. exists b, (a :: r). cbn [g_cp g_props g_ri g_incb g_ext]. repeat split. apply Hr, H. }
  assert (Ei : ist u (b :: a :: r) = incb_update (p_incb (u b)) (ist u (a :: r))) by reflexivity.
  assert (Ee : est u (b :: a :: r) = ext_update (u b) (est u (a :: r))) by reflexivity.
  destruct (gcb_beq A GCR && gcb_beq B GLF) eqn:E3.
  { apply andb_true_iff in E3 as [EA EB]. rewrite gcb_beq_eq in EA, EB. split; [reflexivity|].
    assert (K1 : ist u (a :: r) = 0).
    { cbn [ist]. destruct (p_incb (u a)) eqn:E; [reflexivity|exfalso..].
      - destruct (ok_linker u OK a) as [K|[K|K]]; [auto|..]; unfold A in EA; congruence.
      - pose proof (ok_consonant u OK a E) as K. unfold A in EA; congruence.
      - destruct (ok_linker u OK a) as [K|[K|K]]; [auto|..]; unfold A in EA; congruence. }
    assert (K2 : est u (a :: r) = 0).
    { cbn [est]. unfold ext_update. fold A. rewrite EA. destruct (p_extpic (u a)) eqn:E.
      - apply (ok_extpic u OK) in E. unfold A in EA; congruence.
      - destruct (est_range u r) as [-> | ->]; reflexivity. }
    apply HN.
    - rewrite Ei, K1. destruct (p_incb (u b)) eqn:E; try reflexivity. pose proof (ok_consonant u OK b E). unfold B in *; congruence.
    - rewrite Ee, K2. unfold ext_update. destruct (p_extpic (u b)) eqn:E; [|reflexivity].
      apply (ok_extpic u OK) in E. unfold B in *; congruence.
    - intros (K & _). congruence. }
  cbn [negb andb].
  destruct ((a <? 128) && (b <? 128)) eqn:EAS.
  { apply andb_true_iff in EAS as [Ea Eb]. apply N.ltb_lt in Ea, Eb.
    destruct (ok_ascii u OK a Ea) as (GA & IA & XA); destruct (ok_ascii u OK b Eb) as (GB & IB & XB); fold A in GA; fold B in GB.
    split.
    - destruct GA as [GA|GA]; [|apply is_ctl_iff in GA; rewrite GA; reflexivity].
      destruct GB as [GB|GB]; [|apply is_ctl_iff in GB; rewrite GB, orb_true_r; reflexivity].
      rewrite GA, GB, IB, XB. reflexivity.
    - apply HN.
      + rewrite Ei, IB. reflexivity.
      + rewrite Ee. unfold ext_update. fold B. rewrite XB, orb_false_r.
        destruct (est_range u (a :: r)) as [-> | ->]; [reflexivity|].
        destruct GB as [GB|[GB|[GB|GB]]]; rewrite GB; reflexivity.
      + intros (K & _). destruct GA as [GA|[GA|[GA|GA]]]; congruence. }
  destruct (is_ctl A) eqn:ECA.
  { split; [reflexivity|]. apply HN; auto. intros (K & _). rewrite K in ECA. discriminate. }
  destruct (is_ctl B) eqn:ECB.
  { split; [reflexivity|]. apply HN; auto. intros (_ & K & _). rewrite K in ECB. discriminate. }
  cbn [orb].
  match goal with |- context [if ?x then (false, ?s) else _] => destruct x eqn:E6 end.
  { split; [reflexivity|]. apply HN; auto. intros (K & _). rewrite K in E6. discriminate E6. }
  match goal with |- context [if ?x then (false, ?s) else _] => destruct x eqn:E7 end.
  { split; [reflexivity|]. apply HN; auto. intros (K & _). rewrite K in E7. discriminate E7. }
  match goal with |- context [if ?x then (false, ?s) else _] => destruct x eqn:E8 end.
  { split; [reflexivity|]. apply HN; auto. intros (K & _). rewrite K in E8. discriminate E8. }
  match goal with |- context [if ?x then (false, ?s) else _] => destruct x eqn:E9 end.
  { split; [reflexivity|]. apply HN; auto. intros (_ & K & _). rewrite K in E9. discriminate E9. }
  match goal with |- context [if ?x then (false, ?s) else _] => destruct x eqn:E9a end.
  { split; [reflexivity|]. apply HN; auto. intros (_ & K & _). rewrite K in E9a. discriminate E9a. }
  match goal with |- context [if ?x then (false, ?s) else _] => destruct x eqn:E9b end.
  { split; [reflexivity|]. apply HN; auto. intros (K & _). rewrite K in E9b. discriminate E9b. }
  match goal with |- context [if ?x then (false, ?s) else _] => destruct x eqn:E9c end.
  { split; [reflexivity|]. apply HN; auto. intros (_ & K & _). apply andb_true_iff in E9c as [E9c _]. apply incb_beq_eq in E9c.
    pose proof (ok_consonant u OK b E9c) as K'. fold B in K'. congruence. }
  match goal with |- context [if ?x then (false, ?s) else _] => destruct x eqn:E11 end.
  { split; [reflexivity|]. apply HN; auto. intros (_ & K & _). apply andb_true_iff in E11 as [E11 _]. apply andb_true_iff in E11 as [_ E11].
    pose proof (ok_extpic u OK b E11) as K'. fold B in K'. congruence. }
  cbn [orb]. destruct (gcb_beq A GRI) eqn:EA; cbn [andb].
  2:{ split; [reflexivity|]. apply HN; auto. intros (K & _). rewrite K in EA. discriminate. }
  apply gcb_beq_eq in EA. rewrite EA. destruct (gcb_eq_dec B GRI) as [EB|EB].
  - rewrite EB. cbn [gcb_beq andb]. destruct (N.eqb_spec (srst u (a :: r)) 1) as [R|R].
    + split; [reflexivity|]. rewrite R. change ((1 + 1) mod 2) with 0.
      exists b, (a :: r). cbn [g_cp g_props g_ri g_incb g_ext]. repeat split.
    + split; [reflexivity|]. rewrite EB in HN. cbn [gcb_beq] in HN. apply HN; auto. intros (_ & _ & K). congruence.
  - rewrite (beq_neq GRI B) by congruence. rewrite (beq_neq B GRI) by assumption. cbn [andb]. split; [reflexivity|].
    rewrite (beq_neq B GRI EB) in HN. apply HN; auto. intros (_ & K & _). congruence.
Qed.

Lemma process_init_sinv u c : sinv u [c] (process_init u c).
Proof.
  destruct (process_init_inv u c) as (a & r & E & H1 & H2 & H3 & H4 & H5). injection E as <- <-.
  exists c, []. repeat split; auto.
Qed.

Lemma breaks_spec u : ucd_grapheme_ok u -> forall rest before st, sinv u before st ->
  forall k b post, rest = firstn k rest ++ b :: post -> (k < length rest)%nat ->
  nth_error (breaks_from u st rest) k = Some (stateful_b u (rev (firstn k rest) ++ before) b).
Proof.
  intros OK. induction rest as [|c rest IH]; intros before st I k b post E Hk; [cbn in Hk; lia|].
  pose proof (stateful_spec u before st c OK I) as S. cbn [breaks_from].
  destruct (process_breakable u c st) as [brk st']. destruct S as [S1 S2].
  destruct k as [|k].
  - cbn [firstn app] in E. injection E as -> <-. cbn. f_equal. exact S1.
  - cbn [firstn app] in E. injection E as E. cbn [nth_error firstn rev]. rewrite <- app_assoc. cbn [app].
    eapply IH; [exact S2|exact E|]. cbn in Hk. lia.
Qed.

(** every adjacent pair of regional indicators stands at the very start *)
Lemma stateful_is_loose u before b : ucd_grapheme_ok u -> before <> [] ->
  (forall a r, before = a :: r -> p_gcb (u a) = GRI -> p_gcb (u b) = GRI -> r = []) ->
  stateful_b u before b = loose_b u before b.
Proof.
  intros OK Hne H. destruct before as [|a r]; [congruence|]. unfold stateful_b, loose_b.
  assert (E : gcb_beq (p_gcb (u a)) GRI && gcb_beq (p_gcb (u b)) GRI && (srst u (a :: r) =? 1) =
              gcb_beq (p_gcb (u a)) GRI && gcb_beq (p_gcb (u b)) GRI && (rst u (a :: r) =? 1)).
  { destruct (gcb_beq (p_gcb (u a)) GRI) eqn:EA; [|reflexivity].
    destruct (gcb_beq (p_gcb (u b)) GRI) eqn:EB; [|reflexivity]. rewrite gcb_beq_eq in EA, EB.
    rewrite (H a r eq_refl EA EB). cbn [srst rst]. reflexivity. }
  rewrite E. reflexivity.
Qed.

Lemma stateful_eq_clusters u c rest : ucd_grapheme_ok u ->
  (forall l a b r, c :: rest = l ++ a :: b :: r -> p_gcb (u a) = GRI -> p_gcb (u b) = GRI -> l = []) ->
  forall k, (k < length rest)%nat ->
  (nth_error (stateful_breaks u (c :: rest)) k = Some true <-> cut_at (clusters_of u (c :: rest)) (S k)).
Proof.
  intros OK H k Hk. cbn [stateful_breaks clusters_of].
  rewrite group_cuts by (rewrite ?flags_length; try reflexivity; discriminate). cbn [length].
  replace (S k - 1)%nat with k by lia. destruct (split_at rest k Hk) as (b & post & E).
  rewrite (breaks_spec u OK rest [c] _ (process_init_sinv u c) k b post E Hk).
  rewrite (flags_spec u OK rest [c] _ (process_init_inv u c) k b post E Hk).
  rewrite stateful_is_loose; [|assumption|destruct (rev (firstn k rest)); discriminate|].
  - split; [intros ->; right; right; split; [lia|reflexivity]|]. intros [K|[K|[_ K]]]; [lia|lia|exact K].
  - intros a r E2 Ha Hb. assert (E3 : c :: firstn k rest = rev r ++ [a]).
    { rewrite <- (rev_involutive (c :: firstn k rest)). cbn [rev]. rewrite E2. reflexivity. }
    assert (Er : rev r = []).
    { apply (H (rev r) a b post); auto. rewrite E at 1. change (c :: firstn k rest ++ b :: post) with ((c :: firstn k rest) ++ b :: post).
      rewrite E3, <- app_assoc. reflexivity. }
    apply (f_equal (@rev N)) in Er. rewrite rev_involutive in Er. exact Er.
Qed.

(** Between two regional indicators the stateful API breaks, except at the very start. *)
Lemma stateful_ri u a r b : ucd_grapheme_ok u -> p_gcb (u a) = GRI -> p_gcb (u b) = GRI ->
  stateful_b u (a :: r) b = match r with [] => false | _ => true end.
Proof.
  intros OK EA EB. unfold stateful_b. rewrite EA, EB.
  assert (E1 : incb_beq (p_incb (u b)) IConsonant = false).
  { destruct (incb_beq (p_incb (u b)) IConsonant) eqn:E; [|reflexivity]. apply incb_beq_eq in E. pose proof (ok_consonant u OK b E). congruence. }
  rewrite E1. cbn [gcb_beq is_ctl andb orb negb]. destruct r as [|x r].
  - cbn [srst]. rewrite EA. reflexivity.
  - reflexivity.
Qed.
Lemma app_len_inj {A} : forall (l l' x y : list A), length l = length l' -> l ++ x = l' ++ y -> l = l' /\ x = y.
Proof.
  induction l as [|a l IH]; intros [|a' l'] x y H E; try discriminate; [split; [reflexivity|exact E]|].
  injection E as <- E. injection H as H. destruct (IH _ _ _ H E) as [-> ->]. auto.
Qed.
Lemma stateful_exact u c rest : ucd_grapheme_ok u -> forall k, (k < length rest)%nat ->
  (nth_error (stateful_breaks u (c :: rest)) k = Some true <->
   cut_at (clusters_of u (c :: rest)) (S k) \/
   exists l a b r, c :: rest = l ++ a :: b :: r /\ length l = k /\ k <> O /\ p_gcb (u a) = GRI /\ p_gcb (u b) = GRI).
Proof.
  intros OK k Hk. cbn [stateful_breaks clusters_of].
  rewrite group_cuts by (rewrite ?flags_length; try reflexivity; discriminate). cbn [length].
  replace (S k - 1)%nat with k by lia. destruct (split_at rest k Hk) as (b & post & E).
  rewrite (breaks_spec u OK rest [c] _ (process_init_sinv u c) k b post E Hk).
  rewrite (flags_spec u OK rest [c] _ (process_init_inv u c) k b post E Hk).
  assert (Eb : exists a l, rev (firstn k rest) ++ [c] = a :: rev l /\ c :: rest = l ++ a :: b :: post /\ length l = k).
  { destruct (rev (firstn k rest) ++ [c]) as [|a l] eqn:Q; [destruct (rev (firstn k rest)); discriminate|].
    exists a, (rev l). rewrite rev_involutive. split; [reflexivity|].
    assert (E3 : c :: firstn k rest = rev l ++ [a]) by (rewrite <- (rev_involutive (c :: firstn k rest)); cbn [rev]; rewrite Q; reflexivity).
    split.
    - rewrite E at 1. change (c :: firstn k rest ++ b :: post) with ((c :: firstn k rest) ++ b :: post). rewrite E3, <- app_assoc. reflexivity.
    - apply (f_equal (@length N)) in E3. rewrite app_length in E3. cbn [length] in E3. rewrite firstn_length in E3. lia. }
  destruct Eb as (a & l & -> & El & Ll).
  assert (Q : forall l' a' b' r, c :: rest = l' ++ a' :: b' :: r -> length l' = k -> a' = a /\ b' = b).
  { intros l' a' b' r H1 H2. rewrite El in H1. destruct (app_len_inj l l' _ _ ltac:(congruence) H1) as [_ H3]. injection H3 as -> -> _. auto. }
  destruct (gcb_eq_dec (p_gcb (u a)) GRI) as [EA|EA]; [destruct (gcb_eq_dec (p_gcb (u b)) GRI) as [EB|EB]|].
  - rewrite (stateful_ri u a (rev l) b OK EA EB). destruct k as [|k].
    + destruct l; [|discriminate]. cbn [rev]. assert (Lb : loose_b u [a] b = false).
      { rewrite <- (stateful_is_loose u [a] b OK) by (congruence || (intros ? ? X; injection X as <- <-; auto)). apply (stateful_ri u a [] b OK EA EB). }
      rewrite Lb. split; [discriminate|]. intros [[K|[K|[_ K]]]|(l' & a' & b' & r & _ & _ & K & _)]; [lia|lia|discriminate|congruence].
    + destruct l as [|x l]; [discriminate|]. split; [|intros _; f_equal; cbn [rev]; destruct (rev l); reflexivity].
      intros _. right. exists (x :: l), a, b, post. repeat split; auto.
  - rewrite (stateful_is_loose u (a :: rev l) b OK ltac:(discriminate)).
    2:{ intros a0 r0 X _ Y. contradiction. }
    split; [intros ->; left; right; right; split; [lia|reflexivity]|]. intros [[K|[K|[_ K]]]|(l' & a' & b' & r & H1 & H2 & _ & _ & K)]; [lia|lia|exact K|].
    destruct (Q l' a' b' r H1 H2) as [-> ->]. contradiction.
  - rewrite (stateful_is_loose u (a :: rev l) b OK ltac:(discriminate)).
    2:{ intros a0 r0 X Y _. injection X as <- <-. contradiction. }
    split; [intros ->; left; right; right; split; [lia|reflexivity]|]. intros [[K|[K|[_ K]]]|(l' & a' & b' & r & H1 & H2 & _ & K & _)]; [lia|lia|exact K|].
    destruct (Q l' a' b' r H1 H2) as [-> ->]. contradiction.
Qed.
