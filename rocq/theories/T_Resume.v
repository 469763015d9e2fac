(** C35: exactly when a resumed scan reads outside its buffer. *)
From Verif Require Import Base Spec_Utf M_Utf8 M_Convert M_AsciiScan P_AsciiScan M_Ucd M_Grapheme M_Width P_Width M_Scan P_Scan Spec_Scan Spec_Width Spec_Resume Ucd_Demo T_Grapheme T_Width T_Scan.
Open Scope Z_scope.

Lemma stalls_nonneg d bs n e : stalls d bs n e -> 0 <= n.
Proof. induction 1; lia. Qed.
Lemma stops_iff d b : (b < 256)%N -> is_control b || negb (is_complex b) || ((d_exp d =? 0)%N && is_c1_control b) = false <-> in_text d b.
Proof.
  intros Hb. rewrite hi_not_complex by exact Hb. unfold is_control, is_c1_control, in_text.
  rewrite !orb_false_iff, andb_false_iff, andb_false_iff. destruct (N.eqb_spec (d_exp d) 0); rewrite ?N.ltb_ge, ?N.leb_gt; intuition (try lia; try discriminate).
Qed.

(** the loop from any state: where it stops, what is left pending *)
Record bounds (base : Z) (max input : Z) (l : lp) : Prop := {
  b_bytes : 0 <= l_bytes l; b_cstart : base <= l_cstart l <= input - l_bytes l; b_rend : l_rend l <= input - l_bytes l;
  b_count : l_count l <= max \/ d_exp (l_utf8 l) = 0%N }.
Lemma on_codepoint_any u max c input l l' o : on_codepoint u max c input l = (l', o) ->
  l_utf8 l' = l_utf8 l /\ l_bytes l' = 0 /\
  match o with
  | None => l_rend l' = input /\ (l_hint l = 0%N \/ fst (process_breakable u c (l_g l)) = true -> l_count l + acc_width (push u acc0 c) <= max) /\ (l_cstart l' = l_cstart l \/ l_cstart l' = input - l_bytes l)
  | Some i => (i = input - l_bytes l /\ l_rend l' = l_rend l /\ (l_hint l = 0%N \/ fst (process_breakable u c (l_g l)) = true) /\ max < l_count l + acc_width (push u acc0 c)) \/
              (i = l_cstart l /\ l_rend l' = l_cstart l /\ ~ (l_hint l = 0%N \/ fst (process_breakable u c (l_g l)) = true))
  end.
Proof.
  unfold on_codepoint. intros H.
  destruct (if (l_hint l =? 0)%N then _ else _) as [brk g] eqn:B.
  cbn [l_count l_bytes l_here l_cstart l_rend l_utf8 l_hint l_g l_acc l_rep l_ev] in H. destruct brk.
  - assert (HB : l_hint l = 0%N \/ fst (process_breakable u c (l_g l)) = true).
    { destruct (N.eqb_spec (l_hint l) 0); [left; assumption|right; rewrite B; reflexivity]. }
    destruct (Z.ltb_spec max (l_count l + acc_width (push u acc0 c))); injection H as <- <-;
      cbn [flush l_count l_bytes l_here l_cstart l_rend l_utf8 l_hint l_g l_acc l_rep l_ev]; intuition lia.
  - assert (HB : ~ (l_hint l = 0%N \/ fst (process_breakable u c (l_g l)) = true)).
    { destruct (N.eqb_spec (l_hint l) 0) as [K|K]; [discriminate B|]. rewrite B. intros [Q|Q]; [exact (K Q)|discriminate Q]. }
    destruct (Z.leb_spec (l_rep l) (acc_width (push u (l_acc l) c))).
    + destruct (negb _ && _); injection H as <- <-; cbn [l_count l_bytes l_here l_cstart l_rend l_utf8 l_hint l_g l_acc l_rep l_ev]; intuition lia.
    + injection H as <- <-; cbn [l_count l_bytes l_here l_cstart l_rend l_utf8 l_hint l_g l_acc l_rep l_ev]; intuition lia.
Qed.
Lemma na_loop_any u max base : forall rest input l, bounds base max input l ->
  let '(l', i) := na_loop u max rest input l in
  base <= i <= input + Z.of_nat (length rest) /\ l_rend l' <= i /\ (base <= l_rend l' \/ l_rend l' = l_rend l) /\
  (d_exp (l_utf8 l') = 0%N \/ i = input + Z.of_nat (length rest)).
Proof.
  induction rest as [|b rest IH]; intros input l [Hb Hc Hr Hn]; cbn [na_loop].
  { cbn [length]. intuition lia. }
  destruct (Z.leb_spec (l_count l) max) as [Hm|Hm].
  2:{ cbn [length]. intuition lia. }
  destruct (is_control b || _ || _) eqn:S.
  { unfold stop_at_control. cbn [flush l_count l_bytes l_here l_cstart l_rend l_utf8 l_hint l_g l_acc l_rep l_ev]. cbn [length].
    split; [lia|]. split; [lia|]. split; [lia|]. left. destruct (N.eqb_spec (d_exp (l_utf8 l)) 0) as [K|K]; cbn [negb]; [exact K|reflexivity]. }
  destruct (from_utf8 (l_utf8 l) b) as [d r] eqn:F. cbn [length]. rewrite Nat2Z.inj_succ. destruct r as [| |c].
  - (* Invalid *)
    match goal with |- context [na_loop u max rest (input + 1) ?x] => specialize (IH (input + 1) x); destruct (na_loop u max rest (input + 1) x) as [l' i] end.
    cbn [on_invalid flush l_count l_bytes l_here l_cstart l_rend l_utf8 l_hint l_g l_acc l_rep l_ev] in IH.
    lapply IH; [intros (A & B & C & G); intuition lia|]. constructor; cbn [on_invalid flush l_count l_bytes l_here l_cstart l_rend l_utf8 l_hint l_g l_acc l_rep l_ev d_exp]; auto; lia.
  - (* Incomplete *)
    match goal with |- context [na_loop u max rest (input + 1) ?x] => specialize (IH (input + 1) x); destruct (na_loop u max rest (input + 1) x) as [l' i] end.
    cbn [l_count l_bytes l_here l_cstart l_rend l_utf8 l_hint l_g l_acc l_rep l_ev] in IH.
    lapply IH; [intros (A & B & C & G); intuition lia|]. constructor; cbn [l_count l_bytes l_here l_cstart l_rend l_utf8 l_hint l_g l_acc l_rep l_ev]; auto; lia.
  - (* Success *)
    pose proof (from_utf8_success_idle _ _ _ _ F) as I.
    match goal with |- context [on_codepoint u max c (input + 1) ?x] => destruct (on_codepoint u max c (input + 1) x) as [l2 o] eqn:OC end.
    apply on_codepoint_any in OC. cbn [l_count l_bytes l_here l_cstart l_rend l_utf8 l_hint l_g l_acc l_rep l_ev] in OC.
    destruct OC as (U & B0 & OC). destruct o as [j|].
    + rewrite U. split; [|split; [|split; [|left; exact I]]]; lia.
    + specialize (IH (input + 1) l2). destruct (na_loop u max rest (input + 1) l2) as [l' i].
      lapply IH; [intros (A & B & C & G); intuition lia|]. constructor; try lia. right. rewrite U. exact I.
Qed.

(** the loop never leaves the buffer and always ends, wherever in the buffer it starts *)
Lemma nonascii_any u st start text max ev : d_exp (s_utf8 st) = 0%N -> 0 <= max ->
  let '((c, s, e), st', ev') := nonascii u st start text max ev in
  s = start /\ start <= e <= start + Z.of_nat (length text) /\
  (d_exp (s_utf8 st') = 0%N \/ s_next st' = Some (start + Z.of_nat (length text))).
Proof.
  intros Hd Hm. unfold nonascii. rewrite Hd. change (0 =? 0)%N with true. cbv iota.
  match goal with |- context [na_loop u max text start ?l] => pose proof (na_loop_any u max start text start l) as Q; destruct (na_loop u max text start l) as [l' i] end.
  cbn [flush l_count l_bytes l_here l_cstart l_rend l_utf8 l_hint l_g l_acc l_rep l_ev s_utf8 s_next] in *.
  destruct Q as (A & B & C & D). { constructor; cbn [l_count l_bytes l_here l_cstart l_rend l_utf8 l_hint l_g l_acc l_rep l_ev]; auto; lia. }
  split; [reflexivity|]. split; [lia|]. destruct D as [D|D]; [left; exact D|right; f_equal; exact D].
Qed.
Lemma scan_loop_any u uchar i buf max : Forall byte buf -> forall fuel st cx off r ev, 0 <= off <= Z.of_nat (length buf) ->
  (length buf - Z.to_nat off < fuel)%nat -> (d_exp (s_utf8 st) = 0%N \/ s_next st = Some (Z.of_nat (length buf))) ->
  exists x, scan_loop u uchar i fuel buf max st cx off r ev = Ok x.
Proof.
  intros Hbuf. induction fuel as [|fuel IH]; intros st cx off r ev Ho Hf Hd; [lia|]. cbn [scan_loop].
  destruct (Z.ltb_spec (r_count r) max) as [Hlt|Hge]; cbn [andb]; [|eexists; reflexivity].
  destruct (negb _) eqn:Hn; [|eexists; reflexivity].
  destruct Hd as [Hd|Hd]; [|rewrite Hd, Z.eqb_refl in Hn; discriminate].
  assert (Lt : length (skipn (Z.to_nat off) buf) = (length buf - Z.to_nat off)%nat) by apply skipn_length.
  destruct cx.
  - pose proof (nonascii_any u st off (skipn (Z.to_nat off) buf) (max - r_count r) ev Hd ltac:(lia)) as Q.
    destruct (nonascii u st off (skipn (Z.to_nat off) buf) (max - r_count r) ev) as [[[[c s] e] st'] ev']. destruct Q as (-> & He & Hs).
    destruct (Z.eqb_spec (e - off) 0) as [E|E]; [eexists; reflexivity|]. rewrite Lt in *. apply IH; [lia|lia|].
    destruct Hs as [Hs|Hs]; [left; exact Hs|right; rewrite Hs; f_equal; lia].
  - destruct (scan_for_text_ascii_spec uchar i (skipn (Z.to_nat off) buf) (Z.to_nat (max - r_count r))) as (n & En & Hp).
    { rewrite <- (firstn_skipn (Z.to_nat off) buf) in Hbuf. apply Forall_app in Hbuf. tauto. }
    rewrite En. cbn [bindR]. destruct n as [|n]; [eexists; reflexivity|].
    assert (S n <= length (skipn (Z.to_nat off) buf))%nat by (destruct Hp as (H1 & _); lia). rewrite Lt in *. apply IH; [lia|lia|]. left. exact Hd.
Qed.

(** what makes the loop end without having found anything, from a state reached with [n] rejected sequences *)
Definition stuck (u : ucd) (st : sstate) (d : dstate) (n max : Z) (rest : list N) : Prop :=
  (exists m e, stalls d rest m e) \/
  (exists p r m e, rest = p ++ r /\ stalls d p m e /\ max < n + m) \/
  (exists p b r m e e' c, rest = p ++ b :: r /\ stalls d p m e /\ in_text e b /\ from_utf8 e b = (e', Success c) /\
     max < n + m + cluster_width u [c] /\ (0 < n + m \/ opens_cluster u st c)).
Lemma stuck_stop u st d n max b rest : n <= max -> ~ in_text d b -> ~ stuck u st d n max (b :: rest).
Proof.
  intros Hn Hb [(m & e & H)|[(p & r & m & e & E & H & L)|(p & b' & r & m & e & e' & c & E & H & I & _)]].
  - inversion H; contradiction.
  - destruct p as [|x p]; [inversion H; lia|]. injection E as <- ->. inversion H; contradiction.
  - destruct p as [|x p]; injection E as <- ->; inversion H; subst; contradiction.
Qed.
Lemma stuck_wait u st d d' n max b rest : n <= max -> in_text d b -> from_utf8 d b = (d', Incomplete) ->
  stuck u st d n max (b :: rest) <-> stuck u st d' n max rest.
Proof.
  intros Hn Hb F. split.
  - intros [(m & e & H)|[(p & r & m & e & E & H & L)|(p & b' & r & m & e & e' & c & E & H & I & G & R)]].
    + left. inversion H; subst; [|congruence]. exists m, e. congruence.
    + right. left. destruct p as [|x p]; [inversion H; lia|]. injection E as <- ->. inversion H; subst; [|congruence].
      exists p, r, m, e. split; [reflexivity|]. split; [congruence|exact L].
    + right. right. destruct p as [|x p]; injection E as <- ->.
      * inversion H; subst. congruence.
      * inversion H; subst; [|congruence]. exists p, b', r, m, e, e', c. split; [reflexivity|]. split; [congruence|]. auto.
  - intros [(m & e & H)|[(p & r & m & e & E & H & L)|(p & b' & r & m & e & e' & c & E & H & I & G & R)]].
    + left. exists m, e. econstructor; eauto.
    + right. left. exists (b :: p), r, m, e. split; [rewrite E; reflexivity|]. split; [econstructor; eauto|exact L].
    + right. right. exists (b :: p), b', r, m, e, e', c. split; [rewrite E; reflexivity|]. split; [econstructor; eauto|]. auto.
Qed.
Lemma stuck_bad u st d d' n max b rest : n <= max -> in_text d b -> from_utf8 d b = (d', Invalid) ->
  stuck u st d n max (b :: rest) <-> stuck u st (idle d') (n + 1) max rest.
Proof.
  intros Hn Hb F. split.
  - intros [(m & e & H)|[(p & r & m & e & E & H & L)|(p & b' & r & m & e & e' & c & E & H & I & G & R)]].
    + left. inversion H; subst; [congruence|]. do 2 eexists. replace d' with d'0 by congruence. eassumption.
    + right. left. destruct p as [|x p]; [inversion H; lia|]. injection E as <- ->. inversion H; subst; [congruence|].
      replace d'0 with d' in * by congruence. exists p, r, n0, e. split; [reflexivity|]. split; [assumption|lia].
    + right. right. destruct p as [|x p]; injection E as <- ->.
      * inversion H; subst. congruence.
      * inversion H; subst; [congruence|]. replace d'0 with d' in * by congruence. exists p, b', r, n0, e, e', c. split; [reflexivity|]. split; [assumption|].
        replace (n + 1 + n0) with (n + (n0 + 1)) by lia. auto.
  - intros [(m & e & H)|[(p & r & m & e & E & H & L)|(p & b' & r & m & e & e' & c & E & H & I & G & R)]].
    + left. exists (m + 1), e. eapply stalls_bad; eauto.
    + right. left. exists (b :: p), r, (m + 1), e. split; [rewrite E; reflexivity|]. split; [eapply stalls_bad; eauto|lia].
    + right. right. exists (b :: p), b', r, (m + 1), e, e', c. split; [rewrite E; reflexivity|]. split; [eapply stalls_bad; eauto|].
      replace (n + (m + 1)) with (n + 1 + m) by lia. auto.
Qed.
Lemma stuck_found u st d d' n max b rest c : n <= max -> in_text d b -> from_utf8 d b = (d', Success c) ->
  stuck u st d n max (b :: rest) <-> (max < n + cluster_width u [c] /\ (0 < n \/ opens_cluster u st c)).
Proof.
  intros Hn Hb F. split.
  - intros [(m & e & H)|[(p & r & m & e & E & H & L)|(p & b' & r & m & e & e' & c' & E & H & I & G & R1 & R2)]].
    + inversion H; congruence.
    + destruct p as [|x p]; [inversion H; lia|]. injection E as <- ->. inversion H; congruence.
    + destruct p as [|x p]; injection E as <- ->; inversion H; subst; try congruence. replace c with c' by congruence. rewrite Z.add_0_r in *. auto.
  - intros [R1 R2]. right. right. exists [], b, rest, 0, d, d', c. rewrite Z.add_0_r. repeat split; auto; try apply Hb. constructor.
Qed.

Lemma resume_loop u (OK : ucd_width_ok u) st max : forall rest input l, Forall byte rest -> 0 <= input -> bounds 0 max input l -> l_rend l < 0 -> 0 <= l_count l ->
  (l_count l = 0 -> l_hint l = s_hint st /\ l_g l = s_g st) -> (0 < l_count l -> l_hint l = 0%N) ->
  (l_rend (fst (na_loop u max rest input l)) < 0 <-> stuck u st (l_utf8 l) (l_count l) max rest).
Proof.
  induction rest as [|b rest IH]; intros input l Hb Hi HB Hr Hc H0 H1; cbn [na_loop].
  { cbn [fst]. split; [|tauto]. intros _. left. exists 0, (l_utf8 l). constructor. }
  destruct (Z.leb_spec (l_count l) max) as [Hm|Hm].
  2:{ cbn [fst]. split; [|tauto]. intros _. right. left. exists [], (b :: rest), 0, (l_utf8 l). repeat split; [constructor|lia]. }
  pose proof (Forall_inv Hb) as Hb0. pose proof (Forall_inv_tail Hb) as Hbr. pose proof (stops_iff (l_utf8 l) b Hb0) as ST.
  destruct (is_control b || _ || _) eqn:St.
  { unfold stop_at_control. cbn [fst flush l_count l_bytes l_here l_cstart l_rend l_utf8 l_hint l_g l_acc l_rep l_ev]. split; [lia|].
    intros K. exfalso. refine (stuck_stop u st _ _ _ _ _ Hm _ K). intros I. apply ST in I. discriminate. }
  assert (I : in_text (l_utf8 l) b) by (apply ST; reflexivity).
  destruct HB as [B1 B2 B3 B4].
  destruct (from_utf8 (l_utf8 l) b) as [d r] eqn:F. destruct r as [| |c].
  - rewrite (stuck_bad u st _ _ _ _ _ _ Hm I F). 
    match goal with |- context [na_loop u max rest (input + 1) ?x] => rewrite (IH (input + 1) x) end;
      cbn [on_invalid flush l_count l_bytes l_here l_cstart l_rend l_utf8 l_hint l_g l_acc l_rep l_ev d_exp]; auto; try lia; [reflexivity|].
    constructor; cbn [on_invalid flush l_count l_bytes l_here l_cstart l_rend l_utf8 l_hint l_g l_acc l_rep l_ev d_exp]; auto; lia.
  - rewrite (stuck_wait u st _ _ _ _ _ _ Hm I F).
    match goal with |- context [na_loop u max rest (input + 1) ?x] => rewrite (IH (input + 1) x) end;
      cbn [l_count l_bytes l_here l_cstart l_rend l_utf8 l_hint l_g l_acc l_rep l_ev d_exp]; auto; try lia; [reflexivity|].
    constructor; cbn [l_count l_bytes l_here l_cstart l_rend l_utf8 l_hint l_g l_acc l_rep l_ev d_exp]; auto; lia.
  - rewrite (stuck_found u st _ _ _ _ _ _ _ Hm I F). pose proof (from_utf8_success_idle _ _ _ _ F) as Id.
    rewrite (cluster_width_acc u [c] OK). change (pushes u acc0 [c]) with (push u acc0 c).
    assert (OP : l_hint l = 0%N \/ fst (process_breakable u c (l_g l)) = true <-> 0 < l_count l \/ opens_cluster u st c).
    { unfold opens_cluster. destruct (Z.eq_dec (l_count l) 0) as [Z0|Z0].
      - destruct (H0 Z0) as [-> ->]. rewrite Z0. intuition lia.
      - assert (P : 0 < l_count l) by lia. rewrite (H1 P). intuition lia. }
    match goal with |- context [on_codepoint u max c (input + 1) ?x] => destruct (on_codepoint u max c (input + 1) x) as [l2 o] eqn:OC end.
    apply on_codepoint_any in OC. cbn [l_count l_bytes l_here l_cstart l_rend l_utf8 l_hint l_g l_acc l_rep l_ev] in OC.
    destruct OC as (U & B0 & OC). destruct o as [j|]; rewrite OP in OC.
    + cbn [fst]. destruct OC as [(E1 & E2 & E3 & E4)|(E1 & E2 & E3)]; rewrite E2.
      * split; intros _; [split; [exact E4|exact E3]|exact Hr].
      * split; [lia|]. intros [_ K]. contradiction.
    + destruct OC as (E1 & E2 & E3). pose proof (na_loop_any u max 0 rest (input + 1) l2) as Q.
      destruct (na_loop u max rest (input + 1) l2) as [l' i]. cbn [fst]. destruct Q as (A & B & C & D).
      { constructor; try lia. right. rewrite U. exact Id. }
      split; [lia|]. intros [K1 K2]. specialize (E2 K2). lia.
Qed.

(** C35 (exactly).  Resuming inside a character, scan_text reads outside its buffer if and only if the buffer brings no progress: it holds no
    character, or more rejected sequences than columns before the first one, or a first character that starts a cluster wider than what is
    left.  In all other cases the call ends normally. *)
Theorem C35_resumed_exact_partial : forall u, ucd_width_ok u -> forall uchar i st buf max, d_exp (s_utf8 st) <> 0%N -> (0 < d_cur (s_utf8 st))%N ->
  Forall byte buf -> 0 <= max ->
  (scan_text u uchar i st buf max = UB <-> no_progress u st buf max) /\
  (~ no_progress u st buf max -> exists r st' ev, scan_text u uchar i st buf max = Ok (r, st', ev)).
Proof.
  intros u OK uchar i st buf max Hd Hcur Hb Hm.
  assert (CASES : (no_progress u st buf max /\ scan_text u uchar i st buf max = UB) \/
                  (~ no_progress u st buf max /\ exists x, scan_text u uchar i st buf max = Ok x)).
  { unfold scan_text. cbn [s_utf8]. destruct (N.eqb_spec (d_exp (s_utf8 st)) 0) as [K|_]; [congruence|].
    unfold nonascii. cbn [s_utf8 s_hint s_g s_acc s_rep]. destruct (N.eqb_spec (d_exp (s_utf8 st)) 0) as [K|_]; [congruence|].
    match goal with |- context [na_loop u max buf 0 ?l] => pose proof (resume_loop u OK st max buf 0 l Hb ltac:(lia)) as R; pose proof (na_loop_any u max 0 buf 0 l) as Q; destruct (na_loop u max buf 0 l) as [l' j] end.
    cbn [fst flush l_count l_bytes l_here l_cstart l_rend l_utf8 l_hint l_g l_acc l_rep l_ev s_utf8 s_next r_end] in *.
    destruct Q as (A & B & C & D); [constructor; cbn; lia|].
    specialize (R ltac:(constructor; cbn; lia) ltac:(lia) ltac:(lia) ltac:(auto) ltac:(lia)).
    change (stuck u st (s_utf8 st) 0 max buf) with (no_progress u st buf max) in R.
    destruct (Z_lt_ge_dec (l_rend l') 0) as [L|L].
    - left. split; [apply R, L|]. destruct (Z.eqb_spec (l_rend l') (Z.of_nat (length buf))); [lia|]. destruct (Z.ltb_spec (l_rend l') 0); [reflexivity|lia].
    - right. split; [intros K; apply R in K; lia|]. destruct (Z.eqb_spec (l_rend l') (Z.of_nat (length buf))); [eexists; reflexivity|].
      destruct (Z.ltb_spec (l_rend l') 0); [lia|]. destruct (Z.ltb_spec (Z.of_nat (length buf)) (l_rend l')); [lia|]. cbn [orb].
      apply scan_loop_any; cbn [s_utf8 s_next]; auto; try lia. destruct D as [D|D]; [left; exact D|right; f_equal; exact D]. }
  destruct CASES as [[K E]|[K ([[r st'] ev] & E)]]; rewrite E.
  - split; [split; auto|]. intros; contradiction.
  - split; [split; [discriminate|contradiction]|]. intros _. eauto.
Qed.
Print Assumptions C35_resumed_exact_partial.
(** after F0: the rest of U+1F600 is progress; its second byte alone is not, nor is the rest with no column left, nor two rejected sequences with one column *)
Definition st_F0 : sstate := SS (DS 0 4 1) 0 (gstate0 demo) acc0 0 None.
Example C35_resumed_demo : (exists r ev, scan_text demo true (X86 W128) (sstate0 demo) [0xF0]%N 80 = Ok (r, SS (DS 0 4 1) 0 (gstate0 demo) acc0 0 (Some 1), ev)) /\
  next_buffer (SS (DS 0 4 1) 0 (gstate0 demo) acc0 0 (Some 1)) = st_F0 /\
  ~ no_progress demo st_F0 [0x9F; 0x98; 0x80]%N 80 /\ no_progress demo st_F0 [0x9F]%N 80 /\ no_progress demo st_F0 [0x9F; 0x98; 0x80]%N 0 /\
  no_progress demo st_F0 [0xC3; 0xC3; 0xC3; 0xA9]%N 1.
Proof.
  assert (X : forall buf max, Forall byte buf -> 0 <= max -> (scan_text demo true (X86 W128) st_F0 buf max = UB <-> no_progress demo st_F0 buf max)).
  { intros buf max H M. apply C35_resumed_exact_partial; auto; [exact demo_width_ok|discriminate|reflexivity]. }
  split; [do 2 eexists; vm_compute; reflexivity|]. split; [reflexivity|]. split.
  - rewrite <- X; [|repeat constructor|lia]. vm_compute. discriminate.
  - split; [|split]; rewrite <- X; try (repeat constructor; fail); try lia; vm_compute; reflexivity.
Qed.
