(** scan_text on arbitrary bytes: cursors, limits, controls, accounting of every byte. *)
From Verif Require Import Base Spec_Utf M_Utf8 P_Utf8 M_Convert M_AsciiScan P_AsciiScan M_Ucd M_Grapheme M_Width M_Scan Spec_Scan.
Open Scope Z_scope.

Lemma acc_width_nonneg s : 0 <= acc_width s.
Proof. unfold acc_width. destruct (Z.ltb_spec 0 (a_total s + a_cur s)); lia. Qed.
Lemma invalids_app a b : invalids (a ++ b) = (invalids a + invalids b)%nat.
Proof. induction a as [|[]]; cbn [app invalids Nat.add]; lia. Qed.
Lemma flush_invalids l e : invalids (l_ev (flush l e)) = invalids (l_ev l).
Proof. unfold flush. cbn [l_ev]. destruct (l_cstart l <? e); [|reflexivity]. rewrite invalids_app. cbn. lia. Qed.

Lemma on_codepoint_spec u max c input l l' o : on_codepoint u max c input l = (l', o) ->
  0 <= l_here l <= l_count l -> l_count l <= max -> 0 <= l_rep l ->
  0 <= l_here l' /\ 0 <= l_count l' <= max /\ 0 <= l_rep l' /\ l_bytes l' = 0 /\ l_utf8 l' = l_utf8 l /\
  invalids (l_ev l') = invalids (l_ev l) /\
  match o with
  | None => l_here l' <= l_count l' /\ l_rend l' = input /\ (l_cstart l' = l_cstart l \/ l_cstart l' = input - l_bytes l)
  | Some i => l_cstart l' = l_cstart l /\ ((i = input - l_bytes l /\ l_rend l' = l_rend l) \/ (i = l_cstart l /\ l_rend l' = l_cstart l))
  end.
Proof.
  intros H Hh Hc Hr. unfold on_codepoint in H.
  destruct (if (l_hint l =? 0)%N then _ else _) as [brk g].
  cbn [l_count l_bytes l_here l_cstart l_rend l_utf8 l_hint l_g l_acc l_rep l_ev] in H. destruct brk.
  - pose proof (acc_width_nonneg (push u acc0 c)) as Hw.
    destruct (Z.ltb_spec max (l_count l + acc_width (push u acc0 c))).
    + injection H as <- <-. cbn [l_count l_bytes l_here l_cstart l_rend l_utf8 l_hint l_g l_acc l_rep l_ev]. intuition lia.
    + injection H as <- <-. rewrite !flush_invalids || idtac. 
      cbn [flush l_count l_bytes l_here l_cstart l_rend l_utf8 l_hint l_g l_acc l_rep l_ev].
      split; [lia|]. split; [lia|]. split; [lia|]. split; [reflexivity|]. split; [reflexivity|]. split.
      * destruct (l_cstart l <? _); [|reflexivity]. rewrite invalids_app. cbn. lia.
      * intuition lia.
  - pose proof (acc_width_nonneg (push u (l_acc l) c)) as Hw.
    destruct (Z.leb_spec (l_rep l) (acc_width (push u (l_acc l) c))).
    + destruct (negb _ && _) eqn:E; injection H as <- <-; cbn [l_count l_bytes l_here l_cstart l_rend l_utf8 l_hint l_g l_acc l_rep l_ev].
      * intuition lia.
      * assert (l_count l + (acc_width (push u (l_acc l) c) - l_rep l) <= max).
        { apply andb_false_iff in E. destruct E as [E|E]; [apply negb_false_iff, Z.eqb_eq in E; lia|apply Z.ltb_ge in E; lia]. }
        intuition lia.
    + injection H as <- <-. cbn [l_count l_bytes l_here l_cstart l_rend l_utf8 l_hint l_g l_acc l_rep l_ev]. intuition lia.
Qed.

(** decoder states that behave alike: same pending length, and equal when something is pending *)
Definition dlike (a b : dstate) : Prop := d_exp a = d_exp b /\ (d_exp a <> 0%N -> a = b).
Lemma dlike_refl a : dlike a a. Proof. split; auto. Qed.
Lemma dlike_step a b x : dlike a b -> (0x80 <= x)%N -> (x < 256)%N -> 
  snd (from_utf8 a x) = snd (from_utf8 b x) /\ (snd (from_utf8 a x) = Incomplete -> fst (from_utf8 a x) = fst (from_utf8 b x)).
Proof.
  intros [He Heq] Hx Hb. unfold from_utf8. destruct (N.eqb_spec (d_exp a) 0) as [E|E].
  - rewrite <- He, E. change (0 =? 0)%N with true. cbv iota. unfold from_utf8_lead.
    destruct (N.eqb_spec (N.land x 0x80) 0) as [K|K].
    { exfalso. change 0x80%N with (2 ^ 7)%N in K. 
      assert (T : N.testbit x 7 = true).
      { apply N.testbit_true. change (2 ^ 7)%N with 128%N. assert (x / 128 = 1)%N by lia. rewrite H. reflexivity. }
      assert (T2 : N.testbit (N.land x (2 ^ 7)) 7 = true) by (rewrite N.land_spec, T, N.pow2_bits_true; reflexivity).
      rewrite K in T2. discriminate. }
    destruct (N.land x 0xE0 =? 0xC0)%N; [split; reflexivity|].
    destruct (N.land x 0xF0 =? 0xE0)%N; [split; reflexivity|].
    destruct (N.land x 0xF8 =? 0xF0)%N; [split; reflexivity|]. cbn [fst snd]. split; [reflexivity|discriminate].
  - rewrite (Heq E). destruct (N.eqb_spec (d_exp b) 0); [congruence|]. split; reflexivity.
Qed.

(** what from_utf8 leaves behind *)
Lemma from_utf8_pending d b d' : from_utf8 d b = (d', Incomplete) -> d_exp d' <> 0%N.
Proof.
  unfold from_utf8, from_utf8_lead, from_utf8_finish. intros H.
  repeat match type of H with context [if ?c then _ else _] => destruct c eqn:?; cbn [d_cur d_exp d_char] in * end;
    injection H as <-; cbn [d_exp]; try discriminate; try (rewrite N.eqb_neq in *; assumption);
    match goal with H : (d_exp d =? 0)%N = false |- _ => rewrite N.eqb_neq in H; exact H | _ => idtac end.
Qed.
Lemma from_utf8_success_idle d b d' c : from_utf8 d b = (d', Success c) -> d_exp d' = 0%N.
Proof.
  unfold from_utf8, from_utf8_lead, from_utf8_finish. intros H.
  repeat match type of H with context [if ?c then _ else _] => destruct c eqn:?; cbn [d_cur d_exp d_char] in * end;
    try discriminate H; injection H as <- <-; cbn [d_exp]; try reflexivity.
  match goal with H : (d_exp d =? 0)%N = true |- _ => rewrite N.eqb_eq in H; exact H end.
Qed.

Lemma complex_iff b : (b < 256)%N -> is_complex b = (0x80 <=? b)%N.
Proof.
  intros H. unfold is_complex.
  assert (F : forallb (fun x => Bool.eqb (negb (N.land x 0x80 =? 0)) (0x80 <=? x))%N (map N.of_nat (seq 0 256)) = true) by (vm_compute; reflexivity).
  rewrite forallb_forall in F. apply eqb_prop, F. apply in_map_iff. exists (N.to_nat b). rewrite N2Nat.id. split; [reflexivity|].
  apply in_seq. lia.
Qed.

(** the run of the decoder over a pending prefix *)
Lemma run_snoc d bs b : from_utf8_run d (bs ++ [b]) =
  (fst (from_utf8 (fst (from_utf8_run d bs)) b), snd (from_utf8_run d bs) ++ [snd (from_utf8 (fst (from_utf8_run d bs)) b)]).
Proof. rewrite from_utf8_run_app. cbn [from_utf8_run]. destruct (from_utf8 _ b); reflexivity. Qed.
Lemma run_length d bs : length (snd (from_utf8_run d bs)) = length bs.
Proof.
  revert d. induction bs as [|b bs IH]; intros d; [reflexivity|]. cbn [from_utf8_run]. destruct (from_utf8 d b) as [d1 r].
  specialize (IH d1). destruct (from_utf8_run d1 bs). cbn [snd length] in *. congruence.
Qed.
Lemma all_incomplete_repeat rs : Forall (eq Incomplete) rs -> rs = repeat Incomplete (length rs).
Proof. induction 1 as [|r rs <- H IH]; [reflexivity|]. cbn [length repeat]. rewrite <- IH. reflexivity. Qed.

(** bytes the scan may run over *)
Definition clean (pre : list N) (seen : list N) : Prop :=
  Forall (fun b => ~ c0 b) seen /\ forall p b q, seen = p ++ b :: q -> at_boundary (pre ++ p) -> ~ c1 b.
Lemma clean_prefix pre a b : clean pre (a ++ b) -> clean pre a.
Proof.
  intros [H1 H2]. split; [apply Forall_app in H1; tauto|]. intros p x q E. apply (H2 p x (q ++ b)). rewrite E, <- app_assoc. reflexivity.
Qed.
Lemma clean_snoc pre a b : clean pre a -> ~ c0 b -> (at_boundary (pre ++ a) -> ~ c1 b) -> clean pre (a ++ [b]).
Proof.
  intros [H1 H2] Hb Hc. split; [apply Forall_app; auto|]. intros p x q E Hp.
  destruct (exists_last (l := x :: q) ltac:(discriminate)) as (q' & y & Eq).
  destruct q' as [|x' q''].
  - cbn in Eq. injection Eq as -> ->. apply app_inj_tail in E. destruct E as [-> ->]. auto.
  - cbn in Eq. injection Eq as <- ->. replace (p ++ x :: q'' ++ [y]) with ((p ++ x :: q'') ++ [y]) in E by (rewrite <- app_assoc; reflexivity).
    apply app_inj_tail in E. destruct E as [-> _]. eapply H2; eauto.
Qed.

(** loop invariant of na_loop.  [pre] was scanned before this call, [seen] is what the call has consumed. *)
Record ninv (base max : Z) (n0 : nat) (pre seen : list N) (l : lp) (a : list N) (chunks : list (list N)) (pend : list N) : Prop := {
  ni_seen : seen = a ++ concat chunks ++ pend;
  ni_rend : l_rend l = base + Z.of_nat (length a);
  ni_bytes : l_bytes l = Z.of_nat (length pend);
  ni_chunks : Forall rejected chunks;
  ni_inv : (n0 + length chunks <= invalids (l_ev l))%nat;
  ni_pend : unfinished pend;
  ni_dec : pend <> [] -> l_utf8 l = fst (from_utf8_run dinit pend);
  ni_idle : pend = [] -> d_exp (l_utf8 l) = 0%N;
  ni_cstart : base <= l_cstart l <= base + Z.of_nat (length (a ++ concat chunks));
  ni_here : 0 <= l_here l <= l_count l;
  ni_rep : 0 <= l_rep l;
  ni_count : l_count l <= max \/ ((n0 < invalids (l_ev l))%nat /\ l_count l <= max + 1);
  ni_pcount : pend <> [] -> l_count l <= max;
  ni_hi : Forall (fun b => (0x80 <= b < 256)%N) seen;
  ni_bnd : dlike (fold_left stream_step (pre ++ seen) dinit) (l_utf8 l);
  ni_abnd : at_boundary (pre ++ a);
  ni_sbnd : at_boundary (pre ++ a ++ concat chunks);
  ni_cbnd : at_boundary (pre ++ firstn (Z.to_nat (l_cstart l - base)) seen);
  ni_clean : clean pre seen
}.
(** what holds when the call ends *)
Record npost (base max : Z) (n0 : nat) (pre text : list N) (l : lp) (input : Z) (seen : list N) (a : list N) (chunks : list (list N)) (pend : list N) : Prop := {
  np_text : exists rest, text = seen ++ rest;
  np_input : input = base + Z.of_nat (length seen);
  np_seen : seen = a ++ concat chunks ++ pend;
  np_rend : l_rend l = base + Z.of_nat (length a);
  np_chunks : Forall rejected chunks;
  np_inv : (n0 + length chunks <= invalids (l_ev l))%nat;
  np_pend : unfinished pend;
  np_dec : pend <> [] -> l_utf8 l = fst (from_utf8_run dinit pend);
  np_idle : pend = [] -> d_exp (l_utf8 l) = 0%N;
  np_count : 0 <= l_count l;
  np_max : l_count l <= max \/ ((n0 < invalids (l_ev l))%nat /\ l_count l <= max + 1);
  np_rep : 0 <= l_rep l;
  np_hi : Forall (fun b => (0x80 <= b < 256)%N) seen;
  np_bnd : at_boundary (pre ++ a) \/ exists x rest, text = a ++ x :: rest /\ (x < 0x80)%N;
  np_clean : clean pre seen;
  np_stop : pend <> [] -> seen = text
}.

Lemma unfinished_nil : unfinished [].
Proof. constructor. Qed.
Lemma stream_hi d b : (0x80 <= b)%N -> stream_step d b = match from_utf8 d b with (_, Invalid) => dinit | (d', _) => d' end.
Proof. intros H. unfold stream_step. destruct (N.ltb_spec b 0x80); [lia|]. destruct (from_utf8 d b) as [d' []]; reflexivity. Qed.

Lemma hi_not_complex b : (b < 256)%N -> negb (is_complex b) = (b <? 0x80)%N.
Proof. intros H. rewrite complex_iff by exact H. destruct (N.leb_spec 0x80 b), (N.ltb_spec b 0x80); try reflexivity; lia. Qed.

Lemma na_loop_spec u max base n0 pre : forall rest seen l a chunks pend,
  ninv base max n0 pre seen l a chunks pend -> Forall (fun b => (b < 256)%N) rest ->
  exists seen' a' chunks' pend', 
    let '(l', input') := na_loop u max rest (base + Z.of_nat (length seen)) l in
    npost base max n0 pre (seen ++ rest) l' input' seen' a' chunks' pend'.
Proof.
  induction rest as [|b rest IH]; intros seen l a chunks pend I Hb.
  - exists seen, a, chunks, pend. cbn [na_loop]. destruct I. constructor; auto; try lia.
    + exists []. reflexivity.
    + rewrite app_nil_r. reflexivity.
  - assert (Hb0 : (b < 256)%N) by (inversion Hb; assumption). assert (Hbr : Forall (fun b => (b < 256)%N) rest) by (inversion Hb; assumption).
    cbn [na_loop]. destruct (Z.leb_spec (l_count l) max) as [Hc|Hc].
    2:{ exists seen, a, chunks, pend. destruct I. constructor; auto; try lia; try (exists (b :: rest); reflexivity). }
    destruct (is_control b || negb (is_complex b) || ((d_exp (l_utf8 l) =? 0)%N && is_c1_control b)) eqn:Hctl.
    + (* control or ASCII *)
      exists seen, seen, [], []. destruct I.
      assert (Hidle : d_exp (l_utf8 (stop_at_control u l (base + Z.of_nat (length seen)))) = 0%N).
      { unfold stop_at_control, flush. cbn [l_utf8]. destruct (N.eqb_spec (d_exp (l_utf8 l)) 0); [assumption|reflexivity]. }
      assert (Hev : (invalids (l_ev l) <= invalids (l_ev (stop_at_control u l (base + Z.of_nat (length seen)))))%nat /\
                    (d_exp (l_utf8 l) <> 0%N -> (invalids (l_ev l) < invalids (l_ev (stop_at_control u l (base + Z.of_nat (length seen)))))%nat)).
      { unfold stop_at_control. cbn [l_ev]. pose proof (flush_invalids l (base + Z.of_nat (length seen))) as F.
        destruct (N.eqb_spec (d_exp (l_utf8 (flush l (base + Z.of_nat (length seen))))) 0) as [K|K]; cbn [negb].
        - split; [lia|]. intros K'. exfalso. apply K'. exact K.
        - rewrite invalids_app. cbn [invalids]. lia. }
      constructor.
      * exists (b :: rest). reflexivity.
      * reflexivity.
      * cbn. rewrite app_nil_r. reflexivity.
      * unfold stop_at_control. cbn [l_rend]. lia.
      * constructor.
      * cbn [length]. lia.
      * apply unfinished_nil.
      * congruence.
      * intros _. exact Hidle.
      * unfold stop_at_control. cbn [flush l_count l_utf8]. destruct (negb (d_exp (l_utf8 l) =? 0)%N); lia.
      * unfold stop_at_control. cbn [flush l_count l_utf8 l_ev]. destruct (N.eqb_spec (d_exp (l_utf8 l)) 0) as [K|K]; cbn [negb].
        -- left. lia.
        -- right. split; [|lia]. rewrite invalids_app. cbn [invalids]. destruct (l_cstart l <? _); [rewrite invalids_app; cbn [invalids]|]; lia.
      * unfold stop_at_control. cbn [l_rep]. lia.
      * exact ni_hi0.
      * destruct (N.eqb_spec (d_exp (l_utf8 l)) 0) as [K|K].
        -- left. unfold at_boundary. destruct ni_bnd0 as [B _]. rewrite B. exact K.
        -- right. exists b, rest. split; [reflexivity|]. rewrite andb_false_l, orb_false_r in Hctl. apply orb_true_iff in Hctl.
           destruct Hctl as [C|C]; [unfold is_control in C; apply N.ltb_lt in C; lia|]. rewrite hi_not_complex in C by exact Hb0. apply N.ltb_lt, C.
      * exact ni_clean0.
      * congruence.
    + (* a byte of a character *)
      assert (Hhi : (0x80 <= b)%N).
      { apply orb_false_iff in Hctl. destruct Hctl as [C _]. apply orb_false_iff in C. destruct C as [_ C].
        rewrite hi_not_complex in C by exact Hb0. apply N.ltb_ge, C. }
      assert (Hc1 : d_exp (l_utf8 l) = 0%N -> ~ c1 b).
      { intros K [C1 C2]. apply orb_false_iff in Hctl. destruct Hctl as [_ C]. rewrite K in C. change (0 =? 0)%N with true in C. cbn in C.
        unfold is_c1_control in C. apply andb_false_iff in C. destruct C as [C|C]; [apply N.leb_gt in C|apply N.leb_gt in C]; lia. }
      assert (Hclean : clean pre (seen ++ [b])).
      { destruct I. apply clean_snoc; [assumption|unfold c0; lia|]. unfold at_boundary. destruct ni_bnd0 as [B _]. rewrite B. exact Hc1. }
      assert (Hhi' : Forall (fun b => (0x80 <= b < 256)%N) (seen ++ [b])).
      { destruct I. apply Forall_app. split; [assumption|]. constructor; [lia|constructor]. }
      assert (Hstep : dlike (l_utf8 l) (fst (from_utf8_run dinit pend))).
      { destruct pend as [|p0 pend0].
        - split; [|intros K; exfalso; apply K, (ni_idle _ _ _ _ _ _ _ _ _ I eq_refl)]. cbn. apply (ni_idle _ _ _ _ _ _ _ _ _ I eq_refl).
        - rewrite <- (ni_dec _ _ _ _ _ _ _ _ _ I ltac:(discriminate)). apply dlike_refl. }
      destruct (dlike_step _ _ b Hstep Hhi Hb0) as [S1 S2].
      destruct (dlike_step _ _ b (ni_bnd _ _ _ _ _ _ _ _ _ I) Hhi Hb0) as [B1 B2].
      assert (Hlen : base + Z.of_nat (length seen) + 1 = base + Z.of_nat (length (seen ++ [b]))) by (rewrite app_length; cbn; lia).
      rewrite Hlen. replace (seen ++ b :: rest) with ((seen ++ [b]) ++ rest) by (rewrite <- app_assoc; reflexivity).
      destruct (from_utf8 (l_utf8 l) b) as [d r] eqn:EU. cbn [fst snd] in *.
      assert (HF : fold_left stream_step (pre ++ seen ++ [b]) dinit = stream_step (fold_left stream_step (pre ++ seen) dinit) b).
      { rewrite app_assoc, fold_left_app. reflexivity. }
      rewrite stream_hi in HF by exact Hhi.
      destruct (from_utf8 (fold_left stream_step (pre ++ seen) dinit) b) as [d2 r2] eqn:EU2. cbn [fst snd] in *. subst r2.
      destruct r as [| |cp].
      * (* Invalid *)
        apply (IH (seen ++ [b]) _ a (chunks ++ [pend ++ [b]]) []); [|exact Hbr].
        destruct I. subst seen.
        assert (El : base + Z.of_nat (length ((a ++ concat chunks ++ pend) ++ [b])) - (l_bytes l + 1) = base + Z.of_nat (length (a ++ concat chunks))).
        { rewrite ni_bytes0, !app_length. cbn [length]. lia. }
        assert (Ec : concat (chunks ++ [pend ++ [b]]) = concat chunks ++ pend ++ [b]) by (rewrite concat_app; cbn; rewrite app_nil_r; reflexivity).
        unfold on_invalid. constructor; cbn [flush l_count l_bytes l_here l_cstart l_rend l_utf8 l_hint l_g l_acc l_rep l_ev].
        -- rewrite Ec, app_nil_r, <- !app_assoc. reflexivity.
        -- exact ni_rend0.
        -- reflexivity.
        -- apply Forall_app. split; [assumption|]. constructor; [|constructor]. exists (length pend).
           rewrite run_snoc. cbn [snd]. rewrite <- S1. unfold unfinished in ni_pend0. rewrite (all_incomplete_repeat _ ni_pend0), run_length. reflexivity.
        -- rewrite invalids_app, app_length. cbn [invalids length]. destruct (l_cstart l <? _); [rewrite invalids_app; cbn [invalids]|]; lia.
        -- apply unfinished_nil.
        -- congruence.
        -- reflexivity.
        -- rewrite El. rewrite Ec. rewrite !app_length. lia.
        -- lia.
        -- lia.
        -- right. split; [|lia]. rewrite invalids_app. cbn [invalids]. destruct (l_cstart l <? _); [rewrite invalids_app; cbn [invalids]|]; lia.
        -- congruence.
        -- exact Hhi'.
        -- rewrite HF. split; [reflexivity|]. cbn. congruence.
        -- exact ni_abnd0.
        -- unfold at_boundary. rewrite Ec. replace (pre ++ a ++ concat chunks ++ pend ++ [b]) with (pre ++ (a ++ concat chunks ++ pend) ++ [b]) by (rewrite <- !app_assoc; reflexivity).
           rewrite HF. reflexivity.
        -- rewrite El. replace (Z.to_nat (base + Z.of_nat (length (a ++ concat chunks)) - base)) with (length (a ++ concat chunks)) by lia.
           replace ((a ++ concat chunks ++ pend) ++ [b]) with ((a ++ concat chunks) ++ pend ++ [b]) by (rewrite <- !app_assoc; reflexivity).
           rewrite firstn_app, firstn_all, Nat.sub_diag, app_nil_r. exact ni_sbnd0.
        -- exact Hclean.
      * (* Incomplete *)
        apply (IH (seen ++ [b]) _ a chunks (pend ++ [b])); [|exact Hbr].
        destruct I. specialize (S2 eq_refl). specialize (B2 eq_refl).
        constructor; cbn [l_count l_bytes l_here l_cstart l_rend l_utf8 l_hint l_g l_acc l_rep l_ev].
        -- rewrite ni_seen0, <- !app_assoc. reflexivity.
        -- exact ni_rend0.
        -- rewrite ni_bytes0, app_length. cbn [length]. lia.
        -- assumption.
        -- assumption.
        -- unfold unfinished. rewrite run_snoc. cbn [snd]. apply Forall_app. split; [exact ni_pend0|]. constructor; [congruence|constructor].
        -- intros _. rewrite run_snoc. cbn [fst]. exact S2.
        -- intros K. apply app_eq_nil in K. destruct K. discriminate.
        -- assumption.
        -- assumption.
        -- assumption.
        -- assumption.
        -- intros _. assumption.
        -- exact Hhi'.
        -- rewrite HF, B2. apply dlike_refl.
        -- assumption.
        -- assumption.
        -- rewrite firstn_app. assert (Z : (Z.to_nat (l_cstart l - base) - length seen = 0)%nat).
           { assert (LS : length seen = length (a ++ concat chunks ++ pend)) by congruence. rewrite !app_length in LS. rewrite app_length in ni_cstart0. lia. }
           rewrite Z, app_nil_r. assumption.
        -- exact Hclean.
      * (* Success *)
        pose proof (from_utf8_success_idle _ _ _ _ EU) as Hidle.
        assert (Hidle2 : d_exp d2 = 0%N) by (eapply from_utf8_success_idle; exact EU2).
        match goal with |- context [on_codepoint u max cp _ ?l0] => set (l1 := l0) end.
        destruct (on_codepoint u max cp (base + Z.of_nat (length (seen ++ [b]))) l1) as [l' o] eqn:EC.
        destruct (on_codepoint_spec _ _ _ _ _ _ _ EC) as (H1 & H2 & H3 & H4 & H5 & H6 & H7);
          [destruct I; exact ni_here0|exact Hc|destruct I; exact ni_rep0|].
        unfold l1 in *. cbn [l_count l_bytes l_here l_cstart l_rend l_utf8 l_hint l_g l_acc l_rep l_ev] in *. clear l1.
        assert (Hcp : base + Z.of_nat (length (seen ++ [b])) - (l_bytes l + 1) = base + Z.of_nat (length (a ++ concat chunks))).
        { destruct I. subst seen. rewrite ni_bytes0, !app_length. cbn [length]. lia. }
        destruct o as [i|].
        -- destruct H7 as [H7 [[H8 H9]|[H8 H9]]].
           ++ (* put the code point back *)
              exists (a ++ concat chunks), a, chunks, []. destruct I. constructor; try assumption.
              ** exists (pend ++ [b] ++ rest). rewrite ni_seen0, <- !app_assoc. reflexivity.
              ** lia.
              ** rewrite app_nil_r. reflexivity.
              ** lia.
              ** lia.
              ** apply unfinished_nil.
              ** congruence.
              ** intros _. rewrite H5. exact Hidle.
              ** lia.
              ** left. lia.
              ** rewrite ni_seen0, app_assoc in ni_hi0. apply Forall_app in ni_hi0. tauto.
              ** left. assumption.
              ** rewrite ni_seen0, app_assoc in ni_clean0. eapply clean_prefix, ni_clean0.
              ** congruence.
           ++ (* put the cluster back *)
              destruct I. set (k := Z.to_nat (l_cstart l - base)) in *.
              exists (firstn k seen), (firstn k seen), [], [].
              assert (Hk : (k <= length seen)%nat).
              { rewrite ni_seen0, !app_length. rewrite app_length in ni_cstart0. lia. }
              assert (Lk : Z.of_nat (length (firstn k seen)) = l_cstart l - base) by (rewrite firstn_length; lia).
              constructor; try assumption.
              ** exists (skipn k seen ++ [b] ++ rest). rewrite <- (firstn_skipn k seen) at 1. rewrite <- !app_assoc. reflexivity.
              ** lia.
              ** cbn. rewrite app_nil_r. reflexivity.
              ** lia.
              ** constructor.
              ** cbn [length]. lia.
              ** apply unfinished_nil.
              ** congruence.
              ** intros _. rewrite H5. exact Hidle.
              ** lia.
              ** left. lia.
              ** rewrite <- (firstn_skipn k seen) in ni_hi0. apply Forall_app in ni_hi0. tauto.
              ** left. assumption.
              ** rewrite <- (firstn_skipn k seen) in ni_clean0. eapply clean_prefix, ni_clean0.
              ** congruence.
        -- destruct H7 as (H7 & H8 & H9).
           apply (IH (seen ++ [b]) l' (seen ++ [b]) [] []); [|exact Hbr]. destruct I. constructor.
           ++ cbn. rewrite app_nil_r. reflexivity.
           ++ lia.
           ++ rewrite H4. reflexivity.
           ++ constructor.
           ++ cbn [length]. lia.
           ++ apply unfinished_nil.
           ++ congruence.
           ++ intros _. rewrite H5. exact Hidle.
           ++ cbn [concat]. rewrite app_nil_r. subst seen. rewrite !app_length in *. lia.
           ++ lia.
           ++ lia.
           ++ left. lia.
           ++ congruence.
           ++ exact Hhi'.
           ++ rewrite HF, H5. split; [congruence|]. congruence.
           ++ unfold at_boundary. rewrite HF. exact Hidle2.
           ++ cbn [concat]. rewrite app_nil_r. unfold at_boundary. rewrite HF. exact Hidle2.
           ++ destruct H9 as [->| ->].
              ** rewrite firstn_app. assert (Z : (Z.to_nat (l_cstart l - base) - length seen = 0)%nat).
                 { assert (LS : length seen = length (a ++ concat chunks ++ pend)) by congruence. rewrite !app_length in LS. rewrite app_length in ni_cstart0. lia. }
                 rewrite Z, app_nil_r. assumption.
              ** rewrite Hcp. replace (Z.to_nat (base + Z.of_nat (length (a ++ concat chunks)) - base)) with (length (a ++ concat chunks)) by lia.
                 rewrite ni_seen0. replace ((a ++ concat chunks ++ pend) ++ [b]) with ((a ++ concat chunks) ++ pend ++ [b]) by (rewrite <- !app_assoc; reflexivity).
                 rewrite firstn_app, firstn_all, Nat.sub_diag, app_nil_r. exact ni_sbnd0.
           ++ exact Hclean.
Qed.

Record nres (start max : Z) (n0 : nat) (pre text : list N) (c s e : Z) (st' : sstate) (ev' : list event)
  (seen a : list N) (chunks : list (list N)) (pend : list N) : Prop := {
  nr_start : s = start;
  nr_end : e = start + Z.of_nat (length a);
  nr_next : s_next st' = Some (start + Z.of_nat (length seen));
  nr_text : exists rest, text = seen ++ rest;
  nr_seen : seen = a ++ concat chunks ++ pend;
  nr_chunks : Forall rejected chunks;
  nr_inv : (n0 + length chunks <= invalids ev')%nat;
  nr_pend : unfinished pend;
  nr_dec : pend <> [] -> s_utf8 st' = fst (from_utf8_run dinit pend);
  nr_idle : pend = [] -> d_exp (s_utf8 st') = 0%N;
  nr_count : 0 <= c;
  nr_max : c <= max \/ ((n0 < invalids ev')%nat /\ c <= max + 1);
  nr_rep : 0 <= s_rep st';
  nr_hi : Forall (fun b => (0x80 <= b < 256)%N) seen;
  nr_bnd : at_boundary (pre ++ a) \/ exists x rest, text = a ++ x :: rest /\ (x < 0x80)%N;
  nr_clean : clean pre seen;
  nr_stop : pend <> [] -> seen = text
}.
Lemma nonascii_spec u st start text max ev pre : d_exp (s_utf8 st) = 0%N -> 0 <= s_rep st -> 0 <= max -> at_boundary pre ->
  Forall (fun b => (b < 256)%N) text ->
  exists c s e st' ev' seen a chunks pend, nonascii u st start text max ev = ((c, s, e), st', ev') /\
    nres start max (invalids ev) pre text c s e st' ev' seen a chunks pend.
Proof.
  intros Hd Hr Hm Hp Hb. unfold nonascii. rewrite Hd. change (0 =? 0)%N with true. cbv iota.
  set (l0 := LP _ _ _ _ _ _ _ _ _ _ _).
  destruct (na_loop_spec u max start (invalids ev) pre text [] l0 [] [] []) as (seen & a & chunks & pend & H).
  - unfold l0. constructor; cbn [l_count l_bytes l_here l_cstart l_rend l_utf8 l_hint l_g l_acc l_rep l_ev length app concat]; try (first [lia|reflexivity|assumption|apply unfinished_nil|apply Forall_nil|congruence]).
    + rewrite app_nil_r. split; [rewrite Hd; exact Hp|]. intros K. exfalso. apply K, Hp.
    + rewrite app_nil_r. exact Hp.
    + rewrite app_nil_r. exact Hp.
    + rewrite firstn_nil, app_nil_r. exact Hp.
    + split; [constructor|]. intros p b q E. destruct p; discriminate.
  - exact Hb.
  - cbn [length app] in H. rewrite Z.add_0_r in H. destruct (na_loop u max text start l0) as [l input]. destruct H.
    do 5 eexists. exists seen, a, chunks, pend. split; [reflexivity|].
    constructor; cbn [flush l_count l_rend l_utf8 l_rep l_ev s_next s_utf8 s_rep]; try assumption; try reflexivity.
    + f_equal. assumption.
    + destruct (l_cstart l <? input); [rewrite invalids_app; cbn [invalids]|]; lia.
    + destruct (l_cstart l <? input); [rewrite invalids_app; cbn [invalids]|]; lia.
Qed.

(** Outcome of a scan that started idle. *)
Record fpost (buf : list N) (max : Z) (r : sresult) (st' : sstate) (ev : list event)
  (a : list N) (chunks : list (list N)) (pend rest : list N) : Prop := {
  fp_buf : buf = a ++ concat chunks ++ pend ++ rest;
  fp_start : r_start r = 0;
  fp_end : r_end r = Z.of_nat (length a);
  fp_next : s_next st' = Some (Z.of_nat (length (a ++ concat chunks ++ pend)));
  fp_chunks : Forall rejected chunks;
  fp_inv : (length chunks <= invalids ev)%nat;
  fp_pend : unfinished pend;
  fp_dec : pend <> [] -> s_utf8 st' = fst (from_utf8_run dinit pend) /\ rest = [];
  fp_idle : pend = [] -> d_exp (s_utf8 st') = 0%N;
  fp_count : 0 <= r_count r;
  fp_max : r_count r <= max \/ ((0 < invalids ev)%nat /\ r_count r <= max + 1);
  fp_rep : 0 <= s_rep st';
  fp_clean : clean [] (a ++ concat chunks ++ pend)
}.

Lemma ascii_resets p s : Forall printable s -> s <> [] -> fold_left stream_step (p ++ s) dinit = dinit.
Proof.
  intros H Hne. destruct (exists_last Hne) as (s' & x & ->). rewrite app_assoc, fold_left_app. cbn [fold_left].
  apply Forall_app in H. destruct H as [_ H]. inversion H as [|? ? [_ Hx]]; subst. unfold stream_step.
  destruct (N.ltb_spec x 0x80); [reflexivity|lia].
Qed.
Lemma clean_app pre a b : clean pre a -> clean (pre ++ a) b -> clean pre (a ++ b).
Proof.
  intros [A1 A2] [B1 B2]. split; [apply Forall_app; auto|]. intros p x q E Hp.
  destruct (Nat.lt_ge_cases (length p) (length a)) as [L|L].
  - assert (Ea : a = p ++ firstn (length a - length p) (x :: q)).
    { apply (f_equal (firstn (length a))) in E. rewrite firstn_app, firstn_all, Nat.sub_diag, app_nil_r in E.
      rewrite firstn_app in E. rewrite (firstn_all2 (n := length a) p) in E by lia. exact E. }
    destruct (length a - length p)%nat as [|n] eqn:En; [lia|]. cbn [firstn] in Ea. eapply A2; eauto.
  - assert (Eb : b = skipn (length a) p ++ x :: q).
    { apply (f_equal (skipn (length a))) in E. rewrite skipn_app, skipn_all, Nat.sub_diag in E. cbn [skipn app] in E.
      rewrite skipn_app in E. replace (length a - length p)%nat with O in E by lia. exact E. }
    eapply B2; [exact Eb|]. rewrite <- app_assoc.
    assert (Ep : p = a ++ skipn (length a) p).
    { apply (f_equal (firstn (length p))) in E. rewrite firstn_app, (firstn_all2 (n := length p) a) in E by lia.
      rewrite firstn_app, firstn_all, Nat.sub_diag, app_nil_r in E.
      rewrite <- E at 1. rewrite Eb. rewrite firstn_app.
      rewrite (firstn_all2 (skipn (length a) p)) by (rewrite skipn_length; lia).
      rewrite skipn_length. replace (length p - length a - (length p - length a))%nat with O by lia. cbn [firstn]. rewrite app_nil_r. reflexivity. }
    rewrite <- Ep. exact Hp.
Qed.
Lemma clean_printable pre s : Forall printable s -> clean pre s.
Proof.
  intros H. split; [eapply Forall_impl; [|exact H]; intros b [B1 B2]; unfold c0; lia|].
  intros p b q E _ [C1 C2]. rewrite E in H. apply Forall_app in H. destruct H as [_ H]. inversion H as [|? ? [_ Hx]]; subst. lia.
Qed.

Lemma scan_loop_spec u uchar i buf max : Forall (fun b => (b < 256)%N) buf -> 0 <= max -> forall fuel pre text st cx ev r,
  buf = pre ++ text -> (length text < fuel)%nat ->
  d_exp (s_utf8 st) = 0%N -> 0 <= s_rep st -> s_next st = Some (Z.of_nat (length pre)) ->
  r_start r = 0 -> r_end r = Z.of_nat (length pre) -> 0 <= r_count r -> 
  (r_count r <= max \/ ((0 < invalids ev)%nat /\ r_count r <= max + 1)) -> clean [] pre ->
  (at_boundary pre \/ cx = false) ->
  exists r' st' ev' a chunks pend rest,
    scan_loop u uchar i fuel buf max st cx (Z.of_nat (length pre)) r ev = Ok (r', st', ev') /\
    fpost buf max r' st' ev' a chunks pend rest.
Proof.
  intros Hb Hm. induction fuel as [|fuel IH]; intros pre text st cx ev r Ebuf Hf Hd Hrep Hn Hs He Hc0 Hc Hcl Hbd; [lia|].
  assert (FIN : fpost buf max r st ev pre [] [] text).
  { constructor; auto; try (constructor; fail).
    - cbn [concat app]. rewrite app_nil_r. exact Hn.
    - cbn. lia.
    - congruence.
    - cbn [concat app]. rewrite app_nil_r. exact Hcl. }
  cbn [scan_loop]. rewrite Hn.
  destruct (Z.ltb_spec (r_count r) max) as [Hlt|Hge]; cbn [andb].
  2:{ exists r, st, ev, pre, [], [], text. auto. }
  destruct (Z.eqb_spec (Z.of_nat (length pre)) (Z.of_nat (length buf))) as [En|En]; cbn [negb].
  { exists r, st, ev, pre, [], [], text. auto. }
  assert (Hskip : skipn (Z.to_nat (Z.of_nat (length pre))) buf = text).
  { rewrite Nat2Z.id, Ebuf, skipn_app, skipn_all, Nat.sub_diag. reflexivity. }
  rewrite Hskip.
  assert (Hbt : Forall (fun b => (b < 256)%N) text) by (rewrite Ebuf in Hb; apply Forall_app in Hb; tauto).
  destruct cx.
  - (* complex *)
    assert (Hbp : at_boundary pre) by (destruct Hbd; [assumption|discriminate]).
    destruct (nonascii_spec u st (Z.of_nat (length pre)) text (max - r_count r) ev pre Hd Hrep ltac:(lia) Hbp Hbt)
      as (c & s & e & st' & ev' & seen & a & chunks & pend & EN & R). rewrite EN. destruct R. subst s e.
    replace (Z.of_nat (length pre) + Z.of_nat (length a) - Z.of_nat (length pre)) with (Z.of_nat (length a)) by lia.
    destruct nr_text0 as [rest Et].
    assert (FIN2 : fpost buf max (SR (r_count r + c) (r_start r) (Z.of_nat (length pre) + Z.of_nat (length a))) st' ev' (pre ++ a) chunks pend rest).
    { constructor; cbn [r_start r_end r_count]; auto.
      - rewrite Ebuf, Et, nr_seen0, <- !app_assoc. reflexivity.
      - rewrite app_length. lia.
      - rewrite nr_next0, nr_seen0. f_equal. rewrite !app_length. lia.
      - lia.
      - intros K. split; [apply nr_dec0, K|]. specialize (nr_stop0 K). rewrite Et in nr_stop0.
        rewrite <- (app_nil_r seen) in nr_stop0 at 1. apply app_inv_head in nr_stop0. congruence.
      - lia.
      - destruct nr_max0 as [K|[K1 K2]]; [left; lia|right; split; lia].
      - rewrite <- app_assoc. replace (a ++ concat chunks ++ pend) with seen by congruence.
        apply clean_app; [exact Hcl|]. exact nr_clean0. }
    destruct (Z.eqb_spec (Z.of_nat (length a)) 0) as [Ea|Ea].
    { exists (SR (r_count r + c) (r_start r) (Z.of_nat (length pre) + Z.of_nat (length a))), st', ev', (pre ++ a), chunks, pend, rest.
      split; [reflexivity|exact FIN2]. }
    destruct (concat chunks ++ pend) as [|x q] eqn:Ecp.
    + (* nothing left over: go on behind the run *)
      assert (pend = []) by (destruct (concat chunks); [exact Ecp|discriminate]). subst pend.
      rewrite app_nil_r in nr_seen0. subst seen.
      replace (Z.of_nat (length pre) + Z.of_nat (length a)) with (Z.of_nat (length (pre ++ a))) in * by (rewrite app_length; lia).
      apply (IH (pre ++ a) rest st' false ev'); cbn [r_start r_end r_count]; auto.
      * rewrite Ebuf, Et, <- app_assoc. reflexivity.
      * rewrite Et, app_length in Hf. lia.
      * lia.
      * destruct nr_max0 as [K|[K1 K2]]; [left; lia|right; split; lia].
      * apply clean_app; assumption.
    + (* something left over: the ASCII scanner stops at once *)
      exists (SR (r_count r + c) (r_start r) (Z.of_nat (length pre) + Z.of_nat (length a))), st', ev', (pre ++ a), chunks, pend, rest.
      split; [|exact FIN2]. 
      assert (Htext : skipn (length (pre ++ a)) buf = x :: q ++ rest).
      { rewrite Ebuf, Et, nr_seen0. replace (pre ++ (a ++ x :: q) ++ rest) with ((pre ++ a) ++ x :: q ++ rest) by (rewrite <- !app_assoc; reflexivity).
        rewrite skipn_app, skipn_all, Nat.sub_diag. reflexivity. }
      assert (Hx : (0x80 <= x)%N).
      { rewrite nr_seen0 in nr_hi0. apply Forall_app in nr_hi0. destruct nr_hi0 as [_ K]. inversion K; lia. }
      destruct fuel as [|fuel]; [rewrite Et, nr_seen0, !app_length in Hf; cbn [length] in Hf; lia|].
      cbn [scan_loop r_count]. destruct (_ && _); [|reflexivity].
      replace (Z.to_nat (Z.of_nat (length pre) + Z.of_nat (length a))) with (length (pre ++ a)) by (rewrite app_length; lia).
      rewrite Htext.
      destruct (scan_for_text_ascii_spec uchar i (x :: q ++ rest) (Z.to_nat (max - (r_count r + c)))) as (n & E & EP).
      { assert (K : Forall (fun b => (b < 256)%N) (skipn (length (pre ++ a)) buf)).
        { rewrite <- (firstn_skipn (length (pre ++ a)) buf) in Hb. apply Forall_app in Hb. tauto. }
        rewrite Htext in K. exact K. }
      rewrite E. cbn [bindR]. destruct n as [|n]; [reflexivity|]. destruct EP as (_ & P & _). cbn [firstn] in P. inversion P as [|? ? [_ B]]. lia.
  - (* ASCII *)
    destruct (scan_for_text_ascii_spec uchar i text (Z.to_nat (max - r_count r)) Hbt) as (n & E & EP).
    rewrite E. cbn [bindR]. destruct n as [|n].
    { exists r, st, ev, pre, [], [], text. auto. }
    destruct EP as (EL & EPr & _).
    assert (Lf : length (firstn (S n) text) = S n) by (rewrite firstn_length; lia).
    assert (Hne : firstn (S n) text <> []) by (destruct (firstn (S n) text); [discriminate|congruence]).
    replace (Z.of_nat (length pre) + Z.of_nat (S n)) with (Z.of_nat (length (pre ++ firstn (S n) text))) by (rewrite app_length, Lf; lia).
    apply (IH (pre ++ firstn (S n) text) (skipn (S n) text)); cbn [s_utf8 s_rep s_next r_start r_end r_count]; auto; try lia.
    + rewrite <- app_assoc, firstn_skipn. exact Ebuf.
    + rewrite skipn_length. lia.
    + rewrite app_length, Lf. lia.
    + apply clean_app; [exact Hcl|]. apply clean_printable, EPr.
    + left. unfold at_boundary. rewrite ascii_resets by assumption. reflexivity.
Qed.

Lemma scan_text_spec u uchar i st buf max : Forall (fun b => (b < 256)%N) buf -> 0 <= max ->
  d_exp (s_utf8 st) = 0%N -> 0 <= s_rep st -> (s_next st = None \/ s_next st = Some 0) ->
  exists r' st' ev' a chunks pend rest,
    scan_text u uchar i st buf max = Ok (r', st', ev') /\ fpost buf max r' st' ev' a chunks pend rest.
Proof.
  intros Hb Hm Hd Hrep Hn. unfold scan_text. cbn [s_utf8]. rewrite Hd. change (0 =? 0)%N with true. cbv iota. cbn [r_end].
  replace (match s_next st with Some z => Some z | None => Some 0 end) with (Some 0) by (destruct Hn as [-> | ->]; reflexivity).
  destruct (Z.eqb_spec 0 (Z.of_nat (length buf))) as [E|E].
  - assert (buf = []) by (destruct buf; [reflexivity|cbn in E; lia]). subst buf.
    do 3 eexists. exists [], [], [], []. split; [reflexivity|].
    constructor; cbn [r_start r_end r_count s_next s_utf8 s_rep]; auto; try (constructor; fail); try (cbn; lia); try congruence.
    split; [constructor|]. intros p b q K. destruct p; discriminate.
  - replace ((0 <? 0) || (Z.of_nat (length buf) <? 0)) with false by (symmetry; apply orb_false_iff; split; [reflexivity|apply Z.ltb_ge; lia]).
    apply (scan_loop_spec u uchar i buf max Hb Hm (S (length buf)) [] buf); auto.
    + cbn. lia.
    + split; [constructor|]. intros p b q K. destruct p; discriminate.
    + left. reflexivity.
Qed.
