(** scan_text on text with ill-formed sequences in it. *)
From Verif Require Import Base Spec_Utf M_Utf8 M_Convert M_AsciiScan M_Ucd M_Grapheme M_Width M_Scan Spec_Scan Spec_ScanJunk Spec_Width P_Utf8 P_AsciiScan P_Scan P_Scan2 P_Scan3 P_Scan4 P_Scan5 P_Scan6.
Open Scope Z_scope.

Definition m0 (u : ucd) : cm := CM 0 (gstate0 u) acc0 0 0.
Fixpoint size (t0 : list N) (rest : list (list N * list N)) : nat :=
  (length t0 + match rest with [] => 0 | (j, t) :: rest' => S (size t rest') end)%nat.
Fixpoint tot (u : ucd) (m : cm) (t0 : list N) (rest : list (list N * list N)) : Z :=
  fst (mrun u m t0) + match rest with [] => 0 | (j, t) :: rest' => 1 + tot u (m0 u) t rest' end.

Lemma minv_m0 u : minv (m0 u). Proof. repeat split; cbn; lia. Qed.
Lemma mrun_le u : ucd_width_ok u -> widths_le2 u -> forall cs m, Forall (printing u) cs -> minv m -> fst (mrun u m cs) <= 2 * Z.of_nat (length cs).
Proof.
  intros OK HW. induction cs as [|c cs IH]; intros m Hc Hm; [cbn; lia|]. inversion Hc; subst. cbn [mrun length].
  destruct (mstep_minv u c m OK HW) as [I1 I2]; auto. destruct (mstep u c m) as [d m']. cbn [fst snd] in *. specialize (IH m' ltac:(assumption) I1).
  destruct (mrun u m' cs). cbn [fst] in *. lia.
Qed.
Lemma on_codepoint_inv u max c input l : invalids (l_ev (fst (on_codepoint u max c input l))) = invalids (l_ev l).
Proof.
  unfold on_codepoint. destruct (if (l_hint l =? 0)%N then _ else _) as [brk g].
  cbn [l_count l_bytes l_here l_cstart l_rend l_utf8 l_hint l_g l_acc l_rep l_ev].
  repeat match goal with |- context [if ?x then _ else _] => destruct x; cbn [fst l_ev flush l_cstart] end; try reflexivity; rewrite ?invalids_app; cbn; try lia.
Qed.

Lemma na_run_j u max tail : forall cs input l, scalars cs -> Forall (fun c => (0x80 <= c)%N) cs ->
  d_exp (l_utf8 l) = 0%N -> l_count l <= max -> l_bytes l = 0 -> fits u max (l_count l) (mof l) cs ->
  exists l', na_loop u max (utf8_text cs ++ tail) input l = na_loop u max tail (input + bl cs) l' /\
    mof l' = snd (mrun u (mof l) cs) /\ l_count l' = l_count l + fst (mrun u (mof l) cs) /\ d_exp (l_utf8 l') = 0%N /\
    (cs <> [] -> l_rend l' = input + bl cs) /\ (cs = [] -> l_rend l' = l_rend l) /\ l_bytes l' = 0 /\ l_count l' <= max /\ invalids (l_ev l') = invalids (l_ev l).
Proof.
  induction cs as [|c cs IH]; intros input l Hs Hc Hd Hm Hb Hf.
  - exists l. unfold bl. cbn [utf8_text flat_map length mrun fst snd app]. change (Z.of_nat 0) with 0. rewrite !Z.add_0_r. repeat split; auto. congruence.
  - inversion Hs as [|? ? Hsc Hs']; subst. inversion Hc as [|? ? Hcc Hc']; subst.
    cbn [utf8_text flat_map]. rewrite <- app_assoc. fold (utf8_text cs).
    destruct (na_char u max c l (utf8_text cs ++ tail) input Hsc Hcc Hd Hm) as (d' & Hd' & E). rewrite E. clear E.
    cbn [fits mrun] in Hf |- *. rewrite mstep_hi in Hf |- * by exact Hcc.
    match goal with |- context [on_codepoint u max c ?p ?x] => pose proof (on_codepoint_m u max c p x) as O; pose proof (on_codepoint_inv u max c p x) as OI end.
    unfold mof in O at 1. cbn [l_count l_bytes l_here l_cstart l_rend l_utf8 l_hint l_g l_acc l_rep l_ev] in O, OI. fold (mof l) in O.
    destruct (mhi u c (mof l)) as [d m']. destruct Hf as [Hf1 Hf2].
    destruct (O ltac:(lia)) as (l' & E & M1 & M2 & M3 & M4 & M5). rewrite E. rewrite E in OI. cbn [fst] in OI.
    destruct (IH (input + Z.of_nat (length (utf8 c))) l') as (l2 & E2 & I1 & I2 & I3 & I4 & I4' & I5 & I6 & I7); auto.
    + rewrite M3. exact Hd'.
    + lia.
    + rewrite M2, M1. exact Hf2.
    + exists l2. rewrite E2. rewrite M1 in I1, I2. destruct (mrun u m' cs) as [d2 m2]. cbn [fst snd] in *.
      assert (B : bl (c :: cs) = Z.of_nat (length (utf8 c)) + bl cs) by (change (c :: cs) with ([c] ++ cs); rewrite bl_app, bl_one; reflexivity).
      rewrite B, Z.add_assoc. split; [reflexivity|]. split; [exact I1|]. split; [lia|]. split; [exact I3|]. split; [|split; [discriminate|]].
      * intros _. destruct cs as [|c2 cs]; [rewrite (I4' eq_refl), M5; change (bl []) with 0; lia|]. apply I4. discriminate.
      * split; [exact I5|]. split; [exact I6|]. rewrite I7. exact OI.
Qed.

Lemma not_stop l b : (0x80 <= b < 256)%N -> (d_exp (l_utf8 l) = 0%N -> ~ c1 b) ->
  is_control b || negb (is_complex b) || ((d_exp (l_utf8 l) =? 0)%N && is_c1_control b) = false.
Proof.
  intros Hb Hc. rewrite hi_not_complex by lia. unfold is_control. destruct (N.ltb_spec b 0x20); [lia|]. destruct (N.ltb_spec b 0x80); [lia|]. cbn [orb].
  destruct (N.eqb_spec (d_exp (l_utf8 l)) 0) as [E|E]; [|reflexivity]. cbn [andb]. specialize (Hc E). unfold c1 in Hc.
  unfold is_c1_control. destruct (N.leb_spec 0x80 b), (N.leb_spec b 0x9F); try reflexivity. exfalso. apply Hc. lia.
Qed.

(** a beginning of a character, with more behind it *)
Lemma na_pend_t u max tail : forall p l input, Forall (eq Incomplete) (snd (from_utf8_run (l_utf8 l) p)) ->
  Forall (fun b => (0x80 <= b < 256)%N) p -> (d_exp (l_utf8 l) = 0%N -> p <> [] -> ~ c1 (hd 0%N p)) -> l_count l <= max ->
  na_loop u max (p ++ tail) input l =
  na_loop u max tail (input + Z.of_nat (length p))
    (LP (l_count l) (l_bytes l + Z.of_nat (length p)) (l_here l) (l_cstart l) (l_rend l) (fst (from_utf8_run (l_utf8 l) p))
      (l_hint l) (l_g l) (l_acc l) (l_rep l) (l_ev l)).
Proof.
  induction p as [|b p IH]; intros l input Hr Hh Hc Hm.
  - cbn [app length from_utf8_run fst]. change (Z.of_nat 0) with 0. rewrite !Z.add_0_r. destruct l. reflexivity.
  - cbn [na_loop app]. destruct (Z.leb_spec (l_count l) max); [|lia]. inversion Hh as [|? ? Hb Hq]; subst.
    rewrite not_stop by (try exact Hb; intros K; apply (Hc K); discriminate).
    cbn [from_utf8_run] in Hr |- *. destruct (from_utf8 (l_utf8 l) b) as [d r] eqn:EF.
    destruct (from_utf8_run d p) as [d2 rs] eqn:ER. cbn [fst snd] in *. inversion Hr as [|? ? Hx Hrs]; subst.
    rewrite (IH (LP _ _ _ _ _ _ _ _ _ _ _)); cbn [l_count l_bytes l_here l_cstart l_rend l_utf8 l_hint l_g l_acc l_rep l_ev].
    + rewrite ER. cbn [fst length]. f_equal; [lia|f_equal; lia].
    + rewrite ER. exact Hrs.
    + exact Hq.
    + intros K. exfalso. apply (from_utf8_pending _ _ _ EF K).
    + exact Hm.
Qed.

(** idle decoders answer alike *)
Lemma run_like : forall p a b, dlike a b -> Forall (fun x => (0x80 <= x < 256)%N) p ->
  forall n, (snd (from_utf8_run b p) = repeat Incomplete n ++ [Invalid] -> snd (from_utf8_run a p) = repeat Incomplete n ++ [Invalid]) /\
  (Forall (eq Incomplete) (snd (from_utf8_run b p)) -> Forall (eq Incomplete) (snd (from_utf8_run a p))).
Proof.
  induction p as [|x p IH]; intros a b L H n; [auto|]. inversion H as [|? ? Hx Hp]; subst.
  destruct (dlike_step a b x L ltac:(lia) ltac:(lia)) as [S1 S2]. cbn [from_utf8_run].
  destruct (from_utf8 a x) as [da ra], (from_utf8 b x) as [db rb]. cbn [fst snd] in *. subst rb.
  assert (K : ra = Incomplete -> dlike da db) by (intros R; rewrite (S2 R); apply dlike_refl).
  destruct (from_utf8_run da p) as [da' la] eqn:Ea, (from_utf8_run db p) as [db' lb] eqn:Eb. cbn [snd]. split.
  - intros E. destruct n as [|n]; cbn [repeat app] in E |- *.
    + injection E as -> E2. destruct p as [|y p']; cbn [from_utf8_run] in Ea, Eb.
      * injection Ea as _ <-. reflexivity.
      * destruct (from_utf8 db y) as [d9 r9]. destruct (from_utf8_run d9 p'). injection Eb as _ <-. discriminate.
    + injection E as -> E2. f_equal. destruct (IH da db (K eq_refl) Hp n) as [I1 _]. rewrite Ea, Eb in I1. apply I1, E2.
  - intros F. inversion F as [|? ? F1 F2]; subst. constructor; [reflexivity|]. destruct (IH da db (K eq_refl) Hp n) as [_ I2]. rewrite Ea, Eb in I2. apply I2, F2.
Qed.
Lemma idle_like d : d_exp d = 0%N -> dlike d dinit.
Proof. intros H. split; [exact H|]. intros K. contradiction. Qed.

(** a rejected sequence *)
Lemma na_junk u max tail : forall j n l input, snd (from_utf8_run (l_utf8 l) j) = repeat Incomplete n ++ [Invalid] ->
  Forall (fun b => (0x80 <= b < 256)%N) j -> (d_exp (l_utf8 l) = 0%N -> ~ c1 (hd 0%N j)) -> l_count l <= max ->
  exists l', na_loop u max (j ++ tail) input l = na_loop u max tail (input + Z.of_nat (length j)) l' /\
    mof l' = m0 u /\ l_count l' = l_count l + 1 /\ d_exp (l_utf8 l') = 0%N /\ l_rend l' = l_rend l /\ l_bytes l' = 0 /\
    invalids (l_ev l') = S (invalids (l_ev l)).
Proof.
  induction j as [|b j IH]; intros n l input Hr Hh Hc Hm; [destruct n; discriminate|].
  cbn [na_loop app]. destruct (Z.leb_spec (l_count l) max); [|lia]. inversion Hh as [|? ? Hb Hq]; subst.
  rewrite not_stop by (try exact Hb; exact Hc).
  cbn [from_utf8_run] in Hr. destruct (from_utf8 (l_utf8 l) b) as [d r] eqn:EF.
  destruct (from_utf8_run d j) as [d2 rs] eqn:ER. cbn [snd] in Hr. destruct n as [|n]; cbn [repeat app] in Hr.
  - injection Hr as -> Ers. subst rs. assert (j = []).
    { destruct j as [|y j']; [reflexivity|]. cbn [from_utf8_run] in ER. destruct (from_utf8 d y) as [d9 r9]. destruct (from_utf8_run d9 j'). discriminate. }
    subst j. cbn [app length]. change (Z.of_nat 1) with 1. eexists. split; [reflexivity|]. unfold on_invalid, mof.
    cbn [flush l_count l_bytes l_here l_cstart l_rend l_utf8 l_hint l_g l_acc l_rep l_ev d_exp]. repeat split.
    rewrite invalids_app. destruct (_ <? _); rewrite ?invalids_app; cbn; lia.
  - injection Hr as -> Ers. subst rs.
    destruct (IH n (LP (l_count l) (l_bytes l + 1) (l_here l) (l_cstart l) (l_rend l) d (l_hint l) (l_g l) (l_acc l) (l_rep l) (l_ev l)) (input + 1)) as (l' & E & R);
      cbn [l_count l_bytes l_here l_cstart l_rend l_utf8 l_hint l_g l_acc l_rep l_ev] in *.
    + rewrite ER. reflexivity.
    + exact Hq.
    + intros K. exfalso. apply (from_utf8_pending _ _ _ EF K).
    + exact Hm.
    + exists l'. split; [rewrite E; f_equal; cbn [length]; lia|exact R].
Qed.
Lemma c1_rejected b : c1 b -> snd (from_utf8 dinit b) = Invalid.
Proof.
  intros [H1 H2]. assert (F : forallb (fun x => match snd (from_utf8 dinit x) with Invalid => true | _ => false end) (map N.of_nat (seq 128 32)) = true) by (vm_compute; reflexivity).
  rewrite forallb_forall in F. specialize (F b). destruct (snd (from_utf8 dinit b)); try reflexivity; (discriminate F || (assert (false = true); [apply F|discriminate]));
    apply in_map_iff; exists (N.to_nat b); rewrite N2Nat.id; (split; [reflexivity|apply in_seq; lia]).
Qed.
Lemma cut_short_head p : unfinished p -> p <> [] -> ~ c1 (hd 0%N p).
Proof.
  intros H Hne C. destruct p as [|b p]; [congruence|]. cbn [hd] in C. unfold unfinished in H. cbn [from_utf8_run] in H.
  pose proof (c1_rejected b C) as R. destruct (from_utf8 dinit b) as [d r]. cbn [snd] in R. subst r. destruct (from_utf8_run d p). cbn [snd] in H.
  apply Forall_inv in H. discriminate.
Qed.
Lemma pend_exp : forall p d, p <> [] -> Forall (eq Incomplete) (snd (from_utf8_run d p)) -> d_exp (fst (from_utf8_run d p)) <> 0%N.
Proof.
  induction p as [|b p IH]; intros d Hne H; [congruence|]. cbn [from_utf8_run] in *. destruct (from_utf8 d b) as [d1 r] eqn:E.
  destruct (from_utf8_run d1 p) as [d2 rs] eqn:E2. cbn [fst snd] in *. inversion H as [|? ? H1 H2]; subst. destruct p as [|b2 p].
  - cbn [from_utf8_run] in E2. injection E2 as <- _. exact (from_utf8_pending _ _ _ E).
  - specialize (IH d1 ltac:(discriminate)). rewrite E2 in IH. apply IH, H2.
Qed.

(** stopping in front of a 7-bit character *)
Lemma na_stop u max b tail input l : (b < 0x80)%N -> l_count l <= max ->
  exists l', na_loop u max (b :: tail) input l = (l', input) /\ l_rend l' = input /\ d_exp (l_utf8 l') = 0%N /\
    l_count l' = l_count l + (if (d_exp (l_utf8 l) =? 0)%N then 0 else 1) /\ l_hint l' = 0%N /\ l_g l' = gstate0 u /\ l_acc l' = acc0 /\ l_rep l' = 0 /\
    invalids (l_ev l') = (invalids (l_ev l) + (if (d_exp (l_utf8 l) =? 0)%N then 0 else 1))%nat /\ invalids (l_ev (flush l' input)) = invalids (l_ev l').
Proof.
  intros Hb Hm. cbn [na_loop]. destruct (Z.leb_spec (l_count l) max); [|lia].
  replace (is_control b || negb (is_complex b) || _) with true.
  2:{ symmetry. rewrite hi_not_complex by lia. destruct (N.ltb_spec b 0x80); [|lia]. rewrite orb_true_r. reflexivity. }
  eexists. split; [reflexivity|]. unfold stop_at_control. cbn [flush l_count l_rend l_utf8 l_hint l_g l_acc l_rep l_ev l_cstart].
  split; [reflexivity|]. rewrite Z.ltb_irrefl. split; [|split; [|split; [|split; [|split; [|split; [|split]]]]]]; try reflexivity.
  - destruct (N.eqb_spec (d_exp (l_utf8 l)) 0) as [E|E]; cbn [negb]; [exact E|reflexivity].
  - destruct (N.eqb_spec (d_exp (l_utf8 l)) 0) as [E|E]; cbn [negb]; lia.
  - destruct (N.eqb_spec (d_exp (l_utf8 l)) 0) as [E|E]; cbn [negb]; destruct (l_cstart l <? input); rewrite ?invalids_app; cbn; lia.
Qed.

Definition all_plain (u : ucd) (t0 : list N) (rest : list (list N * list N)) : Prop :=
  Forall (fun t => scalars t /\ Forall text_cp t /\ Forall (printing u) t) (texts t0 rest).

Lemma na_stream u max p : ucd_width_ok u -> widths_le2 u -> unfinished p -> Forall (fun b => (0x80 <= b < 256)%N) p ->
  forall rest t0 input l, all_plain u t0 rest -> flaws rest -> d_exp (l_utf8 l) = 0%N -> l_bytes l = 0 -> minv (mof l) ->
  l_count l + 2 * Z.of_nat (size t0 rest) < max ->
  exists l' input', na_loop u max (bytes_of t0 rest ++ p) input l = (l', input') /\
    ((input' = input + Z.of_nat (length (bytes_of t0 rest ++ p)) /\ l_count l' = l_count l + tot u (mof l) t0 rest /\
      invalids (l_ev l') = (invalids (l_ev l) + length rest)%nat /\
      (last_text t0 rest <> [] -> l_rend l' = input + Z.of_nat (length (bytes_of t0 rest))) /\ (t0 = [] -> rest = [] -> l_rend l' = l_rend l)) \/
     (exists b tl rest' skipped, (b < 0x80)%N /\ bytes_of t0 rest ++ p = skipped ++ bytes_of (b :: tl) rest' ++ p /\ all_plain u (b :: tl) rest' /\ flaws rest' /\
      input' = input + Z.of_nat (length skipped) /\ l_rend l' = input' /\ d_exp (l_utf8 l') = 0%N /\
      l_hint l' = 0%N /\ l_g l' = gstate0 u /\ l_acc l' = acc0 /\ l_rep l' = 0 /\
      l_count l' + tot u (m0 u) (b :: tl) rest' = l_count l + tot u (mof l) t0 rest /\
      l_count l' + 2 * Z.of_nat (size (b :: tl) rest') <= l_count l + 2 * Z.of_nat (size t0 rest) /\
      (invalids (l_ev l') + length rest' = invalids (l_ev l) + length rest)%nat /\ invalids (l_ev (flush l' input')) = invalids (l_ev l') /\
      (last_text t0 rest <> [] -> last_text (b :: tl) rest' <> []) /\ (skipped = [] -> exists q, t0 = b :: q))).
Proof.
  intros OK HW Hp Hpb. induction rest as [|[j t] rest IH]; intros t0 input l Hpl Hfl Hd Hb Hmi Hbound; cbn [bytes_of size tot flaws] in *.
  all: pose proof (hi_run_spec t0) as HR; destruct (hi_run t0) as [cs tl] eqn:Eh; destruct HR as (E2 & Hhi & Htl).
  all: pose proof (Forall_inv Hpl) as (Hs & Htc & Hpr); pose proof (Forall_inv_tail Hpl) as Hpl'; cbn [map snd] in Hpl'.
  all: assert (Hs' := Hs); rewrite E2 in Hs', Htc, Hpr; apply Forall_app in Hs'; apply Forall_app in Htc; apply Forall_app in Hpr;
       destruct Hs' as [Hs1 Hs2], Htc as [Htc1 Htc2], Hpr as [Hpr1 Hpr2].
  all: assert (Ln : length t0 = (length cs + length tl)%nat) by (rewrite E2, app_length; reflexivity).
  all: assert (Ln2 : length (cs ++ tl) = (length cs + length tl)%nat) by apply app_length.
  all: rewrite E2, utf8_text_app, mrun_app; cbn [fst].
  all: pose proof (mrun_le u OK HW cs (mof l) Hpr1 Hmi) as Hle.
  all: pose proof (minv_run u OK HW cs (mof l) Hpr1 Hmi) as Hmi'.
  - match goal with |- context [na_loop u max ?bs input l] => replace bs with (utf8_text cs ++ utf8_text tl ++ p) by (rewrite app_nil_r, app_assoc; reflexivity) end.
    destruct (na_run_j u max (utf8_text tl ++ p) cs input l Hs1 Hhi Hd ltac:(lia) Hb) as (l1 & E & I1 & I2 & I3 & I4 & I4' & I5 & I6 & I7).
    { apply minv_fits; auto. lia. }
    rewrite E. destruct Htl as [->|(b & q & -> & Hlo)].
    + cbn [utf8_text flat_map app]. rewrite !app_nil_r.
      rewrite na_pend.
      * do 2 eexists. split; [reflexivity|]. left. cbn [l_count l_ev l_rend length mrun fst snd]. rewrite app_length. unfold bl in *.
        split; [lia|]. split; [lia|]. split; [lia|]. unfold last_text. cbn [map last]. split; [exact I4|].
        intros E0 _. apply I4'. rewrite app_nil_r in E2. congruence.
      * destruct (run_like p (l_utf8 l1) dinit (idle_like _ I3) Hpb 0) as [_ K]. apply K, Hp.
      * exact Hpb.
      * intros _. now apply cut_short_head.
      * lia.
    + rewrite utf8_text_head_ascii by exact Hlo. cbn [app].
      destruct (na_stop u max b (utf8_text q ++ p) (input + bl cs) l1 Hlo ltac:(lia)) as (l2 & ES & S1 & S2 & S3 & S4 & S5 & S6 & S7 & S8 & S9).
      rewrite ES. do 2 eexists. split; [reflexivity|]. right. rewrite I3 in *. change (0 =? 0)%N with true in *. cbv iota in *.
      exists b, q, [], (utf8_text cs). split; [exact Hlo|]. cbn [bytes_of]. rewrite !app_nil_r, utf8_text_head_ascii by exact Hlo. cbn [app]. split; [rewrite <- ?app_assoc; reflexivity|].
      split; [constructor; [auto|constructor]|]. split; [exact I|]. split; [reflexivity|]. split; [exact S1|]. split; [exact S2|]. split; [exact S4|].
      split; [exact S5|]. split; [exact S6|]. split; [exact S7|]. cbn [tot size length] in *.
      rewrite (mrun_ascii_head u (m0 u) (snd (mrun u (mof l) cs)) b q Hlo). split; [lia|]. split; [lia|]. split; [lia|].
      split; [exact S9|]. split; [intros _; unfold last_text; cbn [map last]; discriminate|]. intros Z0. assert (cs = []); [|subst cs; exists q; reflexivity].
      destruct cs as [|x cs]; [reflexivity|]. cbn [utf8_text flat_map] in Z0. apply app_eq_nil in Z0 as [Z0 _]. destruct (utf8_nonempty x Z0).
  - destruct Hfl as [Hj Hfl].
    match goal with |- context [na_loop u max ?bs input l] => replace bs with (utf8_text cs ++ utf8_text tl ++ j ++ bytes_of t rest ++ p) by (rewrite <- !app_assoc; reflexivity) end.
    destruct (na_run_j u max (utf8_text tl ++ j ++ bytes_of t rest ++ p) cs input l Hs1 Hhi Hd ltac:(lia) Hb) as (l1 & E & I1 & I2 & I3 & I4 & I4' & I5 & I6 & I7).
    { apply minv_fits; auto. lia. }
    rewrite E. destruct Htl as [->|(b & q & -> & Hlo)].
    + cbn [utf8_text flat_map app]. cbn [length] in Ln.
      destruct Hj as [(R & Hjb & Hjc)|((R & Hjb & Hjn) & c & t' & -> & Hc)].
      * destruct R as (n & R). destruct (run_like j (l_utf8 l1) dinit (idle_like _ I3) Hjb n) as [K _]. specialize (K R).
        destruct (na_junk u max (bytes_of t rest ++ p) j n l1 (input + bl cs) K Hjb ltac:(auto) ltac:(lia)) as (l2 & EJ & J1 & J2 & J3 & J4 & J5 & J6).
        rewrite EJ. 
        destruct (IH t (input + bl cs + Z.of_nat (length j)) l2 Hpl' Hfl J3 J5) as (l3 & inp & E3 & C).
        { rewrite J1. apply minv_m0. }
        { lia. }
        exists l3, inp. split; [exact E3|]. rewrite J1 in C. cbn [mrun fst]. rewrite !app_length. rewrite app_length in C. change (bl cs) with (Z.of_nat (length (utf8_text cs))) in *.
        change (length (@nil N)) with O. cbn [length]. rewrite !Z.add_0_r, !Nat.add_0_r.
        assert (LT : last_text (cs ++ []) ((j, t) :: rest) = last_text t rest).
        { unfold last_text. cbn [map snd]. destruct (map snd rest) as [|x xs] eqn:Em; [reflexivity|]. cbn [last]. clear. revert x. induction xs as [|y ys IHl]; intros x; [reflexivity|]. cbn [last] in *. apply IHl. }
        rewrite LT. destruct C as [(C1 & C2 & C3 & C4 & C5)|(b' & tl' & rest' & sk & C1 & C2 & C3 & C4 & C5 & C6 & C7 & C8 & C9 & C10 & C11 & C12 & C13 & C14 & C15 & C16 & C17)].
        -- left. split; [lia|]. split; [lia|]. split; [lia|]. split; [|discriminate]. intros Hl. rewrite (C4 Hl). lia.
        -- right. exists b', tl', rest', ((utf8_text cs ++ j) ++ sk). split; [exact C1|]. split; [rewrite ?app_nil_r, <- ?app_assoc, ?C2, <- ?app_assoc; reflexivity|].
           split; [exact C3|]. split; [exact C4|]. split; [rewrite C5, !app_length; lia|]. split; [exact C6|]. split; [exact C7|]. split; [exact C8|]. split; [exact C9|].
           split; [exact C10|]. split; [exact C11|]. split; [lia|]. split; [lia|]. split; [lia|]. split; [exact C15|]. split; [exact C16|].
           intros Z0. apply app_eq_nil in Z0 as [Z0 _]. apply app_eq_nil in Z0 as [_ ->]. destruct n; discriminate.
      * destruct (run_like j (l_utf8 l1) dinit (idle_like _ I3) Hjb 0) as [_ K]. specialize (K R).
        rewrite (na_pend_t u max (bytes_of (c :: t') rest ++ p) j l1 (input + bl cs) K Hjb) by (try lia; intros _; now apply cut_short_head).
        pose proof (pend_exp j (l_utf8 l1) Hjn K) as HP. set (l1' := LP _ _ _ _ _ _ _ _ _ _ _).
        assert (HX : exists more, bytes_of (c :: t') rest ++ p = c :: more).
        { destruct rest as [|[j2 t2] rest2]; cbn [bytes_of]; rewrite utf8_text_head_ascii by exact Hc; cbn [app]; eauto. }
        destruct HX as (more & EX). rewrite EX.
        destruct (na_stop u max c more (input + bl cs + Z.of_nat (length j)) l1' Hc) as (l2 & ES & S1 & S2 & S3 & S4 & S5 & S6 & S7 & S8 & S9); [unfold l1'; cbn [l_count]; lia|].
        rewrite ES. do 2 eexists. split; [reflexivity|]. right.
        replace (d_exp (l_utf8 l1') =? 0)%N with false in * by (symmetry; apply N.eqb_neq; exact HP). unfold l1' in S3, S8. cbn [l_count l_ev] in S3, S8.
        exists c, t', rest, (utf8_text cs ++ j). split; [exact Hc|]. split; [rewrite ?app_nil_r, <- ?app_assoc, ?EX; reflexivity|]. split; [exact Hpl'|]. split; [exact Hfl|].
        split; [rewrite app_length; unfold bl; lia|]. split; [exact S1|]. split; [exact S2|]. split; [exact S4|]. split; [exact S5|]. split; [exact S6|]. split; [exact S7|].
        cbn [mrun fst]. split; [lia|]. split; [lia|]. split; [cbn [length]; lia|]. split; [exact S9|]. split.
        -- unfold last_text. cbn [map snd]. intros Hl. destruct (map snd rest) as [|x xs] eqn:Em; [discriminate|]. cbn [last] in *. revert Hl. clear. revert x. induction xs as [|y ys IHl]; intros x; [auto|]. cbn [last] in *. apply IHl.
        -- intros Z0. apply app_eq_nil in Z0 as [_ Z0]. congruence.
    + rewrite utf8_text_head_ascii by exact Hlo. cbn [app].
      destruct (na_stop u max b (utf8_text q ++ j ++ bytes_of t rest ++ p) (input + bl cs) l1 Hlo ltac:(lia)) as (l2 & ES & S1 & S2 & S3 & S4 & S5 & S6 & S7 & S8 & S9).
      rewrite ES. do 2 eexists. split; [reflexivity|]. right. rewrite I3 in *. change (0 =? 0)%N with true in *. cbv iota in *.
      exists b, q, ((j, t) :: rest), (utf8_text cs). split; [exact Hlo|]. cbn [bytes_of]. rewrite utf8_text_head_ascii by exact Hlo. cbn [app]. split; [rewrite <- ?app_assoc; reflexivity|].
      split; [constructor; [auto|exact Hpl']|]. split; [cbn [flaws]; auto|]. split; [reflexivity|]. split; [exact S1|]. split; [exact S2|]. split; [exact S4|].
      split; [exact S5|]. split; [exact S6|]. split; [exact S7|]. cbn [tot size length] in *.
      rewrite (mrun_ascii_head u (m0 u) (snd (mrun u (mof l) cs)) b q Hlo). split; [lia|]. split; [lia|]. split; [lia|].
      split; [exact S9|]. split; [|].
      * unfold last_text. cbn [map snd]. destruct (map snd rest) as [|x xs] eqn:Em; [auto|]. cbn [last]. intros Hl. revert Hl. clear. revert x. induction xs as [|y ys IHl]; intros x; [auto|]. cbn [last] in *. apply IHl.
      * intros Z0. assert (cs = []); [|subst cs; exists q; reflexivity].
        destruct cs as [|x cs]; [reflexivity|]. cbn [utf8_text flat_map] in Z0. apply app_eq_nil in Z0 as [Z0 _]. destruct (utf8_nonempty x Z0).
Qed.
