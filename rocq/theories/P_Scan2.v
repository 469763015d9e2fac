(** scan_text on well-formed text, with any limit: character boundaries and the receiver. *)
From Verif Require Import Base Spec_Utf M_Utf8 P_Utf8 P_Utf8b M_Convert M_AsciiScan P_AsciiScan M_Ucd M_Grapheme M_Width M_Scan Spec_Scan P_Scan.
Open Scope Z_scope.

Lemma covers_app e1 e2 a b c : covers e1 a b -> covers e2 b c -> covers (e1 ++ e2) a c.
Proof.
  revert a. induction e1 as [|e e1 IH]; intros a H1 H2; cbn [app covers] in *; [subst; exact H2|].
  destruct e; [| |exact H1]; destruct H1 as (E & L & H1); auto.
Qed.
Lemma columns_app e1 e2 : announced (e1 ++ e2) = announced e1 + announced e2.
Proof. induction e1 as [|[] e1 IH]; cbn [app announced]; lia. Qed.

(** the remaining bytes of a character *)
Lemma na_tail u max c : forall q l rest input d',
  from_utf8_run (l_utf8 l) q = (d', repeat Incomplete (length q - 1) ++ [Success c]) -> q <> [] ->
  Forall (fun b => (0x80 <= b < 256)%N) q -> (d_exp (l_utf8 l) = 0%N -> ~ c1 (hd 0%N q)) -> l_count l <= max ->
  na_loop u max (q ++ rest) input l =
  match on_codepoint u max c (input + Z.of_nat (length q))
          (LP (l_count l) (l_bytes l + Z.of_nat (length q)) (l_here l) (l_cstart l) (l_rend l) d' (l_hint l) (l_g l) (l_acc l) (l_rep l) (l_ev l)) with
  | (l', None) => na_loop u max rest (input + Z.of_nat (length q)) l'
  | (l', Some i) => (l', i)
  end.
Proof.
  induction q as [|b q IH]; intros l rest input d' Hrun Hne Hhi Hc1 Hmax; [congruence|].
  cbn [app na_loop]. destruct (Z.leb_spec (l_count l) max); [|lia].
  inversion Hhi as [|? ? Hb Hq]; subst.
  assert (Hctl : is_control b || negb (is_complex b) || ((d_exp (l_utf8 l) =? 0)%N && is_c1_control b) = false).
  { rewrite hi_not_complex by lia. unfold is_control. destruct (N.ltb_spec b 0x20); [lia|]. destruct (N.ltb_spec b 0x80); [lia|]. cbn [orb].
    destruct (N.eqb_spec (d_exp (l_utf8 l)) 0) as [E|E]; [|reflexivity]. cbn [andb]. specialize (Hc1 E). cbn [hd] in Hc1. unfold c1 in Hc1.
    unfold is_c1_control. destruct (N.leb_spec 0x80 b), (N.leb_spec b 0x9F); try reflexivity. exfalso. apply Hc1. lia. }
  rewrite Hctl. cbn [from_utf8_run] in Hrun. destruct (from_utf8 (l_utf8 l) b) as [d r] eqn:EF.
  destruct (from_utf8_run d q) as [d2 rs] eqn:ER.
  destruct q as [|b2 q].
  - cbn [from_utf8_run] in ER. injection ER as <- <-. cbn [length Nat.sub repeat app] in Hrun. injection Hrun as <- ->.
    cbn [length app]. change (Z.of_nat 1) with 1. destruct (on_codepoint _ _ _ _ _) as [l' [i|]]; reflexivity.
  - replace (length (b :: b2 :: q) - 1)%nat with (S (length (b2 :: q) - 1)) in Hrun by (cbn [length]; lia).
    cbn [repeat app] in Hrun. injection Hrun as <- -> ->.
    rewrite (IH _ rest (input + 1) d2); cbn [l_count l_bytes l_here l_cstart l_rend l_utf8 l_hint l_g l_acc l_rep l_ev].
    + replace (input + 1 + Z.of_nat (length (b2 :: q))) with (input + Z.of_nat (length (b :: b2 :: q))) by (cbn [length]; lia).
      replace (l_bytes l + 1 + Z.of_nat (length (b2 :: q))) with (l_bytes l + Z.of_nat (length (b :: b2 :: q))) by (cbn [length]; lia).
      reflexivity.
    + exact ER.
    + discriminate.
    + assumption.
    + intros K. exfalso. apply (from_utf8_pending _ _ _ EF K).
    + assumption.
Qed.

Lemma utf8_high c : scalar c -> (0x80 <= c)%N -> Forall (fun b => (0x80 <= b < 256)%N) (utf8 c) /\ ~ c1 (hd 0%N (utf8 c)).
Proof.
  intros Hs Hc. unfold scalar in Hs. unfold utf8, c1.
  destruct (N.ltb_spec c 0x80); [lia|]. 
  destruct (N.ltb_spec c 0x800); [cbn [hd]; split; [repeat (apply Forall_cons; [lia|]); apply Forall_nil|lia]|].
  destruct (N.ltb_spec c 0x10000); cbn [hd]; (split; [repeat (apply Forall_cons; [lia|]); apply Forall_nil|lia]).
Qed.
Lemma na_char u max c l rest input : scalar c -> (0x80 <= c)%N -> d_exp (l_utf8 l) = 0%N -> l_count l <= max ->
  exists d', d_exp d' = 0%N /\
  na_loop u max (utf8 c ++ rest) input l =
  match on_codepoint u max c (input + Z.of_nat (length (utf8 c)))
          (LP (l_count l) (l_bytes l + Z.of_nat (length (utf8 c))) (l_here l) (l_cstart l) (l_rend l) d' (l_hint l) (l_g l) (l_acc l) (l_rep l) (l_ev l)) with
  | (l', None) => na_loop u max rest (input + Z.of_nat (length (utf8 c))) l'
  | (l', Some i) => (l', i)
  end.
Proof.
  intros Hs Hc Hd Hm. destruct (from_utf8_run_char (l_utf8 l) c Hd Hs) as (d' & E & Hd' & _). exists d'. split; [exact Hd'|].
  destruct (utf8_high c Hs Hc) as [H1 H2].
  apply na_tail; auto. apply utf8_nonempty.
Qed.

Definition bl (t : list N) : Z := Z.of_nat (length (utf8_text t)).
Lemma bl_app a b : bl (a ++ b) = bl a + bl b.
Proof. unfold bl, utf8_text. rewrite flat_map_app, app_length. lia. Qed.
Lemma bl_one c : bl [c] = Z.of_nat (length (utf8 c)).
Proof. unfold bl. cbn [utf8_text flat_map]. rewrite app_nil_r. reflexivity. Qed.
Lemma bl_pos t : t <> [] -> 0 < bl t.
Proof.
  intros H. destruct t as [|c t]; [congruence|]. unfold bl. cbn [utf8_text flat_map]. rewrite app_length.
  pose proof (utf8_nonempty c). destruct (utf8 c); [congruence|]. cbn [length]. lia.
Qed.
Lemma bl_nonneg t : 0 <= bl t. Proof. unfold bl. lia. Qed.

Definition opens (u : ucd) (hint : N) (g : gstate) (cs : list N) : Prop :=
  match cs with [] => True | c :: _ => hint = 0%N \/ fst (process_breakable u c g) = true end.

(** every boundary of an announced range satisfies [Pt] *)
Definition evp (Pt : Z -> Prop) (e : event) : Prop :=
  match e with EAscii x y => Pt x /\ Pt y | ECluster x y _ => Pt x /\ Pt y | EInvalid => True end.

Record cinv (Pt : Z -> Prop) (u : ucd) (max base : Z) (ev0 : list event) (J : Prop) (ds cs : list N) (l : lp) (ds1 ds2 : list N) (evs : list event) : Prop := {
  ci_rend : l_rend l = base + bl ds;
  ci_bytes : l_bytes l = 0;
  ci_idle : d_exp (l_utf8 l) = 0%N;
  ci_here : 0 <= l_here l <= l_count l;
  ci_max : l_count l <= max;
  ci_rep : 0 <= l_rep l;
  ci_split : ds = ds1 ++ ds2;
  ci_cstart : l_cstart l = base + bl ds1;
  ci_ev : l_ev l = ev0 ++ evs;
  ci_cov : covers evs base (l_cstart l);
  ci_pts : Forall (evp Pt) evs;
  ci_cols : J -> (ds = [] /\ evs = [] /\ l_count l = 0 /\ opens u (l_hint l) (l_g l) cs) \/
                 (ds2 <> [] /\ l_count l = announced evs + l_rep l /\ l_here l = l_rep l)
}.
Record cpost (Pt : Z -> Prop) (max base : Z) (ev0 : list event) (J : Prop) (all : list N) (l : lp) (input : Z) (xs ys : list N) (evs : list event) : Prop := {
  cp_all : all = xs ++ ys;
  cp_input : input = base + bl xs;
  cp_rend : l_rend l = input;
  cp_idle : d_exp (l_utf8 l) = 0%N;
  cp_count : 0 <= l_count l <= max;
  cp_rep : 0 <= l_rep l;
  cp_ev : l_ev (flush l input) = ev0 ++ evs;
  cp_cov : covers evs base input;
  cp_pts : Forall (evp Pt) evs;
  cp_cols : J -> announced evs = l_count l
}.

Lemma flush_cover (Pt : Z -> Prop) l e ev0 evs base : l_ev l = ev0 ++ evs -> covers evs base (l_cstart l) -> Forall (evp Pt) evs -> Pt (l_cstart l) -> Pt e ->
  l_cstart l <= e -> exists evs', l_ev (flush l e) = ev0 ++ evs' /\ covers evs' base e /\ Forall (evp Pt) evs' /\ 
    announced evs' = announced evs + (if l_cstart l <? e then l_rep l else 0).
Proof.
  intros E C F P1 P2 L. unfold flush. cbn [l_ev]. destruct (Z.ltb_spec (l_cstart l) e).
  - exists (evs ++ [ECluster (l_cstart l) e (l_rep l)]). rewrite E, app_assoc. split; [reflexivity|]. split.
    + eapply covers_app; [exact C|]. cbn. lia.
    + split; [apply Forall_app; split; [exact F|constructor; [cbn; auto|constructor]]|]. rewrite columns_app. cbn [announced]. lia.
  - exists evs. assert (l_cstart l = e) by lia. split; [exact E|]. split; [congruence|]. split; [exact F|lia].
Qed.

Lemma na_run (Pt : Z -> Prop) u max base ev0 J tail : (tail = [] \/ exists b r, tail = b :: r /\ (b < 0x80)%N) ->
  forall cs ds l ds1 ds2 evs, Forall scalar cs -> Forall (fun c => (0x80 <= c)%N) cs ->
  (forall p q, ds ++ cs = p ++ q -> Pt (base + bl p)) -> cinv Pt u max base ev0 J ds cs l ds1 ds2 evs ->
  exists xs ys evs', 
    let '(l', input') := na_loop u max (utf8_text cs ++ tail) (base + bl ds) l in
    cpost Pt max base ev0 J (ds ++ cs) l' input' xs ys evs'.
Proof.
  intros Ht. induction cs as [|c cs IH]; intros ds l ds1 ds2 evs Hs Hc HP I.
  - cbn [utf8_text flat_map app]. 
    assert (HP1 : Pt (l_cstart l)) by (destruct I; rewrite ci_cstart0; apply (HP ds1 ds2); rewrite app_nil_r; exact ci_split0).
    assert (HP2 : Pt (base + bl ds)) by (apply (HP ds []); reflexivity).
    assert (Hin : l_cstart l <= base + bl ds).
    { destruct I. rewrite ci_cstart0, ci_split0, bl_app. pose proof (bl_nonneg ds2). lia. }
    destruct (flush_cover Pt l (base + bl ds) ev0 evs base (ci_ev _ _ _ _ _ _ _ _ _ _ _ _ I) (ci_cov _ _ _ _ _ _ _ _ _ _ _ _ I) (ci_pts _ _ _ _ _ _ _ _ _ _ _ _ I) HP1 HP2 Hin) as (evs' & F1 & F2 & F4 & F3).
    assert (Hcols : J -> announced evs' = l_count l).
    { intros j. rewrite F3. destruct I. destruct (ci_cols0 j) as [(K1 & K2 & K3 & _)|(K1 & K2 & K3)].
      - subst ds evs. apply app_eq_nil in K1. destruct K1 as [-> ->]. rewrite ci_cstart0, Z.ltb_irrefl. cbn. lia.
      - rewrite ci_cstart0, ci_split0, bl_app. pose proof (bl_pos ds2 K1). destruct (Z.ltb_spec (base + bl ds1) (base + (bl ds1 + bl ds2))); lia. }
    destruct Ht as [->|(b & r & -> & Hb)].
    + exists ds, [], evs'. cbn [na_loop]. destruct I. constructor; auto; lia.
    + exists ds, [], evs'. cbn [na_loop]. destruct (Z.leb_spec (l_count l) max) as [K|K]; [|destruct I; lia].
      replace (is_control b || negb (is_complex b) || _) with true.
      2:{ rewrite hi_not_complex by lia. destruct (N.ltb_spec b 0x80); [|lia]. rewrite orb_true_r. reflexivity. }
      assert (Hd : d_exp (l_utf8 l) = 0%N) by (destruct I; assumption).
      unfold stop_at_control. cbn [flush l_utf8]. rewrite Hd. change (0 =? 0)%N with true. cbn [negb].
      constructor; cbn [flush l_count l_bytes l_here l_cstart l_rend l_utf8 l_hint l_g l_acc l_rep l_ev]; auto; try (destruct I; lia).
      rewrite Z.ltb_irrefl. exact F1.
  - assert (Hsc : scalar c) by (inversion Hs; assumption). assert (Hcc : (0x80 <= c)%N) by (inversion Hc; assumption).
    assert (Hs' : Forall scalar cs) by (inversion Hs; assumption). assert (Hc' : Forall (fun c => (0x80 <= c)%N) cs) by (inversion Hc; assumption).
    assert (HP1 : Pt (l_cstart l)) by (destruct I; rewrite ci_cstart0; apply (HP ds1 (ds2 ++ c :: cs)); rewrite ci_split0, <- app_assoc; reflexivity).
    assert (HP2 : Pt (base + bl ds)) by (apply (HP ds (c :: cs)); reflexivity).
    assert (HP' : forall p q, (ds ++ [c]) ++ cs = p ++ q -> Pt (base + bl p)) by (intros p q Epq; apply (HP p q); rewrite <- Epq, <- app_assoc; reflexivity).
    cbn [utf8_text flat_map]. rewrite <- app_assoc. fold (utf8_text cs).
    destruct (na_char u max c l (utf8_text cs ++ tail) (base + bl ds) Hsc Hcc) as (d' & Hd' & E); [destruct I; assumption|destruct I; assumption|].
    rewrite E. clear E. 
    assert (Hlen : base + bl ds + Z.of_nat (length (utf8 c)) = base + bl (ds ++ [c])) by (rewrite bl_app, bl_one; lia).
    rewrite Hlen. replace (l_bytes l + Z.of_nat (length (utf8 c))) with (bl [c]) by (rewrite bl_one; destruct I; lia).
    match goal with |- context [on_codepoint u max c _ ?x] => set (l0 := x) end.
    assert (Hin : l_cstart l <= base + bl ds).
    { destruct I. rewrite ci_cstart0, ci_split0, bl_app. pose proof (bl_nonneg ds2). lia. }
    replace (ds ++ c :: cs) with ((ds ++ [c]) ++ cs) by (rewrite <- app_assoc; reflexivity).
    unfold on_codepoint.
    replace (base + bl (ds ++ [c]) - l_bytes l0) with (base + bl ds) by (unfold l0; cbn [l_bytes]; rewrite bl_app; lia).
    change (l_hint l0) with (l_hint l). change (l_g l0) with (l_g l).
    set (bg := if (l_hint l =? 0)%N then (true, process_init u c) else process_breakable u c (l_g l)).
    assert (Hopen : opens u (l_hint l) (l_g l) (c :: cs) -> fst bg = true).
    { unfold opens, bg. intros [K|K]; [rewrite K; reflexivity|]. destruct (l_hint l =? 0)%N; [reflexivity|exact K]. }
    destruct bg as [brk g]. cbn [fst] in Hopen.
    cbn [l_count l_bytes l_here l_cstart l_rend l_utf8 l_hint l_g l_acc l_rep l_ev].
    change (l_count l0) with (l_count l). change (l_here l0) with (l_here l). change (l_cstart l0) with (l_cstart l).
    change (l_rend l0) with (l_rend l). change (l_utf8 l0) with d'. change (l_acc l0) with (l_acc l). change (l_rep l0) with (l_rep l).
    change (l_ev l0) with (l_ev l). clearbody l0. clear l0.
    destruct brk.
    + pose proof (acc_width_nonneg (push u acc0 c)) as Hw.
      destruct (flush_cover Pt l (base + bl ds) ev0 evs base (ci_ev _ _ _ _ _ _ _ _ _ _ _ _ I) (ci_cov _ _ _ _ _ _ _ _ _ _ _ _ I) (ci_pts _ _ _ _ _ _ _ _ _ _ _ _ I) HP1 HP2 Hin) as (evs' & F1 & F2 & F4 & F3).
      assert (Hcols : J -> announced evs' = l_count l).
      { intros j. rewrite F3. destruct I. destruct (ci_cols0 j) as [(K1 & K2 & K3 & _)|(K1 & K2 & K3)].
        - subst ds evs. apply app_eq_nil in K1. destruct K1 as [-> ->]. rewrite ci_cstart0, Z.ltb_irrefl. cbn. lia.
        - rewrite ci_cstart0, ci_split0, bl_app. pose proof (bl_pos ds2 K1). destruct (Z.ltb_spec (base + bl ds1) (base + (bl ds1 + bl ds2))); lia. }
      destruct (Z.ltb_spec max (l_count l + acc_width (push u acc0 c))).
      * (* does not fit *)
        exists ds, (c :: cs), evs'. destruct I. constructor; cbn [l_count l_rend l_utf8 l_rep]; auto; try lia.
        rewrite <- app_assoc. reflexivity.
      * unfold flush in F1. cbn [l_ev] in F1.
        eapply (IH (ds ++ [c]) _ ds [c] evs'); auto.
        destruct I. constructor; cbn [flush l_count l_bytes l_here l_cstart l_rend l_utf8 l_hint l_g l_acc l_rep l_ev]; auto; try lia.
        -- intros j. right. split; [discriminate|]. split; [rewrite (Hcols j); lia|reflexivity].
    + pose proof (acc_width_nonneg (push u (l_acc l) c)) as Hw.
      assert (HJ : J -> ds2 <> [] /\ l_count l = announced evs + l_rep l /\ l_here l = l_rep l).
      { intros j. destruct (ci_cols _ _ _ _ _ _ _ _ _ _ _ _ I j) as [(_ & _ & _ & K)|K]; [|exact K]. specialize (Hopen K). discriminate. }
      destruct (Z.leb_spec (l_rep l) (acc_width (push u (l_acc l) c))).
      * destruct (negb _ && _) eqn:EE.
        -- (* the cluster grew too wide *)
           exists ds1, (ds2 ++ c :: cs), evs. destruct I. constructor; cbn [l_count l_rend l_utf8 l_rep]; auto; try lia.
           ++ subst ds. rewrite <- !app_assoc. reflexivity.
           ++ unfold flush. cbn [l_ev l_cstart]. rewrite Z.ltb_irrefl. exact ci_ev0.
        -- assert (l_count l + (acc_width (push u (l_acc l) c) - l_rep l) <= max).
           { apply andb_false_iff in EE. destruct EE as [EE|EE]; [apply negb_false_iff, Z.eqb_eq in EE; destruct I; lia|apply Z.ltb_ge in EE; lia]. }
           eapply (IH (ds ++ [c]) _ ds1 (ds2 ++ [c]) evs); auto.
           destruct I. constructor; cbn [flush l_count l_bytes l_here l_cstart l_rend l_utf8 l_hint l_g l_acc l_rep l_ev]; auto; try lia.
           ++ subst ds. rewrite <- app_assoc. reflexivity.
           ++ intros j. right. destruct (HJ j) as (_ & K2 & K3). split; [destruct ds2; discriminate|]. split; lia.
      * eapply (IH (ds ++ [c]) _ ds1 (ds2 ++ [c]) evs); auto.
        destruct I. constructor; cbn [flush l_count l_bytes l_here l_cstart l_rend l_utf8 l_hint l_g l_acc l_rep l_ev]; auto; try lia.
        ++ subst ds. rewrite <- app_assoc. reflexivity.
        ++ intros j. right. destruct (HJ j) as (_ & K2 & K3). split; [destruct ds2; discriminate|]. split; lia.
Qed.

Lemma utf8_text_app a b : utf8_text (a ++ b) = utf8_text a ++ utf8_text b.
Proof. apply flat_map_app. Qed.
Lemma utf8_text_ascii t : Forall (fun c => (c < 0x80)%N) t -> utf8_text t = t.
Proof.
  induction 1 as [|c t Hc H IH]; [reflexivity|]. cbn [utf8_text flat_map]. fold (utf8_text t). rewrite IH. unfold utf8.
  destruct (N.ltb_spec c 0x80); [reflexivity|lia].
Qed.
Lemma ascii_prefix_text : forall n t, scalars t -> (n <= length (utf8_text t))%nat -> Forall (fun b => (b < 0x80)%N) (firstn n (utf8_text t)) ->
  firstn n (utf8_text t) = firstn n t /\ (n <= length t)%nat /\ Forall (fun c => (c < 0x80)%N) (firstn n t).
Proof.
  induction n as [|n IH]; intros t Hs Hl H; [cbn; auto with arith|].
  destruct t as [|c t]; [cbn in Hl; lia|]. inversion Hs as [|? ? Hc Ht]; subst.
  destruct (N.ltb_spec c 0x80) as [L|L].
  - assert (E : utf8_text (c :: t) = c :: utf8_text t).
    { cbn [utf8_text flat_map]. unfold utf8. destruct (N.ltb_spec c 0x80); [reflexivity|lia]. }
    rewrite E in *. cbn [firstn length] in *. inversion H as [|? ? H1 H2]; subst.
    destruct (IH t Ht ltac:(lia) H2) as (I1 & I2 & I3). split; [congruence|]. split; [lia|]. constructor; assumption.
  - exfalso. destruct (utf8_high c Hc L) as [U _]. pose proof (utf8_nonempty c) as Ne. cbn [utf8_text flat_map] in H.
    destruct (utf8 c) as [|b bs] eqn:Eu; [congruence|]. cbn [app firstn] in H. inversion H; subst. inversion U; subst. lia.
Qed.

(** splitting off the leading non-ASCII code points *)
Fixpoint hi_run (t : list N) : list N * list N :=
  match t with
  | [] => ([], [])
  | c :: t' => if (c <? 0x80)%N then ([], t) else let (a, b) := hi_run t' in (c :: a, b)
  end.
Lemma hi_run_spec t : let (a, b) := hi_run t in t = a ++ b /\ Forall (fun c => (0x80 <= c)%N) a /\
  (b = [] \/ exists c r, b = c :: r /\ (c < 0x80)%N).
Proof.
  induction t as [|c t IH]; cbn [hi_run]; [auto|]. destruct (N.ltb_spec c 0x80).
  - split; [reflexivity|]. split; [constructor|]. right. eauto.
  - destruct (hi_run t) as [a b]. destruct IH as (-> & I2 & I3). split; [reflexivity|]. split; [constructor; assumption|exact I3].
Qed.
Lemma utf8_text_head_ascii c r : (c < 0x80)%N -> utf8_text (c :: r) = c :: utf8_text r.
Proof. intros H. cbn [utf8_text flat_map]. unfold utf8. destruct (N.ltb_spec c 0x80); [reflexivity|lia]. Qed.

Lemma nonascii_wf (Pt : Z -> Prop) u st start cs tl max ev (J : Prop) : d_exp (s_utf8 st) = 0%N -> 0 <= s_rep st -> 0 <= max ->
  scalars cs -> Forall (fun c => (0x80 <= c)%N) cs -> (tl = [] \/ exists b r, tl = b :: r /\ (b < 0x80)%N) ->
  (J -> opens u (s_hint st) (s_g st) cs) -> (forall p q, cs = p ++ q -> Pt (start + bl p)) ->
  exists c e st' xs ys evs, nonascii u st start (utf8_text cs ++ tl) max ev = ((c, start, e), st', ev ++ evs) /\
    cs = xs ++ ys /\ e = start + bl xs /\ s_next st' = Some e /\ d_exp (s_utf8 st') = 0%N /\ 0 <= s_rep st' /\ 0 <= c <= max /\
    covers evs start e /\ (J -> announced evs = c) /\ Forall (evp Pt) evs.
Proof.
  intros Hd Hr Hm Hs Hc Ht HJ HP. unfold nonascii. rewrite Hd. change (0 =? 0)%N with true. cbv iota.
  set (l0 := LP _ _ _ _ _ _ _ _ _ _ _).
  destruct (na_run Pt u max start ev J tl Ht cs [] l0 [] [] []) as (xs & ys & evs & H); auto.
  - unfold l0. constructor; cbn [l_count l_bytes l_here l_cstart l_rend l_utf8 l_hint l_g l_acc l_rep l_ev bl utf8_text flat_map length app]; auto; try lia.
    + unfold bl. cbn. lia.
    + unfold bl. cbn. lia.
    + rewrite app_nil_r. reflexivity.
    + reflexivity.
    + intros j. left. auto.
  - unfold bl in H at 1. cbn [utf8_text flat_map length] in H. rewrite Z.add_0_r in H.
    destruct (na_loop u max (utf8_text cs ++ tl) start l0) as [l' i']. destruct H. cbn [app] in *.
    exists (l_count l'), i', (SS (l_utf8 l') (l_hint l') (l_g l') (l_acc l') (l_rep l') (Some i')), xs, ys, evs.
    rewrite cp_ev0. cbn [flush l_count l_rend l_utf8 l_hint l_g l_acc l_rep s_next s_utf8 s_rep]. rewrite cp_rend0.
    split; [reflexivity|]. auto 12.
Qed.

Record wfpost (t : list N) (max : Z) (J : Prop) (r : sresult) (st' : sstate) (ev : list event) (xs ys : list N) : Prop := {
  wp_t : t = xs ++ ys;
  wp_start : r_start r = 0;
  wp_end : r_end r = bl xs;
  wp_next : s_next st' = Some (bl xs);
  wp_idle : d_exp (s_utf8 st') = 0%N;
  wp_rep : 0 <= s_rep st';
  wp_count : 0 <= r_count r <= max;
  wp_cov : covers ev 0 (bl xs);
  wp_pts : Forall (evp (fun z => exists p q, t = p ++ q /\ z = bl p)) ev;
  wp_cols : J -> announced ev = r_count r
}.

(** no mark is attached to a 7-bit character *)
Definition unjoined (u : ucd) (t : list N) : Prop :=
  forall l a b r, t = l ++ a :: b :: r -> (a < 0x80)%N -> (0x80 <= b)%N -> fst (process_breakable u b (process_init u a)) = true.

Lemma nth_firstn_S n : forall (l : list N), nth n l 0%N = nth n (firstn (S n) l) 0%N.
Proof. induction n as [|n IH]; intros [|c l]; try reflexivity. cbn [nth firstn]. apply IH. Qed.
Lemma split_last_nth n : forall (t : list N), (S n <= length t)%nat -> exists l, firstn (S n) t = l ++ [nth n t 0%N].
Proof.
  induction n as [|n IH]; intros t H; destruct t as [|c t]; cbn [length] in H; try lia.
  - exists []. reflexivity.
  - destruct (IH t ltac:(lia)) as (l & E). exists (c :: l). cbn [firstn nth] in *. rewrite E. reflexivity.
Qed.
Lemma scan_loop_wf u uchar i t max (J : Prop) : scalars t -> (J -> unjoined u t) -> forall fuel t1 t2 st cx r ev,
  t = t1 ++ t2 -> (length (utf8_text t2) < fuel)%nat ->
  d_exp (s_utf8 st) = 0%N -> 0 <= s_rep st -> s_next st = Some (bl t1) ->
  r_start r = 0 -> r_end r = bl t1 -> 0 <= r_count r <= max -> covers ev 0 (bl t1) -> Forall (evp (fun z => exists p q, t = p ++ q /\ z = bl p)) ev -> (J -> announced ev = r_count r) ->
  (J -> cx = true -> opens u (s_hint st) (s_g st) (fst (hi_run t2))) ->
  exists r' st' ev' xs ys,
    scan_loop u uchar i fuel (utf8_text t) max st cx (bl t1) r ev = Ok (r', st', ev') /\ wfpost t max J r' st' ev' xs ys.
Proof.
  intros Hs HU. induction fuel as [|fuel IH]; intros t1 t2 st cx r ev Et Hf Hd Hrep Hn Hst He Hc Hcov Hpts Hcols Hop; [lia|].
  assert (FIN : wfpost t max J r st ev t1 t2) by (constructor; auto).
  cbn [scan_loop]. rewrite Hn.
  destruct (Z.ltb_spec (r_count r) max) as [Hlt|Hge]; cbn [andb]; [|exists r, st, ev, t1, t2; auto].
  destruct (Z.eqb_spec (bl t1) (Z.of_nat (length (utf8_text t)))) as [En|En]; cbn [negb]; [exists r, st, ev, t1, t2; auto|].
  assert (Hskip : skipn (Z.to_nat (bl t1)) (utf8_text t) = utf8_text t2).
  { unfold bl. rewrite Nat2Z.id, Et, utf8_text_app, skipn_app, skipn_all, Nat.sub_diag. reflexivity. }
  rewrite Hskip.
  assert (Hs2 : scalars t2) by (rewrite Et in Hs; apply Forall_app in Hs; tauto).
  destruct cx.
  - pose proof (hi_run_spec t2) as HR. destruct (hi_run t2) as [cs tl] eqn:Eh. destruct HR as (E2 & Hhi & Htl). cbn [fst] in Hop.
    assert (Hscs : scalars cs) by (rewrite E2 in Hs2; apply Forall_app in Hs2; tauto).
    destruct (nonascii_wf (fun z => exists p q, t = p ++ q /\ z = bl p) u st (bl t1) cs (utf8_text tl) (max - r_count r) ev J Hd Hrep ltac:(lia) Hscs Hhi)
      as (c & e & st' & xs & ys & evs & EN & Ecs & Ee & Hn' & Hd' & Hrep' & Hc' & Hcov' & Hcols' & Hpts').
    { destruct Htl as [->|(b & q & -> & Hb)]; [left; reflexivity|]. right. exists b, (utf8_text q). rewrite utf8_text_head_ascii by exact Hb. auto. }
    { intros j. apply Hop; auto. }
    { intros p q Epq. exists (t1 ++ p), (q ++ tl). rewrite bl_app. split; [|reflexivity]. rewrite Et, E2, Epq, <- !app_assoc. reflexivity. }
    replace (utf8_text t2) with (utf8_text cs ++ utf8_text tl) by (rewrite E2; symmetry; apply utf8_text_app). rewrite EN.
    replace (e - bl t1) with (bl xs) by lia.
    assert (EX : bl (t1 ++ xs) = e) by (rewrite bl_app; lia).
    assert (FIN2 : wfpost t max J (SR (r_count r + c) (r_start r) e) st' (ev ++ evs) (t1 ++ xs) (ys ++ tl)).
    { constructor; cbn [r_start r_end r_count]; rewrite ?EX; auto; try lia.
      - rewrite Et, E2, Ecs, <- !app_assoc. reflexivity.
      - eapply covers_app; eassumption.
      - apply Forall_app; auto.
      - intros j. rewrite columns_app, Hcols, Hcols' by exact j. reflexivity. }
    destruct (Z.eqb_spec (bl xs) 0) as [Ez|Ez]; [do 5 eexists; split; [reflexivity|exact FIN2]|].
    assert (Hxs : xs <> []) by (intros ->; apply Ez; reflexivity).
    rewrite <- bl_app.
    destruct FIN2. apply (IH (t1 ++ xs) (ys ++ tl)); cbn [r_start r_end r_count] in *; auto; try discriminate.
    assert (L : length (utf8_text t2) = (length (utf8_text xs) + length (utf8_text (ys ++ tl)))%nat).
    { rewrite E2, Ecs, <- app_assoc, utf8_text_app, app_length. reflexivity. }
    pose proof (bl_pos xs Hxs) as P. unfold bl in P. lia.
  - destruct (scan_for_text_ascii_spec uchar i (utf8_text t2) (Z.to_nat (max - r_count r)) ltac:(apply utf8_text_bytes; exact Hs2)) as (n & E & EP).
    rewrite E. cbn [bindR]. destruct n as [|n]; [exists r, st, ev, t1, t2; auto|].
    destruct EP as (EL & EPr & _).
    destruct (ascii_prefix_text (S n) t2 Hs2 ltac:(lia)) as (A1 & A2 & A3).
    { eapply Forall_impl; [|exact EPr]. intros b [_ B]. exact B. }
    assert (Lf : length (firstn (S n) t2) = S n) by (rewrite firstn_length; lia).
    assert (Lb : bl (firstn (S n) t2) = Z.of_nat (S n)) by (unfold bl; rewrite utf8_text_ascii by exact A3; lia).
    assert (Hlast : nth n (utf8_text t2) 0%N = nth n t2 0%N).
    { rewrite (nth_firstn_S n (utf8_text t2)), (nth_firstn_S n t2), A1. reflexivity. }
    rewrite Hlast.
    rewrite <- Lb, <- bl_app. apply (IH (t1 ++ firstn (S n) t2) (skipn (S n) t2)); cbn [s_utf8 s_rep s_next s_hint s_g r_start r_end r_count]; auto.
    + rewrite <- app_assoc, firstn_skipn. exact Et.
    + assert (L : length (utf8_text t2) = (length (utf8_text (firstn (S n) t2)) + length (utf8_text (skipn (S n) t2)))%nat).
      { rewrite <- (firstn_skipn (S n) t2) at 1. rewrite utf8_text_app, app_length. reflexivity. }
      unfold bl in Lb. lia.
    + lia.
    + rewrite bl_app. lia.
    + lia.
    + eapply covers_app; [exact Hcov|]. cbn [covers]. rewrite bl_app. pose proof (bl_pos (firstn (S n) t2)). split; [reflexivity|]. split; [lia|reflexivity].
    + apply Forall_app. split; [exact Hpts|]. constructor; [|constructor]. cbn [evp]. split; [exists t1, t2; auto|].
      exists (t1 ++ firstn (S n) t2), (skipn (S n) t2). rewrite <- app_assoc, firstn_skipn. auto.
    + intros j. rewrite columns_app, (Hcols j). cbn [announced]. rewrite bl_app. lia.
    + intros j _. unfold opens. destruct (skipn (S n) t2) as [|b q] eqn:Es; [exact I|]. cbn [hi_run].
      destruct (N.ltb_spec b 0x80); [exact I|]. destruct (hi_run q). cbn [fst]. right.
      destruct (split_last_nth n t2 A2) as (l' & El). 
      apply (HU j (t1 ++ l') (nth n t2 0%N) b q).
      * assert (E3 : t2 = (l' ++ [nth n t2 0%N]) ++ b :: q) by (rewrite <- El, <- Es; symmetry; apply firstn_skipn).
        rewrite Et. rewrite E3 at 1. rewrite <- !app_assoc. reflexivity.
      * rewrite El in A3. apply Forall_app in A3. destruct A3 as [_ A3]. inversion A3; assumption.
      * assumption.
Qed.

Lemma scan_text_wf u uchar i st t max (J : Prop) : scalars t -> 0 <= max ->
  d_exp (s_utf8 st) = 0%N -> 0 <= s_rep st -> (s_next st = None \/ s_next st = Some 0) ->
  (J -> unjoined u t /\ s_hint st = 0%N) ->
  exists r' st' ev' xs ys,
    scan_text u uchar i st (utf8_text t) max = Ok (r', st', ev') /\ wfpost t max J r' st' ev' xs ys.
Proof.
  intros Hs Hm Hd Hrep Hn HJ. unfold scan_text. cbn [s_utf8]. rewrite Hd. change (0 =? 0)%N with true. cbv iota. cbn [r_end].
  replace (match s_next st with Some z => Some z | None => Some 0 end) with (Some 0) by (destruct Hn as [-> | ->]; reflexivity).
  destruct (Z.eqb_spec 0 (Z.of_nat (length (utf8_text t)))) as [E|E].
  - do 3 eexists. exists [], t. split; [reflexivity|].
    constructor; cbn [r_start r_end r_count s_next s_utf8 s_rep covers announced app]; auto; lia.
  - replace ((0 <? 0) || (Z.of_nat (length (utf8_text t)) <? 0)) with false by (symmetry; apply orb_false_iff; split; [reflexivity|apply Z.ltb_ge; lia]).
    apply (scan_loop_wf u uchar i t max J Hs ltac:(intros j; apply HJ, j) (S (length (utf8_text t))) [] t); cbn [s_utf8 s_rep s_next s_hint s_g r_start r_end r_count]; auto.
    + lia.
    + reflexivity.
    + intros j _. destruct (HJ j) as [_ ->]. unfold opens. destruct (fst (hi_run t)); auto.
Qed.
