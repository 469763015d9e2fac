(** What the decoders accept (C05) and how they resynchronise (C14). *)
From Verif Require Import Base Spec_Utf M_Utf8 P_Utf8.
Open Scope N_scope.

(** Pending state = a lead byte plus the continuation bytes read so far. *)
Definition pending (st : dstate) (pre : list N) : Prop :=
  exists pre0 l conts,
    pre = pre0 ++ l :: conts /\ Forall nonlead conts /\ N.of_nat (length conts) + 1 = d_cur st /\ d_cur st < d_exp st /\
    ((0xC0 <= l < 0xE0 /\ d_exp st = 2 /\ d_char st = fold6 (l mod 32) conts)
     \/ (0xE0 <= l < 0xF0 /\ d_exp st = 3 /\ d_char st = fold6 (l mod 16) conts)
     \/ (0xF0 <= l < 0xF8 /\ d_exp st = 4 /\ d_char st = fold6 (l mod 8) conts)).

Lemma fold6_snoc v bs b : fold6 v (bs ++ [b]) = fold6 v bs * 64 + b mod 64.
Proof. unfold fold6. rewrite fold_left_app. reflexivity. Qed.

Lemma from_utf8_resync st b : d_exp st <> 0 -> is_lead b = true ->
  from_utf8 st b = (fst (from_utf8 (DS (d_char st) 0 (d_cur st)) b), Invalid).
Proof. intros He Hl. unfold from_utf8. replace (d_exp st =? 0) with false by lia. rewrite Hl. reflexivity. Qed.

Lemma idle_lead_pending st b pre : d_exp st = 0 -> b < 256 -> d_exp (fst (from_utf8 st b)) <> 0 ->
  pending (fst (from_utf8 st b)) (pre ++ [b]).
Proof.
  intros He Hb. rewrite from_utf8_idle by assumption.
  destruct (N.ltb_spec b 0x80); [cbn [fst d_exp]; lia|].
  destruct (N.ltb_spec b 0xC0); [cbn [fst d_exp]; lia|].
  destruct (N.ltb_spec b 0xE0); [|destruct (N.ltb_spec b 0xF0); [|destruct (N.ltb_spec b 0xF8); [|cbn [fst d_exp]; lia]]];
    intros _; exists pre, b, []; cbn [fst d_exp d_cur d_char length]; (split; [reflexivity|]); (split; [constructor|]);
    (split; [reflexivity|]); (split; [reflexivity|]); cbn [fold6 fold_left].
  - left. repeat split; lia.
  - right. left. repeat split; lia.
  - right. right. repeat split; lia.
Qed.

Lemma accept_step st b pre : dwf st -> (d_exp st = 0 \/ pending st pre) -> b < 256 ->
  (d_exp (fst (from_utf8 st b)) = 0 \/ pending (fst (from_utf8 st b)) (pre ++ [b])) /\
  (forall v, snd (from_utf8 st b) = Success v -> exists pre0 seq, pre ++ [b] = pre0 ++ seq /\ loose seq v).
Proof.
  intros Hw Hp Hb. destruct (N.eq_dec (d_exp st) 0) as [He|He].
  - split.
    + destruct (N.eq_dec (d_exp (fst (from_utf8 st b))) 0) as [E|E]; [left; exact E|right].
      apply idle_lead_pending; assumption.
    + intros v. rewrite from_utf8_idle by assumption.
      destruct (N.ltb_spec b 0x80).
      * cbn [snd]. intros [= <-]. exists pre, [b]. split; [reflexivity|]. left. auto.
      * destruct (b <? 0xC0); [discriminate|]. destruct (b <? 0xE0); [discriminate|]. destruct (b <? 0xF0); [discriminate|].
        destruct (b <? 0xF8); discriminate.
  - destruct Hp as [Hp|Hp]; [contradiction|].
    destruct (dwf_char st Hw He) as [Hc Hu].
    destruct (is_lead b) eqn:Hl.
    + rewrite from_utf8_resync by assumption. cbn [fst snd]. split; [|discriminate].
      destruct (N.eq_dec (d_exp (fst (from_utf8 (DS (d_char st) 0 (d_cur st)) b))) 0) as [E|E]; [left; exact E|right].
      apply idle_lead_pending; try assumption. reflexivity.
    + rewrite is_lead_spec in Hl by exact Hb. assert (Hn : nonlead b) by (unfold nonlead; lia).
      rewrite from_utf8_cont by assumption.
      destruct Hp as (pre0 & l & conts & -> & Hf & Hlen & Hlt & Hcase).
      assert (Hf' : Forall nonlead (conts ++ [b])) by (apply Forall_app; split; [exact Hf|constructor; [exact Hn|constructor]]).
      assert (Hl' : length (conts ++ [b]) = S (length conts)) by (rewrite app_length; cbn [length]; lia).
      destruct (N.ltb_spec (d_cur st + 1) (d_exp st)) as [H|H]; cbn [fst snd d_exp].
      * split; [right|discriminate]. exists pre0, l, (conts ++ [b]).
        rewrite <- app_assoc. split; [reflexivity|]. split; [exact Hf'|]. cbn [d_cur d_exp d_char]. rewrite Hl'.
        split; [lia|]. split; [lia|]. rewrite !fold6_snoc.
        destruct Hcase as [(A & B & C)|[(A & B & C)|(A & B & C)]]; rewrite <- C; [left|right; left|right; right]; auto.
      * split; [left; reflexivity|]. intros v [= <-]. exists pre0, (l :: conts ++ [b]).
        rewrite <- app_assoc. split; [reflexivity|]. cbn [loose]. rewrite Hl'. rewrite !fold6_snoc.
        destruct Hcase as [(A & B & C)|[(A & B & C)|(A & B & C)]]; rewrite <- C; right; [left|right; left|right; right];
          repeat split; try assumption; try lia.
Qed.

Lemma accept_run st bs pre : dwf st -> (d_exp st = 0 \/ pending st pre) -> Forall byte bs ->
  forall k v, nth_error (snd (from_utf8_run st bs)) k = Some (Success v) ->
  exists pre0 seq, pre ++ firstn (S k) bs = pre0 ++ seq /\ loose seq v.
Proof.
  intros Hw Hp Hb. revert st pre Hw Hp. induction Hb as [|b bs Hb Hbs IH]; intros st pre Hw Hp k v.
  - destruct k; discriminate.
  - cbn [from_utf8_run]. destruct (accept_step st b pre Hw Hp Hb) as [A B].
    pose proof (from_utf8_dwf st b Hw Hb) as Hw1.
    destruct (from_utf8 st b) as [st1 r]. cbn [fst snd] in *. specialize (IH st1 (pre ++ [b]) Hw1 A).
    destruct (from_utf8_run st1 bs) as [st2 rs]. cbn [snd] in *.
    destruct k as [|k]; cbn [nth_error firstn].
    + intros [= ->]. destruct (B v eq_refl) as (p & s & E1 & E2). exists p, s. auto.
    + intros Hk. destruct (IH k v Hk) as (p & s & E1 & E2). exists p, s. rewrite <- app_assoc in E1. auto.
Qed.

(** A loose sequence that is well formed has the right value. *)
Lemma loose_wellformed seq v : loose seq v -> table_3_7 seq -> scalar v /\ utf8 v = seq.
Proof.
  intros Hl Ht. destruct (table_3_7_utf8 seq Ht) as (c & Hc & E).
  enough (v = c) by (subst; auto).
  assert (Hv : forall w, loose seq w -> w = v).
  { intros w. destruct seq as [|l conts]; [contradiction|]. cbn [loose] in Hl |- *. lia. }
  symmetry. apply Hv. subst seq. clear Ht Hl Hv.
  unfold utf8, scalar in *. destruct (N.ltb_spec c 0x80); [left; auto|].
  destruct (N.ltb_spec c 0x800); [|destruct (N.ltb_spec c 0x10000)]; right; [left|right; left|right; right];
    cbn [length fold6 fold_left]; repeat split; try lia; repeat constructor; unfold nonlead; try lia.
Qed.

(** ** Resynchronisation *)
Definition cont (b : N) : Prop := 0x80 <= b < 0xC0.

Lemma utf8_shape c : scalar c -> exists l conts, utf8 c = l :: conts /\ Forall cont conts /\ (length conts <= 3)%nat /\
  ((conts = [] /\ l = c /\ l < 0x80) \/ (conts <> [] /\ 0xC0 <= l < 0xF8)).
Proof.
  unfold scalar, utf8, cont. intros H.
  destruct (N.ltb_spec c 0x80); [|destruct (N.ltb_spec c 0x800); [|destruct (N.ltb_spec c 0x10000)]];
    eexists; eexists; (split; [reflexivity|]); (split; [repeat constructor; lia|]); (split; [cbn [length]; lia|]).
  - left. auto.
  - right. split; [discriminate|lia].
  - right. split; [discriminate|lia].
  - right. split; [discriminate|lia].
Qed.

Definition need (st : dstate) : N := d_exp st - d_cur st.

(** decoder<char>: every byte is swallowed while pending. *)
Lemma decoder_pending_step st b : dwf st -> d_exp st <> 0 -> b < 256 ->
  exists st1 r, decoder_char st b = (st1, r) /\ dwf st1 /\
    ((1 < need st /\ d_exp st1 <> 0 /\ need st1 = need st - 1 /\ r = None)
     \/ (need st = 1 /\ d_exp st1 = 0 /\ r <> None)).
Proof.
  intros Hw He Hb. destruct (dwf_char st Hw He) as [Hc Hu].
  rewrite decoder_char_cont by assumption.
  destruct Hw as [Hw|(H1 & H2 & H3 & H4)]; [contradiction|]. unfold need.
  destruct (N.ltb_spec (d_cur st + 1) (d_exp st)) as [H|H].
  - eexists _, _. split; [reflexivity|]. cbn [d_exp d_cur d_char]. split.
    + right. cbn [d_exp d_cur d_char]. repeat split; try lia.
      replace (d_cur st + 1 - 1) with (N.succ (d_cur st - 1)) by lia. rewrite N.pow_succ_r'.
      assert (b mod 64 < 64) by (apply N.mod_lt; lia). lia.
    + left. repeat split; lia.
  - eexists _, _. split; [reflexivity|]. cbn [d_exp d_cur d_char]. split; [left; reflexivity|]. right. repeat split; try lia.
    discriminate.
Qed.

Lemma decoder_idle_conts st bs : d_exp st = 0 -> Forall cont bs -> decoder_run st bs = (st, []).
Proof.
  intros He Hb. induction Hb as [|b bs Hb Hbs IH]; [reflexivity|].
  cbn [decoder_run]. unfold cont in Hb. rewrite decoder_char_idle by (try assumption; lia).
  replace (b <? 128) with false by lia. replace (b <? 192) with true by lia. rewrite IH. reflexivity.
Qed.

Lemma decoder_pending_conts st bs : dwf st -> d_exp st <> 0 -> Forall cont bs ->
  exists st1 out, decoder_run st bs = (st1, out) /\ dwf st1 /\
    ((d_exp st1 <> 0 /\ need st1 <= need st /\ out = []) \/ (d_exp st1 = 0 /\ length out = 1%nat)).
Proof.
  intros Hw He Hb. revert st Hw He. induction Hb as [|b bs Hb Hbs IH]; intros st Hw He.
  - exists st, []. split; [reflexivity|]. split; [exact Hw|]. left. repeat split; try assumption; lia.
  - cbn [decoder_run]. unfold cont in Hb.
    destruct (decoder_pending_step st b Hw He) as (st1 & r & E & Hw1 & [(A & B & C & ->)|(A & B & C)]); [lia| |].
    + rewrite E. destruct (IH st1 Hw1 B) as (st2 & out & E2 & Hw2 & [(P & Q & R)|(P & Q)]); rewrite E2.
      * exists st2, out. split; [reflexivity|]. split; [exact Hw2|]. left. repeat split; try assumption; lia.
      * exists st2, out. split; [reflexivity|]. split; [exact Hw2|]. right. auto.
    + rewrite E. rewrite decoder_idle_conts by assumption. destruct r as [v|]; [|contradiction].
      exists st1, [v]. split; [reflexivity|]. split; [exact Hw1|]. right. auto.
Qed.

Lemma decoder_pending_char st c : dwf st -> d_exp st <> 0 -> scalar c ->
  exists st1 out, decoder_run st (utf8 c) = (st1, out) /\ dwf st1 /\
    ((d_exp st1 <> 0 /\ need st1 + 1 <= need st /\ out = []) \/ (d_exp st1 = 0 /\ length out = 1%nat)).
Proof.
  intros Hw He Hc. destruct (utf8_shape c Hc) as (l & conts & E & Hco & _ & _).
  assert (Hb : Forall byte (utf8 c)) by (apply utf8_bytes, scalar_lt, Hc). rewrite E in *. inversion Hb as [|? ? Hl _]; subst.
  cbn [decoder_run].
  destruct (decoder_pending_step st l Hw He Hl) as (st1 & r & E1 & Hw1 & [(A & B & C & ->)|(A & B & C)]); rewrite E1.
  - destruct (decoder_pending_conts st1 conts Hw1 B Hco) as (st2 & out & E2 & Hw2 & [(P & Q & R)|(P & Q)]); rewrite E2.
    + exists st2, out. split; [reflexivity|]. split; [exact Hw2|]. left. repeat split; try assumption; lia.
    + exists st2, out. split; [reflexivity|]. split; [exact Hw2|]. right. auto.
  - rewrite decoder_idle_conts by assumption. destruct r as [v|]; [|contradiction].
    exists st1, [v]. split; [reflexivity|]. split; [exact Hw1|]. right. auto.
Qed.

Lemma decoder_resync st t : dwf st -> scalars t ->
  exists junk k, (length junk <= 1)%nat /\ (N.of_nat k <= (if d_exp st =? 0 then 0 else need st)) /\
    snd (decoder_run st (utf8_text t)) = junk ++ skipn k t.
Proof.
  intros Hw Ht. revert st Hw. induction Ht as [|c t Hc Ht IH]; intros st Hw.
  - exists [], 0%nat. cbn [length]. repeat split; lia.
  - destruct (N.eqb_spec (d_exp st) 0) as [He|He].
    + destruct (decoder_run_text st (c :: t) He (Forall_cons _ Hc Ht)) as (st' & E & _). rewrite E.
      exists [], 0%nat. cbn [length skipn app]. repeat split; lia.
    + cbn [utf8_text flat_map]. rewrite decoder_run_app.
      destruct (decoder_pending_char st c Hw He Hc) as (st1 & out & E & Hw1 & [(A & B & ->)|(A & B)]);
        rewrite E; cbn [fst snd].
      * destruct (IH st1 Hw1) as (junk & k & J1 & J2 & J3). exists junk, (S k).
        replace (d_exp st1 =? 0) with false in J2 by lia. cbn [skipn app]. repeat split; [exact J1|lia|exact J3].
      * destruct (decoder_run_text st1 t A Ht) as (st' & E' & _). unfold utf8_text in E'. rewrite E'.
        exists out, 1%nat. cbn [skipn snd]. repeat split; try lia.
        destruct Hw as [Hw|(H1 & H2 & H3 & H4)]; [contradiction|]. unfold need. lia.
Qed.

(** from_utf8: lead bytes restart, ASCII bytes are swallowed while pending. *)
Lemma from_utf8_run_indep_char st c st0 : dwf st -> d_exp st <> 0 -> scalar c -> 0x80 <= c -> d_exp st0 = 0 ->
  exists st1, fst (from_utf8_run st (utf8 c)) = st1 /\ d_exp st1 = 0 /\ successes (snd (from_utf8_run st (utf8 c))) = [c].
Proof.
  intros Hw He Hc Hc2 He0. eexists. split; [reflexivity|].
  destruct (from_utf8_run_char (DS (d_char st) 0 (d_cur st)) c eq_refl Hc) as (st' & E & E0 & _).
  destruct (utf8_shape c Hc) as (l & conts & Eu & Hco & _ & [(A & B & C)|(A & B)]); [lia|].
  pose proof (successes_char c) as Hs.
  assert (H1 : from_utf8 (DS (d_char st) 0 (d_cur st)) l = (fst (from_utf8 (DS (d_char st) 0 (d_cur st)) l), Incomplete)).
  { rewrite from_utf8_idle by (try reflexivity; lia). replace (l <? 128) with false by lia. replace (l <? 192) with false by lia.
    destruct (N.ltb_spec l 0xE0); [reflexivity|]. destruct (N.ltb_spec l 0xF0); [reflexivity|].
    replace (l <? 0xF8) with true by lia. reflexivity. }
  rewrite Eu in *. cbn [from_utf8_run] in E |- *.
  rewrite from_utf8_resync by (try assumption; rewrite is_lead_spec; lia).
  rewrite H1 in E. cbn [fst] in E |- *.
  destruct (from_utf8_run (fst (from_utf8 (DS (d_char st) 0 (d_cur st)) l)) conts) as [s2 rs].
  injection E as -> E2. cbn [fst snd successes]. split; [exact E0|].
  rewrite <- E2 in Hs. exact Hs.
Qed.

Lemma from_utf8_resync_text st t : dwf st -> scalars t ->
  exists junk k, (length junk <= 1)%nat /\ (N.of_nat k <= (if d_exp st =? 0 then 0 else need st)) /\
    successes (snd (from_utf8_run st (utf8_text t))) = junk ++ skipn k t.
Proof.
  intros Hw Ht. revert st Hw. induction Ht as [|c t Hc Ht IH]; intros st Hw.
  - exists [], 0%nat. cbn [length]. repeat split; lia.
  - destruct (N.eqb_spec (d_exp st) 0) as [He|He].
    + destruct (from_utf8_run_text st (c :: t) He (Forall_cons _ Hc Ht)) as (st' & E & _). rewrite E. cbn [snd].
      rewrite successes_text. exists [], 0%nat. cbn [length skipn app]. repeat split; lia.
    + cbn [utf8_text flat_map]. rewrite from_utf8_run_app. cbn [snd]. rewrite successes_app.
      destruct (N.ltb_spec c 0x80) as [Ha|Ha].
      * assert (Eu : utf8 c = [c]) by (unfold utf8; replace (c <? 128) with true by lia; reflexivity). rewrite Eu.
        destruct (dwf_char st Hw He) as [Hch Hcu].
        pose proof (from_utf8_dwf st c Hw ltac:(lia)) as Hw1.
        cbn [from_utf8_run]. rewrite from_utf8_cont in Hw1 |- * by (try assumption; lia).
        destruct Hw as [Hw|(H1 & H2 & H3 & H4)]; [contradiction|].
        destruct (N.ltb_spec (d_cur st + 1) (d_exp st)) as [H|H]; cbn [fst snd successes app] in *.
        -- destruct (IH _ Hw1) as (junk & k & J1 & J2 & J3). exists junk, (S k). unfold need in *. cbn [d_exp d_cur] in J2.
           replace (d_exp st =? 0) with false in J2 by lia. cbn [skipn]. repeat split; [exact J1|lia|exact J3].
        -- destruct (from_utf8_run_text _ t (eq_refl : d_exp (DS (d_char st * 64 + c mod 64) 0 (d_cur st + 1)) = 0) Ht)
             as (st' & E' & _). unfold utf8_text in E'. rewrite E'. cbn [snd]. rewrite successes_text.
           eexists [_], 1%nat. cbn [skipn length app]. unfold need. repeat split; try lia.
      * destruct (from_utf8_run_indep_char st c dinit Hw He Hc Ha eq_refl) as (st1 & E1 & E2 & E3). rewrite E3, E1.
        destruct (from_utf8_run_text st1 t E2 Ht) as (st' & E' & _). unfold utf8_text in E'. rewrite E'. cbn [snd].
        rewrite successes_text. exists [], 0%nat. cbn [skipn length app]. repeat split; lia.
Qed.

Lemma decoder_char_dwf st b : dwf st -> b < 256 -> dwf (fst (decoder_char st b)).
Proof.
  intros Hw Hb. destruct (N.eq_dec (d_exp st) 0) as [He|He].
  - rewrite decoder_char_idle by assumption.
    destruct (b <? 0x80); [left; reflexivity|]. destruct (b <? 0xC0); [left; exact He|].
    destruct (b <? 0xE0); [right; cbn [fst d_cur d_exp d_char]; lia|].
    destruct (b <? 0xF0); [right; cbn [fst d_cur d_exp d_char]; lia|].
    destruct (b <? 0xF8); [right; cbn [fst d_cur d_exp d_char]; lia|left; exact He].
  - destruct (decoder_pending_step st b Hw He Hb) as (st1 & r & E & Hw1 & _). rewrite E. exact Hw1.
Qed.
Lemma decoder_run_dwf st bs : dwf st -> Forall byte bs -> dwf (fst (decoder_run st bs)).
Proof.
  intros Hw Hb. revert st Hw. induction Hb as [|b bs Hb Hbs IH]; intros st Hw; [exact Hw|].
  cbn [decoder_run]. pose proof (decoder_char_dwf st b Hw Hb) as H1.
  destruct (decoder_char st b) as [st1 r]. cbn [fst] in H1. specialize (IH st1 H1).
  destruct (decoder_run st1 bs) as [st2 rs]. exact IH.
Qed.
Lemma dwf_need st : dwf st -> (if d_exp st =? 0 then 0 else need st) <= 3.
Proof.
  intros [H|(H1 & H2 & H3 & H4)].
  - rewrite H. change (0 =? 0) with true. cbn match. lia.
  - unfold need. destruct (d_exp st =? 0); lia.
Qed.

Lemma resync_from_utf8 garbage t : Forall byte garbage -> scalars t ->
  exists junk k, (length junk <= 1)%nat /\ (k <= 3)%nat /\
    successes (snd (from_utf8_run (fst (from_utf8_run dinit garbage)) (utf8_text t))) = junk ++ skipn k t.
Proof.
  intros Hg Ht. assert (Hw := from_utf8_run_dwf dinit garbage dwf_init Hg).
  destruct (from_utf8_resync_text _ t Hw Ht) as (junk & k & A & B & C). pose proof (dwf_need _ Hw).
  exists junk, k. repeat split; [exact A|lia|exact C].
Qed.
Lemma resync_decoder garbage t : Forall byte garbage -> scalars t ->
  exists junk k, (length junk <= 1)%nat /\ (k <= 3)%nat /\
    snd (decoder_run (fst (decoder_run dinit garbage)) (utf8_text t)) = junk ++ skipn k t.
Proof.
  intros Hg Ht. assert (Hw := decoder_run_dwf dinit garbage dwf_init Hg).
  destruct (decoder_resync _ t Hw Ht) as (junk & k & A & B & C). pose proof (dwf_need _ Hw).
  exists junk, k. repeat split; [exact A|lia|exact C].
Qed.
