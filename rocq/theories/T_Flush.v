(** C65, exactly: what flush() of utf8_normalizer keeps. *)
From Verif Require Import Base Spec_Utf M_Utf8 M_Convert P_Utf8 P_Convert M_Tables M_Normalize Spec_Normalize P_Normalize Norm_Demo M_NormUtf8 Spec_NormUtf8 P_NormUtf8
  Spec_Flush T_NormUtf8.
Open Scope N_scope.

Definition kind (b : N) : nat := if b <? 0xC0 then 0 else if b <? 0xE0 then 2 else if b <? 0xF0 then 3 else if b <? 0xF8 then 4 else 0.
Lemma announces_kind b n : announces b n <-> kind b = n /\ n <> 0%nat.
Proof.
  unfold announces, kind. destruct (N.ltb_spec b 0xC0), (N.ltb_spec b 0xE0), (N.ltb_spec b 0xF0), (N.ltb_spec b 0xF8); split; intros; repeat match goal with H : _ \/ _ |- _ => destruct H end; try lia.
Qed.
Lemma sweep (P : N -> bool) : forallb P (map N.of_nat (seq 0 256)) = true -> forall b, byte b -> P b = true.
Proof.
  intros H b Hb. rewrite forallb_forall in H. apply H. rewrite in_map_iff. exists (N.to_nat b). split; [apply N2Nat.id|]. apply in_seq. unfold byte in Hb. lia.
Qed.
Lemma lead_cases v : byte v -> is_lead v = negb (kind v =? 0)%nat /\
  (kind v = 0%nat -> forall st, d_exp st = 0 -> d_exp (fst (from_utf8_lead st v)) = 0) /\
  (kind v <> 0%nat -> forall st, fst (from_utf8_lead st v) = fst (from_utf8_lead dinit v) /\ d_exp (fst (from_utf8_lead st v)) = N.of_nat (kind v) /\
     d_cur (fst (from_utf8_lead st v)) = 1 /\ snd (from_utf8_lead dinit v) = Incomplete).
Proof.
  intros Hv.
  assert (A : Bool.eqb (N.land v 0x80 =? 0) (v <? 0x80) && Bool.eqb (N.land v 0xE0 =? 0xC0) (kind v =? 2)%nat && Bool.eqb (N.land v 0xF0 =? 0xE0) (kind v =? 3)%nat
     && Bool.eqb (N.land v 0xF8 =? 0xF0) (kind v =? 4)%nat && implb (v <? 0x80) (kind v =? 0)%nat && existsb (Nat.eqb (kind v)) [0;2;3;4]%nat = true).
  { revert v Hv. apply sweep. vm_compute. reflexivity. }
  rewrite !andb_true_iff in A. destruct A as (((((A1 & A2) & A3) & A4) & A5) & A6). apply Bool.eqb_prop in A1, A2, A3, A4.
  unfold is_lead, from_utf8_lead. rewrite A1, A2, A3, A4.
  destruct (N.ltb_spec v 0x80) as [L|L].
  - cbn [implb] in A5. rewrite A5. apply Nat.eqb_eq in A5. rewrite A5. cbn. split; [reflexivity|]. split; [auto|congruence].
  - destruct (kind v) as [|[|[|[|[|k]]]]]; cbn in A6; try discriminate; cbn; (split; [reflexivity|]); (split; [try congruence; auto|]); try congruence; auto.
Qed.

(** what the decoder has in hand *)
Definition holds (st : dstate) (p : list N) : Prop :=
  (p = [] /\ d_exp st = 0) \/ (unfinished p /\ st = fst (from_utf8_run dinit p)).
Lemma run_unfinished p : unfinished p -> Forall byte p -> d_exp (fst (from_utf8_run dinit p)) = N.of_nat (kind (hd 0 p)) /\
  d_cur (fst (from_utf8_run dinit p)) = N.of_nat (length p) /\ Forall (eq Incomplete) (snd (from_utf8_run dinit p)).
Proof.
  intros (b & r & n & -> & Hb & Hl & Hr) HB. apply announces_kind in Hb as [Hk Hn]. cbn [hd].
  destruct (lead_cases b (Forall_inv HB)) as (_ & _ & C). specialize (C ltac:(congruence) dinit). destruct C as (_ & E1 & E2 & E3).
  cbn [from_utf8_run]. change (from_utf8 dinit b) with (from_utf8_lead dinit b). destruct (from_utf8_lead dinit b) as [st x]. cbn [fst snd] in *. subst x.
  assert (G : forall r st k, Forall byte r -> Forall (fun x => forall m, ~ announces x m) r -> d_exp st = N.of_nat (kind b) -> d_cur st = N.of_nat k -> (k + length r < kind b)%nat ->
    d_exp (fst (from_utf8_run st r)) = N.of_nat (kind b) /\ d_cur (fst (from_utf8_run st r)) = N.of_nat (k + length r) /\ Forall (eq Incomplete) (snd (from_utf8_run st r))).
  { clear -Hk Hn. assert (K : (kind b <= 4)%nat) by (unfold kind; repeat destruct (_ <? _); lia).
    induction r as [|v r IH]; intros st k HB HR He Hc Hl; [cbn; rewrite Nat.add_0_r; auto|]. cbn [from_utf8_run length] in *.
    destruct (lead_cases v (Forall_inv HB)) as (L & _ & _).
    assert (Kv : kind v = 0%nat). { destruct (kind v) as [|m] eqn:E; [reflexivity|]. destruct (Forall_inv HR (S m)). apply announces_kind. auto. }
    rewrite Kv in L. cbn in L. unfold from_utf8. rewrite He. destruct (N.eqb_spec (N.of_nat (kind b)) 0) as [Z|_]; [lia|]. rewrite L.
    unfold from_utf8_finish. cbn [d_cur d_exp]. rewrite Hc. replace (to_u32 (N.of_nat k + 1)) with (N.of_nat (S k)) by (unfold to_u32; rewrite N.mod_small; lia).
    destruct (N.ltb_spec (N.of_nat (S k)) (N.of_nat (kind b))) as [_|Z]; [|lia].
    match goal with |- context [from_utf8_run ?s r] => destruct (IH s (S k) (Forall_inv_tail HB) (Forall_inv_tail HR) eq_refl eq_refl ltac:(lia)) as (A & B & C) end.
    destruct (from_utf8_run _ r) as [s2 rs]. cbn [fst snd] in *. rewrite A, B. split; [reflexivity|]. split; [f_equal; lia|constructor; auto]. }
  cbn [length] in Hl. destruct (G r st 1%nat (Forall_inv_tail HB) Hr E1 E2 ltac:(lia)) as (A & B & C). destruct (from_utf8_run st r) as [s2 rs]. cbn [fst snd length] in *.
  split; [exact A|]. split; [exact B|]. constructor; auto.
Qed.
Lemma holds_run bs : Forall byte bs -> exists q p, bs = q ++ p /\ holds (fst (from_utf8_run dinit bs)) p.
Proof.
  induction bs as [|v bs IH] using rev_ind; intros HB; [exists [], []; split; [reflexivity|left; auto]|].
  apply Forall_app in HB as [HB Hv]. apply Forall_inv in Hv. destruct (IH HB) as (q & p & E & H). rewrite from_utf8_run_app. cbn [fst].
  set (st := fst (from_utf8_run dinit bs)) in *. cbn [from_utf8_run]. destruct (lead_cases v Hv) as (L & C0 & C1).
  assert (S1 : forall st', unfinished [v] -> st' = fst (from_utf8_lead dinit v) -> holds st' [v]).
  { intros st' U ->. right. split; [exact U|]. cbn [from_utf8_run]. change (from_utf8 dinit v) with (from_utf8_lead dinit v). now destruct (from_utf8_lead dinit v). }
  assert (S2 : kind v <> 0%nat -> unfinished [v]).
  { intros K. exists v, [], (kind v). split; [reflexivity|]. split; [now apply announces_kind|]. split; [cbn|constructor]. unfold kind in *. repeat destruct (_ <? _); lia. }
  destruct H as [[-> He]|[U Es]].
  - unfold from_utf8. rewrite He. change (0 =? 0) with true. cbv iota. destruct (Nat.eq_dec (kind v) 0) as [K|K].
    + exists (bs ++ [v]), []. split; [now rewrite app_nil_r|]. left. split; [reflexivity|]. specialize (C0 K st He). now destruct (from_utf8_lead st v).
    + exists bs, [v]. split; [reflexivity|]. destruct (C1 K st) as (C & _). destruct (from_utf8_lead st v) as [s x]. cbn [fst] in *. apply S1; auto.
  - assert (HBp : Forall byte p) by (rewrite E in HB; now apply Forall_app in HB).
    destruct (run_unfinished p U HBp) as (E1 & E2 & E3). rewrite <- Es in E1, E2. pose proof U as (b & r & n & Ep & Hb & Hl & Hr). apply announces_kind in Hb as [Hk Hn]. rewrite Ep in E1. cbn [hd] in E1.
    unfold from_utf8. rewrite E1. destruct (N.eqb_spec (N.of_nat (kind b)) 0) as [Z|_]; [lia|]. destruct (is_lead v) eqn:Lv.
    + assert (K : kind v <> 0%nat) by (intros K; rewrite K in L; discriminate). exists bs, [v]. split; [reflexivity|]. cbn [fst].
      apply S1; [auto|]. apply (C1 K).
    + assert (K : kind v = 0%nat) by (destruct (Nat.eqb_spec (kind v) 0); [assumption|discriminate]).
      unfold from_utf8_finish. cbn [d_cur d_exp]. rewrite E2.
      assert (K4 : (kind b <= 4)%nat) by (unfold kind; repeat destruct (_ <? _); lia).
      replace (to_u32 (N.of_nat (length p) + 1)) with (N.of_nat (S (length p))) by (unfold to_u32; rewrite N.mod_small; lia).
      destruct (N.ltb_spec (N.of_nat (S (length p))) (N.of_nat (kind b))) as [Z|Z].
      * exists q, (p ++ [v]). split; [rewrite E; now rewrite app_assoc|]. right. split.
        -- exists b, (r ++ [v]), n. split; [rewrite Ep; reflexivity|]. split; [apply announces_kind; auto|]. split; [rewrite app_length; cbn; lia|].
           apply Forall_app. split; [exact Hr|constructor; [|constructor]]. intros m Hm. apply announces_kind in Hm. lia.
        -- rewrite from_utf8_run_app. cbn [fst]. rewrite <- Es. cbn [from_utf8_run]. unfold from_utf8. rewrite E1. destruct (N.eqb_spec (N.of_nat (kind b)) 0) as [Z'|_]; [lia|]. rewrite Lv.
           unfold from_utf8_finish. cbn [d_cur d_exp]. rewrite E2. replace (to_u32 (N.of_nat (length p) + 1)) with (N.of_nat (S (length p))) by (unfold to_u32; rewrite N.mod_small; lia).
           destruct (N.ltb_spec (N.of_nat (S (length p))) (N.of_nat (kind b))); [reflexivity|lia].
      * exists (bs ++ [v]), []. split; [now rewrite app_nil_r|]. left. split; reflexivity.
Qed.
Lemma run_any st p : unfinished p -> Forall byte p -> fst (from_utf8_run st p) = fst (from_utf8_run dinit p).
Proof.
  intros (b & r & n & -> & Hb & _ & _) HB. apply announces_kind in Hb as [Hk Hn]. destruct (lead_cases b (Forall_inv HB)) as (L & _ & C).
  specialize (C ltac:(congruence)). cbn [from_utf8_run]. change (from_utf8 dinit b) with (from_utf8_lead dinit b).
  assert (E : fst (from_utf8 st b) = fst (from_utf8_lead dinit b)).
  { unfold from_utf8. destruct (d_exp st =? 0); [apply C|]. rewrite L. destruct (Nat.eqb_spec (kind b) 0) as [Z|_]; [congruence|]. cbn [negb fst]. apply C. }
  destruct (from_utf8 st b) as [s1 x1], (from_utf8_lead dinit b) as [s2 x2]. cbn [fst] in E. subst s2. now destruct (from_utf8_run s1 r).
Qed.
Lemma replaced_incomplete rs : Forall (eq Incomplete) rs -> replaced rs = [].
Proof. induction 1 as [|x rs <- _ IH]; [reflexivity|exact IH]. Qed.
Lemma after_flush tb form bs h o1 o2 os : history tb form unorm_init (Feed bs :: Flush :: h) (o1 :: o2 :: os) ->
  exists fuel st', urun tb fuel form (UN (fst (from_utf8_run dinit bs)) []) h = Ok (os, st').
Proof.
  intros (fuel & st' & H). cbn [urun] in H. rewrite ufeed_eq in H. cbn [unorm_init u_dec u_pending] in H.
  destruct (nfeed_all tb fuel form [] (replaced (snd (from_utf8_run dinit bs)))) as [[o p]| |]; try discriminate. cbn [bindR] in H.
  rewrite uflush_eq in H. cbn [u_dec u_pending] in H. destruct (emit_pending tb fuel form p) as [f| |]; try discriminate. cbn [bindR] in H.
  destruct (urun tb fuel form (UN (fst (from_utf8_run dinit bs)) []) h) as [[os1 s1]| |] eqn:Eh; try discriminate. cbn [bindR] in H. injection H as _ _ <- _. exists fuel, s1. exact Eh.
Qed.

(** C65 (exactly what flush() keeps).  When the bytes fed before the flush end in a sequence cut short, its bytes stay: everything that
    follows is read as by a new normalizer that was fed these bytes first. *)
Theorem C65_cut_short_partial : forall tb form q p h o1 o2 os, Forall byte (q ++ p) -> unfinished p ->
  history tb form unorm_init (Feed (q ++ p) :: Flush :: h) (o1 :: o2 :: os) -> history tb form unorm_init (Feed p :: h) ([] :: os).
Proof.
  intros tb form q p h o1 o2 os HB U H. apply Forall_app in HB as [_ HB]. destruct (after_flush _ _ _ _ _ _ _ H) as (fuel & st' & E).
  rewrite from_utf8_run_app in E. cbn [fst] in E. rewrite run_any in E by assumption. destruct (run_unfinished p U HB) as (_ & _ & I).
  exists fuel, st'. cbn [urun]. rewrite ufeed_eq. cbn [unorm_init u_dec u_pending]. rewrite (replaced_incomplete _ I). cbn [nfeed_all bindR flat_map]. rewrite E. reflexivity.
Qed.
Print Assumptions C65_cut_short_partial.
(** C65 (full, for every byte string, also an ill-formed one, that does not end in a sequence cut short). *)
Theorem C65_flush_partial : forall tb form bs h o1 o2 os, Forall byte bs -> (forall q p, bs = q ++ p -> ~ unfinished p) ->
  history tb form unorm_init (Feed bs :: Flush :: h) (o1 :: o2 :: os) -> history tb form unorm_init h os.
Proof.
  intros tb form bs h o1 o2 os HB N H. destruct (after_flush _ _ _ _ _ _ _ H) as (fuel & st' & E).
  destruct (holds_run bs HB) as (q & p & Eb & [[_ He]|[U _]]); [|destruct (N q p Eb U)].
  destruct (urun_eqst tb fuel form h (UN (fst (from_utf8_run dinit bs)) []) unorm_init _ _ ltac:(split; [split; [exact He|cbn [u_dec]; rewrite He; congruence]|reflexivity]) E) as (b' & Eb' & _).
  exists fuel, b'. exact Eb'.
Qed.
Print Assumptions C65_flush_partial.
(** both cases exist, and there is no third *)
Theorem C65_cases : forall bs, Forall byte bs -> (exists q p, bs = q ++ p /\ unfinished p) \/ (forall q p, bs = q ++ p -> ~ unfinished p).
Proof.
  intros bs HB. destruct (holds_run bs HB) as (q & p & E & [[-> He]|[U _]]); [|left; eauto]. right. intros q' p' E' U.
  rewrite E' in He, HB. rewrite from_utf8_run_app in He. cbn [fst] in He. apply Forall_app in HB as [_ HB]. rewrite run_any in He by assumption.
  destruct (run_unfinished p' U HB) as (K & _). rewrite K in He. destruct U as (b & r & n & -> & A & _). apply announces_kind in A. cbn [hd] in He. lia.
Qed.
Print Assumptions C65_cases.
Example C65_cut_demo : unfinished [0xE2; 0x82] /\ history ndemo NFC unorm_init [Feed ([0x41] ++ [0xE2; 0x82]); Flush; Feed [0xAC]; Flush] [[]; [0x41]; []; [0xE2; 0x82; 0xAC]] /\
  (forall q p, [0x41; 0xFF; 0xC3; 0xA9] = q ++ p -> ~ unfinished p).
Proof.
  split; [exists 0xE2, [0x82], 3%nat; split; [reflexivity|]; split; [right; left; lia|]; split; [cbn; lia|]; repeat constructor; intros m [A|[A|A]]; lia|].
  split; [exists 5%nat; eexists; vm_compute; reflexivity|].
  intros q p E (b & r & n & -> & A & L & F). unfold announces in A.
  destruct q as [|x0 q]; [injection E as <- <-; lia|]. destruct q as [|x1 q]; [injection E as _ <- <-; lia|]. destruct q as [|x2 q]; [injection E as _ _ <- <-; cbn in L; lia|].
  destruct q as [|x3 q]; [injection E as _ _ _ <- <-; lia|]. exfalso. apply (f_equal (@length N)) in E. rewrite app_length in E. cbn in E. lia.
Qed.
