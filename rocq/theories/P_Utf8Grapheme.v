(** utf8_grapheme_segmenter: the clusters of the (lossily) decoded text. *)
From Verif Require Import Base Spec_Utf M_Utf8 P_Utf8 M_Ucd M_Grapheme Spec_Grapheme P_Grapheme M_Utf8Grapheme Spec_Lossy.
Open Scope N_scope.

Fixpoint lossy_from (st : dstate) (pend : bool) (bs : list N) : list N :=
  match bs with
  | [] => if pend then [0] else []
  | b :: bs' => match from_utf8 st b with
                | (st', Success v) => v :: lossy_from st' false bs'
                | (st', Invalid) => 0xFFFD :: lossy_from st' false bs'
                | (st', Incomplete) => lossy_from st' true bs'
                end
  end.

Lemma lossy_from_eq bs : forall st pend, 
  lossy_from st pend bs = match bs with [] => if pend then [0] else [] | _ => lossy (snd (from_utf8_run st bs)) end.
Proof.
  induction bs as [|b bs IH]; intros st pend; [reflexivity|]. cbn [lossy_from from_utf8_run].
  destruct (from_utf8 st b) as [st1 r]. specialize (IH st1).
  destruct bs as [|b' bs']; [destruct r; reflexivity|].
  pose proof (IH true) as It. pose proof (IH false) as If.
  remember (from_utf8_run st1 (b' :: bs')) as R eqn:ER. destruct R as [st2 rs]. cbn [snd] in *.
  assert (rs <> []). { cbn [from_utf8_run] in ER. destruct (from_utf8 st1 b') as [x y]. destruct (from_utf8_run x bs') as [z w]. injection ER as -> ->. discriminate. }
  destruct r; cbn [lossy].
  - rewrite If. reflexivity.
  - rewrite It. destruct rs; [congruence|reflexivity].
  - rewrite If. reflexivity.
Qed.

Lemma read_codepoint_spec bs : forall st pend, bs <> [] -> exists bs' st' v,
  read_codepoint st bs = (bs', st', v) /\ lossy_from st pend bs = v :: lossy_from st' false bs' /\ (length bs' < length bs)%nat.
Proof.
  induction bs as [|b bs IH]; intros st pend Hne; [congruence|]. cbn [read_codepoint lossy_from].
  destruct (from_utf8 st b) as [st1 r]. destruct r.
  - exists bs, st1, 0xFFFD. cbn [length]. auto.
  - destruct bs as [|b' bs'].
    + exists [], st1, 0. cbn [length]. auto.
    + destruct (IH st1 true ltac:(discriminate)) as (bs2 & st2 & v & E & L & K). exists bs2, st2, v.
      split; [exact E|]. split; [exact L|]. cbn [length] in *. lia.
  - exists bs, st1, v. cbn [length]. auto.
Qed.

(** what is still to come *)
Definition pending (i : u8it) : list N :=
  match i_ncstart i with [] => [] | _ => i_nextcp i :: lossy_from (i_dec i) false (i_next i) end.
Definition iok (i : u8it) : Prop := (i_ncstart i = [] -> i_next i = []) /\ (i_ncstart i <> [] -> (length (i_next i) < length (i_ncstart i))%nat).

Lemma consume_codepoint_spec i : iok i -> i_ncstart i <> [] -> exists i',
  consume_codepoint i = (i_nextcp i, i') /\ iok i' /\ pending i = i_nextcp i :: pending i' /\
  i_cluster i' = i_cluster i /\ i_seg i' = i_seg i /\ i_cstart i' = i_cstart i /\ (length (i_ncstart i') < length (i_ncstart i))%nat.
Proof.
  intros [H1 H2] Hne. specialize (H2 Hne). unfold consume_codepoint.
  destruct (i_next i) as [|b bs] eqn:En.
  - cbn [read_codepoint]. eexists. split; [reflexivity|].
    split; [split; cbn; intros; congruence|]. unfold pending. rewrite En. cbn [i_ncstart lossy_from].
    destruct (i_ncstart i); [congruence|]. cbn [i_cluster i_seg i_cstart length]. auto with arith.
  - destruct (read_codepoint_spec (b :: bs) (i_dec i) false ltac:(discriminate)) as (bs' & st' & v & E & L & K).
    rewrite E. eexists. split; [reflexivity|]. split; [split; cbn [i_ncstart i_next]; intros; [congruence|exact K]|].
    unfold pending. rewrite En. cbn [i_ncstart i_next i_dec i_nextcp i_cluster i_seg i_cstart].
    destruct (i_ncstart i); [congruence|]. rewrite L. auto 6.
Qed.

Lemma consume_more_spec u : forall fuel i, iok i -> (length (i_ncstart i) <= fuel)%nat -> exists i',
  consume_more u fuel i = Ok i' /\ iok i' /\ i_cstart i' = i_cstart i /\ (length (i_ncstart i') <= length (i_ncstart i))%nat /\
  group (rev (i_cluster i)) (pending i) (flags u (i_seg i) (pending i)) =
    i_cluster i' :: match pending i' with [] => [] | c :: r => group [c] r (flags u (process_init u c) r) end.
Proof.
  induction fuel as [|fuel IH]; intros i Hok Hf.
  - cbn [consume_more]. destruct (i_ncstart i) eqn:E; [|cbn in Hf; lia]. exists i. 
    split; [reflexivity|]. split; [exact Hok|]. rewrite E. split; [reflexivity|]. split; [lia|].
    unfold pending. rewrite E. cbn [group flags]. rewrite rev_involutive. reflexivity.
  - cbn [consume_more]. destruct (i_ncstart i) as [|b0 bs0] eqn:E.
    + exists i. split; [reflexivity|]. split; [exact Hok|]. rewrite E. split; [reflexivity|]. split; [lia|].
      unfold pending. rewrite E. cbn [group flags]. rewrite rev_involutive. reflexivity.
    + assert (Hp : pending i = i_nextcp i :: lossy_from (i_dec i) false (i_next i)) by (unfold pending; rewrite E; reflexivity).
      rewrite Hp. cbn [flags].
      destruct (process_breakable u (i_nextcp i) (i_seg i)) as [brk sg] eqn:B. destruct brk.
      * eexists. split; [reflexivity|]. split; [unfold iok in *; cbn [i_ncstart i_next]; rewrite E in Hok; exact Hok|].
        cbn [i_cstart i_ncstart i_cluster]. split; [reflexivity|]. split; [lia|]. unfold pending at 1. cbn [i_ncstart i_nextcp i_dec i_next].
        cbn [group]. rewrite rev_involutive. reflexivity.
      * set (j := mkI (i_cstart i) (b0 :: bs0) (i_next i) (i_dec i) (i_nextcp i) (i_cluster i) sg).
        assert (Hj : iok j) by (unfold iok, j in *; cbn [i_ncstart i_next]; rewrite E in Hok; exact Hok).
        destruct (consume_codepoint_spec j Hj) as (j' & Ec & Hj' & Pj & Cj & Sj & Stj & Lj); [unfold j; cbn; congruence|].
        rewrite Ec. 
        match goal with |- context [consume_more u fuel ?k] => set (k0 := k) end.
        destruct (IH k0) as (i' & E' & Ok' & St' & Le' & G').
        { unfold iok, k0 in *. cbn. exact Hj'. }
        { unfold k0. cbn [i_ncstart]. unfold j in Lj. cbn [i_ncstart] in Lj. cbn [length] in *. lia. }
        exists i'. split; [exact E'|]. split; [exact Ok'|]. split; [rewrite St'; unfold k0; cbn; rewrite Stj; reflexivity|].
        split; [unfold k0 in Le'; cbn [i_ncstart] in Le'; unfold j in Lj; cbn [i_ncstart] in Lj; lia|].
        rewrite <- G'. unfold k0 at 1 3. cbn [i_cluster i_seg group]. rewrite rev_app_distr. cbn [rev app]. rewrite Cj, Sj. unfold j at 1 2 3. cbn [i_cluster i_seg i_nextcp].
        assert (Q : lossy_from (i_dec i) false (i_next i) = pending k0).
        { unfold j in Pj. unfold pending at 1 in Pj. cbn in Pj. injection Pj as Pj. rewrite Pj. reflexivity. }
        rewrite Q. reflexivity.
Qed.

Lemma consume_cluster_spec u fuel i : iok i -> (length (i_ncstart i) <= fuel)%nat -> exists i',
  consume_cluster u fuel i = Ok i' /\ iok i' /\ i_cstart i' = i_ncstart i /\
  (i_ncstart i <> [] -> (length (i_ncstart i') < length (i_ncstart i))%nat /\ 
    clusters_of u (pending i) = i_cluster i' :: match pending i' with [] => [] | _ => clusters_of u (pending i') end).
Proof.
  intros Hok Hf. unfold consume_cluster. cbn [i_ncstart]. destruct (i_ncstart i) as [|b0 bs0] eqn:E.
  - eexists. split; [reflexivity|]. split; [unfold iok in *; cbn; rewrite E in Hok; exact Hok|]. cbn. split; [reflexivity|congruence].
  - set (j := mkI _ _ _ _ _ _ _).
    assert (Hj : iok j) by (unfold iok, j in *; cbn [i_ncstart i_next]; rewrite E in Hok; exact Hok).
    destruct (consume_codepoint_spec j Hj) as (j' & Ec & Hj' & Pj & Cj & Sj & Stj & Lj); [unfold j; cbn; congruence|].
    rewrite Ec.
    match goal with |- context [consume_more u fuel ?k] => set (k0 := k) end.
    destruct (consume_more_spec u fuel k0) as (i' & E' & Ok' & St' & Le' & G').
    { unfold iok, k0 in *. cbn. exact Hj'. }
    { unfold k0. cbn [i_ncstart]. unfold j in Lj. cbn [i_ncstart] in Lj. cbn [length] in *. lia. }
    exists i'. split; [exact E'|]. split; [exact Ok'|]. split; [rewrite St'; unfold k0; cbn; rewrite Stj; reflexivity|].
    intros _. split; [unfold k0 in Le'; cbn [i_ncstart] in Le'; unfold j in Lj; cbn [i_ncstart] in Lj; lia|].
    assert (Q : pending i = i_nextcp j :: pending k0).
    { replace (pending k0) with (pending j') by reflexivity. rewrite <- Pj. unfold pending, j. rewrite E. reflexivity. }
    rewrite Q. cbn [clusters_of]. unfold k0 in G' at 1 3. cbn [i_cluster i_seg rev app] in G'. rewrite G'.
    destruct (pending i'); reflexivity.
Qed.

Lemma u8it_loop_spec u : forall fuel cf i, iok i -> i_cstart i <> [] -> (length (i_ncstart i) < fuel)%nat -> (length (i_ncstart i) <= cf)%nat ->
  u8it_loop u fuel cf i = Ok (i_cluster i :: match pending i with [] => [] | _ => clusters_of u (pending i) end).
Proof.
  induction fuel as [|fuel IH]; intros cf i Hok Hs Hf Hcf; [lia|]. cbn [u8it_loop].
  destruct (i_cstart i) eqn:Es; [congruence|].
  destruct (consume_cluster_spec u cf i Hok Hcf) as (i' & E & Ok' & St & K). rewrite E. cbn [bindR].
  destruct (i_ncstart i) as [|b0 bs0] eqn:En.
  - assert (P : pending i = []) by (unfold pending; rewrite En; reflexivity). rewrite P.
    assert (C : u8it_loop u fuel cf i' = Ok []) by (destruct fuel; cbn [u8it_loop]; rewrite St; reflexivity).
    rewrite C. reflexivity.
  - destruct (K ltac:(discriminate)) as [Kl Kc]. assert (P : pending i <> []) by (unfold pending; rewrite En; discriminate).
    rewrite (IH cf i' Ok').
    + cbn [bindR]. rewrite Kc. destruct (pending i); [congruence|reflexivity].
    + rewrite St. discriminate.
    + lia.
    + lia.
Qed.

Lemma u8_clusters_lossy u bs : bs <> [] ->
  u8_grapheme_clusters u bs = Ok (clusters_of u (lossy (snd (from_utf8_run dinit bs)))).
Proof.
  intros Hne. destruct bs as [|b bs]; [congruence|]. unfold u8_grapheme_clusters, u8it_make.
  set (i0 := mkI _ _ _ _ _ _ _).
  destruct (read_codepoint_spec (b :: bs) dinit false ltac:(discriminate)) as (bs' & st' & v & E & L & K).
  assert (C : snd (consume_codepoint i0) = mkI (b :: bs) (b :: bs) bs' st' v [] (gstate0 u)).
  { unfold consume_codepoint, i0. cbn [i_dec i_next]. rewrite E. reflexivity. }
  rewrite C. set (i1 := mkI _ _ _ _ _ _ _).
  destruct (consume_cluster_spec u (length (b :: bs)) i1) as (i' & E' & Ok' & St & K').
  { split; unfold i1; cbn [i_ncstart i_next]; [congruence|intros; exact K]. }
  { unfold i1. cbn [i_ncstart]. lia. }
  destruct (K' ltac:(unfold i1; cbn; congruence)) as [Kl Kc]. rewrite E'. cbn [bindR].
  rewrite u8it_loop_spec; [|exact Ok'|rewrite St; unfold i1; cbn; congruence|unfold i1 in Kl; cbn [i_ncstart] in Kl; exact Kl|unfold i1 in Kl; cbn [i_ncstart] in Kl; lia].
  f_equal. rewrite <- Kc. unfold pending, i1. cbn [i_ncstart i_nextcp i_dec i_next]. rewrite <- L, lossy_from_eq. reflexivity.
Qed.

Lemma lossy_app rs rs' : rs <> [] -> (forall r, last rs Invalid = r -> r <> Incomplete) -> lossy (rs ++ rs') = lossy rs ++ lossy rs'.
Proof.
  induction rs as [|r rs IH]; intros Hne Hl; [congruence|].
  destruct rs as [|r2 rs2].
  - cbn in *. specialize (Hl r eq_refl). destruct r; [reflexivity|congruence|reflexivity].
  - specialize (IH ltac:(discriminate) Hl). cbn [app] in *. set (X := r2 :: rs2) in *. set (Y := r2 :: rs2 ++ rs') in *.
    assert (HX : X <> []) by discriminate. assert (HY : Y <> []) by discriminate. clearbody X Y.
    destruct r; cbn [lossy]; rewrite ?IH; try reflexivity. destruct X, Y; congruence.
Qed.
Lemma lossy_char_results c : lossy (char_results c) = [c] /\ char_results c <> [] /\ last (char_results c) Invalid = Success c.
Proof.
  unfold char_results. generalize (length (utf8 c) - 1)%nat. intros n. induction n as [|n IH]; cbn [repeat app]; [auto using eq_refl with arith|].
  - split; [reflexivity|]. split; [discriminate|reflexivity].
  - destruct IH as (I1 & I2 & I3). destruct (repeat Incomplete n ++ [Success c]) eqn:E; [congruence|].
    split; [exact I1|]. split; [discriminate|exact I3].
Qed.
Lemma lossy_text t : lossy (flat_map char_results t) = t.
Proof.
  induction t as [|c t IH]; [reflexivity|]. cbn [flat_map]. destruct (lossy_char_results c) as (H1 & H2 & H3).
  rewrite lossy_app; [rewrite H1, IH; reflexivity|exact H2|]. intros r <-. rewrite H3. discriminate.
Qed.
