(** Composition and the algorithm of the Unicode Standard (C40), for generated tables (C72). *)
From Coq Require Import Ascii String Permutation Sorted.
From Verif Require Import Base M_Tables M_Normalize M_TableGen Spec_Tables Spec_Normalize Spec_TableGen P_Tables P_Order P_Normalize P_Hangul P_Compose P_Compose2
  Norm_Demo P_TableGen P_TableGen2 P_TableGen3 P_TableGen4 P_TableGen5 TableGen_Demo.
Open Scope N_scope.

(** C40, exactly: for a text whose decomposed form [n] does not contain U+11A7, to_nfc / to_nfkc compute the composition [t] the
    Standard prescribes, but write every starter behind the marks that follow it.  So they return the Standard's result exactly when no
    mark follows a starter in it, i.e. it consists of marks followed by starters. *)
Theorem C40_exact_partial : forall tb, acyclic tb -> comp_ready tb -> comp_starters tb ->
  forall formC formD, (formC = NFC /\ formD = NFD) \/ (formC = NFKC /\ formD = NFKD) ->
  forall s n, normalizes tb formD s n -> ~ In TBase n ->
  exists t, recomposed tb [] n t /\ (forall t', recomposed tb [] n t' -> t' = t) /\ normalizes tb formC s (displaced tb t) /\
    (normalizes tb formC s t <-> exists marks starters, t = marks ++ starters /\
       Forall (fun x => canonical_combining_class tb x <> 0) marks /\ Forall (fun x => canonical_combining_class tb x = 0) starters).
Proof.
  intros tb [rank Hr] HR Hst fc fd Hf s n Hn Hb. apply (normalizes_NF tb rank Hr) in Hn.
  assert (E : exists k, use_compat fc = k /\ use_compat fd = k /\ composes fc = true /\ composes fd = false).
  { destruct Hf as [[-> ->]|[-> ->]]; eexists; repeat split; reflexivity. }
  destruct E as [k [E1 [E2 [E3 E4]]]]. unfold NF in Hn. rewrite E2, E4 in Hn.
  assert (Ho : ordered (canonical_combining_class tb) n) by (rewrite Hn; apply canonical_order_ordered).
  apply ordered_sorted in Ho.
  assert (Ho' : Sorted (fun x y => canonical_combining_class tb y = 0 \/ canonical_combining_class tb x <= canonical_combining_class tb y) n).
  { clear -Ho. induction Ho as [|x l H IH Hx]; constructor; [exact IH|]. destruct Hx; constructor. lia. }
  destruct (lead_recomposed tb HR Hst n Hb Ho' [] (Forall_nil _)) as (t & T1 & T2). cbn [app] in T2.
  assert (EC : NF tb rank fc s = displaced tb t) by (unfold NF; rewrite E1, E3, <- Hn; symmetry; exact T2).
  exists t. split; [exact T1|]. split; [intros t' T; apply (recomposed_fun tb HR n Hb [] t' t T T1)|]. split.
  - apply (normalizes_NF tb rank Hr). symmetry. exact EC.
  - rewrite <- (disp_fixed tb t). rewrite (normalizes_NF tb rank Hr), EC. split; intros H; symmetry; exact H.
Qed.
Print Assumptions C40_exact_partial.

Lemma ndemo_comp_ready : comp_ready ndemo.
Proof.
  constructor.
  - apply (sortedb_ok (fun x y => let '(a, b, _) := x in let '(a', b', _) := y in (a <? a') || ((a =? a') && (b <? b'))) pair_lt).
    + intros [[a b] c] [[a' b'] c']. unfold pair_lt. lia.
    + intros [[a b] c] [[a' b'] c'] [[a2 b2] c2]. unfold pair_lt. lia.
    + vm_compute. reflexivity.
  - intros a b c H. assert (G : forallb (fun e => let '(a, b, c) := e in negb (c =? 0) && negb (is_hangul_syllable c) && list_eqb (canonical_decomposition ndemo c) [a; b]
      && negb (is_hangul_l_jamo a) && negb (is_hangul_syllable a)) (t_comp ndemo) = true) by (vm_compute; reflexivity).
    rewrite forallb_forall in G. specialize (G _ H). cbv beta iota in G. do 4 (apply andb_true_iff in G; let K := fresh "K" in destruct G as [G K]).
    apply negb_true_iff in G. apply N.eqb_neq in G. apply list_eqb_spec in K1. apply negb_true_iff in K, K0, K2. split; [exact G|]. split; [exact K2|]. split; [exact K1|]. split; congruence.
  - intros a b c Hh Hd Ha Hx. destruct (ndemo_canon c) as [Q|Q]; [congruence|congruence|].
    assert (G : forallb (fun c => match canonical_decomposition ndemo c with [a; b] => negb (canonical_combining_class ndemo a =? 0) || is_composition_exclusion ndemo c ||
      existsb (fun e => (fst (fst e) =? a) && (snd (fst e) =? b) && (snd e =? c)) (t_comp ndemo) | _ => true end) (map fst d_canon) = true) by (vm_compute; reflexivity).
    rewrite forallb_forall in G. specialize (G _ Q). cbv beta in G. rewrite Hd, Ha, Hx in G. change (negb (0 =? 0)) with false in G. cbn [orb] in G.
    apply existsb_exists in G. destruct G as ([[x y] z] & Hin & G). cbn [fst snd] in G. apply andb_true_iff in G. destruct G as [G G3]. apply andb_true_iff in G. destruct G as [G1 G2].
    apply N.eqb_eq in G1, G2, G3. subst. exact Hin.
  - intros c H. unfold is_composition_exclusion. destruct (binary_search (t_excl ndemo) c) eqn:E; [|reflexivity].
    rewrite binary_search_exact in E by exact d_excl_sorted. cbn [t_excl ndemo d_excl In] in E. destruct E as [<-|[]]. discriminate.
Qed.
(** A, ring, cedilla (class 202): canonical order puts the cedilla first, it does not compose, the ring is not blocked and composes; the
    Standard gives U+00C5 U+0327, the code U+0327 U+00C5. *)
Example C40_exact_demo : acyclic ndemo /\ comp_ready ndemo /\ comp_starters ndemo /\
  normalizes ndemo NFD [0x41; 0x30A; 0x327] [0x41; 0x327; 0x30A] /\ recomposed ndemo [] [0x41; 0x327; 0x30A] [0xC5; 0x327] /\
  displaced ndemo [0xC5; 0x327] = [0x327; 0xC5] /\ normalizes ndemo NFC [0x41; 0x30A; 0x327] [0x327; 0xC5].
Proof.
  split; [exact ndemo_acyclic|]. split; [exact ndemo_comp_ready|]. split; [exact ndemo_starters|].
  split; [exists 5%nat; vm_compute; reflexivity|]. split.
  - destruct (C40_exact_partial ndemo ndemo_acyclic ndemo_comp_ready ndemo_starters NFC NFD ltac:(left; auto) [0x41; 0x30A; 0x327] [0x41; 0x327; 0x30A])
      as (t & T & _ & Nt & _).
    + exists 5%nat. vm_compute. reflexivity.
    + unfold TBase. cbn [In]. intros [H|[H|[H|[]]]]; discriminate.
    + apply R_keep.
      { intros p l m x (E & _). destruct p; discriminate. }
      apply R_keep.
      { intros p l m x (E & Hl & Hm) P. cbn [app] in E. destruct p as [|y p]; [|destruct p; discriminate]. injection E as <- <-.
        apply (proj2 (try_primary ndemo ndemo_comp_ready 0x41 0x327 x eq_refl ltac:(discriminate))) in P. destruct P as (P & P0 & _).
        vm_compute in P. congruence. }
      apply (R_compose ndemo _ [] 0x41 [0x327] 0x30A 0xC5).
      * split; [reflexivity|]. split; [reflexivity|]. constructor; [|constructor]. vm_compute. split; reflexivity.
      * split; [reflexivity|]. left. reflexivity.
      * constructor.
  - split; [vm_compute; reflexivity|exists 5%nat; vm_compute; reflexivity].
Qed.

(** C72.  Tables generated from such data meet the condition of C40 too. *)
Theorem C72_comp_ready : forall crlf ud ex np tb, norm_files_ok ud ex np -> norm_data_ok ud ex np -> composites_unique ud ex np ->
  composites_plain ud ex np -> generated_norm crlf ud ex np tb -> comp_ready tb.
Proof.
  intros crlf ud ex np tb Hf Hd Hu [Hp Hh] Hg. constructor.
  - apply (gen_comp_sorted crlf ud ex np Hf tb Hg Hu).
  - intros a b c Hin. apply (tcomp_in crlf ud ex np Hf tb Hg) in Hin. destruct (Hp a b c Hin) as (P1 & P2 & P3).
    destruct Hin as [(u & Hu1 & Hc & Hdec) _].
    assert (Hhc : is_hangul_syllable c = false).
    { destruct (is_hangul_syllable c) eqn:Q; [|reflexivity]. subst c. destruct (proj1 Hd u Hu1 Q). congruence. }
    split; [exact P1|]. split; [exact Hhc|]. split; [|auto]. subst c. rewrite (gen_canon crlf ud ex np Hf tb Hg u Hu1 Hhc), Hdec. reflexivity.
  - intros a b c Hhc Hdec Ha Hx. apply (tcomp_in crlf ud ex np Hf tb Hg).
    destruct (has_line ud c) as [(u & Hu1 & Hc)|Hnone].
    + split; [|].
      * exists u. split; [exact Hu1|]. split; [exact Hc|]. subst c. rewrite (gen_canon crlf ud ex np Hf tb Hg u Hu1 Hhc) in Hdec.
        destruct (ul_dec u) as [[[ty|] l]|]; try discriminate. congruence.
      * assert (Q : ~ (listed ex c \/ bare_exclusion np c)).
        { intros Q. apply (gen_excluded crlf ud ex np Hf tb Hg) in Q. unfold is_full_composition_exclusion in Q. congruence. }
        tauto.
    + exfalso. destruct (gen_dec_none crlf ud ex np Hf tb Hg c Hnone Hhc) as [G _]. congruence.
  - intros c Hc. destruct (is_composition_exclusion tb c) eqn:E; [|reflexivity]. exfalso.
    apply (gen_excluded crlf ud ex np Hf tb Hg) in E. destruct (Hh c Hc). tauto.
Qed.
Print Assumptions C72_comp_ready.
Example C72_comp_demo : composites_plain ud_demo ex_demo np_demo.
Proof.
  split.
  - intros a b c H. apply demo_composites in H. destruct H as [(-> & -> & ->)|(-> & -> & ->)]; (split; [discriminate|]); split; discriminate.
  - intros c Hc. assert (E : is_composition_exclusion tb_demo c = false).
    { unfold is_composition_exclusion. destruct (binary_search (t_excl tb_demo) c) eqn:E; [|reflexivity].
      assert (X : t_excl tb_demo = [0x958]) by (vm_compute; reflexivity). rewrite X in E.
      rewrite binary_search_exact in E by (repeat constructor). destruct E as [<-|[]]. discriminate. }
    assert (Q : ~ (listed ex_demo c \/ bare_exclusion np_demo c)).
    { intros Q. apply (gen_excluded true ud_demo ex_demo np_demo norm_demo_ok tb_demo tb_demo_generated) in Q. congruence. }
    tauto.
Qed.
