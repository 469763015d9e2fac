(** C118, C145: exactly when is_nfc and is_nfkc answer true. *)
From Coq Require Import String Permutation Sorted.
From Verif Require Import Base Spec_Utf M_Utf8 M_Convert M_Tables M_Normalize M_NormUtf8 M_NormApi M_TableGen Spec_Tables Spec_Normalize Spec_TableGen Spec_LinkNorm Spec_NormUtf8 Spec_NormApi
  Spec_Emit Spec_EmitFiles2 P_Order P_Normalize P_Hangul P_Stream P_Compose P_Compose2 P_TableGen4 P_TableGen5 P_LinkNorm P_NormUtf8 Norm_Demo T_Normalize T_Compose T_QcYes T_NormUtf8 T_TableGen T_LinkNorm T_EmitFiles2 T_NormApi P_Behind T_Behind Spec_NormExact.
Open Scope N_scope.

(** composing keeps canonical order *)
Section Keep.
Variable ccc : N -> N.
Let R (x y : N) : Prop := ~ (0 < ccc y < ccc x).
Lemma sorted_replace p : forall l x q, ccc l = 0 -> ccc x = 0 -> Sorted R (p ++ l :: q) -> Sorted R (p ++ x :: q).
Proof.
  induction p as [|y p IH]; intros l x q Hl Hx H; cbn [app] in *; inversion H as [|? ? Hs Hh]; subst.
  - constructor; [exact Hs|]. destruct q as [|z q]; constructor. unfold R. lia.
  - constructor; [exact (IH l x q Hl Hx Hs)|]. destruct p as [|z p]; cbn [app] in *; constructor; [unfold R; lia|inversion Hh; assumption].
Qed.
Lemma sorted_remove p : forall c q, ccc c <> 0 -> Sorted R (p ++ c :: q) -> Sorted R (p ++ q).
Proof.
  induction p as [|y p IH]; intros c q Hc H; cbn [app] in *; inversion H as [|? ? Hs Hh]; subst; [exact Hs|].
  constructor; [exact (IH c q Hc Hs)|]. destruct p as [|z p]; cbn [app] in *.
  - destruct q as [|z q]; [constructor|]. constructor. inversion Hh; subst. inversion Hs as [|? ? _ Hz]; subst. inversion Hz; subst. unfold R in *. lia.
  - inversion Hh; subst. constructor. assumption.
Qed.
Lemma ordered_Sorted n : ordered ccc n -> Sorted R n.
Proof.
  induction n as [|x n IH]; intros O; constructor.
  - apply IH. intros p a b q E. apply (O (x :: p) a b q). rewrite E. reflexivity.
  - destruct n as [|y n]; constructor. exact (O [] x y n eq_refl).
Qed.
Lemma composed_sorted (primary : N -> N -> N -> Prop) done rest r : (forall l c x, ccc l = 0 -> primary l c x -> In c rest -> ccc x = 0) -> composed ccc primary done rest r ->
  Sorted R (done ++ rest) -> Sorted R r.
Proof.
  intros HP H. induction H as [done|done p l m c x rest r Hu Hp _ IH|done c rest r _ _ IH]; intros S.
  - rewrite app_nil_r in S. exact S.
  - destruct Hu as (-> & Hl & Hm). assert (Hx : ccc x = 0) by (apply (HP l c x Hl Hp); left; reflexivity).
    apply IH; [intros l' c' x' Hl' Hp' Hin; apply (HP l' c' x' Hl' Hp'); right; exact Hin|].
    rewrite <- !app_assoc in *. cbn [app] in *. apply (sorted_replace p l x _ Hl Hx).
    destruct (N.eq_dec (ccc c) 0) as [Z|Z].
    + destruct m as [|y m]; [|pose proof (Forall_inv Hm) as Hy; cbv beta in Hy; lia]. cbn [app] in *. clear - S Z Hl.
      assert (K : forall q, Sorted R (q ++ l :: c :: rest) -> Sorted R (q ++ l :: rest)).
      { intros q. induction q as [|y q IH]; intros H; cbn [app] in *; inversion H as [|? ? Hs Hh]; subst.
        - inversion Hs as [|? ? Hs' _]; subst. constructor; [exact Hs'|]. destruct rest; constructor. unfold R. lia.
        - constructor; [exact (IH Hs)|]. destruct q as [|z q]; cbn [app] in *; inversion Hh; subst; constructor; assumption. }
      exact (K p S).
    + change (p ++ l :: m ++ c :: rest) with (p ++ (l :: m) ++ c :: rest) in S. change (p ++ l :: m ++ rest) with (p ++ (l :: m) ++ rest).
      rewrite app_assoc in S. rewrite app_assoc. exact (sorted_remove _ c rest Z S).
  - apply IH; [intros l' c' x' Hl' Hp' Hin; apply (HP l' c' x' Hl' Hp'); right; exact Hin|]. rewrite <- app_assoc. exact S.
Qed.
End Keep.

(** C118.  When quick_check answers No for a composed form, the text is not the Standard's form of itself. *)
Theorem C118_composed_no_is_right : forall crlf ud ex np tb, norm_files_ok ud ex np -> norm_data_ok ud ex np -> exclusions_derived ud ex np ->
  composites_unique ud ex np -> composites_plain ud ex np -> no_11A7 ud -> generated_norm crlf ud ex np tb ->
  forall formC, composing formC -> qc_no_derived ud ex np formC -> forall ccc step, reads_ccc ud ccc -> reads_step ud (use_compat formC) step ->
  forall s, ~ In 0x11A7 s -> quick_check tb s formC = No -> ~ standard_composed ccc step (file_primary ud ex np) s s.
Proof.
  intros crlf ud ex np tb Hf Hd Hx Hu Hp H7 Hg formC Hform Hq ccc step Hc Hs s Hns HN Hstd.
  destruct (data_ready crlf ud ex np Hf tb Hg Hd) as (Ha & Hj & _ & Hst).
  pose proof (C72_comp_ready crlf ud ex np tb Hf Hd Hu Hp Hg) as HR. pose proof (ccc_eq crlf ud ex np tb Hf Hg ccc Hc) as Ec.
  destruct (qc_loop_no tb formC s Yes 0 ltac:(discriminate) HN) as [(c & Hin & Hqc)|Hns'].
  - apply (C71_quick_check crlf ud ex np tb Hf Hg formC c No) in Hqc. cbn [qc_file] in Hqc. exact (Hq ccc step Hc Hs c Hqc s s Hstd Hin).
  - apply Hns'. split; [|destruct s; cbn; [exact I|right; lia]].
    destruct Hstd as (n & (d & Dd & Rd & Od) & Cn).
    assert (Hn7 : ~ In TBase n).
    { apply notin_forall. eapply (std_keeps _ ccc step s n); [|exists d; auto|apply notin_forall, Hns].
      intros x. apply notin_forall. apply (no_11A7_step ud (use_compat formC) x); [exact H7|apply Hs]. }
    assert (S : Sorted (fun x y => ~ (0 < ccc y < ccc x)) s).
    { apply (composed_sorted ccc (file_primary ud ex np) [] n s); [|exact Cn|exact (ordered_Sorted ccc n Od)].
      intros l x y Hl P Hin. rewrite Ec in *. apply (primary_lib crlf ud ex np tb Hf Hg l x y Hd Hx Hp Hl) in P.
      apply (try_primary tb HR l x y Hl) in P as (T & T0 & _); [|intros ->; exact (Hn7 Hin)]. exact (try_compose_starter tb Hst l x y T T0 Hl). }
    clear - S Ec. induction S as [|x l H IH Hx]; constructor; [exact IH|]. destruct Hx; constructor. rewrite !Ec in *. assumption.
Qed.
Print Assumptions C118_composed_no_is_right.

(** C118.  is_normalized is true of exactly the Standard's composed forms of themselves that quick_check accepts outright or in which no mark follows a starter. *)
Theorem C118_composed_checks_exact_partial : forall crlf ud ex np tb, norm_files_ok ud ex np -> norm_data_ok ud ex np -> exclusions_derived ud ex np ->
  composites_unique ud ex np -> composites_plain ud ex np -> no_11A7 ud -> generated_norm crlf ud ex np tb ->
  forall formC, composing formC -> qc_composed_derived ud ex np formC -> qc_no_derived ud ex np formC ->
  forall ccc step, reads_ccc ud ccc -> reads_step ud (use_compat formC) step -> forall s, ~ In 0x11A7 s -> forall b, normalized_check tb formC s b ->
  (b = true <-> standard_composed ccc step (file_primary ud ex np) s s /\
     (quick_check tb s formC = Yes \/ exists marks starters, s = marks ++ starters /\ Forall (fun x => ccc x <> 0) marks /\ Forall (fun x => ccc x = 0) starters)).
Proof.
  intros crlf ud ex np tb Hf Hd Hx Hu Hp H7 Hg formC Hform Hq Hno ccc step Hc Hs s Hns b Hb.
  destruct (C118_composed_partial crlf ud ex np tb Hf Hd Hx Hu Hp H7 Hg formC Hform ccc step Hc Hs s Hns) as (t & T & U & _ & X). split.
  - intros ->. assert (G : standard_composed ccc step (file_primary ud ex np) s s) by exact (C118_true_is_standard crlf ud ex np tb Hf Hd Hx Hu Hp H7 Hg formC Hform Hq ccc step Hc Hs s Hns Hb).
    split; [exact G|]. destruct Hb as (fuel & Hb). unfold is_normalized in Hb. destruct (quick_check tb s formC) eqn:E; [left; reflexivity|discriminate|right].
    rewrite <- (U s G) in X. apply X. exists fuel. destruct (normalize tb fuel s formC) as [r| |] eqn:En; try discriminate. cbn [bindR] in Hb. injection Hb as Hb.
    apply list_eqb_spec in Hb. congruence.
  - intros (G & K). destruct Hb as (fuel & Hb). unfold is_normalized in Hb. destruct (quick_check tb s formC) eqn:E.
    + congruence.
    + exfalso. exact (C118_composed_no_is_right crlf ud ex np tb Hf Hd Hx Hu Hp H7 Hg formC Hform Hno ccc step Hc Hs s Hns E G).
    + destruct K as [K|K]; [discriminate|]. rewrite <- (U s G) in X. apply X in K. destruct (normalize tb fuel s formC) as [r| |] eqn:En; try discriminate. cbn [bindR] in Hb.
      assert (r = s) by (apply (normalizes_det tb formC s r s); [exists fuel; exact En|exact K]). subst r. injection Hb as <-. apply list_eqb_spec. reflexivity.
Qed.
Print Assumptions C118_composed_checks_exact_partial.

(** C145.  Exactly when is_nfc and is_nfkc answer true, by the data in the files. *)
Theorem C145_checks_exact_partial : forall crlf ud sc cf ex np text, case_files_ok ud sc cf -> norm_files_ok ud ex np -> printable_data ud cf -> norm_data_ok ud ex np ->
  exclusions_derived ud ex np -> composites_unique ud ex np -> composites_plain ud ex np -> no_11A7 ud ->
  qc_composed_derived ud ex np NFC -> qc_composed_derived ud ex np NFKC -> qc_no_derived ud ex np NFC -> qc_no_derived ud ex np NFKC -> header_for crlf ud sc cf ex np text ->
  exists tb, norm_tables_in text tb /\ forall i ccc canon compat, reads_ccc ud ccc -> reads_step ud false canon -> reads_step ud true compat ->
    forall s, ~ In 0x11A7 s -> forall b,
    let fits step form := standard_composed ccc step (file_primary ud ex np) s s /\
      (quick_check tb s form = Yes \/ exists marks starters, s = marks ++ starters /\ Forall (fun x => ccc x <> 0) marks /\ Forall (fun x => ccc x = 0) starters) in
    (returns (fun k => is_nfc tb k s) b -> (b = true <-> fits canon NFC)) /\ (returns (fun k => is_nfkc tb k s) b -> (b = true <-> fits compat NFKC)) /\
    (scalars s -> (returns (fun k => is_nfc8 tb i k (utf8_text s)) b -> (b = true <-> fits canon NFC)) /\
                  (returns (fun k => is_nfkc8 tb i k (utf8_text s)) b -> (b = true <-> fits compat NFKC))).
Proof.
  intros crlf ud sc cf ex np text Hc Hn Hp Hd Hx Hu Hpl H7 Hq1 Hq2 Ho1 Ho2 Ht. destruct (header_tables crlf ud sc cf ex np text Hc Hn Hp Ht) as (tbc & tb & _ & Gn & _ & Tn).
  exists tb. split; [exact Tn|]. intros i ccc canon compat R1 R2 R3 s Hs7 b. cbv zeta.
  pose proof (C118_composed_checks_exact_partial crlf ud ex np tb Hn Hd Hx Hu Hpl H7 Gn NFC (or_introl eq_refl) Hq1 Ho1 ccc canon R1 R2 s Hs7 b) as K1.
  pose proof (C118_composed_checks_exact_partial crlf ud ex np tb Hn Hd Hx Hu Hpl H7 Gn NFKC (or_intror eq_refl) Hq2 Ho2 ccc compat R1 R3 s Hs7 b) as K2.
  split; [exact K1|]. split; [exact K2|]. intros Hsc.
  split; intros (fuel & H); cbv beta in H; [apply K1|apply K2]; exists fuel; [unfold is_nfc8 in H|unfold is_nfkc8 in H]; rewrite C47_is_normalized in H by exact Hsc; exact H.
Qed.
Print Assumptions C145_checks_exact_partial.

(** ** The quick-check lines of the excerpt of the UCD have this meaning *)
From Verif Require Import TableGen_Demo.
Lemma composed_from ccc (primary : N -> N -> N -> Prop) done rest r : composed ccc primary done rest r -> forall y, In y r -> In y (done ++ rest) \/ exists a b, primary a b y.
Proof.
  induction 1 as [done|done p l m c x rest r (-> & _) Hp _ IH|done c rest r _ _ IH]; intros y Hy.
  - left. rewrite app_nil_r. exact Hy.
  - destruct (IH y Hy) as [H|H]; [|right; exact H]. rewrite <- app_assoc in H. apply in_app_or in H as [H|[<-|H]].
    + left. apply in_or_app. left. apply in_or_app. left. exact H.
    + right. eauto.
    + left. rewrite <- app_assoc. apply in_or_app. right. right. apply in_app_or in H as [H|H]; apply in_or_app; [left; exact H|right; right; exact H].
  - destruct (IH y Hy) as [H|H]; [|right; exact H]. left. rewrite <- app_assoc in H. exact H.
Qed.
Lemma fd_plain step : (forall c l, full_decomposition step c l -> Forall (fun x => step x = []) l).
Proof.
  apply (fd_ind step (fun c l => Forall (fun x => step x = []) l) (fun s l => Forall (fun x => step x = []) l)).
  - intros c H. constructor; [exact H|constructor].
  - intros c l _ _ IH. exact IH.
  - constructor.
  - intros c r x y _ A _ B. apply Forall_app. split; assumption.
Qed.
Lemma fds_plain step s l : full_decompositions step s l -> Forall (fun x => step x = []) l.
Proof. induction 1 as [|c r x y D1 _ IH]; [constructor|]. apply Forall_app. split; [exact (fd_plain step c x D1)|exact IH]. Qed.
Lemma link_primary_c a b c : file_primary ud_demo ex_demo np_link a b c -> c = 0xC5 \/ hangul c.
Proof.
  intros [((u & Hu & Ec & Hd) & Hl & Hf)|[(l & v & H & _)|(l & v & t & _ & H & _)]].
  - pose proof (demo_dec u _ _ Hu Hd) as G. rewrite Ec in G. cbn [In] in G. destruct G as [G|[G|[G|[G|[G|[]]]]]]; try discriminate G; injection G as G1 G2 G3.
    + left. auto.
    + exfalso. apply Hf. exists None. rewrite <- G1. exists (mkNl (One 0x344) 4 FCE None 1 (Some (lit " Mn"))). split; [unfold has, np_link, fce; cbn [In]; tauto|]. cbn. auto.
    + exfalso. apply Hl. rewrite <- G1. exists (mkEx (One 0x958) 4 (Some (lit "  DEVANAGARI LETTER QA"))). split; [unfold has, ex_demo; cbn [In]; tauto|reflexivity].
  - right. apply syllable_range in H. exact H.
  - right. apply syllable_range in H. exact H.
Qed.
Lemma link_qc_no form : composing form -> qc_no_derived ud_demo ex_demo np_link form.
Proof.
  intros Hform ccc step Hc Hs c HN s t (n & (d & Dd & Rd & _) & Cn) Hin. destruct (link_qa form c) as [QN _]. apply QN in HN.
  assert (U : ud_unique ud_demo) by apply link_ok.
  assert (St : forall x m, file_step ud_demo (use_compat form) x m -> step x = m) by (intros x m H; exact (file_step_fun _ _ _ _ _ U (Hs x) H)).
  assert (B : In c [0x340; 0x344; 0x958] \/ (use_compat form = true /\ c = 0xFB00)) by (destruct Hform as [-> | ->]; cbn [qa In use_compat] in *; intuition congruence).
  destruct (composed_from _ _ _ _ _ Cn c Hin) as [H|(a & b & P)].
  - cbn [app] in H. pose proof (Permutation_in c (Permutation_sym (reorders_perm ccc d n Rd)) H) as Hd. pose proof (fds_plain step s d Dd) as F. rewrite Forall_forall in F. specialize (F c Hd).
    assert (K : forall x k ty l, In (x, k, Some (ty, l)) (map (fun u => (ul_cp u, ul_ccc u, ul_dec u)) (datas ud_demo)) -> ~ hangul x -> (ty = None \/ use_compat form = true) -> step x = l).
    { intros x k ty l Hx Hh Hty. destruct (demo_has _ _ _ Hx) as (u & A & E1 & _ & E2). apply St. right. split; [exact Hh|]. left. exists u. split; [exact A|]. split; [exact E1|].
      unfold line_step. rewrite E2. destruct Hty as [->|Ht]; [reflexivity|]. rewrite Ht. destruct ty; reflexivity. }
    destruct B as [B|[Ht ->]].
    + cbn [In] in B. destruct B as [<-|[<-|[<-|[]]]].
      * rewrite (K 0x340 230 None [0x300]) in F; [discriminate|cbn; tauto|unfold hangul; lia|now left].
      * rewrite (K 0x344 230 None [0x308; 0x301]) in F; [discriminate|cbn; tauto|unfold hangul; lia|now left].
      * rewrite (K 0x958 0 None [0x915; 0x93C]) in F; [discriminate|cbn; tauto|unfold hangul; lia|now left].
    + rewrite (K 0xFB00 0 (Some (lit "compat")) [0x66; 0x66]) in F; [discriminate|cbn; tauto|unfold hangul; lia|now right].
  - apply link_primary_c in P. unfold hangul in P. destruct B as [B|[_ ->]]; [cbn [In] in B; destruct B as [<-|[<-|[<-|[]]]]|]; lia.
Qed.
Example C145_checks_hypotheses : qc_no_derived ud_demo ex_demo np_link NFC /\ qc_no_derived ud_demo ex_demo np_link NFKC /\
  quick_check ndemo [0x332; 0x41; 0x30A] NFC = Maybe /\ quick_check ndemo [0xC5; 0x332; 0x71] NFC = Yes.
Proof. split; [apply link_qc_no; now left|]. split; [apply link_qc_no; now right|]. split; vm_compute; reflexivity. Qed.
