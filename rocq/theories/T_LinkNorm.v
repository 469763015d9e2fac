(** C118: from the database files, through the table generator, to normalization. *)
From Coq Require Import String Permutation Sorted.
From Verif Require Import Base M_Tables M_Normalize M_TableGen Spec_Tables Spec_Normalize Spec_TableGen Spec_LinkNorm
  P_Order P_Normalize P_Hangul P_Compose P_Compose2 P_TableGen P_TableGen2 P_TableGen4 P_TableGen5 P_TableGen7 P_LinkNorm
  T_Normalize T_TableGen T_Compose T_QcYes TableGen_Demo.
Open Scope N_scope.

(** The functions the Standard needs exist and are determined by the files. *)
Theorem C118_functions : forall ud, ud_unique ud ->
  (exists ccc, reads_ccc ud ccc) /\ (forall k, exists step, reads_step ud k step) /\
  (forall c a b, file_ccc ud c a -> file_ccc ud c b -> a = b) /\ (forall k c a b, file_step ud k c a -> file_step ud k c b -> a = b).
Proof.
  intros ud Hu.
  pose (find := fun c : N => List.find (fun l => match l with Data u => ul_cp u =? c | _ => false end) ud).
  assert (F : forall c, match find c with Some (Data u) => has ud u /\ ul_cp u = c | Some _ => False | None => forall u, has ud u -> ul_cp u <> c end).
  { intros c. unfold find. destruct (List.find _ ud) as [l|] eqn:E.
    - apply find_some in E. destruct E as [E1 E2]. destruct l as [u| |]; try discriminate. apply N.eqb_eq in E2. split; assumption.
    - intros u H Q. pose proof (find_none _ _ E _ H) as G. cbn in G. apply N.eqb_neq in G. contradiction. }
  split; [|split; [|split]].
  - exists (fun c => match find c with Some (Data u) => ul_ccc u | _ => 0 end). intros c. specialize (F c).
    destruct (find c) as [[u| |]|]; try contradiction; [left; exists u|right]; tauto.
  - intros k. exists (fun c => if is_hangul_syllable c then hangul_decompose c else match find c with Some (Data u) => line_step k u | _ => [] end).
    intros c. specialize (F c). destruct (is_hangul_syllable c) eqn:H.
    + left. apply hangul_range in H. destruct (syllable_ex c H) as (l & v & t & Hs). exists l, v, t. split; [exact Hs|]. apply syllable_decompose, Hs.
    + right. split; [rewrite <- hangul_range; congruence|]. destruct (find c) as [[u| |]|]; try contradiction; [left; exists u|right]; tauto.
  - intros c a b. apply file_ccc_fun, Hu.
  - intros k c a b. apply file_step_fun, Hu.
Qed.
Print Assumptions C118_functions.

Lemma fds_exist tb : acyclic tb -> jamos_plain tb -> forall k s, exists d, full_decompositions (step_of tb k) s d.
Proof.
  intros Ha Hj k s. induction s as [|c s (d & IH)]; [exists []; constructor|].
  destruct (C39_terminates tb Ha k c) as (fuel & l & E). exists (l ++ d). constructor; [apply (C39_closure tb Ha Hj k c fuel l E)|exact IH].
Qed.
Lemma std_normalizes tb : acyclic tb -> jamos_plain tb -> forall form, decomposing form -> forall s r,
  normalizes tb form s r <-> standard_decomposed (canonical_combining_class tb) (step_of tb (use_compat form)) s r.
Proof.
  intros Ha Hj form Hd s r. split.
  - intros H. destruct (fds_exist tb Ha Hj (use_compat form) s) as (d & D). destruct (C37_canonical_order tb d) as [R O].
    pose proof (C38_meaning tb Ha Hj form Hd s d _ D R O) as G. destruct (C39_normalize_terminates tb Ha form s) as (x & _ & U).
    pose proof (U _ G) as E1. pose proof (U _ H) as E2. exists d. assert (E : r = canonical_order tb d) by congruence. rewrite E. auto.
  - intros (d & D & R & O). exact (C38_meaning tb Ha Hj form Hd s d r D R O).
Qed.

(** C118.  to_nfd and to_nfkd give exactly the decomposed forms the Standard prescribes for the data in the files. *)
Theorem C118_decomposed : forall crlf ud ex np tb, norm_files_ok ud ex np -> norm_data_ok ud ex np -> generated_norm crlf ud ex np tb ->
  forall form, decomposing form -> forall ccc step, reads_ccc ud ccc -> reads_step ud (use_compat form) step ->
  forall s, (exists r, normalizes tb form s r) /\ forall r, normalizes tb form s r <-> standard_decomposed ccc step s r.
Proof.
  intros crlf ud ex np tb Hf Hd Hg form Hform ccc step Hc Hs s.
  destruct (data_ready crlf ud ex np Hf tb Hg Hd) as (Ha & Hj & _).
  split; [destruct (C39_normalize_terminates tb Ha form s) as (r & R & _); exists r; exact R|]. intros r.
  rewrite (std_lib crlf ud ex np tb Hf Hg ccc step (use_compat form) s r Hc Hs). apply (std_normalizes tb Ha Hj form Hform).
Qed.
Print Assumptions C118_decomposed.

(** C118.  Texts compare equivalent exactly when the Standard's decomposed forms are the same. *)
Theorem C118_equivalent : forall crlf ud ex np tb, norm_files_ok ud ex np -> norm_data_ok ud ex np -> generated_norm crlf ud ex np tb ->
  forall ccc canon compat, reads_ccc ud ccc -> reads_step ud false canon -> reads_step ud true compat -> forall a b,
  (canon_equiv tb a b true <-> exists n, standard_decomposed ccc canon a n /\ standard_decomposed ccc canon b n) /\
  (compat_equiv tb a b true <-> exists n, standard_decomposed ccc compat a n /\ standard_decomposed ccc compat b n).
Proof.
  intros crlf ud ex np tb Hf Hd Hg ccc canon compat Hc H1 H2 a b.
  destruct (data_ready crlf ud ex np Hf tb Hg Hd) as ([rank Hr] & Hj & _).
  assert (X : forall form step, decomposing form -> reads_step ud (use_compat form) step ->
    (NF tb rank form a = NF tb rank form b <-> exists n, standard_decomposed ccc step a n /\ standard_decomposed ccc step b n)).
  { intros form step Hform Hs. split.
    - intros E. exists (NF tb rank form a). split; apply (C118_decomposed crlf ud ex np tb Hf Hd Hg form Hform ccc step Hc Hs); apply (normalizes_NF tb rank Hr); auto.
    - intros (n & A & B). apply (C118_decomposed crlf ud ex np tb Hf Hd Hg form Hform ccc step Hc Hs) in A, B.
      apply (normalizes_NF tb rank Hr) in A, B. congruence. }
  split.
  - rewrite <- (X NFD canon ltac:(left; reflexivity) H1). rewrite (canon_equiv_iff tb rank Hr). rewrite <- list_eqb_spec. split; congruence.
  - rewrite <- (X NFKD compat ltac:(right; reflexivity) H2). rewrite (compat_equiv_iff tb rank Hr). rewrite <- list_eqb_spec. split; congruence.
Qed.
Print Assumptions C118_equivalent.

(** C118.  Quick checks of the decomposed forms decide exactly, and is_normalized is right. *)
Theorem C118_decomposed_checks : forall crlf ud ex np tb, norm_files_ok ud ex np -> norm_data_ok ud ex np -> qc_decomposed_derived ud np ->
  generated_norm crlf ud ex np tb -> forall form, decomposing form -> forall ccc step, reads_ccc ud ccc -> reads_step ud (use_compat form) step ->
  forall s, (quick_check tb s form = Yes <-> standard_decomposed ccc step s s) /\ (quick_check tb s form = No <-> ~ standard_decomposed ccc step s s) /\
    forall b, normalized_check tb form s b -> (b = true <-> standard_decomposed ccc step s s).
Proof.
  intros crlf ud ex np tb Hf Hd Hq Hg form Hform ccc step Hc Hs s.
  destruct (data_ready crlf ud ex np Hf tb Hg Hd) as (Ha & Hj & _).
  assert (Q : forall form c, decomposing form -> (cp_quick_check tb form c = No <-> step_of tb (use_compat form) c <> [])).
  { intros f c Hfm. rewrite (C71_quick_check crlf ud ex np tb Hf Hg f c No). cbn [qc_file]. rewrite (Hq f c Hfm). split.
    - intros (m & Hm & Hst). rewrite (file_step_fun ud _ c _ m ltac:(apply Hf) (lib_step crlf ud ex np tb Hf Hg _ c) Hst). exact Hm.
    - intros H. eexists. split; [exact H|]. apply (lib_step crlf ud ex np tb Hf Hg). }
  assert (X : qc_decomp_exact tb).
  { split; intros c.
    - rewrite <- (Q NFD c ltac:(left; reflexivity)). cbn [cp_quick_check]. destruct (nfd_quick_check tb c); split; congruence.
    - rewrite <- (Q NFKD c ltac:(right; reflexivity)). cbn [cp_quick_check]. destruct (nfkd_quick_check tb c); split; congruence. }
  destruct (C118_decomposed crlf ud ex np tb Hf Hd Hg form Hform ccc step Hc Hs s) as [(r & R) E].
  destruct (C42_decomposed_partial tb Ha Hj X form Hform s r R) as [Y1 Y2].
  assert (Z : standard_decomposed ccc step s s <-> r = s).
  { rewrite <- E. split; [|intros ->; exact R]. intros R'. destruct (C39_normalize_terminates tb Ha form s) as (x & _ & U).
    rewrite <- (U _ R), <- (U _ R'). reflexivity. }
  rewrite Z. split; [exact Y1|]. split; [exact Y2|]. intros b Hb. rewrite Z. exact (C43_decomposed_partial tb Ha Hj X form Hform s r b R Hb).
Qed.
Print Assumptions C118_decomposed_checks.

Lemma no_11A7_step ud k c m : no_11A7 ud -> file_step ud k c m -> ~ In 0x11A7 m.
Proof.
  intros Hn [(l & v & t & Hs & ->)|[_ [(u & Hu & _ & ->)|[_ ->]]]].
  - unfold syllable in Hs. cbn [app]. destruct (N.eqb_spec t 0) as [T|T]; intros [H|[H|H]]; try lia; try destruct H as [H|H]; try lia; destruct H.
  - unfold line_step. destruct (ul_dec u) as [[ty l]|] eqn:E; [|intros []]. pose proof (Hn u _ _ Hu E). destruct ty; [destruct k|]; auto.
  - intros [].
Qed.
Lemma fd_keeps (P : N -> Prop) step : (forall c, Forall P (step c)) ->
  (forall c l, full_decomposition step c l -> P c -> Forall P l).
Proof.
  intros H. apply (fd_ind step (fun c l => P c -> Forall P l) (fun s l => Forall P s -> Forall P l)).
  - intros c _ Hc. constructor; [exact Hc|constructor].
  - intros c l _ _ IH _. apply IH, H.
  - constructor.
  - intros c r x y _ A _ B F. apply Forall_app. split; [apply A, (Forall_inv F)|apply B, (Forall_inv_tail F)].
Qed.
Lemma fds_keeps (P : N -> Prop) step : (forall c, Forall P (step c)) ->
  (forall s l, full_decompositions step s l -> Forall P s -> Forall P l).
Proof.
  intros H s l D. induction D as [|c r x y D1 D2 IH]; intros F; [constructor|]. apply Forall_app.
  split; [apply (fd_keeps P step H c x D1), (Forall_inv F)|apply IH, (Forall_inv_tail F)].
Qed.
Lemma notin_forall (x : N) l : ~ In x l <-> Forall (fun y => y <> x) l.
Proof. rewrite Forall_forall. split; [intros H y Hy ->; exact (H Hy)|intros H Hx; exact (H x Hx eq_refl)]. Qed.
Lemma reorders_perm ccc a b : reorders ccc a b -> Permutation a b.
Proof.
  induction 1 as [|a b c H _ IH]; [apply Permutation_refl|]. eapply Permutation_trans; [|exact IH]. destruct H as [p x y q H].
  apply Permutation_app_head. constructor.
Qed.
Lemma std_keeps (P : N -> Prop) ccc step s n : (forall c, Forall P (step c)) -> standard_decomposed ccc step s n -> Forall P s -> Forall P n.
Proof.
  intros H (d & D & R & _) F. eapply Permutation_Forall; [apply (reorders_perm ccc d n R)|]. exact (fds_keeps P step H s d D F).
Qed.

(** C118.  to_nfc and to_nfkc: exactly the Standard's composition of the data in the files, except that starters are written behind the marks
    that follow them; so the Standard's result is returned exactly when no mark follows a starter in it.  U+11A7 is left out (C40). *)
Theorem C118_composed_partial : forall crlf ud ex np tb, norm_files_ok ud ex np -> norm_data_ok ud ex np -> exclusions_derived ud ex np ->
  composites_unique ud ex np -> composites_plain ud ex np -> no_11A7 ud -> generated_norm crlf ud ex np tb ->
  forall formC, composing formC -> forall ccc step, reads_ccc ud ccc -> reads_step ud (use_compat formC) step ->
  forall s, ~ In 0x11A7 s -> exists t, standard_composed ccc step (file_primary ud ex np) s t /\
    (forall t', standard_composed ccc step (file_primary ud ex np) s t' -> t' = t) /\ normalizes tb formC s (behind ccc [] t) /\
    (normalizes tb formC s t <-> exists marks starters, t = marks ++ starters /\ Forall (fun x => ccc x <> 0) marks /\ Forall (fun x => ccc x = 0) starters).
Proof.
  intros crlf ud ex np tb Hf Hd Hx Hu Hp H7 Hg formC Hform ccc step Hc Hs s Hns.
  destruct (data_ready crlf ud ex np Hf tb Hg Hd) as (Ha & Hj & _ & Hst).
  pose proof (C72_comp_ready crlf ud ex np tb Hf Hd Hu Hp Hg) as HR.
  assert (Ef : exists formD, ((formC = NFC /\ formD = NFD) \/ (formC = NFKC /\ formD = NFKD)) /\ decomposing formD /\ use_compat formD = use_compat formC).
  { destruct Hform as [->| ->]; [exists NFD|exists NFKD]; unfold decomposing; auto. }
  destruct Ef as (formD & Hpair & HfD & Ek). rewrite <- Ek in Hs.
  destruct (C118_decomposed crlf ud ex np tb Hf Hd Hg formD HfD ccc step Hc Hs s) as [(n & Hn) E].
  assert (Hn7 : ~ In TBase n).
  { apply notin_forall. eapply (std_keeps _ ccc step s n); [|apply E, Hn|apply notin_forall, Hns].
    intros c. apply notin_forall. apply (no_11A7_step ud (use_compat formD) c); [exact H7|apply Hs]. }
  destruct (C40_exact_partial tb Ha HR Hst formC formD Hpair s n Hn Hn7) as (t & T1 & T2 & T3 & T4).
  pose proof (composed_lib crlf ud ex np tb Hf Hg ccc Hc Hd Hx Hp) as L. pose proof (ccc_eq crlf ud ex np tb Hf Hg ccc Hc) as Ec.
  exists t. split; [|split; [|split]].
  - exists n. split; [apply E, Hn|apply L, T1].
  - intros t' (n' & D' & C'). apply E in D'. destruct (C39_normalize_terminates tb Ha formD s) as (x & _ & U).
    assert (n' = n) by (rewrite <- (U _ Hn), <- (U _ D'); reflexivity). subst n'. apply T2, L, C'.
  - rewrite (behind_ext _ _ Ec t []), <- (displaced_behind tb t []). exact T3.
  - rewrite T4. split; intros (ms & ss & A & B & C); exists ms, ss; (split; [exact A|]); split.
    + eapply Forall_impl; [|exact B]. intros x. rewrite Ec. auto.
    + eapply Forall_impl; [|exact C]. intros x. rewrite Ec. auto.
    + eapply Forall_impl; [|exact B]. intros x. cbv beta. rewrite Ec. auto.
    + eapply Forall_impl; [|exact C]. intros x. cbv beta. rewrite Ec. auto.
Qed.
Print Assumptions C118_composed_partial.

(** C118.  When quick_check answers Yes for a composed form, the text is the Standard's normal form of itself. *)
Theorem C118_composed_yes_partial : forall crlf ud ex np tb, norm_files_ok ud ex np -> norm_data_ok ud ex np -> exclusions_derived ud ex np ->
  composites_unique ud ex np -> composites_plain ud ex np -> no_11A7 ud -> generated_norm crlf ud ex np tb ->
  forall formC, composing formC -> qc_composed_derived ud ex np formC -> forall ccc step, reads_ccc ud ccc -> reads_step ud (use_compat formC) step ->
  forall s, ~ In 0x11A7 s -> quick_check tb s formC = Yes -> standard_composed ccc step (file_primary ud ex np) s s.
Proof.
  intros crlf ud ex np tb Hf Hd Hx Hu Hp H7 Hg formC Hform Hq ccc step Hc Hs s Hns Hy.
  destruct (data_ready crlf ud ex np Hf tb Hg Hd) as (Ha & Hj & _ & Hst).
  pose proof (C72_comp_ready crlf ud ex np tb Hf Hd Hu Hp Hg) as HR.
  assert (Ef : exists formD, ((formC = NFC /\ formD = NFD) \/ (formC = NFKC /\ formD = NFKD)) /\ decomposing formD /\ use_compat formD = use_compat formC).
  { destruct Hform as [->| ->]; [exists NFD|exists NFKD]; unfold decomposing; auto. }
  destruct Ef as (formD & Hpair & HfD & Ek). rewrite <- Ek in Hs.
  pose proof (lib_ccc crlf ud ex np tb Hf Hg) as Rc. pose proof (lib_step crlf ud ex np tb Hf Hg (use_compat formC)) as Rs.
  assert (HY : qc_yes_exact tb formC).
  { intros c Hcq H7c. apply (C71_quick_check crlf ud ex np tb Hf Hg formC c Yes) in Hcq. cbn [qc_file] in Hcq. destruct Hcq as [QN QM].
    assert (QM' : ~ assigns np (qc_prop formC) (Some (lit "M")) c).
    { intros M. destruct (QM M) as [-> | ->]; destruct Hform; discriminate. }
    destruct (Hq _ _ Rc Rs c QN QM' H7c) as [A B]. 
    assert (NJ : forall h, h <> TBase -> (forall a x, canonical_combining_class tb a = 0 -> ~ file_primary ud ex np a h x) -> never_joins tb h).
    { intros h Hh Hno a Hza. destruct (N.eq_dec (try_compose tb a h) 0) as [Z|Z]; [left; exact Z|right].
      apply not_false_iff_true. intros Q. apply (Hno a (try_compose tb a h) Hza). apply (primary_lib crlf ud ex np tb Hf Hg a h _ Hd Hx Hp Hza).
      apply (try_primary tb HR a h _ Hza Hh). auto. }
    split.
    - intros Hz. destruct (A Hz) as [A1 A2]. split; [exact A1|]. apply (NJ c H7c A2).
    - intros Hz. destruct (B Hz) as (B1 & h & l & B2 & B3 & B4). split.
      + destruct (C118_composed_partial crlf ud ex np tb Hf Hd Hx Hu Hp H7 Hg formC Hform _ _ Rc Rs [c]) as (t & _ & U & T & _).
        { intros [F|[]]. apply H7c. exact F. }
        rewrite <- (U _ B1) in T. cbn [behind] in T. rewrite Hz in T. exact T.
      + exists h, l. split; [exact B2|]. split; [exact B3|]. apply NJ; [|exact B4].
        assert (F : Forall (fun y => y <> TBase) (h :: l)).
        { apply (fd_keeps _ (step_of tb (use_compat formC))) with (c := c); [|exact B2|exact H7c].
          intros x. apply notin_forall. apply (no_11A7_step ud (use_compat formC) x); [exact H7|apply Rs]. }
        exact (Forall_inv F). }
  destruct (C118_decomposed crlf ud ex np tb Hf Hd Hg formD HfD ccc step Hc Hs s) as [(n & Hn) E].
  assert (Hn7 : ~ In TBase n).
  { apply notin_forall. eapply (std_keeps _ ccc step s n); [|apply E, Hn|apply notin_forall, Hns].
    intros c. apply notin_forall. apply (no_11A7_step ud (use_compat formD) c); [exact H7|apply Hs]. }
  destruct (C42_yes_is_standard tb Ha Hj HR Hst formC formD Hpair HY s n Hns Hn Hn7 Hy) as [G _].
  exists n. split; [apply E, Hn|]. apply (composed_lib crlf ud ex np tb Hf Hg ccc Hc Hd Hx Hp), G.
Qed.
Print Assumptions C118_composed_yes_partial.

(** C118.  There are such tables for all files. *)
Lemma comp_less_false x y : comp_less x y = false <-> ~ pair_lt x y.
Proof. rewrite <- comp_less_spec. destruct (comp_less x y); split; congruence. Qed.
Lemma sort_exists l : exists s, Permutation s l /\ std_sorted s.
Proof.
  assert (Ins : forall x s, std_sorted s -> exists s', Permutation s' (x :: s) /\ std_sorted s').
  { intros x s. induction s as [|y s IH]; intros H.
    - exists [x]. split; [apply Permutation_refl|]. repeat constructor.
    - inversion H as [|? ? Hs Hy]; subst. destruct (comp_less y x) eqn:E.
      + destruct (IH Hs) as (s' & P & S'). exists (y :: s'). split; [rewrite P; constructor|]. constructor; [exact S'|].
        eapply Permutation_Forall; [symmetry; exact P|]. constructor; [|exact Hy]. destruct x as [[a b] c], y as [[a' b'] c']. rewrite comp_less_false in *. try rewrite comp_less_spec in *. unfold pair_lt in *. lia.
      + exists (x :: y :: s). split; [apply Permutation_refl|]. constructor; [exact H|]. constructor; [exact E|].
        eapply Forall_impl; [|exact Hy]. intros z Hz. cbv beta in Hz. destruct x as [[a b] c], y as [[a' b'] c'], z as [[a2 b2] c2]. rewrite comp_less_false in *. try rewrite comp_less_spec in *. unfold pair_lt in *. lia. }
  induction l as [|x l (s & P & S')]; [exists []; split; constructor|]. destruct (Ins x s S') as (s' & P' & S2). exists s'. split; [|exact S2].
  rewrite P', P. reflexivity.
Qed.
Theorem C118_builds : forall crlf ud ex np, exists tb, generated_norm crlf ud ex np tb.
Proof.
  intros crlf ud ex np. unfold generated_norm. cbv zeta. destruct (sort_exists (compositions (d_dec (load_unicode_data (file_text ud_text crlf ud)))
    (np_excl (load_nprops (load_exclusions (file_text ex_text crlf ex)) (file_text np_text crlf np))))) as (s & P & S'). eexists _, s. auto.
Qed.
Print Assumptions C118_builds.

(** ** Files that meet all hypotheses, with UCD lines *)
Definition fce (r : span) : fline npline := Data (mkNl r 4 FCE None 1 (Some (lit " Mn"))).
Definition qcl (r : span) (p v : string) : fline npline := Data (mkNl r 4 (lit p) (Some (lit v)) 1 None).
Definition np_link : list (fline npline) := [
  fce (Span 0x340 0x341); fce (One 0x344); fce (One 0x958);
  qcl (One 0xC5) "NFD_QC" "N"; qcl (One 0x340) "NFD_QC" "N"; qcl (One 0x344) "NFD_QC" "N"; qcl (One 0x958) "NFD_QC" "N"; qcl (Span 0xAC00 0xD7A3) "NFD_QC" "N";
  qcl (One 0x340) "NFC_QC" "N"; qcl (One 0x344) "NFC_QC" "N"; qcl (One 0x958) "NFC_QC" "N";
  qcl (One 0x30A) "NFC_QC" "M"; qcl (Span 0x1161 0x1175) "NFC_QC" "M"; qcl (Span 0x11A8 0x11C2) "NFC_QC" "M";
  qcl (One 0xC5) "NFKD_QC" "N"; qcl (One 0x340) "NFKD_QC" "N"; qcl (One 0x344) "NFKD_QC" "N"; qcl (One 0x958) "NFKD_QC" "N"; qcl (Span 0xAC00 0xD7A3) "NFKD_QC" "N";
  qcl (One 0xFB00) "NFKD_QC" "N";
  qcl (One 0x340) "NFKC_QC" "N"; qcl (One 0x344) "NFKC_QC" "N"; qcl (One 0x958) "NFKC_QC" "N"; qcl (One 0xFB00) "NFKC_QC" "N";
  qcl (One 0x30A) "NFKC_QC" "M"; qcl (Span 0x1161 0x1175) "NFKC_QC" "M"; qcl (Span 0x11A8 0x11C2) "NFKC_QC" "M" ]%string.
Lemma link_ok : norm_files_ok ud_demo ex_demo np_link.
Proof.
  destruct norm_demo_ok as (A & B & C & _). split; [exact A|split; [exact B|split; [exact C|]]].
  apply (all_data_ok np_ok np_okb); [exact np_okb_ok|vm_compute; reflexivity].
Qed.
Lemma no_bare np : forallb (fun n => if str_eqb (nl_prop n) FCE then match nl_value n, nl_comment n with None, Some _ => true | _, _ => false end else true) (datas np) = true ->
  forall c, ~ bare_exclusion np c.
Proof.
  intros H c (n & Hn & Hp & Hv & _). apply datas_in in Hn. rewrite forallb_forall in H. specialize (H n Hn).
  rewrite (proj2 (str_eqb_eq _ _) Hp) in H. destruct (nl_value n), (nl_comment n); try discriminate H. destruct Hv; congruence.
Qed.
Lemma link_no_bare c : ~ bare_exclusion np_link c.
Proof. apply no_bare. vm_compute. reflexivity. Qed.
Lemma demo_no_bare c : ~ bare_exclusion np_demo c.
Proof. apply no_bare. vm_compute. reflexivity. Qed.
Lemma link_composites a b c : composite ud_demo ex_demo np_link a b c <-> composite ud_demo ex_demo np_demo a b c.
Proof. pose proof (link_no_bare c). pose proof (demo_no_bare c). unfold composite. tauto. Qed.
Lemma link_data : norm_data_ok ud_demo ex_demo np_link.
Proof. destruct norm_demo_data as (A & B & C & D). split; [exact A|split; [exact B|split; [exact C|]]]. intros a b c H. apply (D a b c), link_composites, H. Qed.
Lemma link_unique : composites_unique ud_demo ex_demo np_link.
Proof. intros a b c c' H H'. apply link_composites in H, H'. exact (demo_composites_unique a b c c' H H'). Qed.
Lemma link_plain : composites_plain ud_demo ex_demo np_link.
Proof.
  destruct C72_comp_demo as [A B]. split; [intros a b c H; apply (A a b c), link_composites, H|].
  intros c Hc. split; [apply (B c Hc)|apply link_no_bare].
Qed.
Lemma link_derived : exclusions_derived ud_demo ex_demo np_link.
Proof.
  intros n c Hn Hp Hc. apply datas_in in Hn. unfold np_link, fce, qcl in Hn. cbn [datas flat_map app In] in Hn.
  assert (K : forall m, In m [mkNl (Span 0x340 0x341) 4 FCE None 1 (Some (lit " Mn   [2] COMBINING GRAVE TONE MARK..COMBINING ACUTE TONE MARK"));
     mkNl (One 0x344) 10 FCE None 1 (Some (lit " Mn       COMBINING GREEK DIALYTIKA TONOS"));
     mkNl (One 0x958) 10 FCE None 1 (Some (lit " Lo       DEVANAGARI LETTER QA"))] -> covers (nl_span m) c ->
     listed ex_demo c \/ (is_hangul_syllable c = false /\ forall u a b, has ud_demo u -> ul_cp u = c -> ul_dec u = Some (None, [a; b]) -> ~ starter ud_demo a)).
  { intros m Hm Hcm. apply (norm_demo_derived m c); [|cbn [In] in Hm; destruct Hm as [<-|[<-|[<-|[]]]]; reflexivity|exact Hcm].
    unfold has, np_demo. cbn [In] in Hm |- *. destruct Hm as [<-|[<-|[<-|[]]]]; auto 10. }
  destruct Hn as [<-|Hn]; [apply (K _ (or_introl eq_refl)), Hc|]. destruct Hn as [<-|Hn]; [apply (K _ (or_intror (or_introl eq_refl))), Hc|].
  destruct Hn as [<-|Hn]; [apply (K _ (or_intror (or_intror (or_introl eq_refl)))), Hc|].
  repeat (destruct Hn as [<-|Hn]; [discriminate Hp|]). destruct Hn.
Qed.
Lemma link_11A7 : no_11A7 ud_demo.
Proof.
  intros u t l Hu Hd Hin. pose proof (demo_dec u t l Hu Hd) as H. cbn [In] in H.
  destruct H as [H|[H|[H|[H|[H|[]]]]]]; injection H as _ _ <-; cbn [In] in Hin; decompose [or] Hin; try discriminate; contradiction.
Qed.
(** the quick-check lines *)
Definition hangul (c : N) : Prop := 0xAC00 <= c <= 0xD7A3.
Definition vt (c : N) : Prop := 0x1161 <= c <= 0x1175 \/ 0x11A8 <= c <= 0x11C2.
Definition spans_of (np : list (fline npline)) (p v : str) : list span :=
  map nl_span (filter (fun n => str_eqb (nl_prop n) p && match nl_value n with Some w => str_eqb w v | None => false end) (datas np)).
Lemma assigns_spans np p v c : assigns np p (Some v) c <-> exists r, In r (spans_of np p v) /\ covers r c.
Proof.
  unfold spans_of. split.
  - intros (n & Hn & Hp & Hv & Hc). exists (nl_span n). split; [|exact Hc]. apply in_map, filter_In. split; [apply datas_in, Hn|].
    rewrite Hv, Hp, !str_eqb_refl. reflexivity.
  - intros (r & Hr & Hc). apply in_map_iff in Hr. destruct Hr as (n & <- & Hn). apply filter_In in Hn. destruct Hn as [Hn H].
    apply andb_true_iff in H. destruct H as [H1 H2]. exists n. split; [apply datas_in, Hn|]. split; [apply str_eqb_eq, H1|]. split; [|exact Hc].
    destruct (nl_value n) as [w|]; [|discriminate]. apply str_eqb_eq in H2. congruence.
Qed.
Definition qa (form : nform) (maybe : bool) (c : N) : Prop :=
  match form, maybe with
  | NFD, false => In c [0xC5; 0x340; 0x344; 0x958] \/ hangul c
  | NFKD, false => In c [0xC5; 0x340; 0x344; 0x958; 0xFB00] \/ hangul c
  | NFC, false => In c [0x340; 0x344; 0x958]
  | NFKC, false => In c [0x340; 0x344; 0x958; 0xFB00]
  | NFC, true | NFKC, true => c = 0x30A \/ vt c
  | _, true => False
  end.
Lemma link_qa form c : (assigns np_link (qc_prop form) (Some (lit "N")) c <-> qa form false c) /\ (assigns np_link (qc_prop form) (Some (lit "M")) c <-> qa form true c).
Proof.
  assert (K : forall p v sp (P : Prop), spans_of np_link p v = sp -> ((exists r, In r sp /\ covers r c) <-> P) -> (assigns np_link p (Some v) c <-> P)).
  { intros p v sp P <- H. rewrite assigns_spans. exact H. }
  destruct form; (split; (eapply K; [vm_compute; reflexivity|]); cbn [In qa]; unfold hangul, vt; (split;
    [intros (r & Hr & Hc); decompose [or] Hr; try contradiction; subst r; cbn [covers] in Hc; lia|])).
  - intros [H|[H|[H|[]]]]; [exists (One 0x340)|exists (One 0x344)|exists (One 0x958)]; cbn [covers]; auto 10.
  - intros [H|[H|H]]; [exists (One 0x30A)|exists (Span 0x1161 0x1175)|exists (Span 0x11A8 0x11C2)]; cbn [covers]; auto.
  - intros [[H|[H|[H|[H|[]]]]]|H]; [exists (One 0xC5)|exists (One 0x340)|exists (One 0x344)|exists (One 0x958)|exists (Span 0xAC00 0xD7A3)]; cbn [covers]; auto 10.
  - intros [].
  - intros [H|[H|[H|[H|[]]]]]; [exists (One 0x340)|exists (One 0x344)|exists (One 0x958)|exists (One 0xFB00)]; cbn [covers]; auto 10.
  - intros [H|[H|H]]; [exists (One 0x30A)|exists (Span 0x1161 0x1175)|exists (Span 0x11A8 0x11C2)]; cbn [covers]; auto.
  - intros [[H|[H|[H|[H|[H|[]]]]]]|H]; [exists (One 0xC5)|exists (One 0x340)|exists (One 0x344)|exists (One 0x958)|exists (One 0xFB00)|exists (Span 0xAC00 0xD7A3)]; cbn [covers]; auto 10.
  - intros [].
Qed.

Lemma demo_lines u : has ud_demo u -> In (ul_cp u, ul_ccc u, ul_dec u)
  [(0x41, 0, None); (0x61, 0, None); (0xC5, 0, Some (None, [0x41; 0x30A])); (0x300, 230, None); (0x301, 230, None); (0x308, 230, None); (0x30A, 230, None);
   (0x340, 230, Some (None, [0x300])); (0x344, 230, Some (None, [0x308; 0x301])); (0x958, 0, Some (None, [0x915; 0x93C])); (0xAC00, 0, None); (0xD7A3, 0, None);
   (0xFB00, 0, Some (Some (lit "compat"), [0x66; 0x66]))].
Proof.
  intros H. apply datas_in in H. apply (in_map (fun u => (ul_cp u, ul_ccc u, ul_dec u))) in H. exact H.
Qed.
Lemma demo_has c k d : In (c, k, d) (map (fun u => (ul_cp u, ul_ccc u, ul_dec u)) (datas ud_demo)) -> exists u, has ud_demo u /\ ul_cp u = c /\ ul_ccc u = k /\ ul_dec u = d.
Proof.
  intros H. apply in_map_iff in H. destruct H as (u & E & H). exists u. injection E as <- <- <-. split; [apply datas_in, H|auto].
Qed.
Lemma link_qc_decomposed : qc_decomposed_derived ud_demo np_link.
Proof.
  intros form c Hform. destruct (link_qa form c) as [Q _]. rewrite Q. clear Q. split.
  - assert (Hh : hangul c -> exists m, m <> [] /\ file_step ud_demo (use_compat form) c m).
    { intros H. destruct (syllable_ex c H) as (l & v & t & Hs). eexists. split; [|left; exists l, v, t; split; [exact Hs|reflexivity]]. discriminate. }
    assert (Hl : forall k t l, In (c, k, Some (t, l)) (map (fun u => (ul_cp u, ul_ccc u, ul_dec u)) (datas ud_demo)) -> l <> [] ->
      (t = None \/ use_compat form = true) -> ~ hangul c -> exists m, m <> [] /\ file_step ud_demo (use_compat form) c m).
    { intros k t l Hin Hne Ht Hn. destruct (demo_has _ _ _ Hin) as (u & A & B & _ & D). exists l. split; [exact Hne|]. right. split; [exact Hn|]. left. exists u.
      split; [exact A|]. split; [exact B|]. unfold line_step. rewrite D. destruct t; [|reflexivity]. destruct Ht as [Ht|Ht]; [discriminate|rewrite Ht; reflexivity]. }
    destruct Hform as [-> | ->]; cbn [qa In].
    + intros [[H|[H|[H|[H|[]]]]]|H]; [| | | |exact (Hh H)]; subst c; eapply Hl; try (cbn; unfold hangul; lia); try (cbn; tauto); discriminate.
    + intros [[H|[H|[H|[H|[H|[]]]]]]|H]; [| | | | |exact (Hh H)]; subst c; eapply Hl; try (unfold hangul; lia); try (cbn; tauto); try discriminate; right; reflexivity.
  - intros (m & Hm & [(l & v & t & Hs & _)|[_ [(u & Hu & <- & ->)|[_ ->]]]]); [|pose proof (demo_lines u Hu) as G|contradiction].
    + pose proof (syllable_range _ _ _ _ Hs). destruct Hform as [-> | ->]; right; assumption.
    + unfold line_step in Hm. cbn [In] in G.
      destruct Hform as [-> | ->]; cbn [qa In use_compat] in *; decompose [or] G; try contradiction;
      match goal with H : (_, _, _) = (_, _, _) |- _ => injection H as E1 _ E3 end; rewrite <- E3 in Hm; rewrite <- E1; try (exfalso; apply Hm; reflexivity); auto 10.
Qed.
Lemma link_primary a b c : file_primary ud_demo ex_demo np_link a b c ->
  (a = 0x41 /\ b = 0x30A /\ c = 0xC5) \/ a = 0x308 \/ vt b.
Proof.
  intros [((u & Hu & Ec & Hd) & Hl & _)|[(l & v & (_ & _ & Hv & _) & _ & ->)|(l & v & t & Ht & (_ & _ & _ & Ht') & _ & ->)]].
  - pose proof (demo_dec u _ _ Hu Hd) as G. rewrite Ec in G. cbn [In] in G. destruct G as [G|[G|[G|[G|[G|[]]]]]]; try discriminate G; injection G as G1 G2 G3.
    + left. auto.
    + right. left. auto.
    + exfalso. apply Hl. rewrite <- G1. exists (mkEx (One 0x958) 4 (Some (lit "  DEVANAGARI LETTER QA"))). split; [unfold has, ex_demo; cbn [In]; tauto|reflexivity].
  - right. right. left. lia.
  - right. right. right. lia.
Qed.
Lemma link_qc_composed form : composing form -> qc_composed_derived ud_demo ex_demo np_link form.
Proof.
  intros Hform ccc step Hc Hs c HN HM H7. destruct (link_qa form c) as [QN QM]. rewrite QN in HN. rewrite QM in HM. clear QN QM.
  assert (Hbase : ~ In c [0x340; 0x344; 0x958] /\ (use_compat form = true -> c <> 0xFB00) /\ c <> 0x30A /\ ~ vt c).
  { destruct Hform as [-> | ->]; cbn [qa In use_compat] in *; intuition congruence. }
  destruct Hbase as (B1 & B2 & B3 & B4).
  assert (U : ud_unique ud_demo) by apply link_ok.
  assert (Zc : forall x k d, In (x, k, d) (map (fun u => (ul_cp u, ul_ccc u, ul_dec u)) (datas ud_demo)) -> ccc x = k).
  { intros x k d Hin. destruct (demo_has _ _ _ Hin) as (u & A & B & C & _). apply (file_ccc_fun ud_demo x _ _ U (Hc x)). left. exists u. auto. }
  assert (Zj : forall x, 0x1100 <= x <= 0x11FF \/ hangul x -> ccc x = 0).
  { intros x Hx. destruct (Hc x) as [(u & A & B & C)|[_ ->]]; [|reflexivity]. pose proof (demo_lines u A) as G. rewrite B, C in G. unfold hangul in Hx. cbn [In] in G.
    decompose [or] G; try contradiction; match goal with H : (_, _, _) = (_, _, _) |- _ => injection H as E1 E2 _ end; lia. }
  assert (St : forall x m, file_step ud_demo (use_compat form) x m -> step x = m) by (intros x m H; exact (file_step_fun _ _ _ _ _ U (Hs x) H)).
  assert (NP : forall h, h <> 0x30A -> ~ vt h -> forall a x, ccc a = 0 -> ~ file_primary ud_demo ex_demo np_link a h x).
  { intros h Hh Hv a x Ha P. destruct (link_primary a h x P) as [(_ & E & _)|[E|E]]; [contradiction| |contradiction].
    rewrite E in Ha. rewrite (Zc 0x308 230 None ltac:(cbn; tauto)) in Ha. discriminate. }
  assert (Plain : step c = [] -> ccc c = 0 -> standard_composed ccc step (file_primary ud_demo ex_demo np_link) [c] [c] /\
       exists h l, full_decomposition step c (h :: l) /\ ccc h = 0 /\ forall a x, ccc a = 0 -> ~ file_primary ud_demo ex_demo np_link a h x).
  { intros Hst Hz. split.
    - exists [c]. split.
      + exists [c]. split; [change (full_decompositions step [c] ([c] ++ [])); constructor; [constructor; exact Hst|constructor]|].
        split; [constructor|]. intros p x y q E. destruct p as [|? [|? ?]]; discriminate E.
      + apply C_keep; [|apply C_end]. intros p l m x (E & _). destruct p; discriminate E.
    - exists c, []. split; [constructor; exact Hst|]. split; [exact Hz|]. apply NP; assumption. }
  destruct (Hs c) as [(l & v & t & Hsy & E)|[Hn H]].
  - (* a syllable *)
    pose proof (syllable_range _ _ _ _ Hsy) as Hr. split; [intros Hz; exfalso; apply Hz, Zj; right; exact Hr|]. intros _.
    assert (SL : step (0x1100 + l) = []).
    { apply St. right. destruct Hsy as (_ & ? & _). split; [lia|]. right. split; [|reflexivity]. intros u A B. pose proof (demo_lines u A) as G. rewrite B in G. cbn [In] in G.
      decompose [or] G; try contradiction; match goal with H : (_, _, _) = (_, _, _) |- _ => injection H as E1 E2 _ end; lia. }
    assert (SV : step (0x1161 + v) = []).
    { apply St. right. destruct Hsy as (_ & _ & ? & _). split; [lia|]. right. split; [|reflexivity]. intros u A B. pose proof (demo_lines u A) as G. rewrite B in G. cbn [In] in G.
      decompose [or] G; try contradiction; match goal with H : (_, _, _) = (_, _, _) |- _ => injection H as E1 E2 _ end; lia. }
    assert (ST : step (0x11A7 + t) = []).
    { apply St. right. destruct Hsy as (_ & _ & _ & ?). split; [lia|]. right. split; [|reflexivity]. intros u A B. pose proof (demo_lines u A) as G. rewrite B in G. cbn [In] in G.
      decompose [or] G; try contradiction; match goal with H : (_, _, _) = (_, _, _) |- _ => injection H as E1 E2 _ end; lia. }
    assert (ZL : ccc (0x1100 + l) = 0) by (apply Zj; left; destruct Hsy as (_ & ? & _); lia).
    assert (ZV : ccc (0x1161 + v) = 0) by (apply Zj; left; destruct Hsy as (_ & _ & ? & _); lia).
    assert (ZT : ccc (0x11A7 + t) = 0) by (apply Zj; left; destruct Hsy as (_ & _ & _ & ?); lia).
    assert (FD : full_decomposition step c (step c)).
    { apply FD_step; [rewrite E; discriminate|]. rewrite E. clear -SL SV ST.
      assert (F : forall L, Forall (fun x => step x = []) L -> full_decompositions step L L).
      { induction L as [|x L IH]; intros F; [constructor|]. change (x :: L) with ([x] ++ L) at 2. constructor; [constructor; exact (Forall_inv F)|apply IH, (Forall_inv_tail F)]. }
      apply F. cbn [app]. destruct (t =? 0); repeat constructor; assumption. }
    split.
    + exists (step c). split.
      * exists (step c ++ []). rewrite app_nil_r at 2. split; [constructor; [exact FD|constructor]|]. split; [constructor|].
        intros p x y q Ep. assert (Zy : ccc y = 0); [|lia].
        assert (Iy : In y (step c)) by (rewrite Ep; apply in_or_app; right; right; left; reflexivity).
        rewrite E in Iy. cbn [app] in Iy. destruct Iy as [<-|[<-|Iy]]; [exact ZL|exact ZV|]. destruct (t =? 0); [destruct Iy|]. destruct Iy as [<-|[]]. exact ZT.
      * rewrite E. cbn [app]. apply C_keep; [intros p a m x (F & _); destruct p; discriminate F|]. cbn [app].
        assert (Hlv : syllable (0xAC00 + (l * 21 + v) * 28 + 0) l v 0) by (unfold syllable in *; lia).
        apply (C_compose _ _ _ [] (0x1100 + l) [] _ (0xAC00 + (l * 21 + v) * 28 + 0)).
        -- split; [reflexivity|]. split; [exact ZL|constructor].
        -- right. left. exists l, v. auto.
        -- cbn [app]. destruct (N.eqb_spec t 0) as [T|T].
           ++ replace c with (0xAC00 + (l * 21 + v) * 28 + 0) by (destruct Hsy as (-> & _); lia). apply C_end.
           ++ apply (C_compose _ _ _ [] (0xAC00 + (l * 21 + v) * 28 + 0) [] _ c).
              ** split; [reflexivity|]. split; [apply Zj; right; exact (syllable_range _ _ _ _ Hlv)|constructor].
              ** right. right. exists l, v, t. split; [lia|]. auto.
              ** apply C_end.
    + exists (0x1100 + l), ((0x1161 + v) :: (if t =? 0 then [] else [0x11A7 + t])). split; [rewrite E in FD; exact FD|]. split; [exact ZL|].
      apply NP; [lia|unfold vt; destruct Hsy as (_ & ? & _); lia].
  - destruct H as [(u & Hu & Eu & Em)|[Hnone Em]].
    + pose proof (demo_lines u Hu) as G. rewrite Eu in G.
      assert (Zu : ccc c = ul_ccc u) by (apply (file_ccc_fun ud_demo c _ _ U (Hc c)); left; exists u; auto).
      assert (K : (exists k, In k [0; 230] /\ ul_ccc u = k /\ step c = []) \/ c = 0xC5).
      { unfold line_step in Em. cbn [In] in G, B1. decompose [or] G; try contradiction;
        match goal with H : (_, _, _) = (_, _, _) |- _ => injection H as E1 E2 E3 end; rewrite <- E3 in Em;
        try (exfalso; lia); try (right; lia); left; exists (ul_ccc u); rewrite <- E2; (split; [cbn [In]; auto|]); (split; [reflexivity|]);
        try exact Em. destruct (use_compat form) eqn:F; [exfalso; apply (B2 eq_refl); lia|exact Em]. }
      destruct K as [(k & Hk & Ek & Est)| ->].
      * split; [|apply Plain, Est]. intros _. split; [exact Est|]. apply NP; assumption.
      * assert (ZC5 : ccc 0xC5 = 0) by (apply (Zc 0xC5 0 (Some (None, [0x41; 0x30A]))); cbn; tauto).
        assert (Z41 : ccc 0x41 = 0) by (apply (Zc 0x41 0 None); cbn; tauto). assert (Z30A : ccc 0x30A = 230) by (apply (Zc 0x30A 230 None); cbn; tauto).
        destruct (demo_has 0xC5 0 (Some (None, [0x41; 0x30A]))) as (u5 & A5 & B5 & _ & D5); [cbn; tauto|].
        destruct (demo_has 0x41 0 None) as (u1 & A1 & B1' & _ & D1); [cbn; tauto|]. destruct (demo_has 0x30A 230 None) as (u0 & A0 & B0 & _ & D0); [cbn; tauto|].
        assert (S5 : step 0xC5 = [0x41; 0x30A]) by (apply St; right; split; [lia|]; left; exists u5; unfold line_step; rewrite D5; auto).
        assert (S1 : step 0x41 = []) by (apply St; right; split; [lia|]; left; exists u1; unfold line_step; rewrite D1; auto).
        assert (S0 : step 0x30A = []) by (apply St; right; split; [lia|]; left; exists u0; unfold line_step; rewrite D0; auto).
        assert (FD : full_decomposition step 0xC5 [0x41; 0x30A]).
        { apply FD_step; [rewrite S5; discriminate|]. rewrite S5. change ([0x41; 0x30A]) with ([0x41] ++ [0x30A] ++ []) at 2. repeat constructor; assumption. }
        split; [intros Z; exfalso; exact (Z ZC5)|]. intros _. split.
        -- exists [0x41; 0x30A]. split.
           ++ exists ([0x41; 0x30A] ++ []). split; [constructor; [exact FD|constructor]|]. split; [constructor|].
              intros p x y q Ep. destruct p as [|? [|? p]]; try discriminate Ep; [injection Ep as <- <- _; lia|destruct p; discriminate Ep].
           ++ apply C_keep; [intros p a m x (F & _); destruct p; discriminate F|]. cbn [app].
              apply (C_compose _ _ _ [] 0x41 [] _ 0xC5); [split; [reflexivity|split; [exact Z41|constructor]]| |apply C_end].
              left. split; [exists u5; auto|]. split.
              ** intros (e & He & Hcv). unfold has, ex_demo in He. cbn [In] in He. decompose [or] He; try discriminate; try contradiction.
                 match goal with H : Data _ = Data e |- _ => injection H as <- end. discriminate Hcv.
              ** intros (w & n & Hn' & Hp & _ & Hcv). apply (link_derived n 0xC5 Hn' Hp) in Hcv. destruct Hcv as [(e & He & Hcv)|[_ Hcv]].
                 { unfold has, ex_demo in He. cbn [In] in He. decompose [or] He; try discriminate; try contradiction.
                   match goal with H : Data _ = Data e |- _ => injection H as <- end. discriminate Hcv. }
                 apply (Hcv u5 0x41 0x30A A5 B5 D5). intros w' Hw Ew. rewrite <- Z41. symmetry. apply (file_ccc_fun ud_demo 0x41 _ _ U (Hc 0x41)). left. exists w'. auto.
        -- exists 0x41, [0x30A]. split; [exact FD|]. split; [exact Z41|]. apply NP; [discriminate|unfold vt; lia].
    + split; [|apply Plain, Em]. intros _. split; [exact Em|]. apply NP; assumption.
Qed.
(** All hypotheses of C118 hold together. *)
Example C118_demo : norm_files_ok ud_demo ex_demo np_link /\ norm_data_ok ud_demo ex_demo np_link /\ exclusions_derived ud_demo ex_demo np_link /\
  composites_unique ud_demo ex_demo np_link /\ composites_plain ud_demo ex_demo np_link /\ no_11A7 ud_demo /\ qc_decomposed_derived ud_demo np_link /\
  qc_composed_derived ud_demo ex_demo np_link NFC /\ qc_composed_derived ud_demo ex_demo np_link NFKC /\ exists tb, generated_norm true ud_demo ex_demo np_link tb.
Proof.
  split; [exact link_ok|]. split; [exact link_data|]. split; [exact link_derived|]. split; [exact link_unique|]. split; [exact link_plain|].
  split; [exact link_11A7|]. split; [exact link_qc_decomposed|]. split; [apply link_qc_composed; left; reflexivity|]. split; [apply link_qc_composed; right; reflexivity|].
  apply C118_builds.
Qed.

(** C118, the full claim for the composed forms: the library returns the Standard's result.  False for such files: A followed by a grave
    accent, which do not compose here, come back in the wrong order. *)
Definition C118_composed_statement : Prop := forall crlf ud ex np tb, norm_files_ok ud ex np -> norm_data_ok ud ex np -> exclusions_derived ud ex np ->
  composites_unique ud ex np -> composites_plain ud ex np -> no_11A7 ud -> generated_norm crlf ud ex np tb ->
  forall formC, composing formC -> forall ccc step, reads_ccc ud ccc -> reads_step ud (use_compat formC) step ->
  forall s t, ~ In 0x11A7 s -> standard_composed ccc step (file_primary ud ex np) s t -> normalizes tb formC s t.
Theorem C118_composed_refuted : ~ C118_composed_statement.
Proof.
  intros H. destruct C118_demo as (D1 & D2 & D3 & D4 & D5 & D6 & _ & _ & _ & tb & Hg).
  assert (U : ud_unique ud_demo) by apply D1.
  destruct (C118_functions ud_demo U) as ((ccc & Hc) & Hst & _). destruct (Hst false) as (step & Hs).
  assert (Zc : forall x k d, In (x, k, d) (map (fun u => (ul_cp u, ul_ccc u, ul_dec u)) (datas ud_demo)) -> ccc x = k /\ (d = None -> ~ hangul x -> step x = [])).
  { intros x k d Hin. destruct (demo_has _ _ _ Hin) as (u & A & B & C & E). split.
    - apply (file_ccc_fun ud_demo x _ _ U (Hc x)). left. exists u. auto.
    - intros -> Hn. apply (file_step_fun _ _ _ _ _ U (Hs x)). right. split; [exact Hn|]. left. exists u. unfold line_step. rewrite E. auto. }
  destruct (Zc 0x41 0 None ltac:(cbn; tauto)) as [Z1 S1]. destruct (Zc 0x300 230 None ltac:(cbn; tauto)) as [Z2 S2].
  specialize (S1 eq_refl ltac:(unfold hangul; lia)). specialize (S2 eq_refl ltac:(unfold hangul; lia)).
  assert (Hn7 : ~ In 0x11A7 [0x41; 0x300]) by (cbn [In]; lia).
  assert (T : standard_composed ccc step (file_primary ud_demo ex_demo np_link) [0x41; 0x300] [0x41; 0x300]).
  { exists [0x41; 0x300]. split.
    - exists ([0x41] ++ [0x300] ++ []). split; [repeat constructor; assumption|]. split; [constructor|].
      intros p x y q Ep. destruct p as [|? [|? p]]; try discriminate Ep; [injection Ep as <- <- _; lia|destruct p; discriminate Ep].
    - apply C_keep; [intros p a m x (F & _); destruct p; discriminate F|]. apply C_keep; [|apply C_end].
      intros p a m x (F & _) P. apply link_primary in P. destruct P as [(_ & P & _)|[P|P]]; [discriminate P| |unfold vt in P; lia].
      cbn [app] in F. destruct p as [|? [|? ?]]; [injection F as F _; lia|discriminate F|discriminate F]. }
  pose proof (H true _ _ _ tb D1 D2 D3 D4 D5 D6 Hg NFC ltac:(left; reflexivity) ccc step Hc Hs _ _ Hn7 T) as G.
  destruct (C118_composed_partial true _ _ _ tb D1 D2 D3 D4 D5 D6 Hg NFC ltac:(left; reflexivity) ccc step Hc Hs _ Hn7) as (t & _ & T2 & _ & T4).
  rewrite <- (T2 _ T) in T4. apply T4 in G. destruct G as (ms & ss & E & M & Sst). destruct ms as [|x ms].
  - cbn [app] in E. rewrite <- E in Sst. pose proof (Forall_inv (Forall_inv_tail Sst)) as F. cbv beta in F. lia.
  - injection E as <- E. pose proof (Forall_inv M) as F. cbv beta in F. lia.
Qed.
Print Assumptions C118_composed_refuted.
