(** C40, C43, C118, C145: what the composing functions leave alone, and what is_nfc and is_nfkc call normalized, is composed by the Standard. *)
From Coq Require Import String Permutation Sorted.
From Verif Require Import Base Spec_Utf M_Utf8 M_Convert M_Tables M_Normalize M_NormUtf8 M_NormApi M_TableGen Spec_Tables Spec_Normalize Spec_TableGen Spec_LinkNorm Spec_NormUtf8 Spec_NormApi
  Spec_Emit Spec_EmitFiles2 P_Order P_Normalize P_Hangul P_Compose P_Compose2 P_TableGen4 P_TableGen5 P_LinkNorm P_NormUtf8 Norm_Demo T_Normalize T_Compose T_QcYes T_NormUtf8 T_TableGen T_LinkNorm T_EmitFiles2 T_NormApi P_Behind.
Open Scope N_scope.

(** C40.  A text that normalize returns unchanged is the Standard's composition of its decomposed form. *)
Theorem C40_unchanged_is_standard : forall tb, acyclic tb -> jamos_plain tb -> comp_ready tb -> comp_starters tb ->
  forall formC formD, (formC = NFC /\ formD = NFD) \/ (formC = NFKC /\ formD = NFKD) -> forall s n, normalizes tb formD s n -> ~ In TBase n ->
  normalizes tb formC s s -> recomposed tb [] n s.
Proof.
  intros tb Ha Hj HR Hst fc fd Hf s n Hn Hb Hs. destruct (C40_exact_partial tb Ha HR Hst fc fd Hf s n Hn Hb) as (t & T & _ & B & _).
  pose proof (normalizes_det tb fc s _ _ Hs B) as E. destruct Ha as [rank Hr]. apply (normalizes_NF tb rank Hr) in Hn.
  assert (En : n = canonical_order tb (flat_map (D tb rank (use_compat fd)) s)) by (unfold NF in Hn; destruct Hf as [[_ ->]|[_ ->]]; cbn [composes] in Hn; exact Hn).
  rewrite <- (displaced_self tb HR Hj Hst rank Hr (use_compat fd) s n t En Hb T E). exact T.
Qed.
Print Assumptions C40_unchanged_is_standard.
(** C43.  True is right by the Standard in every case: the text is the Standard's composition of its decomposed form, and nothing else is. *)
Theorem C43_true_is_standard : forall tb, acyclic tb -> jamos_plain tb -> comp_ready tb -> comp_starters tb ->
  forall formC formD, (formC = NFC /\ formD = NFD) \/ (formC = NFKC /\ formD = NFKD) -> qc_yes_exact tb formC ->
  forall s n, ~ In TBase s -> normalizes tb formD s n -> ~ In TBase n -> normalized_check tb formC s true ->
  recomposed tb [] n s /\ forall t, recomposed tb [] n t -> t = s.
Proof.
  intros tb Ha Hj HR Hst fc fd Hf Hq s n Hs Hn Hb Hc.
  assert (G : recomposed tb [] n s).
  { destruct (C43_true_exact_partial tb Ha Hj HR Hst fc fd Hf Hq s n Hs Hn Hb Hc) as [M Y]. destruct (quick_check tb s fc) eqn:E.
    - exact (Y eq_refl).
    - destruct Hc as (fuel & Hc). unfold is_normalized in Hc. rewrite E in Hc. discriminate.
    - apply (C40_unchanged_is_standard tb Ha Hj HR Hst fc fd Hf s n Hn Hb). apply M. left. reflexivity. }
  split; [exact G|]. intros t T. exact (recomposed_fun tb HR n Hb [] t s T G).
Qed.
Print Assumptions C43_true_is_standard.
(** A-ring and q + U+0332 are called NFC, and are. *)
Example C43_standard_demo : acyclic ndemo /\ jamos_plain ndemo /\ comp_ready ndemo /\ comp_starters ndemo /\ qc_yes_exact ndemo NFC /\
  normalizes ndemo NFD [0xC5; 0x71; 0x332] [0x41; 0x30A; 0x71; 0x332] /\ normalized_check ndemo NFC [0xC5; 0x71; 0x332] true /\
  normalizes ndemo NFC [0x332; 0xC5] [0x332; 0xC5] /\ normalizes ndemo NFD [0x332; 0xC5] [0x332; 0x41; 0x30A].
Proof.
  split; [exact ndemo_acyclic|]. split; [exact ndemo_jamos|]. split; [exact ndemo_comp_ready|]. split; [exact ndemo_starters|]. split; [apply ndemo_qc_yes; now left|].
  repeat split; exists 5%nat; vm_compute; reflexivity.
Qed.

(** C118.  By the data in the files: what normalize leaves alone, and what is_normalized calls normalized, is the Standard's composed form of itself. *)
Theorem C118_unchanged_is_standard : forall crlf ud ex np tb, norm_files_ok ud ex np -> norm_data_ok ud ex np -> exclusions_derived ud ex np ->
  composites_unique ud ex np -> composites_plain ud ex np -> no_11A7 ud -> generated_norm crlf ud ex np tb ->
  forall formC, composing formC -> forall ccc step, reads_ccc ud ccc -> reads_step ud (use_compat formC) step ->
  forall s, ~ In 0x11A7 s -> normalizes tb formC s s -> standard_composed ccc step (file_primary ud ex np) s s.
Proof.
  intros crlf ud ex np tb Hf Hd Hx Hu Hp H7 Hg formC Hform ccc step Hc Hs s Hns Hself.
  destruct (data_ready crlf ud ex np Hf tb Hg Hd) as (Ha & Hj & _ & Hst).
  pose proof (C72_comp_ready crlf ud ex np tb Hf Hd Hu Hp Hg) as HR.
  assert (Ef : exists formD, ((formC = NFC /\ formD = NFD) \/ (formC = NFKC /\ formD = NFKD)) /\ decomposing formD /\ use_compat formD = use_compat formC).
  { destruct Hform as [->| ->]; [exists NFD|exists NFKD]; unfold decomposing; auto. }
  destruct Ef as (formD & Hpair & HfD & Ek). rewrite <- Ek in Hs.
  destruct (C118_decomposed crlf ud ex np tb Hf Hd Hg formD HfD ccc step Hc Hs s) as [(n & Hn) E].
  assert (Hn7 : ~ In TBase n).
  { apply notin_forall. eapply (std_keeps _ ccc step s n); [|apply E, Hn|apply notin_forall, Hns].
    intros c. apply notin_forall. apply (no_11A7_step ud (use_compat formD) c); [exact H7|apply Hs]. }
  exists n. split; [apply E, Hn|]. apply (composed_lib crlf ud ex np tb Hf Hg ccc Hc Hd Hx Hp).
  exact (C40_unchanged_is_standard tb Ha Hj HR Hst formC formD Hpair s n Hn Hn7 Hself).
Qed.
Print Assumptions C118_unchanged_is_standard.
Theorem C118_true_is_standard : forall crlf ud ex np tb, norm_files_ok ud ex np -> norm_data_ok ud ex np -> exclusions_derived ud ex np ->
  composites_unique ud ex np -> composites_plain ud ex np -> no_11A7 ud -> generated_norm crlf ud ex np tb ->
  forall formC, composing formC -> qc_composed_derived ud ex np formC -> forall ccc step, reads_ccc ud ccc -> reads_step ud (use_compat formC) step ->
  forall s, ~ In 0x11A7 s -> normalized_check tb formC s true -> standard_composed ccc step (file_primary ud ex np) s s.
Proof.
  intros crlf ud ex np tb Hf Hd Hx Hu Hp H7 Hg formC Hform Hq ccc step Hc Hs s Hns (fuel & Ht). unfold is_normalized in Ht. destruct (quick_check tb s formC) eqn:E.
  - exact (C118_composed_yes_partial crlf ud ex np tb Hf Hd Hx Hu Hp H7 Hg formC Hform Hq ccc step Hc Hs s Hns E).
  - discriminate.
  - apply (C118_unchanged_is_standard crlf ud ex np tb Hf Hd Hx Hu Hp H7 Hg formC Hform ccc step Hc Hs s Hns).
    exists fuel. destruct (normalize tb fuel s formC) as [r| |] eqn:En; try discriminate. cbn [bindR] in Ht. injection Ht as Ht. apply list_eqb_spec in Ht. congruence.
Qed.
Print Assumptions C118_true_is_standard.

(** C145.  is_nfc and is_nfkc are never true of a text that is not the Standard's composed form of itself, on UTF-32 and on UTF-8. *)
Theorem C145_true_is_standard_partial : forall crlf ud sc cf ex np text, case_files_ok ud sc cf -> norm_files_ok ud ex np -> printable_data ud cf -> norm_data_ok ud ex np ->
  exclusions_derived ud ex np -> composites_unique ud ex np -> composites_plain ud ex np -> no_11A7 ud ->
  qc_composed_derived ud ex np NFC -> qc_composed_derived ud ex np NFKC -> header_for crlf ud sc cf ex np text ->
  exists tb, norm_tables_in text tb /\ forall i ccc canon compat, reads_ccc ud ccc -> reads_step ud false canon -> reads_step ud true compat ->
    forall s, ~ In 0x11A7 s ->
    (returns (fun k => is_nfc tb k s) true -> standard_composed ccc canon (file_primary ud ex np) s s) /\
    (returns (fun k => is_nfkc tb k s) true -> standard_composed ccc compat (file_primary ud ex np) s s) /\
    (scalars s ->
      (returns (fun k => is_nfc8 tb i k (utf8_text s)) true -> standard_composed ccc canon (file_primary ud ex np) s s) /\
      (returns (fun k => is_nfkc8 tb i k (utf8_text s)) true -> standard_composed ccc compat (file_primary ud ex np) s s)).
Proof.
  intros crlf ud sc cf ex np text Hc Hn Hp Hd Hx Hu Hpl H7 Hq1 Hq2 Ht. destruct (header_tables crlf ud sc cf ex np text Hc Hn Hp Ht) as (tbc & tb & _ & Gn & _ & Tn).
  exists tb. split; [exact Tn|]. intros i ccc canon compat R1 R2 R3 s Hs7.
  pose proof (C118_true_is_standard crlf ud ex np tb Hn Hd Hx Hu Hpl H7 Gn NFC (or_introl eq_refl) Hq1 ccc canon R1 R2 s Hs7) as K1.
  pose proof (C118_true_is_standard crlf ud ex np tb Hn Hd Hx Hu Hpl H7 Gn NFKC (or_intror eq_refl) Hq2 ccc compat R1 R3 s Hs7) as K2.
  split; [exact K1|]. split; [exact K2|]. intros Hsc.
  split; intros (fuel & H); cbv beta in H; [apply K1|apply K2]; exists fuel; [unfold is_nfc8 in H|unfold is_nfkc8 in H]; rewrite C47_is_normalized in H by exact Hsc; exact H.
Qed.
Print Assumptions C145_true_is_standard_partial.
(** The hypotheses hold together for the excerpt of the UCD (with those of C144_C145_hypotheses), and is_nfc is true of a text with a mark behind a starter. *)
From Verif Require Import TableGen_Demo.
Example C145_true_hypotheses : qc_composed_derived ud_demo ex_demo np_link NFC /\ qc_composed_derived ud_demo ex_demo np_link NFKC /\
  norm_files_ok ud_demo ex_demo np_link /\ norm_data_ok ud_demo ex_demo np_link /\ exclusions_derived ud_demo ex_demo np_link /\
  composites_unique ud_demo ex_demo np_link /\ composites_plain ud_demo ex_demo np_link /\ no_11A7 ud_demo /\ printable_data ud_demo cf_demo /\
  is_nfc8 ndemo NoSimd 5 (utf8_text [0xC5; 0x332; 0x71]) = Ok true /\ is_nfc8 ndemo NoSimd 5 (utf8_text [0x41; 0x30A]) = Ok false.
Proof.
  destruct C144_C145_hypotheses as (A & B & C & D & E & F & G & H & I & J & K). split; [apply link_qc_composed; now left|]. split; [apply link_qc_composed; now right|].
  repeat (split; [assumption|]). split; vm_compute; reflexivity.
Qed.
