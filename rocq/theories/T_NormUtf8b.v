(** C66, exactly. *)
From Verif Require Import Base Spec_Utf M_Utf8 M_Convert P_Utf8 P_Convert M_Tables P_Tables M_Normalize Spec_Normalize P_Order P_Normalize
  P_Stream P_Compose P_QcYes Norm_Demo T_Normalize T_Compose T_QcYes M_NormUtf8 Spec_NormUtf8 P_NormUtf8 T_NormUtf8.
Open Scope N_scope.

(** Every byte string, decomposing forms: normalize leaves it alone exactly when is_normalized says true and it is the encoding of the
    characters it decodes to (so is_normalized is wrong exactly about the ill-formed strings it says true of). *)
Theorem C66_bytes_exact_partial : forall tb i form s d, scalar_tables tb -> acyclic tb -> jamos_plain tb -> qc_decomp_exact tb -> decomposing form ->
  Forall byte s -> convert_to false i T32 T8 s = Ok d -> scalars d ->
  (normalizes8 tb i form s s <-> (exists fuel, is_normalized8 tb i fuel s form = Ok true) /\ s = utf8_text d).
Proof.
  intros tb i form s d Hs Ha Hj Hq Hf B E Hd. split.
  - intros H. assert (W : s = utf8_text d).
    { destruct H as (fuel & H). unfold normalize8 in H. rewrite E in H. cbn [bindR] in H. destruct (normalize tb fuel d form) as [r| |] eqn:En; try discriminate.
      cbn [bindR] in H. assert (Hr : scalars r) by (apply (normalize_scalar tb Hs _ _ _ _ Hd En)).
      pose proof (convert_to_units i T8 T32 r Hr) as CU. rewrite text_units_8, text_units_32 in CU. rewrite CU in H. injection H as <-.
      pose proof (convert_to_units i T32 T8 r Hr) as CV. rewrite text_units_8, text_units_32 in CV. rewrite CV in E. injection E as ->. reflexivity. }
    split; [|exact W]. rewrite W in H |- *. now apply (C66_wellformed_partial tb i form d Hs Ha Hj Hq Hf Hd).
  - intros (H & W). rewrite W in H |- *. now apply (C66_wellformed_partial tb i form d Hs Ha Hj Hq Hf Hd).
Qed.
Print Assumptions C66_bytes_exact_partial.
Example C66_bytes_example : convert_to false NoSimd T32 T8 [0x41; 0xFF] = Ok [0x41] /\ is_normalized8 ndemo NoSimd 5 [0x41; 0xFF] NFD = Ok true /\ [0x41; 0xFF] <> utf8_text [0x41].
Proof. split; [vm_compute; reflexivity|]. split; [vm_compute; reflexivity|discriminate]. Qed.

(** Well-formed text, composing forms: false is always right; true is right exactly when quick_check could not decide or the text is marks
    followed by starters (texts without U+11A7; by the Standard true is right in every case, C42_yes_is_standard). *)
Theorem C66_composed_exact_partial : forall tb i, scalar_tables tb -> acyclic tb -> jamos_plain tb -> comp_ready tb -> comp_starters tb ->
  forall formC formD, (formC = NFC /\ formD = NFD) \/ (formC = NFKC /\ formD = NFKD) -> qc_yes_exact tb formC -> qc_no_exact tb formC ->
  forall t n, scalars t -> ~ In TBase t -> normalizes tb formD t n -> ~ In TBase n -> forall fuel b, is_normalized8 tb i fuel (utf8_text t) formC = Ok b ->
  (normalizes8 tb i formC (utf8_text t) (utf8_text t) <->
   b = true /\ (quick_check8 tb i (utf8_text t) formC = Ok Maybe \/ exists marks starters, t = marks ++ starters /\
     Forall (fun x => canonical_combining_class tb x <> 0) marks /\ Forall (fun x => canonical_combining_class tb x = 0) starters)).
Proof.
  intros tb i Hs Ha Hj HR Hst fc fd Hf Hq Hno t n Ht Hb Hn Hbn fuel b Hc. rewrite C47_is_normalized in Hc by exact Ht. rewrite C47_quick_check by exact Ht.
  rewrite C47_normalize by assumption.
  assert (Q : forall a c : qc, Ok a = Ok c <-> a = c) by (intros; split; [intros [= ->]; reflexivity|intros ->; reflexivity]). rewrite Q.
  assert (SELF : (exists r, normalizes tb fc t r /\ utf8_text t = utf8_text r) <-> normalizes tb fc t t).
  { split; [|intros; exists t; auto]. intros (r & Hr & E). assert (r = t); [|subst; exact Hr]. symmetry. apply utf8_text_inj; try assumption.
    destruct Hr as [f Hr]. apply (normalize_scalar tb Hs _ _ _ _ Ht Hr). }
  rewrite SELF. assert (NC : normalized_check tb fc t b) by (exists fuel; exact Hc). destruct b.
  - destruct (C43_true_exact_partial tb Ha Hj HR Hst fc fd Hf Hq t n Hb Hn Hbn NC) as (X & _). rewrite X. tauto.
  - split; [|intros (X & _); discriminate]. intros H. exfalso.
    assert (CF : composing fc) by (destruct Hf as [[-> _]|[-> _]]; [now left|now right]).
    destruct (C43_composed_partial tb Ha Hj Hst fc CF Hno t t false H NC) as (X & _). now apply X.
Qed.
Print Assumptions C66_composed_exact_partial.
(** The excerpt of the UCD meets the hypotheses; A-ring is normalized, q + U+0332 is called normalized but changed. *)
Example C66_composed_example : scalar_tables ndemo /\ acyclic ndemo /\ jamos_plain ndemo /\ comp_ready ndemo /\ comp_starters ndemo /\
  qc_yes_exact ndemo NFC /\ qc_no_exact ndemo NFC /\ normalizes8 ndemo NoSimd NFC (utf8_text [0xC5]) (utf8_text [0xC5]) /\
  is_normalized8 ndemo NoSimd 5 (utf8_text [0x71; 0x332]) NFC = Ok true /\ ~ normalizes8 ndemo NoSimd NFC (utf8_text [0x71; 0x332]) (utf8_text [0x71; 0x332]).
Proof.
  split; [exact ndemo_scalar_tables|]. split; [exact ndemo_acyclic|]. split; [exact ndemo_jamos|]. split; [exact ndemo_comp_ready|]. split; [exact ndemo_starters|].
  split; [apply ndemo_qc_yes; now left|]. split; [apply ndemo_qc_no; reflexivity|]. split; [exists 5%nat; vm_compute; reflexivity|]. split; [vm_compute; reflexivity|].
  intros H. apply C47_normalize in H; [|exact ndemo_scalar_tables|constructor; [unfold scalar; lia|constructor; [unfold scalar; lia|constructor]]].
  destruct H as (r & H & E). assert (G : normalizes ndemo NFC [0x71; 0x332] [0x332; 0x71]) by (exists 5%nat; vm_compute; reflexivity).
  rewrite (normalizes_det _ _ _ _ _ H G) in E. vm_compute in E. discriminate.
Qed.
