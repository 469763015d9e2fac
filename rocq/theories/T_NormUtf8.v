(** Property theorems C45, C47 (normalization half), C65, C66. *)
From Verif Require Import Base Spec_Utf M_Utf8 M_Convert P_Utf8 P_Convert M_Tables P_Tables M_Normalize Spec_Normalize P_Order P_Normalize
  P_Stream Norm_Demo T_Normalize M_NormUtf8 Spec_NormUtf8 P_NormUtf8.
Open Scope N_scope.

(** * C45 *)
(** Inside any history of calls, feeding a stream in chunks and feeding it in one piece return the same bytes in total and leave
    every later output the same. *)
Theorem C45_chunking : forall tb form st p chunks h op oc oh,
  length op = length p -> length oc = length chunks ->
  (history tb form st (p ++ map Feed chunks ++ h) (op ++ oc ++ oh) ->
   history tb form st (p ++ Feed (concat chunks) :: h) (op ++ concat oc :: oh)).
Proof.
  intros tb form st p chunks h op oc oh Hp Hc (fuel & st' & H). exists fuel, st'.
  assert (Hlen : forall h st os s, urun tb fuel form st h = Ok (os, s) -> length os = length h).
  { clear. induction h as [|[bs| |] h IH]; intros st os s H; cbn [urun] in H; [injection H as <- _; reflexivity|..].
    - destruct (ufeed tb fuel form st bs) as [[o s1]| |]; try discriminate. cbn [bindR] in H.
      destruct (urun tb fuel form s1 h) as [[os1 s2]| |] eqn:E; try discriminate. injection H as <- _. cbn [length]. f_equal. apply (IH _ _ _ E).
    - destruct (uflush tb fuel form st) as [[o s1]| |]; try discriminate. cbn [bindR] in H.
      destruct (urun tb fuel form s1 h) as [[os1 s2]| |] eqn:E; try discriminate. injection H as <- _. cbn [length]. f_equal. apply (IH _ _ _ E).
    - destruct (urun tb fuel form (ureset st) h) as [[os1 s2]| |] eqn:E; try discriminate. injection H as <- _. cbn [length]. f_equal. apply (IH _ _ _ E). }
  rewrite urun_app in H. rewrite urun_app. destruct (urun tb fuel form st p) as [[o1 s1]| |] eqn:E1; try discriminate. cbn [bindR] in *.
  rewrite urun_app in H. destruct (urun tb fuel form s1 (map Feed chunks)) as [[o2 s2]| |] eqn:E2; try discriminate. cbn [bindR urun] in *.
  pose proof (urun_feeds tb fuel form chunks s1) as F. rewrite E2 in F. rewrite F. cbn [bindR].
  destruct (urun tb fuel form s2 h) as [[o3 s3]| |]; try discriminate. cbn [bindR] in *.
  injection H as H <-. apply Hlen in E1. apply Hlen in E2. rewrite map_length in E2.
  assert (A : o1 = op /\ o2 ++ o3 = oc ++ oh).
  { revert op Hp H. rewrite <- E1. clear. induction o1 as [|x o1 IH]; intros [|y op] Hl H; try discriminate; [auto|].
    cbn [app] in H. injection H as -> H. injection Hl as Hl. destruct (IH op Hl H) as [-> ?]. auto. }
  destruct A as [-> A]. clear H.
  assert (B : o2 = oc /\ o3 = oh).
  { revert oc Hc A. rewrite <- E2. clear. induction o2 as [|x o2 IH]; intros [|y oc] Hl H; try discriminate; [auto|].
    cbn [app] in H. injection H as -> H. injection Hl as Hl. destruct (IH oc Hl H) as [-> ?]. auto. }
  destruct B as [-> ->]. reflexivity.
Qed.
Print Assumptions C45_chunking.
(** Conversely, whatever the one-piece feed returns, every chunking returns in pieces. *)
Theorem C45_chunking_converse : forall tb form st chunks o,
  history tb form st [Feed (concat chunks)] [o] -> exists os, history tb form st (map Feed chunks) os /\ concat os = o.
Proof.
  intros tb form st chunks o (fuel & st' & H). cbn [urun] in H. pose proof (urun_feeds tb fuel form chunks st) as F.
  destruct (urun tb fuel form st (map Feed chunks)) as [[os s]| |] eqn:E; rewrite F in H; try discriminate.
  cbn [bindR] in H. injection H as H _. exists os. split; [exists fuel, s; exact E|exact H].
Qed.
(** On every byte stream: decode with replacement, normalize as the UTF-32 stream does, encode. *)
Theorem C45_meaning : forall tb form bs out,
  (exists o1 o2, history tb form unorm_init [Feed bs; Flush] [o1; o2] /\ o1 ++ o2 = out) <->
  (exists r, streams tb form (replaced (snd (from_utf8_run dinit bs))) r /\ out = flat_map encoder_char r).
Proof.
  intros tb form bs out.
  assert (G : forall fuel, urun tb fuel form unorm_init [Feed bs; Flush] =
    do (o, p) <- nfeed_all tb fuel form [] (replaced (snd (from_utf8_run dinit bs))) ;
    do f <- emit_pending tb fuel form p ;
    Ok ([flat_map encoder_char o; flat_map encoder_char f], UN (fst (from_utf8_run dinit bs)) [])).
  { intros fuel. cbn [urun]. rewrite ufeed_eq. cbn [unorm_init u_dec u_pending].
    destruct (nfeed_all tb fuel form [] (replaced (snd (from_utf8_run dinit bs)))) as [[o p]| |]; try reflexivity. cbn [bindR].
    rewrite uflush_eq. cbn [u_dec u_pending]. destruct (emit_pending tb fuel form p); reflexivity. }
  split.
  - intros (o1 & o2 & (fuel & st' & H) & <-). rewrite G in H.
    destruct (nfeed_all tb fuel form [] (replaced (snd (from_utf8_run dinit bs)))) as [[o p]| |] eqn:E; try discriminate. cbn [bindR] in H.
    destruct (emit_pending tb fuel form p) as [f| |] eqn:Ef; try discriminate. cbn [bindR] in H. injection H as <- <- _.
    exists (o ++ f). split; [|symmetry; apply flat_map_app]. exists fuel. unfold stream_normalize. rewrite E. cbn [bindR]. rewrite Ef. reflexivity.
  - intros (r & (fuel & H) & ->). unfold stream_normalize in H.
    destruct (nfeed_all tb fuel form [] (replaced (snd (from_utf8_run dinit bs)))) as [[o p]| |] eqn:E; try discriminate. cbn [bindR] in H.
    destruct (emit_pending tb fuel form p) as [f| |] eqn:Ef; try discriminate. cbn [bindR] in H. injection H as <-.
    exists (flat_map encoder_char o), (flat_map encoder_char f). split; [|symmetry; apply flat_map_app].
    exists fuel. eexists. rewrite G, E. cbn [bindR]. rewrite Ef. reflexivity.
Qed.
Print Assumptions C45_meaning.
(** For well-formed input, the UTF-8 encoding of the streamed normalization of the decoded text. *)
Theorem C45_wellformed : forall tb form t out, scalar_tables tb -> scalars t ->
  (exists o1 o2, history tb form unorm_init [Feed (utf8_text t); Flush] [o1; o2] /\ o1 ++ o2 = out) <->
  (exists r, streams tb form t r /\ out = utf8_text r).
Proof.
  intros tb form t out Hs Ht. rewrite C45_meaning.
  destruct (from_utf8_run_text dinit t eq_refl Ht) as (st & E & _). rewrite E. cbn [snd]. rewrite replaced_text.
  assert (G : forall r, streams tb form t r -> scalars r).
  { intros r (fuel & H). unfold stream_normalize in H.
    assert (F : forall t pd o p, scalars pd -> scalars t -> nfeed_all tb fuel form pd t = Ok (o, p) -> scalars o /\ scalars p).
    { clear -Hs. induction t as [|c t IH]; intros pd o p Hpd Ht H; cbn [nfeed_all] in H; [injection H as <- <-; split; [constructor|exact Hpd]|].
      inversion Ht as [|? ? Hc Ht']; subst.
      assert (N1 : forall o1 p1, nfeed tb fuel form pd c = Ok (o1, p1) -> scalars o1 /\ scalars p1).
      { intros o1 p1 E. unfold nfeed in E. destruct pd as [|q pd]; [injection E as <- <-; split; [constructor|constructor; [exact Hc|constructor]]|].
        destruct (is_boundary tb form c).
        - rewrite emit_eq in E. destruct (normalize tb fuel (q :: pd) form) as [n| |] eqn:En; try discriminate. cbn [bindR] in E.
          injection E as <- <-. split; [apply (normalize_scalar tb Hs _ _ _ _ Hpd En)|constructor; [exact Hc|constructor]].
        - injection E as <- <-. split; [constructor|]. constructor; [inversion Hpd; assumption|]. apply Forall_app.
          split; [inversion Hpd; assumption|constructor; [exact Hc|constructor]]. }
      destruct (nfeed tb fuel form pd c) as [[o1 p1]| |]; try discriminate. cbn [bindR] in H. destruct (N1 _ _ eq_refl) as [A B].
      destruct (nfeed_all tb fuel form p1 t) as [[o2 p2]| |] eqn:E2; try discriminate. cbn [bindR] in H. injection H as <- <-.
      destruct (IH _ _ _ B Ht' E2) as [C D]. split; [apply Forall_app; auto|exact D]. }
    destruct (nfeed_all tb fuel form [] t) as [[o p]| |] eqn:E1; try discriminate. cbn [bindR] in H.
    destruct (F t [] o p (Forall_nil _) Ht E1) as [A B]. rewrite emit_eq in H.
    destruct (normalize tb fuel p form) as [f| |] eqn:Ef; try discriminate. cbn [bindR] in H. injection H as <-.
    apply Forall_app. split; [exact A|apply (normalize_scalar tb Hs _ _ _ _ B Ef)]. }
  split; intros (r & Hr & ->); exists r; (split; [exact Hr|]); [|symmetry]; apply encode_scalars, G, Hr.
Qed.
Print Assumptions C45_wellformed.
(** After reset() the object behaves like a new one. *)
Theorem C45_reset : forall tb form st h h' os os', length os = length h ->
  history tb form st (h ++ Reset :: h') (os ++ os') -> exists o, os' = o :: tl os' /\ history tb form unorm_init h' (tl os').
Proof.
  intros tb form st h h' os os' Hl (fuel & st' & H).
  rewrite urun_app in H. destruct (urun tb fuel form st h) as [[o1 s1]| |] eqn:E1; try discriminate. cbn [bindR urun] in H.
  destruct (urun tb fuel form (ureset s1) h') as [[o2 s2]| |] eqn:E2; try discriminate. cbn [bindR] in H. injection H as H _.
  assert (Hlen : length o1 = length h).
  { clear -E1. revert st o1 s1 E1. induction h as [|[bs| |] h IH]; intros st os s H; cbn [urun] in H; [injection H as <- _; reflexivity|..].
    - destruct (ufeed tb fuel form st bs) as [[o s1]| |]; try discriminate. cbn [bindR] in H.
      destruct (urun tb fuel form s1 h) as [[os1 s2]| |] eqn:E; try discriminate. injection H as <- _. cbn [length]. f_equal. apply (IH _ _ _ E).
    - destruct (uflush tb fuel form st) as [[o s1]| |]; try discriminate. cbn [bindR] in H.
      destruct (urun tb fuel form s1 h) as [[os1 s2]| |] eqn:E; try discriminate. injection H as <- _. cbn [length]. f_equal. apply (IH _ _ _ E).
    - destruct (urun tb fuel form (ureset st) h) as [[os1 s2]| |] eqn:E; try discriminate. injection H as <- _. cbn [length]. f_equal. apply (IH _ _ _ E). }
  assert (A : os' = [] :: o2).
  { revert os Hl H. rewrite <- Hlen. clear. induction o1 as [|x o1 IH]; intros [|y os] Hl H; try discriminate; [symmetry; exact H|].
    cbn [app] in H. injection H as -> H. injection Hl as Hl. apply (IH os Hl H). }
  subst os'. exists []. split; [reflexivity|]. exists fuel, s2. exact E2.
Qed.
Print Assumptions C45_reset.

Lemma ndemo_scalar_tables : scalar_tables ndemo.
Proof.
  assert (P : forall tbl, forallb (fun e => forallb scalarb (snd e)) tbl = true -> forall c x, In x (find_decomposition tbl c) -> scalar x).
  { intros tbl H c x Hx. unfold find_decomposition in Hx. destruct (find_entry fst tbl c) as [e|] eqn:E; [|destruct Hx].
    apply find_entry_sound in E. destruct E as [E _]. rewrite forallb_forall in H. specialize (H e E). rewrite forallb_forall in H.
    apply scalarb_iff, H, Hx. }
  assert (C1 : forallb (fun e => forallb scalarb (snd e)) (t_canon ndemo) = true) by (vm_compute; reflexivity).
  assert (C2 : forallb (fun e => forallb scalarb (snd e)) (t_compat ndemo) = true) by (vm_compute; reflexivity).
  split.
  - assert (A : forall c x, In x (canonical_decomposition ndemo c) -> scalar x).
    { intros c x. unfold canonical_decomposition. destruct (is_hangul_syllable c); [apply hangul_decompose_scalar|apply (P _ C1)]. }
    intros c x [H|H]; [apply (A c x H)|]. unfold compatibility_decomposition in H.
    destruct (canonical_decomposition ndemo c) as [|a l] eqn:E; [apply (P _ C2 c x H)|]. apply (A c x). rewrite E. exact H.
  - intros a b c H. assert (C3 : forallb (fun e => scalarb (snd e)) (t_comp ndemo) = true) by (vm_compute; reflexivity).
    rewrite forallb_forall in C3. apply scalarb_iff. exact (C3 _ H).
Qed.
(** A, combining ring in two chunks, one of them cut inside the character, then an illegal byte *)
Example C45_demo : history ndemo NFC unorm_init [Feed [0x41; 0xCC]; Feed [0x8A; 0xFF]; Flush] [[]; [0xC3; 0x85]; [0xEF; 0xBF; 0xBD]]
  /\ history ndemo NFC unorm_init [Feed [0x41; 0xCC; 0x8A; 0xFF]; Flush] [[0xC3; 0x85]; [0xEF; 0xBF; 0xBD]]
  /\ scalar_tables ndemo /\ scalars [0x41; 0x30A] /\ utf8_text [0x41; 0x30A] = [0x41; 0xCC; 0x8A].
Proof.
  split; [exists 5%nat; eexists; vm_compute; reflexivity|]. split; [exists 5%nat; eexists; vm_compute; reflexivity|].
  split; [exact ndemo_scalar_tables|]. split; [repeat (constructor; [unfold scalar; lia|]); constructor|reflexivity].
Qed.

(** * C65 A flush ends the text: what follows is read as by a new normalizer *)
Definition C65_statement : Prop := forall tb form bs h o1 o2 os,
  history tb form unorm_init (Feed bs :: Flush :: h) (o1 :: o2 :: os) -> history tb form unorm_init h os.
(** False: a character cut off by flush() is dropped, and completed by the bytes of the next text. *)
Theorem C65_flush_refuted : ~ C65_statement.
Proof.
  intros H. specialize (H ndemo NFC [0xC3] [Feed [0xA9]; Flush] [] [] [[]; [0xC3; 0xA9]]).
  assert (G : history ndemo NFC unorm_init (Feed [0xC3] :: Flush :: [Feed [0xA9]; Flush]) ([] :: [] :: [[]; [0xC3; 0xA9]]))
    by (exists 5%nat; eexists; vm_compute; reflexivity).
  specialize (H G).
  assert (A : exists o1 o2, history ndemo NFC unorm_init [Feed [0xA9]; Flush] [o1; o2] /\ o1 ++ o2 = [0xC3; 0xA9])
    by (exists [], [0xC3; 0xA9]; auto).
  apply (proj1 (C45_meaning _ _ _ _)) in A. destruct A as (r & Hr & E).
  assert (S : streams ndemo NFC (replaced (snd (from_utf8_run dinit [0xA9]))) [0xFFFD]) by (exists 5%nat; vm_compute; reflexivity).
  rewrite (streams_det ndemo _ _ _ _ Hr S) in E. discriminate.
Qed.
Print Assumptions C65_flush_refuted.
(** Nothing at all is returned for a truncated character: not even U+FFFD. *)
Theorem C65_truncated_dropped : history ndemo NFC unorm_init [Feed [0xE2; 0x82]; Flush] [[]; []].
Proof. exists 5%nat. eexists. vm_compute. reflexivity. Qed.
(** True when the text fed before the flush ended at a character boundary. *)
Theorem C65_flush_at_boundary_partial : forall tb form t h o1 o2 os, scalars t ->
  history tb form unorm_init (Feed (utf8_text t) :: Flush :: h) (o1 :: o2 :: os) -> history tb form unorm_init h os.
Proof.
  intros tb form t h o1 o2 os Ht (fuel & st' & H). cbn [urun] in H. rewrite ufeed_eq in H. cbn [unorm_init u_dec u_pending] in H.
  destruct (from_utf8_run_text dinit t eq_refl Ht) as (d & E & Ed). rewrite E in H. cbn [fst snd] in H.
  destruct (nfeed_all tb fuel form [] (replaced (flat_map char_results t))) as [[o p]| |]; try discriminate. cbn [bindR] in H.
  rewrite uflush_eq in H. cbn [u_dec u_pending] in H. destruct (emit_pending tb fuel form p) as [f| |]; try discriminate. cbn [bindR] in H.
  destruct (urun tb fuel form (UN d []) h) as [[os1 s1]| |] eqn:Eh; try discriminate. cbn [bindR] in H. injection H as _ _ <- _.
  destruct (urun_eqst tb fuel form h (UN d []) unorm_init _ _ ltac:(split; [split; [exact Ed|cbn [u_dec]; rewrite Ed; lia]|reflexivity]) Eh)
    as (b' & Eb & _).
  exists fuel, b'. exact Eb.
Qed.
Print Assumptions C65_flush_at_boundary_partial.
Example C65_demo : history ndemo NFC unorm_init [Feed [0xC3; 0xA9]; Flush; Feed [0x65]; Flush] [[]; [0xC3; 0xA9]; []; [0x65]].
Proof. exists 5%nat. eexists. vm_compute. reflexivity. Qed.

(** * C47, normalization half *)
Theorem C47_normalize : forall tb i form t r8, scalar_tables tb -> scalars t ->
  (normalizes8 tb i form (utf8_text t) r8 <-> exists r, normalizes tb form t r /\ r8 = utf8_text r).
Proof.
  intros tb i form t r8 Hs Ht. unfold normalizes8, normalizes. split.
  - intros (fuel & H). rewrite normalize8_eq in H by assumption. destruct (normalize tb fuel t form) as [r| |] eqn:E; try discriminate.
    cbn [bindR] in H. injection H as <-. exists r. split; [exists fuel; exact E|reflexivity].
  - intros (r & (fuel & E) & ->). exists fuel. rewrite normalize8_eq by assumption. rewrite E. reflexivity.
Qed.
Theorem C47_quick_check : forall tb i form t, scalars t -> quick_check8 tb i (utf8_text t) form = Ok (quick_check tb t form).
Proof. intros. unfold quick_check8. rewrite decode_text by assumption. reflexivity. Qed.
Theorem C47_is_normalized : forall tb i fuel form t, scalars t ->
  is_normalized8 tb i fuel (utf8_text t) form = is_normalized tb fuel t form.
Proof. intros. unfold is_normalized8. rewrite decode_text by assumption. reflexivity. Qed.
Theorem C47_equivalence : forall tb i fuel a b, scalar_tables tb -> scalars a -> scalars b ->
  is_canonically_equivalent8 tb i fuel (utf8_text a) (utf8_text b) = is_canonically_equivalent tb fuel a b /\
  is_compatibility_equivalent8 tb i fuel (utf8_text a) (utf8_text b) = is_compatibility_equivalent tb fuel a b.
Proof.
  intros tb i fuel a b Hs Ha Hb.
  unfold is_canonically_equivalent8, is_compatibility_equivalent8, is_canonically_equivalent, is_compatibility_equivalent.
  rewrite !normalize8_eq by assumption.
  split.
  - destruct (normalize tb fuel a NFD) as [x| |] eqn:Ea; try reflexivity. cbn [bindR].
    destruct (normalize tb fuel b NFD) as [y| |] eqn:Eb; try reflexivity. cbn [bindR].
    rewrite list_eqb_utf8; [reflexivity|apply (normalize_scalar tb Hs _ _ _ _ Ha Ea)|apply (normalize_scalar tb Hs _ _ _ _ Hb Eb)].
  - destruct (normalize tb fuel a NFKD) as [x| |] eqn:Ea; try reflexivity. cbn [bindR].
    destruct (normalize tb fuel b NFKD) as [y| |] eqn:Eb; try reflexivity. cbn [bindR].
    rewrite list_eqb_utf8; [reflexivity|apply (normalize_scalar tb Hs _ _ _ _ Ha Ea)|apply (normalize_scalar tb Hs _ _ _ _ Hb Eb)].
Qed.
Print Assumptions C47_normalize.
Print Assumptions C47_quick_check.
Print Assumptions C47_is_normalized.
Print Assumptions C47_equivalence.
Example C47_normalize_demo : normalizes8 ndemo (X86 W256) NFC [0x41; 0xCC; 0x8A] [0xC3; 0x85] /\ normalizes ndemo NFC [0x41; 0x30A] [0xC5].
Proof. split; exists 5%nat; vm_compute; reflexivity. Qed.

(** * C66 is_normalized and normalize agree on byte strings *)
Definition C66_statement : Prop := forall tb i form s, qc_decomp_exact tb -> acyclic tb -> Forall byte s ->
  (exists fuel, is_normalized8 tb i fuel s form = Ok true) -> normalizes8 tb i form s s.
(** False: ill-formed bytes are dropped before the check, so a byte string that normalize() changes counts as normalized. *)
Theorem C66_illformed_refuted : ~ C66_statement.
Proof.
  intros H. destruct (H ndemo NoSimd NFD [0x41; 0xFF] ndemo_qc_decomp ndemo_acyclic) as (fuel & E).
  - repeat constructor.
  - exists 5%nat. vm_compute. reflexivity.
  - unfold normalize8 in E. change (convert_to false NoSimd T32 T8 [0x41; 0xFF]) with (Ok [0x41]) in E. cbn [bindR] in E.
    destruct (normalize ndemo fuel [0x41] NFD) as [r| |] eqn:En; try discriminate. cbn [bindR] in E.
    assert (G : normalizes ndemo NFD [0x41] [0x41]) by (exists 5%nat; vm_compute; reflexivity).
    assert (G' : normalizes ndemo NFD [0x41] r) by (exists fuel; exact En).
    rewrite (normalizes_det ndemo _ _ _ _ G' G) in E. discriminate E.
Qed.
Print Assumptions C66_illformed_refuted.
(** True on well-formed text, for the decomposing forms (exact quick-check tables; C43 for the composing ones). *)
Theorem C66_wellformed_partial : forall tb i form t, scalar_tables tb -> acyclic tb -> jamos_plain tb -> qc_decomp_exact tb -> decomposing form -> scalars t ->
  ((exists fuel, is_normalized8 tb i fuel (utf8_text t) form = Ok true) <-> normalizes8 tb i form (utf8_text t) (utf8_text t)).
Proof.
  intros tb i form t Hs Ha Hj Hq Hf Ht. rewrite C47_normalize by assumption. split.
  - intros (fuel & H). rewrite C47_is_normalized in H by exact Ht. exists t. split; [|reflexivity].
    destruct (C39_normalize_terminates tb Ha form t) as (r & Hr & _).
    assert (E : r = t) by (apply (C43_decomposed_partial tb Ha Hj Hq form Hf t r true Hr); [exists fuel; exact H|reflexivity]).
    rewrite <- E at 2. exact Hr.
  - intros (r & Hr & E). assert (r = t). { symmetry. apply utf8_text_inj; try assumption. destruct Hr as [f Hr]. apply (normalize_scalar tb Hs _ _ _ _ Ht Hr). }
    subst r. destruct (C43_decided tb Ha form t) as (b & fuel & Hb). exists fuel. rewrite C47_is_normalized by exact Ht.
    rewrite Hb. f_equal. apply (C43_decomposed_partial tb Ha Hj Hq form Hf t t b Hr); [exists fuel; exact Hb|reflexivity].
Qed.
Print Assumptions C66_wellformed_partial.
Example C66_demo : scalar_tables ndemo /\ acyclic ndemo /\ jamos_plain ndemo /\ qc_decomp_exact ndemo /\ is_normalized8 ndemo NoSimd 5 [0x41; 0xCC; 0xA3; 0xCC; 0x8A] NFD = Ok true.
Proof.
  split; [exact ndemo_scalar_tables|]. split; [exact ndemo_acyclic|]. split; [exact ndemo_jamos|]. split; [exact ndemo_qc_decomp|].
  vm_compute. reflexivity.
Qed.
