(** C130: the compiler reads in case_normalization_data.h the tables the generator computed. *)
From Coq Require Import String Lia.
From Verif Require Import Base M_Normalize M_Case M_TableGen Spec_Cpp Spec_Emit M_Emit P_Emit P_Emit2 P_Emit3 P_Emit4 P_Emit5.
Open Scope N_scope.

(** C130, the property: whatever the tables (as long as their numbers fit the declared types), the text denotes them. *)
Definition C130_statement : Prop :=
  forall d sp fold p sorted, case_fits (gen_case d sp fold) -> norm_fits (gen_norm d p sorted) -> Forall (fun e => (0 <= snd e)%Z) (d_ccc d) ->
    case_tables_in (case_norm_text d sp fold p sorted) (gen_case d sp fold) /\ norm_tables_in (case_norm_text d sp fold p sorted) (gen_norm d p sorted).

(** ** The file as a list of sections *)
Lemma concat_sound ss : Forall sound ss -> sound (concat ss).
Proof. intros H. induction H as [|s r Hs Hr IH]; [exists []; apply piece_nil|]. cbn. apply sound_app; assumption. Qed.
Lemma in_sections ss s : Forall sound ss -> In s ss -> exists a b, concat ss = a ++ s ++ b /\ sound a /\ sound b.
Proof.
  intros H Hi. destruct (in_split s ss Hi) as (x & y & ->). exists (concat x), (concat y). apply Forall_app in H. destruct H as [H1 H2].
  rewrite concat_app. split; [reflexivity|]. split; apply concat_sound; [exact H1|apply (Forall_inv_tail H2)].
Qed.
Definition simple_sec (m : list (N * N)) (name : str) (s : str) : Prop :=
  s = write_simple m name /\ pairs_fit m /\ Forall (fun e => fst e <> 0x5C) m /\ wordy name.
Section file.
  Variables (ss : list str) (file : str).
  Hypothesis (Hs : Forall sound ss) (Hf : file = concat ss).
  Lemma file_table {A} s f type name vals (rd : init -> option A) l : In s ss -> local_array s f type name vals -> all_some rd vals = Some l ->
    has_table file f type name rd l.
  Proof.
    intros Hi L R. destruct (in_sections ss s Hs Hi) as (a & b & E & A1 & B1). exists vals. split; [|exact R].
    rewrite Hf, E. apply local_in; assumption.
  Qed.
  Lemma file_text s t : In s ss -> holds_text s t -> contains_text file t.
  Proof. intros Hi L. destruct (in_sections ss s Hs Hi) as (a & b & E & A1 & B1). rewrite Hf, E. apply holds_in; assumption. Qed.
End file.
Lemma simple_fits m : pairs_fit m -> Forall (fun e => fst e <> 0x5C) m -> Forall simple_ok m /\ small (length m).
Proof.
  intros [Hc Hf] Hb. split; [|exact Hc]. apply Forall_forall. intros e He. rewrite Forall_forall in Hf, Hb. destruct (Hf e He).
  repeat split; try assumption. apply Hb, He.
Qed.
Lemma full_fits m : maps_fit 3 m -> Forall (map_ok 3) m /\ small (length m).
Proof.
  intros [Hc Hf]. split; [|exact Hc]. eapply Forall_impl; [|exact Hf]. intros e (H1 & H2 & H3). repeat split; try assumption. lia.
Qed.
Lemma dec_fits m : maps_fit 255 m -> Forall dec_ok m /\ small (length m).
Proof. intros [Hc Hf]. split; [|exact Hc]. eapply Forall_impl; [|exact Hf]. intros e (H1 & H2 & H3). repeat split; assumption. Qed.
Lemma nl_sound : sound nl. Proof. exists []. lits. Qed.
Lemma preamble_sound : sound case_norm_preamble. Proof. eexists. lits. Qed.
Lemma end_sound : sound (lit "// clang-format on" ++ nl ++ nl ++ lit "} // namespace unicode::detail" ++ nl). Proof. eexists. lits. Qed.

Definition sections (d : ucdata) (sp : special) (fold : list (N * N) * list (N * list N)) (p : nprops) (sorted : list (N * N * N)) : list str :=
  [ case_norm_preamble;
    write_simple (d_upper d) (lit "uppercase"); nl; write_simple (d_lower d) (lit "lowercase"); nl;
    write_simple (d_title d) (lit "titlecase"); nl; write_simple (fst fold) (lit "casefold"); nl;
    write_full (sp_upper sp) (lit "uppercase"); nl; write_full (sp_lower sp) (lit "lowercase"); nl;
    write_full (sp_title sp) (lit "titlecase"); nl; write_full (snd fold) (lit "casefold"); nl;
    emit_ccc (d_ccc d); nl; emit_canonical (write_canonical (d_dec d)); nl; emit_compat (d_dec d); nl; emit_compositions sorted; nl;
    write_set (np_nfc_no p) (lit "nfc_qc_no"); nl; write_set (np_nfc_maybe p) (lit "nfc_qc_maybe"); nl;
    write_set (np_nfkc_no p) (lit "nfkc_qc_no"); nl; write_set (np_nfkc_maybe p) (lit "nfkc_qc_maybe"); nl;
    write_set (np_nfd_no p) (lit "nfd_qc_no"); nl; write_set (np_nfkd_no p) (lit "nfkd_qc_no"); nl;
    write_set (np_excl p) (lit "composition_exclusions"); nl;
    lit "// clang-format on" ++ nl ++ nl ++ lit "} // namespace unicode::detail" ++ nl ].
Lemma sections_eq d sp fold p sorted : case_norm_text d sp fold p sorted = concat (sections d sp fold p sorted).
Proof. unfold case_norm_text, sections. cbn [concat]. rewrite ?app_nil_r. reflexivity. Qed.
Lemma struct_text_full name : full_struct name = struct_text (lit "full_" ++ name ++ lit "_entry") 3 [].
Proof.
  unfold full_struct, struct_text. change (lit "struct full_") with (lit "struct " ++ lit "full_").
  change (lit "_entry { char32_t source; char32_t targets[3]; uint8_t length; };")
    with (lit "_entry" ++ lit " { char32_t source; char32_t targets[" ++ numeral 3 ++ lit "]; uint8_t length; " ++ [] ++ lit "};").
  rewrite <- !app_assoc. reflexivity.
Qed.
Lemma struct_text_canon k : canon_struct k = struct_text (lit "canonical_decomposition_entry") k [].
Proof. reflexivity. Qed.
Lemma struct_text_compat k : compat_struct k = struct_text (lit "compatibility_decomposition_entry") k (lit "uint8_t decomp_type; ").
Proof. reflexivity. Qed.

(** C130. No simple case mapping starts from U+005C (none does in the Unicode Character Database): the text denotes the tables. *)
Theorem C130_text_denotes_partial : forall d sp fold p sorted,
  case_fits (gen_case d sp fold) -> norm_fits (gen_norm d p sorted) -> Forall (fun e => (0 <= snd e)%Z) (d_ccc d) ->
  (forall m, In m [d_upper d; d_lower d; d_title d; fst fold] -> Forall (fun e => fst e <> 0x5C) m) ->
  case_tables_in (case_norm_text d sp fold p sorted) (gen_case d sp fold) /\ norm_tables_in (case_norm_text d sp fold p sorted) (gen_norm d p sorted).
Proof.
  intros d sp fold p sorted (S1 & S2 & S3 & S4 & F1 & F2 & F3 & F4) (C1 & C2 & D1 & D2 & M1 & M2 & E0 & E1 & E2 & E3 & E4 & E5 & E6) Hz Hb.
  cbn [gen_case gen_norm s_upper s_lower s_title s_fold f_upper f_lower f_title f_fold t_ccc t_canon t_compat t_comp t_excl t_nfc_no t_nfc_maybe t_nfkc_no
       t_nfkc_maybe t_nfd_no t_nfkd_no] in *.
  destruct (simple_fits _ S1 (Hb _ ltac:(left; reflexivity))) as [A1 Z1].
  destruct (simple_fits _ S2 (Hb _ ltac:(right; left; reflexivity))) as [A2 Z2].
  destruct (simple_fits _ S3 (Hb _ ltac:(right; right; left; reflexivity))) as [A3 Z3].
  destruct (simple_fits _ S4 (Hb _ ltac:(right; right; right; left; reflexivity))) as [A4 Z4].
  pose proof (simple_table _ (lit "uppercase") A1 Z1 ltac:(wlit)) as L1. pose proof (simple_table _ (lit "lowercase") A2 Z2 ltac:(wlit)) as L2.
  pose proof (simple_table _ (lit "titlecase") A3 Z3 ltac:(wlit)) as L3. pose proof (simple_table _ (lit "casefold") A4 Z4 ltac:(wlit)) as L4.
  destruct (full_fits _ F1) as [B1 Y1]. destruct (full_fits _ F2) as [B2 Y2]. destruct (full_fits _ F3) as [B3 Y3]. destruct (full_fits _ F4) as [B4 Y4].
  destruct (full_table _ (lit "uppercase") B1 Y1 ltac:(wlit)) as [L5 T5]. destruct (full_table _ (lit "lowercase") B2 Y2 ltac:(wlit)) as [L6 T6].
  destruct (full_table _ (lit "titlecase") B3 Y3 ltac:(wlit)) as [L7 T7]. destruct (full_table _ (lit "casefold") B4 Y4 ltac:(wlit)) as [L8 T8].
  rewrite struct_text_full in T5, T6, T7, T8.
  assert (Cok : Forall ccc_ok (d_ccc d) /\ small (length (d_ccc d))).
  { unfold write_ccc, countable in *. rewrite map_length in C1. split; [|exact C1]. rewrite Forall_map in C2. apply Forall_forall. intros e He.
    rewrite Forall_forall in C2, Hz. destruct (C2 e He) as [U V]. cbn [fst snd] in U, V. pose proof (Hz e He). split; [exact U|]. cbv beta in *. lia. }
  destruct Cok as [Cok Cs]. pose proof (ccc_table _ Cok Cs) as L9.
  destruct (dec_fits _ D1) as [B5 Y5]. destruct (canon_table _ B5 Y5) as [L10 T10]. rewrite struct_text_canon in T10.
  assert (Dok : Forall cdec_ok (compat_entries (d_dec d)) /\ small (length (compat_entries (d_dec d)))).
  { destruct (dec_fits _ D2) as [B Y]. rewrite write_compat_eq in B, Y. rewrite Forall_map in B. rewrite map_length in Y. split; assumption. }
  destruct Dok as [Dok Ds]. destruct (compat_table _ Dok Ds) as (L11 & T11 & K11). rewrite struct_text_compat in T11.
  assert (Mok : Forall comp_ok sorted) by exact M2. destruct (comp_table _ Mok M1) as [L12 T12].
  pose proof (set_table _ (lit "nfc_qc_no") (proj2 E1) (proj1 E1) ltac:(wlit)) as L13.
  pose proof (set_table _ (lit "nfc_qc_maybe") (proj2 E2) (proj1 E2) ltac:(wlit)) as L14.
  pose proof (set_table _ (lit "nfkc_qc_no") (proj2 E3) (proj1 E3) ltac:(wlit)) as L15.
  pose proof (set_table _ (lit "nfkc_qc_maybe") (proj2 E4) (proj1 E4) ltac:(wlit)) as L16.
  pose proof (set_table _ (lit "nfd_qc_no") (proj2 E5) (proj1 E5) ltac:(wlit)) as L17.
  pose proof (set_table _ (lit "nfkd_qc_no") (proj2 E6) (proj1 E6) ltac:(wlit)) as L18.
  pose proof (set_table _ (lit "composition_exclusions") (proj2 E0) (proj1 E0) ltac:(wlit)) as L19.
  assert (Hs : Forall sound (sections d sp fold p sorted)).
  { unfold sections. apply Forall_cons; [exact preamble_sound|].
    apply Forall_cons; [exact (local_sound _ _ _ _ _ L1)|]. apply Forall_cons; [exact nl_sound|].
    apply Forall_cons; [exact (local_sound _ _ _ _ _ L2)|]. apply Forall_cons; [exact nl_sound|].
    apply Forall_cons; [exact (local_sound _ _ _ _ _ L3)|]. apply Forall_cons; [exact nl_sound|].
    apply Forall_cons; [exact (local_sound _ _ _ _ _ L4)|]. apply Forall_cons; [exact nl_sound|].
    apply Forall_cons; [exact (local_sound _ _ _ _ _ L5)|]. apply Forall_cons; [exact nl_sound|].
    apply Forall_cons; [exact (local_sound _ _ _ _ _ L6)|]. apply Forall_cons; [exact nl_sound|].
    apply Forall_cons; [exact (local_sound _ _ _ _ _ L7)|]. apply Forall_cons; [exact nl_sound|].
    apply Forall_cons; [exact (local_sound _ _ _ _ _ L8)|]. apply Forall_cons; [exact nl_sound|].
    apply Forall_cons; [exact (local_sound _ _ _ _ _ L9)|]. apply Forall_cons; [exact nl_sound|].
    apply Forall_cons; [exact (local_sound _ _ _ _ _ L10)|]. apply Forall_cons; [exact nl_sound|].
    apply Forall_cons; [exact (local_sound _ _ _ _ _ L11)|]. apply Forall_cons; [exact nl_sound|].
    apply Forall_cons; [exact (local_sound _ _ _ _ _ L12)|]. apply Forall_cons; [exact nl_sound|].
    apply Forall_cons; [exact (local_sound _ _ _ _ _ L13)|]. apply Forall_cons; [exact nl_sound|].
    apply Forall_cons; [exact (local_sound _ _ _ _ _ L14)|]. apply Forall_cons; [exact nl_sound|].
    apply Forall_cons; [exact (local_sound _ _ _ _ _ L15)|]. apply Forall_cons; [exact nl_sound|].
    apply Forall_cons; [exact (local_sound _ _ _ _ _ L16)|]. apply Forall_cons; [exact nl_sound|].
    apply Forall_cons; [exact (local_sound _ _ _ _ _ L17)|]. apply Forall_cons; [exact nl_sound|].
    apply Forall_cons; [exact (local_sound _ _ _ _ _ L18)|]. apply Forall_cons; [exact nl_sound|].
    apply Forall_cons; [exact (local_sound _ _ _ _ _ L19)|]. apply Forall_cons; [exact nl_sound|].
    apply Forall_cons; [exact end_sound|]. apply Forall_nil. }
  pose proof (sections_eq d sp fold p sorted) as Hf. remember (case_norm_text d sp fold p sorted) as file eqn:Efile. clear Efile.
  pose proof (fun A s f ty n v rd l => @file_table _ _ Hs Hf A s f ty n v rd l) as FT. pose proof (file_text _ _ Hs Hf) as FX.
  assert (I : forall n s, nth_error (sections d sp fold p sorted) n = Some s -> In s (sections d sp fold p sorted)) by (intros; eapply nth_error_In; eassumption).
  assert (X1 : case_tables_in file (gen_case d sp fold)).
  { unfold case_tables_in, simple_in_file, mapping_in_file. cbn [gen_case s_upper s_lower s_title s_fold f_upper f_lower f_title f_fold].
    refine (conj _ (conj _ (conj _ (conj _ (conj (conj _ _) (conj (conj _ _) (conj (conj _ _) (conj _ _)))))))).
    - exact (FT _ _ _ _ _ _ _ _ (I 1%nat _ eq_refl) L1 (simple_read _ A1)).
    - exact (FT _ _ _ _ _ _ _ _ (I 3%nat _ eq_refl) L2 (simple_read _ A2)).
    - exact (FT _ _ _ _ _ _ _ _ (I 5%nat _ eq_refl) L3 (simple_read _ A3)).
    - exact (FT _ _ _ _ _ _ _ _ (I 7%nat _ eq_refl) L4 (simple_read _ A4)).
    - exact (FT _ _ _ _ _ _ _ _ (I 9%nat _ eq_refl) L5 (map_read 3 _ B1)).
    - exact (FX _ _ (I 9%nat _ eq_refl) T5).
    - exact (FT _ _ _ _ _ _ _ _ (I 11%nat _ eq_refl) L6 (map_read 3 _ B2)).
    - exact (FX _ _ (I 11%nat _ eq_refl) T6).
    - exact (FT _ _ _ _ _ _ _ _ (I 13%nat _ eq_refl) L7 (map_read 3 _ B3)).
    - exact (FX _ _ (I 13%nat _ eq_refl) T7).
    - exact (FT _ _ _ _ _ _ _ _ (I 15%nat _ eq_refl) L8 (map_read 3 _ B4)).
    - exact (FX _ _ (I 15%nat _ eq_refl) T8). }
  assert (X2 : norm_tables_in file (gen_norm d p sorted)).
  { unfold norm_tables_in, set_in_file, mapping_in_file.
    cbn [gen_norm t_ccc t_canon t_compat t_comp t_excl t_nfc_no t_nfc_maybe t_nfkc_no t_nfkc_maybe t_nfd_no t_nfkd_no].
    refine (conj _ (conj _ (conj _ (conj (conj _ _) (conj _ (conj _ (conj _ (conj _ (conj _ (conj _ _)))))))))).
    - exact (FT _ _ _ _ _ _ _ _ (I 17%nat _ eq_refl) L9 (ccc_read _ Cok)).
    - exists (max_len (write_canonical (d_dec d))). split.
      + exact (FT _ _ _ _ _ _ _ _ (I 19%nat _ eq_refl) L10 (map_read _ _ (dec_map_ok _ B5))).
      + exact (FX _ _ (I 19%nat _ eq_refl) T10).
    - exists (max_len (write_compat (d_dec d))). split.
      + exact (FT _ _ _ _ _ _ _ _ (I 21%nat _ eq_refl) L11 (compat_read _ _ K11)).
      + exact (FX _ _ (I 21%nat _ eq_refl) T11).
    - exact (FT _ _ _ _ _ _ _ _ (I 23%nat _ eq_refl) L12 (comp_read _ Mok)).
    - exact (FX _ _ (I 23%nat _ eq_refl) T12).
    - exact (FT _ _ _ _ _ _ _ _ (I 37%nat _ eq_refl) L19 (set_read _ (proj2 E0))).
    - exact (FT _ _ _ _ _ _ _ _ (I 25%nat _ eq_refl) L13 (set_read _ (proj2 E1))).
    - exact (FT _ _ _ _ _ _ _ _ (I 27%nat _ eq_refl) L14 (set_read _ (proj2 E2))).
    - exact (FT _ _ _ _ _ _ _ _ (I 29%nat _ eq_refl) L15 (set_read _ (proj2 E3))).
    - exact (FT _ _ _ _ _ _ _ _ (I 31%nat _ eq_refl) L16 (set_read _ (proj2 E4))).
    - exact (FT _ _ _ _ _ _ _ _ (I 33%nat _ eq_refl) L17 (set_read _ (proj2 E5))).
    - exact (FT _ _ _ _ _ _ _ _ (I 35%nat _ eq_refl) L18 (set_read _ (proj2 E6))). }
  exact (conj X1 X2).
Qed.
Print Assumptions C130_text_denotes_partial.

(** ** The counterexample: simple mappings from U+005C and U+0061.  The comment behind the first entry is a backslash, so the second line is
    part of the comment. *)
Definition back_d : ucdata := mkUd [] [] [(0x5C, 0x41); (0x61, 0x41)] [] [].
Definition back_text : str := case_norm_text back_d (mkSp [] [] []) ([], []) (mkNp [] [] [] [] [] [] []) [].
Definition reads_97 (t : tok) : bool := match t with TWord v => match int_literal v with Some n => n =? 0x61 | None => false end | _ => false end.
Lemma back_lex : match lex back_text with Some ts => negb (existsb reads_97 ts) | None => false end = true.
Proof. vm_compute. reflexivity. Qed.
(** C130. The property fails: the second mapping is not in the compiled array. *)
Theorem C130_backslash_refuted : ~ C130_statement.
Proof.
  intros H. destruct (H back_d (mkSp [] [] []) ([], []) (mkNp [] [] [] [] [] [] []) []) as [(X & _) _].
  - unfold case_fits, pairs_fit, maps_fit, countable, back_d. cbn. unfold cp32. repeat split; repeat constructor.
  - unfold norm_fits, set_fits, maps_fit, countable, back_d. cbn. repeat split; repeat constructor.
  - constructor.
  - pose proof back_lex as L. change (case_norm_text back_d (mkSp [] [] []) ([], []) (mkNp [] [] [] [] [] [] []) []) with back_text in X.
    destruct (lex back_text) as [ts|] eqn:E; [|discriminate L].
    destruct (table_in_text _ _ _ _ _ _ 0x61 0x41 ts X ltac:(right; left; reflexivity) E) as (v & Hv & Iv).
    assert (C : existsb reads_97 ts = true) by (apply existsb_exists; exists (TWord v); split; [exact Hv|cbn; rewrite Iv; reflexivity]).
    rewrite C in L. discriminate L.
Qed.
Print Assumptions C130_backslash_refuted.

(** The hypotheses of the partial theorem are met by tables with entries of every kind. *)
Definition some_d : ucdata :=
  mkUd [(0x300, 230%Z); (0x316, 220%Z)] [(0xC0, ([0x41; 0x300], lit "canonical")); (0xBD, ([0x31; 0x2044; 0x32], lit "fraction"))]
       [(0x61, 0x41); (0xE0, 0xC0)] [(0x41, 0x61); (0x10400, 0x10428)] [(0x1C6, 0x1C5)].
Definition some_sp : special := mkSp [(0xDF, [0x53; 0x53])] [(0x130, [0x69; 0x307])] [(0xFB03, [0x46; 0x66; 0x69])].
Definition some_fold : list (N * N) * list (N * list N) := ([(0x41, 0x61)], [(0xDF, [0x73; 0x73])]).
Definition some_p : nprops := mkNp [0x340; 0x341] [0x300] [0xA0] [0x300; 0x301] [0xC0] [0xA0; 0xC0] [0x958; 0x959].
Example C130_fits : case_fits (gen_case some_d some_sp some_fold) /\ norm_fits (gen_norm some_d some_p [(0x41, 0x300, 0xC0)]) /\
  Forall (fun e => (0 <= snd e)%Z) (d_ccc some_d) /\
  (forall m, In m [d_upper some_d; d_lower some_d; d_title some_d; fst some_fold] -> Forall (fun e => fst e <> 0x5C) m).
Proof.
  refine (conj _ (conj _ (conj _ _))).
  - unfold case_fits, pairs_fit, maps_fit, countable, cp32. cbn. repeat split; repeat constructor.
  - unfold norm_fits, set_fits, maps_fit, countable, cp32. cbn. repeat split; repeat constructor.
  - repeat constructor; cbn; lia.
  - intros m [<-|[<-|[<-|[<-|[]]]]]; repeat constructor; discriminate.
Qed.
