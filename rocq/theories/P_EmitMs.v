(** The multistage tables: the parts of the printed files. *)
From Coq Require Import String Lia.
From Verif Require Import Base M_TableGen M_PropGen M_UcdApi Spec_Cpp Spec_EmitUcd M_Emit M_EmitUcd M_EmitMs Spec_EmitMs P_TableGen P_Emit P_Emit2 P_Emit3 P_Emit4 P_EmitUcd P_EmitUcd2 P_EmitUcd3
  P_EmitUcd4.
Open Scope N_scope.

(** ** Flags *)
Definition flags_good (n : N) : bool :=
  match int_literal (flags_text n) with Some m => m =? n | None => false end && forallb word_char (flags_text n)
  && match flags_text n with [] => false | _ => true end.
Lemma flags_all : forallb (fun k => flags_good (N.of_nat k)) (seq 0 256) = true.
Proof. vm_compute. reflexivity. Qed.
Lemma flags_ok n : n < 2 ^ 8 -> int_literal (flags_text n) = Some n /\ wordy (flags_text n) /\ flags_text n <> [].
Proof.
  intros H. pose proof flags_all as A. rewrite forallb_forall in A. specialize (A (N.to_nat n)). rewrite N2Nat.id in A.
  assert (I : In (N.to_nat n) (seq 0 256)) by (apply in_seq; change (2 ^ 8) with 256 in H; lia). specialize (A I). unfold flags_good in A.
  apply Bool.andb_true_iff in A. destruct A as [A C]. apply Bool.andb_true_iff in A. destruct A as [A B]. split; [|split].
  - destruct (int_literal (flags_text n)) as [m|]; [|discriminate A]. apply N.eqb_eq in A. congruence.
  - apply Forall_forall, forallb_forall, B.
  - destruct (flags_text n); [discriminate C|discriminate].
Qed.

(** ** Stages *)
Lemma spaces_piece k : piece LStart (repeat 32 k) LStart [].
Proof.
  induction k as [|k IH]; [apply piece_nil|]. cbn [repeat]. change (32 :: repeat 32 k) with ([32] ++ repeat 32 k). change (@nil tok) with (@nil tok ++ @nil tok).
  apply (piece_app _ _ LStart); [|exact IH]. lits.
Qed.
Lemma fmt_d_quiet n : n < 2 ^ 64 -> quiet (fmt_d n).
Proof.
  intros H. destruct (fmt_d_wordy n H) as [W E]. split.
  - eapply Forall_impl; [|exact W]. intros c Hc ->. discriminate Hc.
  - intros L. destruct (exists_last E) as (l & x & X). rewrite X in L, W. rewrite last_last in L. apply Forall_app in W. destruct W as [_ W]. apply Forall_inv in W. subst x. discriminate W.
Qed.
Lemma break_piece block i : i < 2 ^ 64 -> piece LStart (column_break block i) LStart [].
Proof.
  intros H. unfold column_break. change (@nil tok) with (@nil tok ++ @nil tok). apply (piece_app _ _ LStart).
  - destruct (i mod 16 =? 0); [lits|apply piece_nil].
  - destruct (block && (i mod 256 =? 0)); [|apply piece_nil].
    assert (Q : quiet (fmt_d (i / 256))) by (apply fmt_d_quiet; eapply N.le_lt_trans; [apply N.div_le_upper_bound; [discriminate|]|exact H]; lia).
    assert (A : piece LStart (lit "// block number: ") LLine []) by lits.
    assert (B : piece LLine (nl ++ lit "    ") LStart []) by lits.
    exact (piece_app _ _ _ _ _ _ _ A (piece_app _ _ _ _ _ _ _ (quiet_piece _ Q) B)).
Qed.
Definition num_toks (l : list N) : list tok := flat_map (fun x => [wd x] ++ [TPunct 44]) l.
Lemma cells_piece block l : forall i, i + N.of_nat (length l) < 2 ^ 64 -> Forall (fun x => x < 2 ^ 64) l -> piece LStart (stage_cells block i l) LStart (num_toks l).
Proof.
  induction l as [|x r IH]; intros i Hi Hl; [apply piece_nil|]. cbn [stage_cells length] in *. pose proof (Forall_inv Hl) as Hx. cbv beta in Hx.
  destruct (fmt_d_wordy x Hx) as [W E].
  assert (B : i < 2 ^ 64) by (eapply N.le_lt_trans; [|exact Hi]; lia).
  assert (C : piece (LWord (fmt_d x)) (lit ",") LStart [wd x; TPunct 44]) by lits.
  assert (I : piece LStart (stage_cells block (i + 1) r) LStart (num_toks r)) by (apply IH; [eapply N.le_lt_trans; [|exact Hi]; lia|exact (Forall_inv_tail Hl)]).
  unfold setw. rewrite <- app_assoc.
  exact (piece_app _ _ _ _ _ _ _ (break_piece block i B) (piece_app _ _ _ _ _ _ _ (spaces_piece _) (piece_app _ _ _ _ _ _ _ (piece_word0 _ W E) (piece_app _ _ _ _ _ _ _ C I)))).
Qed.
Lemma num_parse l : forall h acc S rest,
  parse_run ((h, acc) :: S, CNone) (num_toks l ++ TPunct 125 :: rest) = parse_run (S, CDone (IList h (acc ++ map (fun x => IExpr [wd x]) l))) rest.
Proof.
  intros h acc S rest. apply (lines_parse (fun x => [wd x]) (fun x => IExpr [wd x]) (fun _ => True)); [|apply Forall_forall; trivial].
  intros x _ S'. exists (CToks [wd x] 0). split; [reflexivity|]. right. exists [wd x]. split; reflexivity.
Qed.
(** "std::array<TYPE, n> const NAME {" body "};" *)
Definition const_decl (tt : list tok) (n : nat) (name : str) : list tok := tt ++ [TWord (numeral n); TPunct 62; TWord (lit "const"); TWord name].
Lemma lex_const type tt n name : piece LStart (lit "std::array<" ++ type ++ lit ", ") LStart tt -> small n -> wordy name -> name <> [] ->
  lex (array_decl (Direct true) type name n) = Some (const_decl tt n name).
Proof.
  intros T Hn Hw Hne. destruct (numeral_wordy n Hn) as [Nw Nn]. unfold array_decl, const_decl.
  assert (A : piece (LWord (numeral n)) (lit "> " ++ lit "const ") LStart [TWord (numeral n); TPunct 62; TWord (lit "const")]) by lits.
  pose proof (piece_app _ _ _ _ _ _ _ T (piece_app _ _ _ _ _ _ _ (piece_word0 _ Nw Nn) (piece_app _ _ _ _ _ _ _ A (piece_word0 _ Hw Hne)))) as [_ R].
  cbn [app] in R. unfold lex. rewrite <- ?app_assoc in R. rewrite R. rewrite ?app_nil_r, <- ?app_assoc. reflexivity.
Qed.
Lemma const_local s type tt name open btoks close (vals : list init) rest post :
  piece LStart s LStart (const_decl tt (length vals) name ++ (open ++ btoks ++ close) ++ TPunct 59 :: post) ->
  piece LStart (lit "std::array<" ++ type ++ lit ", ") LStart tt -> small (length vals) -> wordy name -> name <> [] ->
  parse_init (open ++ btoks ++ close) = Some rest -> elements rest = Some vals -> local_array s (Direct true) type name vals.
Proof.
  intros H T Hn Hw Hne P E. exists [], (const_decl tt (length vals) name), (open ++ btoks ++ close), post, rest.
  split; [exact H|]. split; [apply lex_const; assumption|]. split; assumption.
Qed.
Lemma single_elements l : (forall h, l <> [IList [] h]) -> elements (IList [] l) = Some l.
Proof.
  intros V. cbn [elements]. destruct l as [|v [|v2 r]]; [reflexivity| |destruct v as [?|[|? ?] ?]; reflexivity].
  destruct v as [ts|[|t h] l]; try reflexivity. exfalso. exact (V l eq_refl).
Qed.
Definition type_of_width (b : N) (type : str) : Prop := (b = 8 /\ type = lit "uint8_t") \/ (b = 16 /\ type = lit "uint16_t").
Lemma stage_local b type name block l : type_of_width b type -> wordy name -> name <> [] -> few l -> Forall (fun x => x < 2 ^ b) l ->
  local_array (stage_text type name block l) (Direct true) type name (map (fun x => IExpr [wd x]) l) /\ all_some (unsigned b) (map (fun x => IExpr [wd x]) l) = Some l.
Proof.
  intros Ht Hw Hne Hs Hl. destruct (size_wordy _ Hs) as [Zw Zn].
  assert (L64 : Forall (fun x => x < 2 ^ 64) l).
  { eapply Forall_impl; [|exact Hl]. intros x Hx. eapply N.lt_trans; [exact Hx|]. destruct Ht as [[-> _]|[-> _]]; reflexivity. }
  split.
  - assert (T : exists tt, piece LStart (lit "std::array<" ++ type ++ lit ", ") LStart tt) by (destruct Ht as [[_ ->]|[_ ->]]; eexists; lits).
    destruct T as [tt T].
    apply (const_local _ type tt name [TPunct 123] (num_toks l) [TPunct 125] _ (IList [] (map (fun x => IExpr [wd x]) l)) []).
    + rewrite map_length. unfold stage_text.
      assert (A : piece (LWord (fmt_d (N.of_nat (length l)))) (lit "> const ") LStart [TWord (numeral (length l)); TPunct 62; TWord (lit "const")]) by (rewrite (fmt_numeral _ Hs); lits).
      assert (B : piece (LWord name) (lit " {") LStart [TWord name; TPunct 123]) by lits.
      assert (C : piece LStart (nl ++ lit "};" ++ nl ++ nl) LStart [TPunct 125; TPunct 59]) by lits.
      assert (D : piece LStart (stage_cells block 0 l) LStart (num_toks l)) by (apply cells_piece; [exact Hs|exact L64]).
      eapply piece_eq; [exact (piece_app _ _ _ _ _ _ _ T (piece_app _ _ _ _ _ _ _ (piece_word0 _ Zw Zn) (piece_app _ _ _ _ _ _ _ A (piece_app _ _ _ _ _ _ _ (piece_word0 _ Hw Hne)
        (piece_app _ _ _ _ _ _ _ B (piece_app _ _ _ _ _ _ _ D C))))))| |].
      * rewrite <- ?app_assoc. reflexivity.
      * unfold const_decl. rewrite <- ?app_assoc. cbn [app]. rewrite <- ?app_assoc. cbn [app]. reflexivity.
    + exact T.
    + rewrite map_length. exact Hs.
    + exact Hw.
    + exact Hne.
    + unfold parse_init. cbn [app parse_run parse_step]. rewrite num_parse. reflexivity.
    + apply single_elements. intros h E. destruct l as [|x [|y r]]; discriminate E.
  - rewrite <- (map_id l) at 2. apply all_some_map. apply Forall_forall. intros x Hx. rewrite Forall_forall in Hl, L64. apply unsigned_dec; [apply Hl, Hx|apply L64, Hx].
Qed.
(** lines in double braces *)
Lemma lines_local {A} (line : A -> str) etoks val (ok : A -> Prop) (l : list A) type tt name head :
  (forall x, ok x -> piece LStart (line x) LStart (etoks x ++ [TPunct 44])) ->
  (forall x, ok x -> forall S, exists c, parse_run (S, CNone) (etoks x) = Some (S, c) /\ (c = CDone (val x) \/ exists ts, c = CToks ts 0 /\ val x = IExpr ts)) ->
  Forall ok l -> small (length l) -> wordy name -> name <> [] -> piece LStart (lit "std::array<" ++ type ++ lit ", ") LStart tt ->
  piece LStart (head) LStart (const_decl tt (length l) name ++ [TPunct 123; TPunct 123]) ->
  local_array (head ++ flat_map line l ++ lit "}};" ++ nl ++ nl) (Direct true) type name (map val l).
Proof.
  intros HL HV Hl Hs Hw Hne T H.
  apply (const_local _ type tt name [TPunct 123; TPunct 123] (line_toks etoks l) [TPunct 125; TPunct 125] _ (IList [] [IList [] (map val l)]) []).
  - rewrite map_length. assert (C : piece LStart (lit "}};" ++ nl ++ nl) LStart [TPunct 125; TPunct 125; TPunct 59]) by lits.
    eapply piece_eq; [exact (piece_app _ _ _ _ _ _ _ H (piece_app _ _ _ _ _ _ _ (lines_piece line etoks ok HL l Hl) C))|reflexivity|].
    rewrite <- ?app_assoc. cbn [app]. rewrite <- ?app_assoc. reflexivity.
  - exact T.
  - rewrite map_length. exact Hs.
  - exact Hw.
  - exact Hne.
  - unfold parse_init. cbn [app parse_run parse_step]. rewrite (lines_parse etoks val ok HV l [] [] [([], [])] _ Hl). reflexivity.
  - reflexivity.
Qed.

(** ** Records *)
Definition en (type name : str) : list tok := enum_toks [TWord type] name.
Definition rec_toks (r : orec) : list tok :=
  [TPunct 123; wd (o_width r); TPunct 44; TWord (flags_text (o_flags r)); TPunct 44; TWord (flags_text (o_flags2 r)); TPunct 44]
  ++ en (lit "Script") (o_script r) ++ [TPunct 44] ++ en (lit "Grapheme_Cluster_Break") (o_gcb r) ++ [TPunct 44] ++ en (lit "East_Asian_Width") (o_eaw r) ++ [TPunct 44]
  ++ en (lit "General_Category") (o_gc r) ++ [TPunct 44] ++ en (lit "EmojiSegmentationCategory") (o_esc r) ++ [TPunct 44] ++ en (lit "Age") (o_age r) ++ [TPunct 44]
  ++ en (lit "Indic_Conjunct_Break") (o_incb r) ++ [TPunct 44] ++ en (lit "Word_Break") (o_wb r) ++ [TPunct 125].
Definition rec_val (r : orec) : init :=
  IList [] [IExpr [wd (o_width r)]; IExpr [TWord (flags_text (o_flags r))]; IExpr [TWord (flags_text (o_flags2 r))];
    IExpr (en (lit "Script") (o_script r)); IExpr (en (lit "Grapheme_Cluster_Break") (o_gcb r)); IExpr (en (lit "East_Asian_Width") (o_eaw r));
    IExpr (en (lit "General_Category") (o_gc r)); IExpr (en (lit "EmojiSegmentationCategory") (o_esc r)); IExpr (en (lit "Age") (o_age r));
    IExpr (en (lit "Indic_Conjunct_Break") (o_incb r)); IExpr (en (lit "Word_Break") (o_wb r))].
Lemma record_piece r : record_ok r -> piece LStart (record_line r) LStart (rec_toks r ++ [TPunct 44]).
Proof.
  intros (Hw & Hf & Hf2 & H).
  assert (H64 : o_width r < 2 ^ 64) by (eapply N.lt_trans; [exact Hw|reflexivity]). destruct (fmt_d_wordy _ H64) as [Ww Wn].
  destruct (flags_ok _ Hf) as (_ & F1 & F2). destruct (flags_ok _ Hf2) as (_ & G1 & G2).
  pose proof (Forall_inv H) as [S1 S2]. apply Forall_inv_tail in H. pose proof (Forall_inv H) as [A1 A2]. apply Forall_inv_tail in H. pose proof (Forall_inv H) as [B1 B2]. apply Forall_inv_tail in H.
  pose proof (Forall_inv H) as [C1 C2]. apply Forall_inv_tail in H. pose proof (Forall_inv H) as [D1 D2]. apply Forall_inv_tail in H. pose proof (Forall_inv H) as [E1 E2]. apply Forall_inv_tail in H.
  pose proof (Forall_inv H) as [I1 I2]. apply Forall_inv_tail in H. pose proof (Forall_inv H) as [J1 J2]. clear H.
  change (wordy (o_script r)) in S2. change (wordy (o_gcb r)) in A2. change (wordy (o_eaw r)) in B2. change (wordy (o_gc r)) in C2. change (wordy (o_esc r)) in D2.
  change (wordy (o_age r)) in E2. change (wordy (o_incb r)) in I2. change (wordy (o_wb r)) in J2.
  unfold record_line. eapply piece_toks; [pc|reflexivity].
Qed.
Lemma record_parse r S : parse_run (S, CNone) (rec_toks r) = Some (S, CDone (rec_val r)).
Proof. reflexivity. Qed.
Lemma record_value r : record_ok r -> read_record (rec_val r) = Some r.
Proof.
  intros (Hw & Hf & Hf2 & _). destruct (flags_ok _ Hf) as (F & _). destruct (flags_ok _ Hf2) as (G & _).
  assert (U : unsigned 8 (IExpr [wd (o_width r)]) = Some (o_width r)) by (apply unsigned_dec; [exact Hw|eapply N.lt_trans; [exact Hw|reflexivity]]).
  assert (U1 : unsigned 8 (IExpr [TWord (flags_text (o_flags r))]) = Some (o_flags r)) by (cbn [unsigned]; rewrite F; apply N.ltb_lt in Hf; rewrite Hf; reflexivity).
  assert (U2 : unsigned 8 (IExpr [TWord (flags_text (o_flags2 r))]) = Some (o_flags2 r)) by (cbn [unsigned]; rewrite G; apply N.ltb_lt in Hf2; rewrite Hf2; reflexivity).
  unfold read_record, rec_val. rewrite U, U1, U2. unfold en.
  rewrite !enum_read by reflexivity. destruct r; reflexivity.
Qed.
Lemma props_local recs : Forall record_ok recs -> few recs ->
  local_array (props_text recs) (Direct true) (lit "codepoint_properties") (lit "properties") (map rec_val recs) /\ all_some read_record (map rec_val recs) = Some recs.
Proof.
  intros H Hs. split.
  - assert (E : props_text recs = (lit "std::array<codepoint_properties, " ++ fmt_d (N.of_nat (length recs)) ++ lit "> const properties{{" ++ nl) ++ flat_map record_line recs ++ lit "}};" ++ nl ++ nl).
    { unfold props_text. rewrite <- ?app_assoc. reflexivity. }
    rewrite E. destruct (size_wordy _ Hs) as [Zw Zn].
    apply (lines_local record_line rec_toks rec_val record_ok recs (lit "codepoint_properties") (toks_of (lit "std::array<codepoint_properties, ")) (lit "properties")).
    + exact record_piece.
    + intros x _ S. exists (CDone (rec_val x)). split; [apply record_parse|left; reflexivity].
    + exact H.
    + exact Hs.
    + wlit.
    + discriminate.
    + lits.
    + eapply piece_toks; [pc|]. rewrite (fmt_numeral _ Hs). reflexivity.
  - rewrite <- (map_id recs) at 2. apply all_some_map. eapply Forall_impl; [|exact H]. exact record_value.
Qed.

(** ** Names *)
Definition name_toks (s : str) : list tok := [TStr s; TWord (lit "sv")].
Lemma name_piece s : text_ok s -> piece LStart (name_line s) LStart (name_toks s ++ [TPunct 44]).
Proof.
  intros H. unfold name_line.
  assert (A : piece LStart (lit "    """) (LStr []) []) by lits.
  assert (B : forall v, piece (LStr v) (lit """sv," ++ nl) LStart [TStr v; TWord (lit "sv"); TPunct 44]) by (intros v; lits).
  eapply piece_eq; [exact (piece_app _ _ _ _ _ _ _ A (piece_app _ _ _ _ _ _ _ (piece_string [] _ H) (B s)))|reflexivity|reflexivity].
Qed.
Lemma names_local names : Forall text_ok names -> few names ->
  local_array (names_text names) (Direct true) (lit "std::string_view") (lit "names_stage3") (map (fun s => IExpr (name_toks s)) names) /\
  all_some string_view (map (fun s => IExpr (name_toks s)) names) = Some names.
Proof.
  intros H Hs. split.
  - assert (E : names_text names = (lit "std::array<std::string_view, " ++ fmt_d (N.of_nat (length names)) ++ lit "> const names_stage3{{" ++ nl) ++ flat_map name_line names ++ lit "}};" ++ nl ++ nl).
    { unfold names_text. rewrite <- ?app_assoc. reflexivity. }
    rewrite E. destruct (size_wordy _ Hs) as [Zw Zn].
    apply (lines_local name_line name_toks (fun s => IExpr (name_toks s)) text_ok names (lit "std::string_view") (toks_of (lit "std::array<std::string_view, ")) (lit "names_stage3")).
    + exact name_piece.
    + intros x _ S. exists (CToks (name_toks x) 0). split; [reflexivity|right; exists (name_toks x); split; reflexivity].
    + exact H.
    + exact Hs.
    + wlit.
    + discriminate.
    + lits.
    + eapply piece_toks; [pc|]. rewrite (fmt_numeral _ Hs). reflexivity.
  - rewrite <- (map_id names) at 2. apply all_some_map. apply Forall_forall. intros s _. reflexivity.
Qed.
