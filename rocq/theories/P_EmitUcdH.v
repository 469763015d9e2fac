(** Reading back the text of ucd.h. *)
From Coq Require Import String Lia.
From Verif Require Import Base M_TableGen M_PropGen M_UcdApi Spec_Cpp Spec_EmitUcd Spec_EmitMs Spec_EmitUcdH M_Emit M_EmitUcd M_EmitUcdH
  P_Emit P_Emit2 P_Emit3 P_Emit4 P_EmitUcd P_EmitUcd2 P_EmitUcd4 P_EmitMs P_EmitEnums.
Open Scope N_scope.

Lemma lower_down s : lower s = map down s. Proof. reflexivity. Qed.
Lemma lower_ident n : identifier n -> identifier (map down n).
Proof. intros [A B]. rewrite <- lower_down. split; [apply lower_ne, A|apply lower_wordy, B]. Qed.
(** "TYPE name(char32_t codepoint) noexcept" and what follows *)
Definition sig_toks (type name : str) (ts : list tok) : list tok :=
  [TWord type; TWord name; TPunct 40; TWord (lit "char32_t"); TWord (lit "codepoint"); TPunct 41; TWord (lit "noexcept")] ++ ts.
Lemma sig_piece type p name e rest ts : identifier type -> identifier (p ++ name) -> 
  (forall v, piece (LWord v) rest LStart (TWord v :: TPunct 40 :: e ++ ts)) -> piece LStart (type ++ lit " " ++ (p ++ name) ++ rest) LStart (TWord type :: TWord (p ++ name) :: TPunct 40 :: e ++ ts).
Proof.
  intros [Tn Tw] [Nn Nw] P. assert (A : forall v, piece (LWord v) (lit " ") LStart [TWord v]) by (intros v; lits).
  eapply piece_eq; [exact (piece_app _ _ _ _ _ _ _ (piece_word0 _ Tw Tn) (piece_app _ _ _ _ _ _ _ (A _) (piece_app _ _ _ _ _ _ _ (piece_word0 _ Nw Nn) (P _))))|reflexivity|reflexivity].
Qed.
Definition par_toks : list tok := [TWord (lit "char32_t"); TWord (lit "codepoint"); TPunct 41; TWord (lit "noexcept")].
(** a declaration with its newline holds the signature *)
Lemma lookup_decl type name : identifier type -> identifier name ->
  holds_text (type ++ lit " " ++ name ++ lit "(char32_t codepoint) noexcept;" ++ nl) (lookup_sig type name ++ lit ";").
Proof.
  intros Ht Hn. unfold lookup_sig.
  eapply (holds_self _ _ (TWord type :: TWord name :: TPunct 40 :: par_toks ++ [TPunct 59])).
  - apply (sig_piece type [] name par_toks); [exact Ht|exact Hn|intros v; lits].
  - pose proof (sig_piece type [] name par_toks (lit "(char32_t codepoint) noexcept;") [TPunct 59] Ht Hn ltac:(intros v; lits)) as X.
    eapply piece_eq; [exact X| |reflexivity]. cbn [app]. rewrite <- ?app_assoc. reflexivity.
Qed.
Lemma break_holds n : identifier n -> holds_text (break_decl n) (lookup_sig n (map down n) ++ lit ";").
Proof. intros H. unfold break_decl. rewrite lower_down. apply lookup_decl; [exact H|apply lower_ident, H]. Qed.
Lemma emoji_holds n : identifier n -> holds_text (emoji_decl n) (lookup_sig (lit "bool") (lit "is_" ++ map down n) ++ lit ";").
Proof.
  intros H. unfold emoji_decl. rewrite lower_down. destruct (lower_ident n H) as [A B].
  assert (X : identifier (lit "is_" ++ map down n)). { split; [discriminate|]. apply Forall_app. split; [wlit|exact B]. }
  pose proof (lookup_decl (lit "bool") (lit "is_" ++ map down n) ltac:(split; [discriminate|wlit]) X) as Y.
  change (lit "bool is_") with (lit "bool" ++ lit " " ++ lit "is_"). rewrite <- ?app_assoc in Y. rewrite <- ?app_assoc. exact Y.
Qed.

(** ** The helpers of the general categories *)
Definition helper_toks (n : str) : list tok :=
  [TWord (lit "inline"); TWord (lit "bool"); TWord (lit "is_" ++ map down n); TPunct 40] ++ par_toks ++
  [TPunct 123; TWord (lit "return"); TWord (lit "contains"); TPunct 40; TWord (lit "General_Category"); TPunct 58; TPunct 58; TWord n; TPunct 44; TWord (lit "codepoint"); TPunct 41; TPunct 59; TPunct 125].
Lemma helper_gen n a b c d : identifier n -> piece LStart a (LWord (lit "is_")) [TWord (lit "inline"); TWord (lit "bool")] ->
  (forall v, piece (LWord v) b LStart (TWord v :: TPunct 40 :: par_toks ++ [TPunct 123])) ->
  piece LStart c LStart [TWord (lit "return"); TWord (lit "contains"); TPunct 40; TWord (lit "General_Category"); TPunct 58; TPunct 58] ->
  (forall v, piece (LWord v) d LStart [TWord v; TPunct 44; TWord (lit "codepoint"); TPunct 41; TPunct 59; TPunct 125]) ->
  piece LStart (a ++ map down n ++ b ++ c ++ n ++ d) LStart (helper_toks n).
Proof.
  intros H A B C D. destruct (lower_ident n H) as [Ln Lw]. destruct H as [Nn Nw].
  eapply piece_eq; [exact (piece_app _ _ _ _ _ _ _ A (piece_app _ _ _ _ _ _ _ (piece_word _ _ Lw) (piece_app _ _ _ _ _ _ _ (B _) (piece_app _ _ _ _ _ _ _ C
    (piece_app _ _ _ _ _ _ _ (piece_word0 _ Nw Nn) (D _))))))|reflexivity|reflexivity].
Qed.
Lemma helper_model n : identifier n -> piece LStart (is_helper n) LStart (helper_toks n).
Proof.
  intros H. unfold is_helper. rewrite lower_down.
  pose proof (helper_gen n (lit "    inline bool is_") (lit "(char32_t codepoint) noexcept" ++ nl ++ lit "    {" ++ nl) (lit "        return contains(General_Category::")
    (lit ", codepoint);" ++ nl ++ lit "    }" ++ nl ++ nl) H ltac:(lits) ltac:(intros v; lits) ltac:(lits) ltac:(intros v; lits)) as X.
  rewrite <- ?app_assoc in X. exact X.
Qed.
Lemma helper_spec n : identifier n ->
  piece LStart (lit "inline bool is_" ++ map down n ++ lit "(char32_t codepoint) noexcept { return contains(General_Category::" ++ n ++ lit ", codepoint); } ") LStart (helper_toks n).
Proof.
  intros H.
  pose proof (helper_gen n (lit "inline bool is_") (lit "(char32_t codepoint) noexcept { ") (lit "return contains(General_Category::")
    (lit ", codepoint); } ") H ltac:(lits) ltac:(intros v; lits) ltac:(lits) ltac:(intros v; lits)) as X.
  change (lit "(char32_t codepoint) noexcept { return contains(General_Category::") with (lit "(char32_t codepoint) noexcept { " ++ lit "return contains(General_Category::").
  rewrite <- ?app_assoc. exact X.
Qed.
Definition get_toks : list tok := [TWord (lit "General_Category"); TWord (lit "get"); TPunct 40; TWord (lit "char32_t"); TWord (lit "value"); TPunct 41; TWord (lit "noexcept"); TPunct 59].
Definition ns_toks : list tok := [TWord (lit "namespace"); TWord (lit "general_category"); TPunct 123].
Section helpers.
  Variable cats : list str.
  Hypothesis H : Forall identifier cats.
  Lemma helpers_piece : piece LStart (h_helpers cats) LStart ((ns_toks ++ get_toks) ++ flat_map helper_toks cats ++ [TPunct 125]).
  Proof.
    unfold h_helpers.
    assert (A : piece LStart (lit "// Disabling clang-format to avoid single-line folding implementations." ++ nl ++ lit "// clang-format off" ++ nl
      ++ lit "namespace general_category" ++ nl ++ lit "{" ++ nl ++ lit "    General_Category get(char32_t value) noexcept;" ++ nl ++ nl) LStart (ns_toks ++ get_toks)) by lits.
    assert (B : piece LStart (lit "} // namespace general_category" ++ nl ++ lit "// clang-format on" ++ nl ++ nl) LStart [TPunct 125]) by lits.
    assert (C : piece LStart (flat_map is_helper cats) LStart (flat_map helper_toks cats)).
    { apply flat_piece. intros n Hn. rewrite Forall_forall in H. apply helper_model, H, Hn. }
    eapply piece_eq; [exact (piece_app _ _ _ _ _ _ _ A (piece_app _ _ _ _ _ _ _ C B))|rewrite <- ?app_assoc; reflexivity|reflexivity].
  Qed.
  Lemma helpers_holds : holds_text (h_helpers cats) (category_helpers cats).
  Proof.
    eapply holds_self; [exact helpers_piece|]. unfold category_helpers.
    assert (A : piece LStart (lit "namespace general_category { General_Category get(char32_t value) noexcept; ") LStart (ns_toks ++ get_toks)) by lits.
    assert (B : piece LStart (lit "}") LStart [TPunct 125]) by lits.
    assert (C : piece LStart (flat_map (fun n => lit "inline bool is_" ++ map down n ++ lit "(char32_t codepoint) noexcept { return contains(General_Category::" ++ n ++ lit ", codepoint); } ") cats)
      LStart (flat_map helper_toks cats)).
    { apply (flat_piece (fun n => lit "inline bool is_" ++ map down n ++ lit "(char32_t codepoint) noexcept { return contains(General_Category::" ++ n ++ lit ", codepoint); } ")).
      intros n Hn. rewrite Forall_forall in H. apply helper_spec, H, Hn. }
    exact (piece_app _ _ _ _ _ _ _ A (piece_app _ _ _ _ _ _ _ C B)).
  Qed.
  Lemma get_holds : holds_text (h_helpers cats) (lit "General_Category get(char32_t value) noexcept;").
  Proof.
    exists ns_toks, get_toks, (flat_map helper_toks cats ++ [TPunct 125]). split; [|vm_compute; reflexivity].
    eapply piece_eq; [exact helpers_piece|reflexivity|rewrite <- app_assoc; reflexivity].
  Qed.
End helpers.

(** ** The fixed parts *)
Ltac fixed := eapply holds_self; lits.
Lemma open_holds : holds_text h_open (lit "namespace unicode {"). Proof. fixed. Qed.
Lemma plane_holds : holds_text h_plane (lookup_sig (lit "Plane") (lit "plane") ++ lit ";"). Proof. fixed. Qed.
Lemma core_holds : holds_text h_core (lit "bool contains(Core_Property prop, char32_t codepoint) noexcept" ++ lit ";"). Proof. fixed. Qed.
Lemma gc_holds : holds_text h_gc (lit "bool contains(General_Category generalCategory, char32_t codepoint) noexcept" ++ lit ";"). Proof. fixed. Qed.
Lemma script_holds : holds_text h_script (lookup_sig (lit "Script") (lit "script") ++ lit ";"). Proof. fixed. Qed.
Lemma sce_holds : holds_text h_sce (lit "std::optional<std::span<Script const>> script_extensions(char32_t codepoint) noexcept" ++ lit ";"). Proof. fixed. Qed.
Lemma block_holds : holds_text h_block (lookup_sig (lit "Block") (lit "block") ++ lit ";"). Proof. fixed. Qed.
(** the rest of the section hides in [pre] and [post] *)
Lemma holds_mid s t pre ts post : piece LStart s LStart (pre ++ ts ++ post) -> piece LStart t LStart ts -> holds_text s t.
Proof. intros A B. exists pre, ts, post. split; [exact A|apply piece_lex, B]. Qed.
Definition width_fun : str := lit "EastAsianWidth east_asian_width(char32_t codepoint) noexcept;".
Lemma widths_to_string : holds_text h_widths (width_to_string the_widths).
Proof. eapply (holds_mid _ _ [] (toks_of (width_to_string the_widths)) (toks_of width_fun)); lits. Qed.
Lemma widths_holds : holds_text h_widths (lookup_sig (lit "EastAsianWidth") (lit "east_asian_width") ++ lit ";").
Proof. eapply (holds_mid _ _ (toks_of (width_to_string the_widths)) (toks_of width_fun) []); lits. Qed.
Definition nd : list tok := toks_of (lit "[[nodiscard]]").
Definition mir : str := lit "bool is_mirrored(char32_t codepoint) noexcept;".
Definition gly : str := lit "char32_t bidi_mirroring_glyph(char32_t codepoint) noexcept;".
Lemma mirrored_holds : holds_text h_bidi (lookup_sig (lit "bool") (lit "is_mirrored") ++ lit ";").
Proof. eapply (holds_mid _ _ nd (toks_of mir) (nd ++ toks_of gly)); lits. Qed.
Lemma glyph_holds : holds_text h_bidi (lookup_sig (lit "char32_t") (lit "bidi_mirroring_glyph") ++ lit ";").
Proof. eapply (holds_mid _ _ (nd ++ toks_of mir ++ nd) (toks_of gly) []); lits. Qed.
Lemma age_holds : holds_text h_age (lit "std::optional<Age> make_age(std::string_view value) noexcept" ++ lit ";").
Proof. eapply (holds_mid _ _ nd (toks_of (lit "std::optional<Age> make_age(std::string_view value) noexcept;")) []); lits. Qed.
Lemma header_sound : sound h_header. Proof. eexists. lits. Qed.
Lemma hend_sound : sound (lit "} // namespace unicode" ++ nl). Proof. eexists. lits. Qed.
Lemma lex_run_none : forall a b st st1 ta, lex_run st a = Some (st1, ta) -> lex_run st1 b = None -> lex_run st (a ++ b) = None.
Proof.
  induction a as [|c r IH]; intros b st st1 ta A B; cbn [lex_run app] in *; [injection A as -> _; exact B|].
  destruct (lex_step st c) as [[st' t1]|]; [|discriminate A]. destruct (lex_run st' r) as [[st2 t2]|] eqn:E; [|discriminate A]. cbn [after] in A. injection A as -> _.
  rewrite (IH b st' st1 t2 E B). reflexivity.
Qed.
(** text that begins another text *)
Lemma contains_prefix file a b ta : contains_text file (a ++ b) -> piece LStart a LStart ta -> contains_text file a.
Proof.
  intros (pre & ts & post & L & T) A. destruct A as [An Ar]. assert (LA : lex a = Some ta) by (unfold lex; rewrite Ar; reflexivity).
  assert (X : exists tb, ts = ta ++ tb).
  { unfold lex in T. rewrite (splice_app _ _ An) in T. destruct (lex_run LStart (splice b)) as [[st tb]|] eqn:B.
    - rewrite (lex_run_app _ _ _ _ _ _ _ Ar B) in T. destruct st; try discriminate T; injection T as <-; rewrite <- ?app_assoc; eauto.
    - rewrite (lex_run_none _ _ _ _ _ Ar B) in T. discriminate T. }
  destruct X as (tb & ->). exists pre, ta, (tb ++ post). split; [rewrite L, <- ?app_assoc; reflexivity|exact LA].
Qed.
