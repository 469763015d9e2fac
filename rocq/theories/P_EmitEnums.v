(** Reading back the text of ucd_enums.h, ucd_ostream.h and ucd_fmt.h. *)
From Coq Require Import String Lia.
From Verif Require Import Base M_TableGen M_PropGen M_UcdApi M_Enums Spec_UcdApi Spec_Cpp Spec_Emit Spec_EmitUcd Spec_EmitMs Spec_EmitEnums M_Emit M_EmitEnums
  P_Emit P_Emit2 P_Emit3 P_Emit4 P_EmitUcd P_EmitUcd2 P_EmitUcd4 P_EmitMs.
Open Scope N_scope.

(** ** enum class *)
Definition etor_toks (x : str * N) : list tok := [TWord (fst x); TPunct 61; wd (snd x)].
Definition etor_val (x : str * N) : init := IExpr (etor_toks x).
Definition etor_ok (x : str * N) : Prop := Spec_EmitUcd.identifier (fst x) /\ snd x < 2 ^ 64.
Lemma etor_piece x : etor_ok x -> piece LStart (enumerator_line x) LStart (etor_toks x ++ [TPunct 44]).
Proof.
  intros [[Xn Xw] H]. unfold enumerator_line, etor_toks, wd. destruct (fmt_d_wordy _ H) as [Vw Vn].
  assert (A : piece LStart (lit "    ") LStart []) by lits.
  assert (B : forall v, piece (LWord v) (lit " = ") LStart [TWord v; TPunct 61]) by (intros v; lits).
  assert (C : forall v, piece (LWord v) (lit "," ++ nl) LStart [TWord v; TPunct 44]) by (intros v; lits).
  eapply piece_eq; [exact (piece_app _ _ _ _ _ _ _ A (piece_app _ _ _ _ _ _ _ (piece_word0 _ Xw Xn) (piece_app _ _ _ _ _ _ _ (B _)
    (piece_app _ _ _ _ _ _ _ (piece_word0 _ Vw Vn) (C _)))))|reflexivity|reflexivity].
Qed.
Lemma etor_read x : etor_ok x -> enumerator_def (etor_val x) = Some (id x).
Proof. intros [_ H]. unfold etor_val, etor_toks, wd. cbn [enumerator_def]. rewrite (fmt_d_val _ H). destruct x; reflexivity. Qed.
Definition width_ok (b : N) : Prop := In b [8; 16; 32; 64].
Lemma width_name b : width_ok b -> uint_name b = uint_type b /\ exists w, wordy w /\ w <> [] /\ uint_name b = w.
Proof. intros [<-|[<-|[<-|[<-|[]]]]]; (split; [vm_compute; reflexivity|eexists; split; [|split; [|reflexivity]]; [vm_compute; wlit|discriminate]]). Qed.
Definition enum_head (name : str) (b : N) : list tok := [TWord (lit "enum"); TWord (lit "class"); TWord name; TPunct 58; TWord (uint_type b)].
Lemma head_tokens name b post ts : Spec_EmitUcd.identifier name -> width_ok b -> (forall v, piece (LWord v) post LStart (TWord v :: ts)) ->
  piece LStart (lit "enum class " ++ name ++ lit ": " ++ uint_type b ++ post) LStart (enum_head name b ++ ts).
Proof.
  intros [Nn Nw] Hb P. destruct (width_name b Hb) as (E & w & Ww & Wn & E2). rewrite E in E2. rewrite <- E2 in Ww, Wn.
  assert (A : piece LStart (lit "enum class ") LStart [TWord (lit "enum"); TWord (lit "class")]) by lits.
  assert (B : forall v, piece (LWord v) (lit ": ") LStart [TWord v; TPunct 58]) by (intros v; lits).
  eapply piece_eq; [exact (piece_app _ _ _ _ _ _ _ A (piece_app _ _ _ _ _ _ _ (piece_word0 _ Nw Nn) (piece_app _ _ _ _ _ _ _ (B _)
    (piece_app _ _ _ _ _ _ _ (piece_word0 _ Ww Wn) (P _)))))|reflexivity|reflexivity].
Qed.
Lemma head_lex name b : Spec_EmitUcd.identifier name -> width_ok b -> lex (lit "enum class " ++ name ++ lit ": " ++ uint_type b) = Some (enum_head name b).
Proof.
  intros [Nn Nw] Hb. destruct (width_name b Hb) as (E & w & Ww & Wn & E2). rewrite E in E2. rewrite <- E2 in Ww, Wn.
  assert (A : piece LStart (lit "enum class ") LStart [TWord (lit "enum"); TWord (lit "class")]) by lits.
  assert (B : forall v, piece (LWord v) (lit ": ") LStart [TWord v; TPunct 58]) by (intros v; lits).
  pose proof (piece_app _ _ _ _ _ _ _ A (piece_app _ _ _ _ _ _ _ (piece_word0 _ Nw Nn) (piece_app _ _ _ _ _ _ _ (B _) (piece_word0 _ Ww Wn)))) as [_ R].
  unfold lex. rewrite R. reflexivity.
Qed.
(** one section of ucd_enums.h defines an enumeration *)
Definition local_enum (s name : str) (bits : N) (vals : list (str * N)) : Prop :=
  exists pre head body post l,
    piece LStart s LStart (pre ++ head ++ body ++ TPunct 59 :: post) /\ lex (lit "enum class " ++ name ++ lit ": " ++ uint_type bits) = Some head /\
    parse_init body = Some (IList [] l) /\ all_some enumerator_def l = Some vals /\ Forall (fun v => snd v < 2 ^ bits) vals.
Lemma local_enum_in a s b name bits vals : sound a -> local_enum s name bits vals -> sound b -> defines_enum (a ++ s ++ b) name bits vals.
Proof.
  intros [x X] (pre & head & body & post & l & H & D & P & E & V) [y Y].
  exists (x ++ pre), head, body, (post ++ y), l. split; [|split; [exact D|split; [exact P|split; [exact E|exact V]]]].
  rewrite (piece_lex _ _ (piece_app _ _ _ _ _ _ _ X (piece_app _ _ _ _ _ _ _ H Y))). f_equal. rewrite <- !app_assoc. cbn [app]. rewrite <- ?app_assoc. reflexivity.
Qed.
Lemma local_enum_sound s n b v : local_enum s n b v -> sound s.
Proof. intros (pre & h & body & post & l & H & _). eexists. exact H. Qed.
Lemma class_local e : Spec_EmitUcd.identifier (e_name e) -> width_ok (e_bits e) -> Forall etor_ok (declared e) ->
  Forall (fun v => snd v < 2 ^ e_bits e) (declared e) -> local_enum (enum_class e) (e_name e) (e_bits e) (declared e).
Proof.
  intros Hn Hb Hd Hv.
  exists [], (enum_head (e_name e) (e_bits e)), (TPunct 123 :: line_toks etor_toks (declared e) ++ [TPunct 125]), [], (map etor_val (declared e)).
  split; [|split; [apply head_lex; assumption|split; [|split; [|exact Hv]]]].
  - unfold enum_class. rewrite (proj1 (width_name _ Hb)).
    assert (A : piece LStart (lit "enum class " ++ e_name e ++ lit ": " ++ uint_type (e_bits e) ++ nl ++ lit "{" ++ nl) LStart (enum_head (e_name e) (e_bits e) ++ [TPunct 123])).
    { apply head_tokens; [exact Hn|exact Hb|intros v; lits]. }
    assert (C : piece LStart (lit "};" ++ nl ++ nl) LStart [TPunct 125; TPunct 59]) by lits.
    eapply piece_eq; [exact (piece_app _ _ _ _ _ _ _ A (piece_app _ _ _ _ _ _ _ (lines_piece _ _ _ etor_piece _ Hd) C))| |].
    + rewrite <- ?app_assoc. reflexivity.
    + rewrite <- ?app_assoc. cbn [app]. rewrite <- ?app_assoc. reflexivity.
  - unfold parse_init. cbn [parse_run parse_step].
    rewrite (lines_parse etor_toks etor_val etor_ok); [reflexivity| |exact Hd].
    intros x _ S'. exists (CToks (etor_toks x) 0). split; [reflexivity|]. right. exists (etor_toks x). split; reflexivity.
  - rewrite <- (map_id (declared e)) at 2. apply (all_some_map enumerator_def etor_val). eapply Forall_impl; [|exact Hd]. exact etor_read.
Qed.

(** ** The cases of the switches *)
Definition case_ok (x : str * str) : Prop := Spec_EmitUcd.identifier (fst x) /\ text_ok (snd x).
Lemma flat_piece {A} (f : A -> str) (t : A -> list tok) l : (forall x, In x l -> piece LStart (f x) LStart (t x)) -> piece LStart (flat_map f l) LStart (flat_map t l).
Proof.
  induction l as [|x r IH]; intros H; [apply piece_nil|]. cbn [flat_map].
  apply (piece_app _ _ _ _ _ _ _ (H x (or_introl eq_refl))). apply IH. intros y Hy. apply H. right. exact Hy.
Qed.
Section switches.
  Variable name : str.
  Hypothesis Hn : Spec_EmitUcd.identifier name.
  (** PRE NAME::ID MID TEXT END *)
  Lemma case_piece pre tp mid tm fin tf x : case_ok x -> piece LStart pre LStart tp -> (forall v, piece (LWord v) mid (LStr []) (TWord v :: tm)) ->
    (forall v, piece (LStr v) fin LStart (TStr v :: tf)) ->
    piece LStart (pre ++ name ++ lit "::" ++ fst x ++ mid ++ snd x ++ fin) LStart (tp ++ [TWord name; TPunct 58; TPunct 58; TWord (fst x)] ++ tm ++ TStr (snd x) :: tf).
  Proof.
    intros [[Xn Xw] T] P M F. destruct Hn as [Nn Nw].
    assert (B : forall v, piece (LWord v) (lit "::") LStart [TWord v; TPunct 58; TPunct 58]) by (intros v; lits).
    eapply piece_eq; [exact (piece_app _ _ _ _ _ _ _ P (piece_app _ _ _ _ _ _ _ (piece_word0 _ Nw Nn) (piece_app _ _ _ _ _ _ _ (B _)
      (piece_app _ _ _ _ _ _ _ (piece_word0 _ Xw Xn) (piece_app _ _ _ _ _ _ _ (M _) (piece_app _ _ _ _ _ _ _ (piece_string [] _ T) (F _)))))))|reflexivity|reflexivity].
  Qed.
  Definition m_os : list tok := [TPunct 58; TWord (lit "return"); TWord (lit "os"); TPunct 60; TPunct 60].
  Definition m_fmt : list tok := [TPunct 58; TWord (lit "name"); TPunct 61].
  Definition os_toks (x : str * str) : list tok :=
    [TWord (lit "case")] ++ [TWord name; TPunct 58; TPunct 58; TWord (fst x)] ++ m_os ++ TStr (snd x) :: [TPunct 59].
  Definition fmt_toks (x : str * str) : list tok :=
    [TWord (lit "case"); TWord (lit "unicode"); TPunct 58; TPunct 58] ++ [TWord name; TPunct 58; TPunct 58; TWord (fst x)] ++ m_fmt ++ TStr (snd x) :: [TPunct 59; TWord (lit "break"); TPunct 59].
  Variable cases : list (str * str).
  Hypothesis Hc : Forall case_ok cases.
  Lemma os_lines : piece LStart (flat_map (ostream_case name) cases) LStart (flat_map os_toks cases).
  Proof.
    apply flat_piece. intros x Hx. rewrite Forall_forall in Hc. unfold ostream_case.
    change (lit """;" ++ nl) with ((lit """;") ++ nl). apply case_piece; [apply Hc, Hx|lits|intros v; lits|intros v; lits].
  Qed.
  Lemma os_spec : piece LStart (flat_map (fun c => lit "case " ++ name ++ lit "::" ++ fst c ++ lit ": return os << """ ++ snd c ++ lit """;") cases) LStart (flat_map os_toks cases).
  Proof.
    apply (flat_piece (fun c => lit "case " ++ name ++ lit "::" ++ fst c ++ lit ": return os << """ ++ snd c ++ lit """;")). intros x Hx. rewrite Forall_forall in Hc.
    apply case_piece; [apply Hc, Hx|lits|intros v; lits|intros v; lits].
  Qed.
  Lemma fmt_lines : piece LStart (flat_map (format_case name) cases) LStart (flat_map fmt_toks cases).
  Proof.
    apply flat_piece. intros x Hx. rewrite Forall_forall in Hc. unfold format_case. rewrite app_assoc.
    apply case_piece; [apply Hc, Hx|lits|intros v; lits|intros v; lits].
  Qed.
  Lemma fmt_spec : piece LStart (flat_map (fun c => lit "case unicode::" ++ name ++ lit "::" ++ fst c ++ lit ": name = """ ++ snd c ++ lit """; break;") cases) LStart (flat_map fmt_toks cases).
  Proof.
    apply (flat_piece (fun c => lit "case unicode::" ++ name ++ lit "::" ++ fst c ++ lit ": name = """ ++ snd c ++ lit """; break;")). intros x Hx. rewrite Forall_forall in Hc.
    apply case_piece; [apply Hc, Hx|lits|intros v; lits|intros v; lits].
  Qed.
  (** operator<< *)
  Lemma ostream_holds :
    holds_text (lit "inline std::ostream& operator<<(std::ostream& os, " ++ name ++ lit " value) noexcept" ++ nl ++ lit "{" ++ nl
      ++ lit "    // clang-format off" ++ nl ++ lit "    switch (value)" ++ nl ++ lit "    {" ++ nl
      ++ flat_map (ostream_case name) cases
      ++ lit "    }" ++ nl ++ lit "    // clang-format on" ++ nl ++ lit "    return os << ""("" << static_cast<unsigned>(value) << "")"";" ++ nl ++ lit "}" ++ nl ++ nl)
      (ostream_function name cases).
  Proof.
    destruct Hn as [Nn Nw]. unfold ostream_function.
    assert (A : piece LStart (lit "inline std::ostream& operator<<(std::ostream& os, ") LStart (toks_of (lit "inline std::ostream& operator<<(std::ostream& os, "))) by lits.
    assert (B : forall v, piece (LWord v) (lit " value) noexcept" ++ nl ++ lit "{" ++ nl ++ lit "    // clang-format off" ++ nl ++ lit "    switch (value)" ++ nl ++ lit "    {" ++ nl)
      LStart (TWord v :: toks_of (lit " value) noexcept { switch (value) {"))) by (intros v; lits).
    assert (B' : forall v, piece (LWord v) (lit " value) noexcept { switch (value) {") LStart (TWord v :: toks_of (lit " value) noexcept { switch (value) {"))) by (intros v; lits).
    assert (C : piece LStart (lit "    }" ++ nl ++ lit "    // clang-format on" ++ nl ++ lit "    return os << ""("" << static_cast<unsigned>(value) << "")"";" ++ nl ++ lit "}" ++ nl ++ nl)
      LStart (toks_of (lit "} return os << ""("" << static_cast<unsigned>(value) << "")""; }"))) by lits.
    assert (C' : piece LStart (lit "} return os << ""("" << static_cast<unsigned>(value) << "")""; }") LStart (toks_of (lit "} return os << ""("" << static_cast<unsigned>(value) << "")""; }"))) by lits.
    pose proof (piece_app _ _ _ _ _ _ _ A (piece_app _ _ _ _ _ _ _ (piece_word0 _ Nw Nn) (piece_app _ _ _ _ _ _ _ (B _) (piece_app _ _ _ _ _ _ _ os_lines C)))) as X.
    pose proof (piece_app _ _ _ _ _ _ _ A (piece_app _ _ _ _ _ _ _ (piece_word0 _ Nw Nn) (piece_app _ _ _ _ _ _ _ (B' _) (piece_app _ _ _ _ _ _ _ os_spec C')))) as Y.
    eapply holds_self; [eapply piece_eq; [exact X|rewrite <- ?app_assoc; reflexivity|reflexivity]|exact Y].
  Qed.
  (** std::formatter *)
  Definition fmt1 : str := lit "template <>" ++ nl ++ lit "struct std::formatter<" ++ lit "unicode::".
  Definition fmt2 : str := lit ">: std::formatter<std::string_view>" ++ nl ++ lit "{" ++ nl ++ lit "    auto format(" ++ lit "unicode::".
  Definition fmt3 : str := lit " value, auto& ctx) const" ++ nl
      ++ lit "    {" ++ nl ++ lit "        std::string_view name;" ++ nl ++ lit "        switch (value)" ++ nl ++ lit "        {" ++ nl
      ++ lit "            // clang-format off" ++ nl.
  Definition fmt4 : str := lit "            // clang-format off" ++ nl ++ lit "        }" ++ nl
      ++ lit "        return formatter<string_view>::format(name, ctx);" ++ nl ++ lit "    }" ++ nl ++ lit "};" ++ nl ++ nl.
  Lemma format_holds : holds_text (fmt1 ++ name ++ fmt2 ++ name ++ fmt3 ++ flat_map (format_case name) cases ++ fmt4) (formatter_class name cases).
  Proof.
    destruct Hn as [Nn Nw]. unfold formatter_class.
    set (t1 := toks_of (lit "template <> struct std::formatter<unicode::")).
    set (t2 := toks_of (lit ">: std::formatter<std::string_view> { auto format(unicode::")).
    set (t3 := toks_of (lit " value, auto& ctx) const { std::string_view name; switch (value) {")).
    set (t4 := toks_of (lit "} return formatter<string_view>::format(name, ctx); } };")).
    assert (A : piece LStart fmt1 LStart t1) by lits.
    assert (A' : piece LStart (lit "template <> struct std::formatter<unicode::") LStart t1) by lits.
    assert (B : forall v, piece (LWord v) fmt2 LStart (TWord v :: t2)) by (intros v; lits).
    assert (B' : forall v, piece (LWord v) (lit ">: std::formatter<std::string_view> { auto format(unicode::") LStart (TWord v :: t2)) by (intros v; lits).
    assert (C : forall v, piece (LWord v) fmt3 LStart (TWord v :: t3)) by (intros v; lits).
    assert (C' : forall v, piece (LWord v) (lit " value, auto& ctx) const { std::string_view name; switch (value) {") LStart (TWord v :: t3)) by (intros v; lits).
    assert (D : piece LStart fmt4 LStart t4) by lits.
    assert (D' : piece LStart (lit "} return formatter<string_view>::format(name, ctx); } };") LStart t4) by lits.
    pose proof (piece_app _ _ _ _ _ _ _ A (piece_app _ _ _ _ _ _ _ (piece_word0 _ Nw Nn) (piece_app _ _ _ _ _ _ _ (B _) (piece_app _ _ _ _ _ _ _ (piece_word0 _ Nw Nn)
      (piece_app _ _ _ _ _ _ _ (C _) (piece_app _ _ _ _ _ _ _ fmt_lines D)))))) as X.
    pose proof (piece_app _ _ _ _ _ _ _ A' (piece_app _ _ _ _ _ _ _ (piece_word0 _ Nw Nn) (piece_app _ _ _ _ _ _ _ (B' _) (piece_app _ _ _ _ _ _ _ (piece_word0 _ Nw Nn)
      (piece_app _ _ _ _ _ _ _ (C' _) (piece_app _ _ _ _ _ _ _ fmt_spec D')))))) as Y.
    eapply holds_self; [exact X|exact Y].
  Qed.
End switches.
Lemma format_text_eq e : enum_format_text e = fmt1 ++ e_name e ++ fmt2 ++ e_name e ++ fmt3 ++ flat_map (format_case (e_name e)) (switch_cases e) ++ fmt4.
Proof. unfold enum_format_text, fmt1, fmt2, fmt3, fmt4. rewrite <- ?app_assoc. reflexivity. Qed.
