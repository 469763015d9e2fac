(** C132: the compiler reads in the generated sources the multistage tables the generator computed. *)
From Coq Require Import String Lia.
From Verif Require Import Base M_TableGen M_PropGen M_UcdApi Spec_Cpp Spec_Emit Spec_EmitUcd Spec_EmitMs M_Emit M_EmitUcd M_EmitMs P_TableGen P_Emit
  P_Emit2 P_Emit3 P_Emit4 P_EmitUcd P_EmitUcd2 P_EmitUcd3 P_EmitUcd4 P_EmitMs T_Emit.
Open Scope N_scope.

Definition ms_fits (m : ms_src) : Prop :=
  bytes_ok (m_s1 m) /\ words_ok (m_s2 m) /\ (few (m_recs m) /\ Forall record_ok (m_recs m)) /\
  bytes_ok (m_n1 m) /\ words_ok (m_n2 m) /\ (few (m_names m) /\ Forall text_ok (m_names m)).
(** C132, the property *)
Definition C132_statement : Prop :=
  forall parts m header impl names, parts <> [] -> Forall identifier parts -> ms_files (qualified parts) m = Some (header, impl, names) -> ms_fits m ->
    ms_denotes (qualified parts) header impl names (m_s1 m) (m_s2 m) (m_recs m) (m_n1 m) (m_n2 m) (m_names m).

(** ** The types *)
Lemma max_ge l : forall a, a <= fold_left N.max l a /\ forall x, In x l -> x <= fold_left N.max l a.
Proof.
  induction l as [|y r IH]; intros a; cbn [fold_left]; [split; [lia|intros x []]|]. destruct (IH (N.max a y)) as [A B]. split; [lia|].
  intros x [<-|H]; [lia|apply B, H].
Qed.
Lemma max_lt l b : forall a, a < b -> Forall (fun x => x < b) l -> fold_left N.max l a < b.
Proof. induction l as [|y r IH]; intros a Ha H; [exact Ha|]. cbn [fold_left]. apply IH; [pose proof (Forall_inv H) as Y; cbv beta in Y; lia|exact (Forall_inv_tail H)]. Qed.
Lemma byte_type l : l <> [] -> Forall (fun x => x < 2 ^ 8) l -> minimum_type l = Some (lit "uint8_t").
Proof.
  destruct l as [|x r]; [congruence|]. intros _ H. cbn [minimum_type]. pose proof (max_lt r (2 ^ 8) x (Forall_inv H) (Forall_inv_tail H)) as M.
  destruct (N.leb_spec (fold_left N.max r x) 0xFF) as [|C]; [reflexivity|]. change (2 ^ 8) with 256 in M. lia.
Qed.
Lemma word_type l x : In x l -> 255 < x -> Forall (fun x => x < 2 ^ 16) l -> minimum_type l = Some (lit "uint16_t").
Proof.
  destruct l as [|y r]; [intros []|]. intros Hx Hb H. cbn [minimum_type]. pose proof (max_lt r (2 ^ 16) y (Forall_inv H) (Forall_inv_tail H)) as M.
  destruct (max_ge r y) as [A B].
  assert (L : x <= fold_left N.max r y) by (destruct Hx as [<-|Hx]; [exact A|apply B, Hx]).
  destruct (N.leb_spec (fold_left N.max r y) 0xFF) as [C|C]; [lia|].
  destruct (N.leb_spec (fold_left N.max r y) 0xFFFF) as [|D]; [reflexivity|]. change (2 ^ 16) with 65536 in M. lia.
Qed.

(** ** The namespace *)
Lemma qualified_piece parts : parts <> [] -> Forall identifier parts -> exists v ts, piece LStart (qualified parts) (LWord v) ts.
Proof.
  induction parts as [|x r IH]; [congruence|]. intros _ H. pose proof (Forall_inv H) as [Xn Xw].
  destruct r as [|y r]; [exists x, []; apply piece_word0; assumption|].
  destruct (IH ltac:(discriminate) (Forall_inv_tail H)) as (v & ts & P). exists v. eexists.
  change (qualified (x :: y :: r)) with (x ++ lit "::" ++ qualified (y :: r)).
  assert (A : piece (LWord x) (lit "::") LStart [TWord x; TPunct 58; TPunct 58]) by lits.
  exact (piece_app _ _ _ _ _ _ _ (piece_word0 _ Xw Xn) (piece_app _ _ _ _ _ _ _ A P)).
Qed.
Lemma qualified_chars parts : Forall identifier parts -> Forall (fun c => word_char c = true \/ c = 58) (qualified parts).
Proof.
  induction parts as [|x r IH]; intros H; [constructor|]. pose proof (Forall_inv H) as [Xn Xw].
  assert (X : Forall (fun c => word_char c = true \/ c = 58) x) by (eapply Forall_impl; [|exact Xw]; intros c Hc; left; exact Hc).
  destruct r as [|y r]; [exact X|]. change (qualified (x :: y :: r)) with (x ++ lit "::" ++ qualified (y :: r)).
  apply Forall_app. split; [exact X|]. apply Forall_app. split; [|apply IH, (Forall_inv_tail H)]. repeat constructor; right; reflexivity.
Qed.
Lemma qualified_quiet parts : Forall identifier parts -> quiet (qualified parts).
Proof.
  intros H. pose proof (qualified_chars parts H) as C. split.
  - eapply Forall_impl; [|exact C]. intros c [Hc|Hc] E; rewrite E in Hc; discriminate Hc.
  - intros L. destruct (qualified parts) as [|a r] eqn:E; [discriminate L|]. rewrite <- E in *. assert (N0 : qualified parts <> []) by (rewrite E; discriminate).
    destruct (exists_last N0) as (l & x & X). rewrite X in L, C. rewrite last_last in L. apply Forall_app in C. destruct C as [_ C]. apply Forall_inv in C. subst x.
    destruct C as [C|C]; discriminate C.
Qed.
Section ns.
  Variable ns : str.
  Hypothesis Hns : exists v ts, piece LStart ns (LWord v) ts.
  Hypothesis Hq : quiet ns.
  Lemma open_text : holds_text (open_namespace ns) (lit "namespace " ++ ns ++ lit "{").
  Proof.
    destruct Hns as (v & ts & P). unfold open_namespace.
    assert (A : piece LStart (lit "namespace ") LStart [TWord (lit "namespace")]) by lits.
    assert (B : piece (LWord v) (nl ++ lit "{" ++ nl ++ nl) LStart [TWord v; TPunct 123]) by lits.
    assert (C : piece (LWord v) (lit "{") LStart [TWord v; TPunct 123]) by lits.
    eapply holds_self; [exact (piece_app _ _ _ _ _ _ _ A (piece_app _ _ _ _ _ _ _ P B))|exact (piece_app _ _ _ _ _ _ _ A (piece_app _ _ _ _ _ _ _ P C))].
  Qed.
  Lemma close_sound : sound (close_namespace ns).
  Proof. eexists. unfold close_namespace. pc. Qed.
End ns.
Lemma extern_text n tt type name : piece LStart (lit "std::array<" ++ type ++ lit ", ") LStart tt -> wordy name -> name <> [] -> small n ->
  holds_text (extern_line type name (N.of_nat n)) (lit "extern std::array<" ++ type ++ lit ", " ++ numeral n ++ lit "> const " ++ name ++ lit ";").
Proof.
  intros T Hw Hne Hs. unfold extern_line. rewrite (fmt_numeral _ Hs). destruct (numeral_wordy n Hs) as [Nw Nn].
  assert (A : piece LStart (lit "extern ") LStart [TWord (lit "extern")]) by lits.
  assert (B : piece (LWord (numeral n)) (lit "> const ") LStart [TWord (numeral n); TPunct 62; TWord (lit "const")]) by lits.
  assert (C : piece (LWord name) (lit ";" ++ nl) LStart [TWord name; TPunct 59]) by lits.
  assert (D : piece (LWord name) (lit ";") LStart [TWord name; TPunct 59]) by lits.
  change (lit "extern std::array<") with (lit "extern " ++ lit "std::array<"). rewrite <- !app_assoc.
  pose proof (piece_app _ _ _ _ _ _ _ A (piece_app _ _ _ _ _ _ _ T (piece_app _ _ _ _ _ _ _ (piece_word0 _ Nw Nn) (piece_app _ _ _ _ _ _ _ B
    (piece_app _ _ _ _ _ _ _ (piece_word0 _ Hw Hne) C))))) as X.
  pose proof (piece_app _ _ _ _ _ _ _ A (piece_app _ _ _ _ _ _ _ T (piece_app _ _ _ _ _ _ _ (piece_word0 _ Nw Nn) (piece_app _ _ _ _ _ _ _ B
    (piece_app _ _ _ _ _ _ _ (piece_word0 _ Hw Hne) D))))) as Y.
  eapply holds_self.
  - eapply piece_eq; [exact X|rewrite <- !app_assoc; reflexivity|reflexivity].
  - eapply piece_eq; [exact Y|rewrite <- !app_assoc; reflexivity|reflexivity].
Qed.
Lemma h_head_s : sound ms_header_head. Proof. eexists; lits. Qed.
Lemma i_head_s : sound ms_impl_head. Proof. eexists; lits. Qed.
Lemma n_head_s : sound ms_names_head. Proof. eexists; lits. Qed.
Definition t8 : str := lit "uint8_t".
Definition t16 : str := lit "uint16_t".
Definition header_parts (ns : str) (m : ms_src) : list str :=
  [ms_header_head; open_namespace ns; extern_line t8 (lit "stage1") (N.of_nat (length (m_s1 m))); extern_line t16 (lit "stage2") (N.of_nat (length (m_s2 m)));
   extern_line (lit "codepoint_properties") (lit "properties") (N.of_nat (length (m_recs m))); extern_line t8 (lit "names_stage1") (N.of_nat (length (m_n1 m)));
   extern_line t16 (lit "names_stage2") (N.of_nat (length (m_n2 m))); extern_line (lit "std::string_view") (lit "names_stage3") (N.of_nat (length (m_names m))); nl; close_namespace ns].
Definition impl_parts (ns : str) (m : ms_src) : list str :=
  [ms_impl_head; open_namespace ns; stage_text t8 (lit "stage1") false (m_s1 m); stage_text t16 (lit "stage2") true (m_s2 m); props_text (m_recs m); close_namespace ns].
Definition names_parts (ns : str) (m : ms_src) : list str :=
  [ms_names_head; open_namespace ns; stage_text t8 (lit "names_stage1") false (m_n1 m); stage_text t16 (lit "names_stage2") true (m_n2 m); names_text (m_names m); close_namespace ns].
Lemma files_eq ns m x y : bytes_ok (m_s1 m) -> words_ok (m_s2 m) -> bytes_ok (m_n1 m) -> words_ok (m_n2 m) -> In x (m_s2 m) -> 255 < x -> In y (m_n2 m) -> 255 < y ->
  ms_files ns m = Some (concat (header_parts ns m), concat (impl_parts ns m), concat (names_parts ns m)).
Proof.
  intros (A1 & _ & A2) (_ & _ & B2) (C1 & _ & C2) (_ & _ & D2) Hx Hx' Hy Hy'. unfold ms_files, write_stage.
  rewrite (byte_type _ A1 A2), (word_type _ _ Hx Hx' B2), (byte_type _ C1 C2), (word_type _ _ Hy Hy' D2).
  unfold header_parts, impl_parts, names_parts, t8, t16. cbn [concat]. rewrite !app_nil_r. reflexivity.
Qed.

Section texts.
  Variables (ns : str) (m : ms_src) (header impl names : str).
  Hypothesis Hns : exists v ts, piece LStart ns (LWord v) ts.
  Hypothesis Hq : quiet ns.
  Hypothesis F : ms_fits m.
  Hypothesis Hh : header = concat (header_parts ns m).
  Hypothesis Hi : impl = concat (impl_parts ns m).
  Hypothesis Hn : names = concat (names_parts ns m).
  Lemma x_s1 : holds_text (extern_line t8 (lit "stage1") (N.of_nat (length (m_s1 m)))) (lit "extern std::array<" ++ lit "uint8_t" ++ lit ", " ++ numeral (length (m_s1 m)) ++ lit "> const " ++ lit "stage1" ++ lit ";").
  Proof. destruct F as ((_ & S & _) & _). eapply extern_text; [lits|wlit|discriminate|exact S]. Qed.
  Lemma x_s2 : holds_text (extern_line t16 (lit "stage2") (N.of_nat (length (m_s2 m)))) (lit "extern std::array<" ++ lit "uint16_t" ++ lit ", " ++ numeral (length (m_s2 m)) ++ lit "> const " ++ lit "stage2" ++ lit ";").
  Proof. destruct F as (_ & (_ & S & _) & _). eapply extern_text; [lits|wlit|discriminate|exact S]. Qed.
  Lemma x_recs : holds_text (extern_line (lit "codepoint_properties") (lit "properties") (N.of_nat (length (m_recs m))))
    (lit "extern std::array<" ++ lit "codepoint_properties" ++ lit ", " ++ numeral (length (m_recs m)) ++ lit "> const " ++ lit "properties" ++ lit ";").
  Proof. destruct F as (_ & _ & (S & _) & _). eapply extern_text; [lits|wlit|discriminate|exact S]. Qed.
  Lemma x_n1 : holds_text (extern_line t8 (lit "names_stage1") (N.of_nat (length (m_n1 m)))) (lit "extern std::array<" ++ lit "uint8_t" ++ lit ", " ++ numeral (length (m_n1 m)) ++ lit "> const " ++ lit "names_stage1" ++ lit ";").
  Proof. destruct F as (_ & _ & _ & (_ & S & _) & _). eapply extern_text; [lits|wlit|discriminate|exact S]. Qed.
  Lemma x_n2 : holds_text (extern_line t16 (lit "names_stage2") (N.of_nat (length (m_n2 m)))) (lit "extern std::array<" ++ lit "uint16_t" ++ lit ", " ++ numeral (length (m_n2 m)) ++ lit "> const " ++ lit "names_stage2" ++ lit ";").
  Proof. destruct F as (_ & _ & _ & _ & (_ & S & _) & _). eapply extern_text; [lits|wlit|discriminate|exact S]. Qed.
  Lemma x_names : holds_text (extern_line (lit "std::string_view") (lit "names_stage3") (N.of_nat (length (m_names m))))
    (lit "extern std::array<" ++ lit "std::string_view" ++ lit ", " ++ numeral (length (m_names m)) ++ lit "> const " ++ lit "names_stage3" ++ lit ";").
  Proof. destruct F as (_ & _ & _ & _ & _ & (S & _)). eapply extern_text; [lits|wlit|discriminate|exact S]. Qed.
  Lemma l_s1 : local_array (stage_text t8 (lit "stage1") false (m_s1 m)) (Direct true) t8 (lit "stage1") (map (fun x => IExpr [wd x]) (m_s1 m)) /\
    all_some (unsigned 8) (map (fun x => IExpr [wd x]) (m_s1 m)) = Some (m_s1 m).
  Proof. destruct F as ((_ & S & V) & _). apply stage_local; [left; split; reflexivity|wlit|discriminate|exact S|exact V]. Qed.
  Lemma l_s2 : local_array (stage_text t16 (lit "stage2") true (m_s2 m)) (Direct true) t16 (lit "stage2") (map (fun x => IExpr [wd x]) (m_s2 m)) /\
    all_some (unsigned 16) (map (fun x => IExpr [wd x]) (m_s2 m)) = Some (m_s2 m).
  Proof. destruct F as (_ & (_ & S & V) & _). apply stage_local; [right; split; reflexivity|wlit|discriminate|exact S|exact V]. Qed.
  Lemma l_n1 : local_array (stage_text t8 (lit "names_stage1") false (m_n1 m)) (Direct true) t8 (lit "names_stage1") (map (fun x => IExpr [wd x]) (m_n1 m)) /\
    all_some (unsigned 8) (map (fun x => IExpr [wd x]) (m_n1 m)) = Some (m_n1 m).
  Proof. destruct F as (_ & _ & _ & (_ & S & V) & _). apply stage_local; [left; split; reflexivity|wlit|discriminate|exact S|exact V]. Qed.
  Lemma l_n2 : local_array (stage_text t16 (lit "names_stage2") true (m_n2 m)) (Direct true) t16 (lit "names_stage2") (map (fun x => IExpr [wd x]) (m_n2 m)) /\
    all_some (unsigned 16) (map (fun x => IExpr [wd x]) (m_n2 m)) = Some (m_n2 m).
  Proof. destruct F as (_ & _ & _ & _ & (_ & S & V) & _). apply stage_local; [right; split; reflexivity|wlit|discriminate|exact S|exact V]. Qed.
  Lemma l_recs : local_array (props_text (m_recs m)) (Direct true) (lit "codepoint_properties") (lit "properties") (map rec_val (m_recs m)) /\
    all_some read_record (map rec_val (m_recs m)) = Some (m_recs m).
  Proof. destruct F as (_ & _ & (S & V) & _). apply props_local; assumption. Qed.
  Lemma l_names : local_array (names_text (m_names m)) (Direct true) (lit "std::string_view") (lit "names_stage3") (map (fun s => IExpr (name_toks s)) (m_names m)) /\
    all_some string_view (map (fun s => IExpr (name_toks s)) (m_names m)) = Some (m_names m).
  Proof. destruct F as (_ & _ & _ & _ & _ & (S & V)). apply names_local; assumption. Qed.
  Let O := open_text ns Hns.
  Let C := close_sound ns Hq.
  Lemma header_sound : Forall sound (header_parts ns m).
  Proof.
    unfold header_parts. exact (Forall_cons _ h_head_s (Forall_cons _ (holds_sound _ _ O) (Forall_cons _ (holds_sound _ _ x_s1) (Forall_cons _ (holds_sound _ _ x_s2)
      (Forall_cons _ (holds_sound _ _ x_recs) (Forall_cons _ (holds_sound _ _ x_n1) (Forall_cons _ (holds_sound _ _ x_n2) (Forall_cons _ (holds_sound _ _ x_names)
      (Forall_cons _ nl_sound (Forall_cons _ C (Forall_nil _))))))))))).
  Qed.
  Lemma impl_sound : Forall sound (impl_parts ns m).
  Proof.
    unfold impl_parts. exact (Forall_cons _ i_head_s (Forall_cons _ (holds_sound _ _ O) (Forall_cons _ (local_sound _ _ _ _ _ (proj1 l_s1)) (Forall_cons _ (local_sound _ _ _ _ _ (proj1 l_s2))
      (Forall_cons _ (local_sound _ _ _ _ _ (proj1 l_recs)) (Forall_cons _ C (Forall_nil _))))))).
  Qed.
  Lemma names_sound : Forall sound (names_parts ns m).
  Proof.
    unfold names_parts. exact (Forall_cons _ n_head_s (Forall_cons _ (holds_sound _ _ O) (Forall_cons _ (local_sound _ _ _ _ _ (proj1 l_n1)) (Forall_cons _ (local_sound _ _ _ _ _ (proj1 l_n2))
      (Forall_cons _ (local_sound _ _ _ _ _ (proj1 l_names)) (Forall_cons _ C (Forall_nil _))))))).
  Qed.
  Ltac here := unfold header_parts, impl_parts, names_parts; repeat first [apply in_eq | apply in_cons].
  Let HT := file_text (header_parts ns m) header header_sound Hh.
  Let IT := file_text (impl_parts ns m) impl impl_sound Hi.
  Let NT := file_text (names_parts ns m) names names_sound Hn.
  Lemma texts_denote : ms_denotes ns header impl names (m_s1 m) (m_s2 m) (m_recs m) (m_n1 m) (m_n2 m) (m_names m).
  Proof.
    split; [|split].
    - split; [|split]; [eapply HT|eapply IT|eapply NT]; [|exact O| |exact O| |exact O]; here.
    - split; [|split]; (split; [eapply (file_table (impl_parts ns m) impl impl_sound Hi)|eapply HT]).
      + shelve. + exact (proj1 l_s1). + exact (proj2 l_s1). + shelve. + exact x_s1.
      + shelve. + exact (proj1 l_s2). + exact (proj2 l_s2). + shelve. + exact x_s2.
      + shelve. + exact (proj1 l_recs). + exact (proj2 l_recs). + shelve. + exact x_recs.
      Unshelve. all: here.
    - split; [|split]; (split; [eapply (file_table (names_parts ns m) names names_sound Hn)|eapply HT]).
      + shelve. + exact (proj1 l_n1). + exact (proj2 l_n1). + shelve. + exact x_n1.
      + shelve. + exact (proj1 l_n2). + exact (proj2 l_n2). + shelve. + exact x_n2.
      + shelve. + exact (proj1 l_names). + exact (proj2 l_names). + shelve. + exact x_names.
      Unshelve. all: here.
  Qed.
End texts.

(** C132.  If some code point needs a record, and some a name, of index 256 or more. *)
Theorem C132_text_denotes_partial parts m header impl names x y : parts <> [] -> Forall identifier parts ->
  ms_files (qualified parts) m = Some (header, impl, names) -> ms_fits m -> In x (m_s2 m) -> 255 < x -> In y (m_n2 m) -> 255 < y ->
  ms_denotes (qualified parts) header impl names (m_s1 m) (m_s2 m) (m_recs m) (m_n1 m) (m_n2 m) (m_names m).
Proof.
  intros Hp Hid E F Hx Hx' Hy Hy'. pose proof F as (F1 & F2 & _ & F4 & F5 & _).
  rewrite (files_eq (qualified parts) m x y F1 F2 F4 F5 Hx Hx' Hy Hy') in E.
  pose proof (f_equal (option_map (fun p => fst (fst p))) E) as E1. pose proof (f_equal (option_map (fun p => snd (fst p))) E) as E2. pose proof (f_equal (option_map snd) E) as E3. clear E.
  cbn [option_map fst snd] in E1, E2, E3.
  exact (texts_denote (qualified parts) m header impl names (qualified_piece parts Hp Hid) (qualified_quiet parts Hid) F
    (f_equal (fun o => match o with Some v => v | None => header end) (eq_sym E1)) (f_equal (fun o => match o with Some v => v | None => impl end) (eq_sym E2))
    (f_equal (fun o => match o with Some v => v | None => names end) (eq_sym E3))).
Qed.
Print Assumptions C132_text_denotes_partial.

Lemma ident_c s : (match s with [] => false | _ => forallb word_char s end) = true -> identifier s.
Proof. destruct s as [|c r]; [discriminate|]. intros H. split; [discriminate|]. apply Forall_forall. apply forallb_forall. exact H. Qed.
Ltac ident := apply ident_c; vm_compute; reflexivity.
Ltac idents := repeat first [apply Forall_nil | apply Forall_cons; [ident|]].
Ltac text_oks := repeat first [apply Forall_nil | apply Forall_cons; [split; [discriminate|split; discriminate]|]].
Ltac byteoks := split; [discriminate|split; [vm_compute; reflexivity|repeat first [apply Forall_nil | apply Forall_cons; [vm_compute; reflexivity|]]]].
(** C132. The property fails when fewer than 257 records suffice: stage2 is printed as an array of uint8_t, which the uint16_t const* of
    tables_view cannot point to: the generated sources do not compile. *)
Definition plain_rec : orec := mkO 1 0 0 (lit "Latin") (lit "Other") (lit "Neutral") (lit "Lowercase_Letter") (lit "Invalid") (lit "V1_1") (lit "None_") (lit "ALetter").
Definition star_rec : orec := mkO 2 5 1 (lit "Common") (lit "Other") (lit "Wide") (lit "Other_Symbol") (lit "EmojiEmojiPresentation") (lit "V6_0") (lit "None_") (lit "Other").
Definition small_ms : ms_src := mkMs [0] [0; 0] [plain_rec] [0] [0; 0] [lit "LATIN SMALL LETTER A"].
Definition ns_parts : list str := [lit "unicode"; lit "precompiled"].
Lemma ns_ok : Forall identifier ns_parts. Proof. unfold ns_parts. idents. Qed.
Lemma plain_ok : record_ok plain_rec.
Proof. split; [reflexivity|split; [reflexivity|split; [reflexivity|]]]. cbn [plain_rec o_script o_gcb o_eaw o_gc o_esc o_age o_incb o_wb]. idents. Qed.
Lemma star_ok : record_ok star_rec.
Proof. split; [reflexivity|split; [reflexivity|split; [reflexivity|]]]. cbn [star_rec o_script o_gcb o_eaw o_gc o_esc o_age o_incb o_wb]. idents. Qed.
Lemma small_fits : ms_fits small_ms.
Proof.
  unfold ms_fits, small_ms. cbn [m_s1 m_s2 m_recs m_n1 m_n2 m_names].
  split; [byteoks|]. split; [byteoks|]. split; [split; [vm_compute; reflexivity|exact (Forall_cons _ plain_ok (Forall_nil _))]|].
  split; [byteoks|]. split; [byteoks|]. split; [vm_compute; reflexivity|]. apply Forall_cons; [|constructor]. unfold text_ok. cbn [lit]. text_oks.
Qed.
Definition has_word (w : str) (ts : list tok) : bool := existsb (fun t => match t with TWord v => str_eqb v w | _ => false end) ts.
Lemma has_word_app w a b : has_word w (a ++ b) = has_word w a || has_word w b. Proof. apply existsb_app. Qed.
Theorem C132_few_records_refuted : ~ C132_statement.
Proof.
  intros H. destruct (ms_files (qualified ns_parts) small_ms) as [[[h i] n]|] eqn:E; [|discriminate E].
  pose proof (H ns_parts small_ms h i n ltac:(discriminate) ns_ok E small_fits) as X. clear H.
  destruct X as (_ & (_ & (X & _) & _) & _). destruct X as (vals & (pre & decl & body & post & ini & L & D & _) & V).
  assert (Lv : length vals = 2%nat).
  { change (m_s2 small_ms) with [0; 0] in V. destruct vals as [|v1 [|v2 [|v3 vs]]]; cbn [all_some] in V.
    - discriminate V. - destruct (unsigned 16 v1); discriminate V. - reflexivity.
    - destruct (unsigned 16 v1); [|discriminate V]. destruct (unsigned 16 v2); [|discriminate V]. destruct (unsigned 16 v3); [|discriminate V].
      destruct (all_some (unsigned 16) vs); discriminate V. }
  rewrite Lv in D.
  assert (W : has_word (lit "uint16_t") decl = true).
  { assert (Q : option_map (has_word (lit "uint16_t")) (lex (array_decl (Direct true) (lit "uint16_t") (lit "stage2") 2)) = Some true) by (vm_compute; reflexivity).
    rewrite D in Q. cbn [option_map] in Q. congruence. }
  assert (Q : option_map (fun p => option_map (has_word (lit "uint16_t")) (lex (snd (fst p)))) (ms_files (qualified ns_parts) small_ms) = Some (Some false)) by (vm_compute; reflexivity).
  rewrite E in Q. cbn [option_map fst snd] in Q. rewrite L in Q. cbn [option_map] in Q. rewrite !has_word_app, W in Q. cbn [orb] in Q.
  destruct (has_word (lit "uint16_t") pre); discriminate Q.
Qed.
Print Assumptions C132_few_records_refuted.

(** The hypotheses of C132_text_denotes_partial are met. *)
Definition demo_ms : ms_src :=
  mkMs [0; 1; 1] [0; 300; 1] [plain_rec; star_rec] [0; 0; 7] [256; 0] [lit "LATIN SMALL LETTER A"; lit "<control>"; []; lit "MASK // WORK"].
Lemma demo_ms_fits : ms_fits demo_ms.
Proof.
  unfold ms_fits, demo_ms. cbn [m_s1 m_s2 m_recs m_n1 m_n2 m_names].
  split; [byteoks|]. split; [byteoks|]. split; [split; [vm_compute; reflexivity|exact (Forall_cons _ plain_ok (Forall_cons _ star_ok (Forall_nil _)))]|].
  split; [byteoks|]. split; [byteoks|]. split; [vm_compute; reflexivity|].
  assert (T : forall s, forallb (fun c => negb (c =? 34) && negb (c =? 10) && negb (c =? 92)) s = true -> text_ok s).
  { intros s H. apply Forall_forall. intros c Hc. apply forallb_forall with (x := c) in H; [|exact Hc]. apply andb_true_iff in H. destruct H as [H H3].
    apply andb_true_iff in H. destruct H as [H1 H2]. apply negb_true_iff in H1, H2, H3. apply N.eqb_neq in H1, H2, H3. split; [|split]; assumption. }
  repeat first [apply Forall_nil | apply Forall_cons; [apply T; vm_compute; reflexivity|]].
Qed.
Example C132_demo : exists header impl names, ms_files (lit "unicode::precompiled") demo_ms = Some (header, impl, names) /\
  ms_denotes (lit "unicode::precompiled") header impl names [0; 1; 1] [0; 300; 1] [plain_rec; star_rec] [0; 0; 7] [256; 0]
    [lit "LATIN SMALL LETTER A"; lit "<control>"; []; lit "MASK // WORK"].
Proof.
  destruct (ms_files (lit "unicode::precompiled") demo_ms) as [[[h i] n]|] eqn:E; [|discriminate E]. exists h, i, n. split; [reflexivity|].
  refine (C132_text_denotes_partial ns_parts demo_ms h i n 300 256 _ ns_ok E demo_ms_fits _ _ _ _); [discriminate|right; left; reflexivity|reflexivity|left; reflexivity|reflexivity].
Qed.
(** How a record looks. *)
Example C132_record : record_line star_rec = lit "    {2, 0b00000101, 0b00000001, Script::Common, Grapheme_Cluster_Break::Other, East_Asian_Width::Wide, General_Category::Other_Symbol, EmojiSegmentationCategory::EmojiEmojiPresentation, Age::V6_0, Indic_Conjunct_Break::None_, Word_Break::Other},"
  ++ [10].
Proof. vm_compute. reflexivity. Qed.
