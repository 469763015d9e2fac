(** ucd.cpp: a tactic that reads a printed text, and tables in the form "name = std::array<type, n>{...};". *)
From Coq Require Import String Lia.
From Verif Require Import Base M_TableGen M_PropGen M_UcdApi Spec_Cpp Spec_EmitUcd M_Emit M_EmitUcd P_TableGen P_Emit P_Emit2 P_Emit3 P_Emit4.
Open Scope N_scope.

(** ** After a word *)
Definition starts_sharp (s : str) : bool := match splice s with c :: _ => negb (word_char c) | [] => false end.
Lemma piece_after v s st ts : starts_sharp s = true -> piece LStart s st ts -> piece (LWord v) s st (TWord v :: ts).
Proof.
  intros H [L R]. split; [exact L|]. unfold starts_sharp in H. destruct (splice s) as [|c r]; [discriminate|].
  cbn [lex_run lex_step] in *. apply Bool.negb_true_iff in H. rewrite H.
  destruct (lex_start c) as [[st' t']|]; [|discriminate R]. cbn [after]. destruct (lex_run st' r) as [[st'' t'']|]; [|discriminate R].
  cbn [after] in *. injection R as -> <-. reflexivity.
Qed.
(** a literal that ends in a word, which goes on *)
Lemma piece_ext st a v ts b : piece st a (LWord v) ts -> wordy b -> piece st (a ++ b) (LWord (v ++ b)) ts.
Proof. intros A B. rewrite <- (app_nil_r ts). apply (piece_app _ _ _ _ _ _ _ A (piece_word v b B)). Qed.

Lemma fmt_digits_wordy f n : wordy (fmt_digits f 10 n).
Proof.
  revert n. induction f as [|f IH]; intros n; cbn [fmt_digits]; [constructor|]. destruct (N.ltb_spec n 10) as [L|L].
  - constructor; [apply (hexU_digit 10 n L); lia|constructor].
  - apply Forall_app. split; [apply IH|]. constructor; [apply (hexU_digit 10 (n mod 10)); [apply N.mod_lt; lia|lia]|constructor].
Qed.
Lemma size_wordy (n : nat) : small n -> wordy (fmt_d (N.of_nat n)) /\ fmt_d (N.of_nat n) <> [].
Proof. intros H. apply fmt_d_wordy, H. Qed.
Lemma X4_wordy n : u32 n -> wordy (fmt_X4 n). Proof. intros H. apply X4_val, H. Qed.
Lemma X4_ne n : u32 n -> fmt_X4 n <> []. Proof. intros H. apply X4_val, H. Qed.
Definition quiet (s : str) : Prop := one_line s /\ last s 0 <> 92.
Lemma quiet_piece s : quiet s -> piece LLine s LLine []. Proof. intros [A B]. apply piece_comment; assumption. Qed.
Lemma lower_word c : word_char c = true -> word_char (lower_char c) = true.
Proof.
  intros H. unfold lower_char. destruct (N.leb_spec 65 c) as [A|A]; [|exact H]. destruct (N.leb_spec c 90) as [B|B]; [|exact H].
  cbn [andb]. unfold word_char. rewrite !Bool.orb_true_iff, !Bool.andb_true_iff, !N.leb_le. left. right. split; lia.
Qed.
Lemma lower_wordy s : wordy s -> wordy (lower s).
Proof. intros H. unfold lower. apply Forall_map. eapply Forall_impl; [|exact H]. exact lower_word. Qed.
Lemma lower_ne s : s <> [] -> lower s <> []. Proof. destruct s; [congruence|discriminate]. Qed.
Lemma lower_down s : lower s = map down s. Proof. reflexivity. Qed.

(** ** Reading a text *)
Lemma piece_toks st s st' ts ts' : piece st s st' ts -> ts = ts' -> piece st s st' ts'.
Proof. intros H <-. exact H. Qed.
Ltac is_lit s := match s with lit _ => idtac | nl => idtac | fold_open => idtac | fold_close => idtac end.
Ltac pword := first [assumption | apply X4_wordy; assumption | apply fmt_digits_wordy | wlit | apply lower_wordy; assumption ].
Ltac pne := first [assumption | discriminate | apply X4_ne; assumption | apply fmt_d_wordy; assumption | apply lower_ne; assumption].
Ltac pc1 :=
  match goal with
  | |- piece LStart ?s _ _ => is_lit s; lits
  | |- piece LLine ?s _ _ => is_lit s; lits
  | |- piece (LWord ?v) ?s _ _ => is_lit s; first [ eapply piece_after; [vm_compute; reflexivity|lits] | apply piece_word; wlit ]
  | |- piece LLine _ _ _ => first [apply piece_comment_word; pword | apply quiet_piece; assumption]
  | |- piece LStart _ _ _ => apply piece_word0; [pword|pne]
  | |- piece (LWord _) _ _ _ => apply piece_word; pword
  end.
Ltac pc :=
  match goal with
  | |- piece _ (_ ++ _) _ _ => eapply piece_app; [pc|pc]
  | |- piece _ [] _ _ => apply piece_nil
  | |- _ => pc1
  end.

(** ** Lines, each ending in a comma *)
Section lines.
  Context {A : Type} (line : A -> str) (etoks : A -> list tok) (val : A -> init) (ok : A -> Prop).
  Hypothesis Hline : forall x, ok x -> piece LStart (line x) LStart (etoks x ++ [TPunct 44]).
  Hypothesis Hval : forall x, ok x -> forall S, exists c, parse_run (S, CNone) (etoks x) = Some (S, c) /\ (c = CDone (val x) \/ exists ts, c = CToks ts 0 /\ val x = IExpr ts).
  Definition line_toks (l : list A) : list tok := flat_map (fun x => etoks x ++ [TPunct 44]) l.
  Lemma lines_piece l : Forall ok l -> piece LStart (flat_map line l) LStart (line_toks l).
  Proof.
    induction l as [|x r IH]; intros H; [apply piece_nil|]. cbn [flat_map line_toks].
    apply (piece_app _ _ _ _ _ _ _ (Hline x (Forall_inv H)) (IH (Forall_inv_tail H))).
  Qed.
  Lemma lines_parse l h acc S rest : Forall ok l ->
    parse_run ((h, acc) :: S, CNone) (line_toks l ++ TPunct 125 :: rest) = parse_run (S, CDone (IList h (acc ++ map val l))) rest.
  Proof.
    revert acc. induction l as [|x r IH]; intros acc H.
    - cbn. rewrite app_nil_r. reflexivity.
    - unfold line_toks. cbn [flat_map map]. fold (line_toks r). rewrite <- !app_assoc.
      destruct (Hval x (Forall_inv H) ((h, acc) :: S)) as (c & E & Hc). rewrite (parse_app _ _ _ _ E).
      pose proof (IH (acc ++ [val x]) (Forall_inv_tail H)) as I. rewrite <- app_assoc in I.
      destruct Hc as [->|(ts & -> & Ev)]; cbn [app parse_run parse_step push_elem option_map]; [exact I|]. rewrite <- Ev. exact I.
  Qed.
End lines.

(** ** "NAME = std::array<TYPE, n>{" lines "};" *)
Lemma lex_assigned type tt n name : piece LStart (lit "std::array<" ++ type ++ lit ", ") LStart tt -> small n -> wordy name -> name <> [] ->
  lex (array_decl Assigned type name n) = Some (TWord name :: TPunct 61 :: tt ++ [TWord (numeral n); TPunct 62]).
Proof.
  intros T Hn Hw Hne. destruct (numeral_wordy n Hn) as [Nw Nn]. apply piece_lex. unfold array_decl.
  assert (X : piece LStart name (LWord name) []) by (apply piece_word0; assumption).
  assert (Y : piece (LWord name) (lit " = ") LStart [TWord name; TPunct 61]) by lits.
  assert (Z : piece LStart (numeral n ++ lit ">") LStart [TWord (numeral n); TPunct 62]).
  { change [TWord (numeral n); TPunct 62] with ([] ++ [TWord (numeral n); TPunct 62]).
    apply (piece_app _ _ (LWord (numeral n))); [apply piece_word0; assumption|lits]. }
  eapply piece_eq; [exact (piece_app _ _ _ _ _ _ _ X (piece_app _ _ _ _ _ _ _ Y (piece_app _ _ _ _ _ _ _ T Z)))| |].
  - change (lit " = std::array<") with (lit " = " ++ lit "std::array<"). rewrite <- !app_assoc. reflexivity.
  - reflexivity.
Qed.
Lemma assigned_local s pre type tt name btoks vals post :
  piece LStart s LStart (pre ++ (TWord name :: TPunct 61 :: tt ++ [TWord (numeral (length vals)); TPunct 62]) ++ (TPunct 123 :: btoks ++ [TPunct 125]) ++ TPunct 59 :: post) ->
  piece LStart (lit "std::array<" ++ type ++ lit ", ") LStart tt -> small (length vals) -> wordy name -> name <> [] ->
  (forall h acc S rest, parse_run ((h, acc) :: S, CNone) (btoks ++ TPunct 125 :: rest) = parse_run (S, CDone (IList h (acc ++ vals))) rest) ->
  (forall l, vals <> [IList [] l]) ->
  local_array s Assigned type name vals.
Proof.
  intros H T Hn Hw Hne P V. exists pre, (TWord name :: TPunct 61 :: tt ++ [TWord (numeral (length vals)); TPunct 62]), (TPunct 123 :: btoks ++ [TPunct 125]), post, (IList [] vals).
  split; [exact H|]. split; [apply lex_assigned; assumption|]. split.
  - unfold parse_init. cbn [app parse_run parse_step]. rewrite P. reflexivity.
  - cbn [elements]. destruct vals as [|v [|v2 r]]; [reflexivity| |destruct v as [?|[|? ?] ?]; reflexivity].
    destruct v as [ts|[|t h] l]; try reflexivity. exfalso. exact (V l eq_refl).
Qed.
(** "auto static const NAME = std::array<TYPE, n>{ // {{{" *)
Definition tab_toks (name : str) (tt : list tok) (n : nat) : list tok :=
  [TWord (lit "auto"); TWord (lit "static"); TWord (lit "const")] ++ (TWord name :: TPunct 61 :: tt ++ [TWord (numeral n); TPunct 62]) ++ [TPunct 123].
Lemma head_piece indent name type n tt : piece LStart indent LStart [] -> wordy name -> name <> [] -> small n ->
  piece LStart (lit "std::array<" ++ type ++ lit ", ") LStart tt -> piece LStart (table_head indent name type n) LStart (tab_toks name tt n).
Proof.
  intros I Hw Hne Hn T. unfold table_head. rewrite (fmt_numeral n Hn). destruct (numeral_wordy n Hn) as [Nw Nn].
  assert (A : piece LStart (lit "auto static const ") LStart [TWord (lit "auto"); TWord (lit "static"); TWord (lit "const")]) by lits.
  assert (X : piece LStart name (LWord name) []) by (apply piece_word0; assumption).
  assert (Y : piece (LWord name) (lit " = ") LStart [TWord name; TPunct 61]) by lits.
  assert (Z : piece LStart (numeral n) (LWord (numeral n)) []) by (apply piece_word0; assumption).
  assert (W : piece (LWord (numeral n)) (lit ">{ // " ++ fold_open ++ nl) LStart [TWord (numeral n); TPunct 62; TPunct 123]) by lits.
  eapply piece_eq; [exact (piece_app _ _ _ _ _ _ _ I (piece_app _ _ _ _ _ _ _ A (piece_app _ _ _ _ _ _ _ X (piece_app _ _ _ _ _ _ _ Y (piece_app _ _ _ _ _ _ _ T
    (piece_app _ _ _ _ _ _ _ Z W))))))| |].
  - change (lit " = std::array<") with (lit " = " ++ lit "std::array<"). rewrite <- !app_assoc. reflexivity.
  - unfold tab_toks. cbn [app]. rewrite <- !app_assoc. reflexivity.
Qed.
(** head, lines, end *)
Lemma tab_local {A} (line : A -> str) (etoks : A -> list tok) (val : A -> init) (ok : A -> Prop) (l : list A) indent name type tt close :
  (forall x, ok x -> piece LStart (line x) LStart (etoks x ++ [TPunct 44])) ->
  (forall x, ok x -> forall S, exists c, parse_run (S, CNone) (etoks x) = Some (S, c) /\ (c = CDone (val x) \/ exists ts, c = CToks ts 0 /\ val x = IExpr ts)) ->
  (forall x h, val x <> IList [] h) -> Forall ok l -> small (length l) ->
  piece LStart indent LStart [] -> wordy name -> name <> [] -> piece LStart (lit "std::array<" ++ type ++ lit ", ") LStart tt ->
  piece LStart close LStart [TPunct 125; TPunct 59] ->
  local_array (table_head indent name type (length l) ++ flat_map line l ++ close) Assigned type name (map val l).
Proof.
  intros HL HV HN Hl Hs I Hw Hne T C. eapply (assigned_local _ [TWord (lit "auto"); TWord (lit "static"); TWord (lit "const")] _ tt _ (line_toks etoks l) _ []).
  - rewrite map_length. eapply piece_eq; [exact (piece_app _ _ _ _ _ _ _ (head_piece indent name type (length l) tt I Hw Hne Hs T)
      (piece_app _ _ _ _ _ _ _ (lines_piece line etoks ok HL l Hl) C))|reflexivity|].
    unfold tab_toks. cbn [app]. rewrite <- ?app_assoc. cbn [app]. rewrite <- ?app_assoc. reflexivity.
  - exact T.
  - rewrite map_length. exact Hs.
  - exact Hw.
  - exact Hne.
  - intros h acc S rest. apply (lines_parse etoks val ok HV). exact Hl.
  - intros h E. destruct l as [|x [|y r]]; try discriminate E. injection E as E. exact (HN x h E).
Qed.
