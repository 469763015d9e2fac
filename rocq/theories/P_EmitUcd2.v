(** ucd.cpp: the entries of its tables. *)
From Coq Require Import String Lia.
From Verif Require Import Base M_TableGen M_PropGen M_UcdApi Spec_Cpp Spec_EmitUcd M_Emit M_EmitUcd P_TableGen P_Emit P_Emit2 P_Emit3 P_Emit4 P_EmitUcd.
Open Scope N_scope.

Lemma tok_refl t : tok_eqb t t = true.
Proof. destruct t; cbn; [apply str_eqb_refl|apply str_eqb_refl|apply N.eqb_refl]. Qed.
Lemma toks_refl l : toks_eqb l l = true. Proof. induction l as [|t r IH]; [reflexivity|]. cbn. rewrite tok_refl. exact IH. Qed.
Lemma spells_lex ts s : lex s = Some ts -> spells ts s = true. Proof. intros H. unfold spells. rewrite H. apply toks_refl. Qed.

(** ** Interval{ a, b } and std::pair<char32_t, char32_t>{ a, b } *)
Definition pair_toks (th : list tok) (e : N * N) : list tok := th ++ [TPunct 123; w (fst e); TPunct 44; w (snd e); TPunct 125].
Definition pair_val (th : list tok) (e : N * N) : init := IList th [IExpr [w (fst e)]; IExpr [w (snd e)]].
Definition pair_fits (e : N * N) : Prop := u32 (fst e) /\ u32 (snd e).
Definition plain (th : list tok) : Prop := forall S, parse_run (S, CNone) th = Some (S, CToks th 0).
Lemma pair_parse th e S : plain th -> parse_run (S, CNone) (pair_toks th e) = Some (S, CDone (pair_val th e)).
Proof. intros P. unfold pair_toks. rewrite (parse_app _ _ _ _ (P S)). reflexivity. Qed.
Lemma pair_read th type l : lex type = Some th -> Forall pair_fits l -> all_some (read_typed_pair type) (map (pair_val th) l) = Some l.
Proof.
  intros T H. rewrite <- (map_id l) at 2. apply all_some_map. eapply Forall_impl; [|exact H]. intros [a b] [H1 H2]. cbn [fst snd] in *.
  unfold pair_val, read_typed_pair. cbn [fst snd]. rewrite (spells_lex _ _ T), !unsigned_hex by assumption. reflexivity.
Qed.
Definition iv : list tok := [TWord (lit "Interval")].
Definition cr (r : crange) : N * N := fst (fst r).
Definition interval_ok (r : crange) : Prop := pair_fits (cr r) /\ quiet (snd r).
Lemma interval_piece r : interval_ok r -> piece LStart (interval_line r) LStart (pair_toks iv (cr r) ++ [TPunct 44]).
Proof.
  intros [[H1 H2] Q]. unfold interval_line, c_first, c_last, r_first, r_last. unfold cr in *.
  eapply piece_toks; [pc|reflexivity].
Qed.
Lemma mirrored_piece e : pair_fits e -> piece LStart (mirrored_line e) LStart (pair_toks iv e ++ [TPunct 44]).
Proof. intros [H1 H2]. unfold mirrored_line. eapply piece_toks; [pc|reflexivity]. Qed.
Definition pp : list tok := toks_of (lit "std::pair<char32_t, char32_t>").
Lemma glyph_piece e : pair_fits e -> piece LStart (glyph_line e) LStart (pair_toks pp e ++ [TPunct 44]).
Proof. intros [H1 H2]. unfold glyph_line. eapply piece_toks; [pc|reflexivity]. Qed.
Lemma iv_plain : plain iv. Proof. intros S. reflexivity. Qed.
Lemma pp_plain : plain pp. Proof. intros S. reflexivity. Qed.

(** ** TYPE { { a, b }, ENUM::NAME } *)
Definition enum_toks (te : list tok) (name : str) : list tok := te ++ [TPunct 58; TPunct 58; TWord name].
Definition prop_toks (th te : list tok) (r : prange) : list tok :=
  th ++ [TPunct 123; TPunct 123; w (r_first r); TPunct 44; w (r_last r); TPunct 125; TPunct 44] ++ enum_toks te (r_prop r) ++ [TPunct 125].
Definition prop_val (th te : list tok) (r : prange) : init := IList th [IList [] [IExpr [w (r_first r)]; IExpr [w (r_last r)]]; IExpr (enum_toks te (r_prop r))].
Definition prop_ok (r : prange) : Prop := u32 (r_first r) /\ u32 (r_last r) /\ r_prop r <> [] /\ wordy (r_prop r).
Lemma plain_enum te name : plain te -> plain (enum_toks te name).
Proof. intros P S. unfold enum_toks. rewrite (parse_app _ _ _ _ (P S)). 
  transitivity (Some (S, CToks (((te ++ [TPunct 58]) ++ [TPunct 58]) ++ [TWord name]) 0)); [reflexivity|]. rewrite <- !app_assoc. reflexivity. Qed.
Lemma prop_parse th te r S : plain th -> plain te -> parse_run (S, CNone) (prop_toks th te r) = Some (S, CDone (prop_val th te r)).
Proof.
  intros P E. unfold prop_toks. rewrite (parse_app _ _ _ _ (P S)). cbn [app parse_run parse_step add_tok push_elem option_map close_list w].
  rewrite (parse_app _ _ _ _ (plain_enum te (r_prop r) E _)). reflexivity.
Qed.
Lemma enum_read te enum name : lex enum = Some te -> read_enum enum (IExpr (enum_toks te name)) = Some name.
Proof.
  intros T. unfold read_enum, enum_toks. rewrite rev_app_distr. cbn [rev app]. rewrite rev_involutive, (spells_lex _ _ T). reflexivity.
Qed.
Lemma prop_read th te type enum l : lex type = Some th -> lex enum = Some te -> Forall prop_ok l -> all_some (read_prop type enum) (map (prop_val th te) l) = Some l.
Proof.
  intros T E H. rewrite <- (map_id l) at 2. apply all_some_map. eapply Forall_impl; [|exact H]. intros [[a b] n] (H1 & H2 & _). cbn [r_first r_last r_prop fst snd] in *.
  unfold prop_val, read_prop. cbn [r_first r_last r_prop fst snd]. unfold r_first, r_last, r_prop in *. cbn [fst snd] in *.
  rewrite (spells_lex _ _ T), !unsigned_hex by assumption. rewrite (enum_read _ _ _ E). reflexivity.
Qed.
Lemma entry_piece indent type enum th te ew name a b : piece LStart indent LStart [] -> piece LStart type LStart th -> piece LStart enum (LWord ew) te ->
  u32 a -> u32 b -> name <> [] -> wordy name ->
  piece LStart (prop_entry indent type enum name a b) LStart (prop_toks th (te ++ [TWord ew]) (a, b, name) ++ [TPunct 44]).
Proof.
  intros I T E Ha Hb Hn Hw. unfold prop_entry.
  assert (X1 : piece LStart (lit " { { 0x" ++ fmt_X4 a ++ lit ", 0x" ++ fmt_X4 b ++ lit " }, ") LStart
                 [TPunct 123; TPunct 123; w a; TPunct 44; w b; TPunct 125; TPunct 44]) by (eapply piece_toks; [pc|reflexivity]).
  assert (X2 : piece (LWord ew) (lit "::") LStart [TWord ew; TPunct 58; TPunct 58]) by lits.
  assert (X3 : piece LStart (name ++ lit " },") LStart [TWord name; TPunct 125; TPunct 44]) by (eapply piece_toks; [pc|reflexivity]).
  eapply piece_eq; [exact (piece_app _ _ _ _ _ _ _ I (piece_app _ _ _ _ _ _ _ T (piece_app _ _ _ _ _ _ _ X1 (piece_app _ _ _ _ _ _ _ E (piece_app _ _ _ _ _ _ _ X2 X3)))))| |].
  - rewrite <- !app_assoc. reflexivity.
  - unfold prop_toks, enum_toks, r_first, r_last, r_prop. cbn [fst snd app]. rewrite <- !app_assoc. cbn [app]. rewrite <- ?app_assoc. cbn [app]. rewrite <- ?app_assoc. reflexivity.
Qed.
Definition cprop_ok (r : crange) : Prop := prop_ok (fst r) /\ quiet (snd r).
Lemma propline_piece type enum th te ew r : piece LStart type LStart th -> piece LStart enum (LWord ew) te -> cprop_ok r ->
  piece LStart (prop_line type enum r) LStart (prop_toks th (te ++ [TWord ew]) (fst r) ++ [TPunct 44]).
Proof.
  intros T E [(H1 & H2 & H3 & H4) Q]. destruct r as [[[a b] n] c]. unfold c_prop, c_first, c_last, r_first, r_last, r_prop in *. cbn [fst snd] in *.
  unfold prop_line, c_prop, c_first, c_last, r_first, r_last, r_prop. cbn [fst snd].
  assert (I : piece LStart (lit "    ") LStart []) by lits.
  assert (X : piece LStart (lit " // " ++ c ++ nl) LStart []) by (eapply piece_toks; [pc|reflexivity]).
  eapply piece_eq; [exact (piece_app _ _ _ _ _ _ _ (entry_piece _ _ _ _ _ _ n a b I T E H1 H2 H3 H4) X)|reflexivity|apply app_nil_r].
Qed.

(** ** A table, and the functions that use it, as parts of a section *)
Lemma local_more a s b f ty n v : sound a -> local_array s f ty n v -> sound b -> local_array (a ++ s ++ b) f ty n v.
Proof.
  intros [x X] (pre & decl & body & post & i & H & D & P & E) [y Y]. exists (x ++ pre), decl, body, (post ++ y), i.
  split; [|split; [exact D|split; [exact P|exact E]]].
  eapply piece_eq; [exact (piece_app _ _ _ _ _ _ _ X (piece_app _ _ _ _ _ _ _ H Y))|reflexivity|]. rewrite <- !app_assoc. cbn. rewrite <- ?app_assoc. reflexivity.
Qed.
Lemma holds_more a s b t : sound a -> holds_text s t -> sound b -> holds_text (a ++ s ++ b) t.
Proof.
  intros [x X] (pre & ts & post & H & T) [y Y]. exists (x ++ pre), ts, (post ++ y). split; [|exact T].
  eapply piece_eq; [exact (piece_app _ _ _ _ _ _ _ X (piece_app _ _ _ _ _ _ _ H Y))|reflexivity|]. rewrite <- !app_assoc. reflexivity.
Qed.
Lemma holds_self s t ts : piece LStart s LStart ts -> piece LStart t LStart ts -> holds_text s t.
Proof. intros A B. exists [], ts, []. rewrite app_nil_r. split; [exact A|apply piece_lex, B]. Qed.
Lemma holds_sound s t : holds_text s t -> sound s. Proof. intros (p & ts & q & H & _). eexists. exact H. Qed.
Lemma flat_sound {A} (f : A -> str) l : (forall x, In x l -> sound (f x)) -> sound (flat_map f l).
Proof.
  induction l as [|x r IH]; intros H; [eexists; apply piece_nil|]. cbn. apply sound_app; [apply H; left; reflexivity|]. apply IH. intros y Hy. apply H. right. exact Hy.
Qed.
Lemma flat_in {A} (f : A -> str) l x : In x l -> (forall y, In y l -> sound (f y)) -> exists a b, flat_map f l = a ++ f x ++ b /\ sound a /\ sound b.
Proof.
  intros Hi H. destruct (in_split x l Hi) as (p & q & ->). exists (flat_map f p), (flat_map f q). rewrite flat_map_app. cbn [flat_map]. split; [reflexivity|].
  split; apply flat_sound; intros y Hy; apply H; apply in_or_app; [left|right; right]; exact Hy.
Qed.
Lemma flat_pieces {A} (f g : A -> str) (ts : A -> list tok) l : (forall x, In x l -> piece LStart (f x) LStart (ts x) /\ piece LStart (g x) LStart (ts x)) ->
  piece LStart (flat_map f l) LStart (flat_map ts l) /\ piece LStart (flat_map g l) LStart (flat_map ts l).
Proof.
  induction l as [|x r IH]; intros H; [split; apply piece_nil|]. cbn [flat_map].
  destruct (H x (or_introl eq_refl)) as [A1 B1]. destruct (IH (fun y Hy => H y (or_intror Hy))) as [A2 B2]. split.
  - exact (piece_app _ _ _ _ _ _ _ A1 A2).
  - exact (piece_app _ _ _ _ _ _ _ B1 B2).
Qed.
