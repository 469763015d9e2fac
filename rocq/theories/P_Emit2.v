(** The tables of case_normalization_data.h, one by one. *)
From Coq Require Import String Lia.
From Verif Require Import Base M_Normalize M_Case M_TableGen Spec_Cpp M_Emit P_Emit.
Open Scope N_scope.

Definition u32 (n : N) : Prop := n < 2 ^ 32.
Lemma app_eq4 (a b c d : str) : a = b -> c = d -> a ++ c = b ++ d. Proof. intros -> ->. reflexivity. Qed.
(** a literal that ends in "0x", a number *)
Lemma piece_hex st s ts n : piece st (s ++ lit "0x") (LWord (lit "0x")) ts -> u32 n -> piece st (s ++ lit "0x" ++ fmt_X4 n) (LWord (hexw n)) ts.
Proof.
  intros H Hn. rewrite app_assoc. rewrite <- (app_nil_r ts). apply (piece_app _ _ _ _ _ _ _ H). unfold hexw. apply piece_word, X4_val, Hn.
Qed.
Ltac hexp s := apply (piece_hex _ (lit s)); [lits|assumption].
Lemma hex_open n : u32 n -> piece LStart (lit "    { 0x" ++ fmt_X4 n) (LWord (hexw n)) [TPunct 123].
Proof. intros H. hexp "    { "%string. Qed.
Lemma hex_next v n : u32 n -> piece (LWord v) (lit ", 0x" ++ fmt_X4 n) (LWord (hexw n)) [TWord v; TPunct 44].
Proof. intros H. hexp ", "%string. Qed.
Lemma hex_nest v n : u32 n -> piece (LWord v) (lit ", { 0x" ++ fmt_X4 n) (LWord (hexw n)) [TWord v; TPunct 44; TPunct 123].
Proof. intros H. hexp ", { "%string. Qed.
Definition ctoks (c : bool) : list tok := if c then [TPunct 44] else [].
Definition ctext (c : bool) : str := if c then lit "," else [].
Lemma close_nl v c : piece (LWord v) (lit " }" ++ ctext c ++ nl) LStart (TWord v :: TPunct 125 :: ctoks c).
Proof. destruct c; lits. Qed.
Lemma dec_next v n : n < 2 ^ 64 -> piece (LWord v) (lit ", " ++ fmt_d n) (LWord (fmt_d n)) [TWord v; TPunct 44].
Proof.
  intros H. destruct (fmt_d_wordy n H) as [W E]. change [TWord v; TPunct 44] with ([TWord v; TPunct 44] ++ []).
  apply (piece_app _ _ LStart); [lits|apply piece_word0; assumption].
Qed.
Lemma dec_after v n : n < 2 ^ 64 -> piece (LWord v) (lit " }, " ++ fmt_d n) (LWord (fmt_d n)) [TWord v; TPunct 125; TPunct 44].
Proof.
  intros H. destruct (fmt_d_wordy n H) as [W E]. change [TWord v; TPunct 125; TPunct 44] with ([TWord v; TPunct 125; TPunct 44] ++ []).
  apply (piece_app _ _ LStart); [lits|apply piece_word0; assumption].
Qed.
(** comment lines *)
Lemma piece_line (s : str) : Forall (fun c => c <> 10) s -> last s 0 <> 92 -> piece LStart (lit "// " ++ s ++ nl) LStart [].
Proof.
  intros H L. change (@nil tok) with (@nil tok ++ (@nil tok ++ @nil tok)). apply (piece_app _ _ LLine); [lits|].
  apply (piece_app _ _ LLine); [apply piece_comment; assumption|lits].
Qed.
Lemma no10_lit_word a b (x : str) : Forall (fun c => c <> 10) (lit a) -> wordy x -> Forall (fun c => c <> 10) (lit b) ->
  Forall (fun c => c <> 10) (lit a ++ x ++ lit b).
Proof. intros A X B. apply Forall_app. split; [exact A|]. apply Forall_app. split; [apply wordy_no10, X|exact B]. Qed.
Ltac no10 := repeat (apply Forall_cons; [discriminate|]); apply Forall_nil.
Lemma total_line {A} (l : list A) : small (length l) -> piece LStart (lit "// Total entries: " ++ size_of l ++ nl) LStart [].
Proof.
  intros H. destruct (fmt_d_wordy _ H) as [W E]. change (@nil tok) with (@nil tok ++ (@nil tok ++ @nil tok)).
  apply (piece_app _ _ LLine); [lits|]. apply (piece_app _ _ LLine); [apply piece_comment_word, W|lits].
Qed.
Lemma unsigned_hex n : u32 n -> unsigned 32 (IExpr [w n]) = Some n.
Proof. intros H. unfold unsigned, w. rewrite hexw_val by exact H. replace (n <? 2 ^ 32) with true by (symmetry; apply N.ltb_lt, H). reflexivity. Qed.
Lemma unsigned_dec b n : n < 2 ^ b -> n < 2 ^ 64 -> unsigned b (IExpr [wd n]) = Some n.
Proof. intros H H2. unfold unsigned, wd. rewrite fmt_d_val by exact H2. replace (n <? 2 ^ b) with true by (symmetry; apply N.ltb_lt, H). reflexivity. Qed.
Lemma all_some_map {A B} (f : init -> option B) (val : A -> init) (g : A -> B) l : Forall (fun x => f (val x) = Some (g x)) l ->
  all_some f (map val l) = Some (map g l).
Proof. intros H. induction H as [|x r Hx Hr IH]; [reflexivity|]. cbn. rewrite Hx, IH. reflexivity. Qed.
Lemma map_id' {A} (l : list A) : map (fun x => x) l = l. Proof. apply map_id. Qed.

Lemma table_eq {A} s (l : list A) intro pre type tt name body btoks (vals : list init) :
  s = intro ++ lit "inline constexpr std::array<" ++ type ++ lit ", " ++ size_of l ++ lit "> " ++ name ++ lit " {{" ++ nl ++ body ++ lit "}};" ++ nl ->
  length vals = length l -> small (length l) ->
  piece LStart intro LStart pre -> piece LStart (lit "std::array<" ++ type ++ lit ", ") LStart tt ->
  wordy name -> name <> [] -> piece LStart body LStart btoks ->
  (forall h acc S rest, parse_run ((h, acc) :: S, CNone) (btoks ++ TPunct 125 :: rest) = parse_run (S, CDone (IList h (acc ++ vals))) rest) ->
  local_array s (Direct false) type name vals.
Proof.
  intros E L Hs I T Hw Hne B P. rewrite E, (size_numeral l Hs), <- L. apply (table_local intro pre type tt name body btoks vals); try assumption.
  rewrite L. exact Hs.
Qed.
(** a comment line, then "// Total entries: n" *)
Lemma intro_lines {A} s (l : list A) : piece LStart s LStart [] -> small (length l) ->
  piece LStart (s ++ lit "// Total entries: " ++ size_of l ++ nl) LStart [].
Proof. intros H Hs. change (@nil tok) with (@nil tok ++ @nil tok). apply (piece_app _ _ _ _ _ _ _ H (total_line l Hs)). Qed.

(** ** Simple mappings *)
Definition simple_ok (e : N * N) : Prop := u32 (fst e) /\ u32 (snd e) /\ fst e <> 92.
Definition simple_toks (e : N * N) : list tok := [TPunct 123; w (fst e); TPunct 44; w (snd e); TPunct 125].
Definition simple_val (e : N * N) : init := IList [] [IExpr [w (fst e)]; IExpr [w (snd e)]].
Lemma simple_piece e c : simple_ok e -> piece LStart (simple_line e (ctext c)) LStart (simple_toks e ++ ctoks c).
Proof.
  intros (H1 & H2 & H3). unfold simple_line.
  set (cm := if (32 <=? fst e) && (fst e <? 127) then [fst e] else []).
  assert (C : piece LLine cm LLine []).
  { apply piece_comment; unfold cm; destruct (N.leb_spec 32 (fst e)), (N.ltb_spec (fst e) 127); cbn [andb]; try (constructor; [lia|constructor]);
      try constructor; cbn; try discriminate; exact H3. }
  assert (X : piece (LWord (hexw (snd e))) (lit " }" ++ ctext c ++ lit " // ") LLine (w (snd e) :: TPunct 125 :: ctoks c)) by (destruct c; lits).
  assert (E : piece LLine nl LStart []) by lits.
  pose proof (piece_app _ _ _ _ _ _ _ (hex_open _ H1) (piece_app _ _ _ _ _ _ _ (hex_next (hexw (fst e)) _ H2)
    (piece_app _ _ _ _ _ _ _ X (piece_app _ _ _ _ _ _ _ C E)))) as Z.
  eapply piece_eq; [exact Z| |].
  - rewrite <- !app_assoc. reflexivity.
  - destruct c; reflexivity.
Qed.
Lemma simple_parse e S : parse_run (S, CNone) (simple_toks e) = Some (S, CDone (simple_val e)).
Proof. reflexivity. Qed.
Lemma simple_table m name : Forall simple_ok m -> small (length m) -> wordy name ->
  local_array (write_simple m name) (Direct false) (lit "std::pair<char32_t, char32_t>") (lit "simple_" ++ name ++ lit "_table") (map simple_val m).
Proof.
  intros Hm Hs Hw. unfold write_simple.
  eapply (table_eq _ m ((lit "// Simple " ++ name ++ lit " mappings: source -> target" ++ nl) ++ lit "// Total entries: " ++ size_of m ++ nl)
    _ _ _ _ (entries simple_line m) (ent_toks simple_toks m)).
  - rewrite <- !app_assoc. reflexivity.
  - apply map_length.
  - exact Hs.
  - apply (intro_lines _ m); [|exact Hs].
    pose proof (piece_line (lit "Simple " ++ name ++ lit " mappings: source -> target")
      ltac:(apply no10_lit_word; [no10|exact Hw|no10]) ltac:(rewrite app_assoc, last_app by discriminate; vm_compute; discriminate)) as P.
    eapply piece_eq; [exact P| |reflexivity]. rewrite <- !app_assoc. reflexivity.
  - lits.
  - apply Forall_app. split; [repeat constructor|]. apply Forall_app. split; [exact Hw|repeat constructor].
  - discriminate.
  - apply (entries_piece simple_line simple_toks simple_ok); [|exact Hm]. intros x Hx c _. apply simple_piece, Hx.
  - intros h acc S rest. apply (entries_parse simple_toks simple_val simple_ok); [|exact Hm]. intros x _ S'. apply simple_parse.
Qed.
Lemma simple_read m : Forall simple_ok m -> all_some (read_pair 32) (map simple_val m) = Some m.
Proof.
  intros H. rewrite <- (map_id m) at 2. apply all_some_map. eapply Forall_impl; [|exact H]. intros [a b] (H1 & H2 & _). cbn [fst snd] in *.
  unfold simple_val, read_pair. rewrite !unsigned_hex by assumption. reflexivity.
Qed.
