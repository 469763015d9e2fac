(** The remaining tables of case_normalization_data.h. *)
From Coq Require Import String Lia.
From Verif Require Import Base M_Normalize M_Case M_TableGen Spec_Cpp M_Emit P_Emit P_Emit2.
Open Scope N_scope.

Definition holds_text (s t : str) : Prop := exists pre ts post, piece LStart s LStart (pre ++ ts ++ post) /\ lex t = Some ts.
Lemma holds_in a s b t : sound a -> holds_text s t -> sound b -> contains_text (a ++ s ++ b) t.
Proof.
  intros [x X] (pre & ts & post & H & T) [y Y]. exists (x ++ pre), ts, (post ++ y). split; [|exact T].
  apply piece_lex. eapply piece_eq; [exact (piece_app _ _ _ _ _ _ _ X (piece_app _ _ _ _ _ _ _ H Y))|reflexivity|]. rewrite <- !app_assoc. reflexivity.
Qed.
Lemma holds_piece pre s post t ts a b : piece LStart pre LStart a -> piece LStart s LStart ts -> lex t = Some ts -> piece LStart post LStart b ->
  holds_text (pre ++ s ++ post) t.
Proof. intros A H T B. exists a, ts, b. split; [|exact T]. exact (piece_app _ _ _ _ _ _ _ A (piece_app _ _ _ _ _ _ _ H B)). Qed.

Lemma pad_length k l : (length l <= k)%nat -> length (pad k l) = k.
Proof. intros H. unfold pad. rewrite app_length, repeat_length. lia. Qed.
Lemma pad_u32 k l : Forall u32 l -> Forall u32 (pad k l).
Proof. intros H. apply Forall_app. split; [exact H|]. apply Forall_forall. intros x Hx. apply repeat_spec in Hx. subst x. reflexivity. Qed.
Lemma pad_firstn k l : firstn (length l) (pad k l) = l.
Proof. unfold pad. rewrite firstn_app, Nat.sub_diag, firstn_all, firstn_O, app_nil_r. reflexivity. Qed.
Lemma all_hex l : Forall u32 l -> all_some (unsigned 32) (map (fun x => IExpr [w x]) l) = Some l.
Proof. intros H. rewrite <- (map_id l) at 2. apply all_some_map. eapply Forall_impl; [|exact H]. intros x Hx. apply unsigned_hex, Hx. Qed.
Lemma lt256 (n : nat) : (n <= 255)%nat -> N.of_nat n < 2 ^ 8 /\ N.of_nat n < 2 ^ 64.
Proof. intros H. change (2 ^ 8) with 256. assert (N.of_nat n < 256) by lia. split; [assumption|]. eapply N.lt_trans; [eassumption|reflexivity]. Qed.

(** ** Full mappings *)
Definition map_ok (k : nat) (e : N * list N) : Prop := u32 (fst e) /\ Forall u32 (snd e) /\ (length (snd e) <= k)%nat /\ (length (snd e) <= 255)%nat.
Definition map_toks (k : nat) (more : list tok) (e : N * list N) : list tok :=
  [TPunct 123; w (fst e); TPunct 44; TPunct 123] ++ itoks w (pad k (snd e)) ++ [TPunct 125; TPunct 44; wd (N.of_nat (length (snd e)))] ++ more ++ [TPunct 125].
Definition map_val (k : nat) (more : list init) (e : N * list N) : init :=
  IList [] ([IExpr [w (fst e)]; IList [] (map (fun x => IExpr [w x]) (pad k (snd e))); IExpr [wd (N.of_nat (length (snd e)))]] ++ more).
Lemma map_parse k e S : parse_run (S, CNone) (map_toks k [] e) = Some (S, CDone (map_val k [] e)).
Proof. unfold map_toks, map_val. cbn [app parse_run parse_step add_tok push_elem option_map w]. rewrite (parse_words hexw). reflexivity. Qed.
Lemma map_read k (m : list (N * list N)) : Forall (map_ok k) m -> all_some (read_mapping k 0) (map (map_val k []) m) = Some m.
Proof.
  intros H. rewrite <- (map_id m) at 2. apply all_some_map. eapply Forall_impl; [|exact H]. intros [a l] (H1 & H2 & H3 & H4). cbn [fst snd] in *.
  destruct (lt256 _ H4) as [L8 L64].
  unfold map_val, read_mapping. cbn [app fst snd]. rewrite unsigned_hex by assumption. rewrite all_hex by (apply pad_u32, H2).
  rewrite (unsigned_dec 8 _ L8 L64). cbn [all_some]. rewrite pad_length by exact H3. rewrite Nat.eqb_refl.
  replace (N.of_nat (length l) <=? N.of_nat k) with true by (symmetry; apply N.leb_le; lia). cbn. rewrite Nat2N.id, pad_firstn. reflexivity.
Qed.
Lemma full_piece e c : map_ok 3 e -> piece LStart (full_line e (ctext c)) LStart (map_toks 3 [] e ++ ctoks c).
Proof.
  destruct e as [a l]. intros (H1 & H2 & H3 & H4). cbn [fst snd] in *. destruct (lt256 _ H4) as [_ L64].
  unfold full_line, map_toks. cbn [fst snd]. pose proof (pad_length 3 l H3) as PL. pose proof (pad_u32 3 l H2) as PU.
  destruct (pad 3 l) as [|x [|y [|z [|t r]]]]; try discriminate PL. cbn [nth].
  pose proof (Forall_inv PU) as Hx. pose proof (Forall_inv (Forall_inv_tail PU)) as Hy. pose proof (Forall_inv (Forall_inv_tail (Forall_inv_tail PU))) as Hz.
  pose proof (piece_app _ _ _ _ _ _ _ (hex_open _ H1) (piece_app _ _ _ _ _ _ _ (hex_nest (hexw a) x Hx) (piece_app _ _ _ _ _ _ _ (hex_next (hexw x) y Hy)
    (piece_app _ _ _ _ _ _ _ (hex_next (hexw y) z Hz) (piece_app _ _ _ _ _ _ _ (dec_after (hexw z) (N.of_nat (length l)) L64) (close_nl _ c)))))) as Z.
  eapply piece_eq; [exact Z| |].
  - unfold size_of. rewrite <- !app_assoc. reflexivity.
  - destruct c; reflexivity.
Qed.
Lemma word_app3 (a b : str) x : wordy a -> wordy x -> wordy b -> wordy (a ++ x ++ b).
Proof. intros A X B. apply Forall_app. split; [exact A|]. apply Forall_app. split; assumption. Qed.
Ltac wlit := repeat (apply Forall_cons; [reflexivity|]); apply Forall_nil.

Definition full_struct (name : str) : str := lit "struct full_" ++ name ++ lit "_entry { char32_t source; char32_t targets[3]; uint8_t length; };".
Lemma struct_piece name rest ts : wordy name -> (forall v, piece (LWord v) rest LStart (TWord v :: ts)) ->
  piece LStart (lit "struct full_" ++ name ++ lit "_entry" ++ rest) LStart (TWord (lit "struct") :: TWord ((lit "full_" ++ name) ++ lit "_entry") :: ts).
Proof.
  intros W R. change (TWord (lit "struct") :: TWord ((lit "full_" ++ name) ++ lit "_entry") :: ts)
    with ([TWord (lit "struct")] ++ [] ++ [] ++ (TWord ((lit "full_" ++ name) ++ lit "_entry") :: ts)).
  apply (piece_app _ _ (LWord (lit "full_"))); [lits|]. apply (piece_app _ _ (LWord (lit "full_" ++ name))); [apply piece_word, W|].
  apply (piece_app _ _ (LWord ((lit "full_" ++ name) ++ lit "_entry"))); [apply piece_word; wlit|apply R].
Qed.
Definition full_fields : list tok := match lex (lit " { char32_t source; char32_t targets[3]; uint8_t length; };") with Some t => t | None => [] end.
Definition full_struct_text (name : str) : str :=
  lit "struct full_" ++ name ++ lit "_entry {" ++ nl ++ lit "    char32_t source;" ++ nl ++ lit "    char32_t targets[3];" ++ nl ++ lit "    uint8_t length;" ++ nl
  ++ lit "};" ++ nl ++ nl.
Definition full_struct_toks name := TWord (lit "struct") :: TWord ((lit "full_" ++ name) ++ lit "_entry") :: full_fields.
Lemma full_struct_piece name : wordy name -> piece LStart (full_struct_text name) LStart (full_struct_toks name).
Proof.
  intros W. unfold full_struct_text. change (lit "_entry {") with (lit "_entry" ++ lit " {"). rewrite <- !app_assoc.
  apply struct_piece; [exact W|]. intros v. lits.
Qed.
Lemma full_struct_lex name : wordy name -> lex (full_struct name) = Some (full_struct_toks name).
Proof.
  intros W. apply piece_lex. unfold full_struct.
  change (lit "_entry { char32_t source; char32_t targets[3]; uint8_t length; };")
    with (lit "_entry" ++ lit " { char32_t source; char32_t targets[3]; uint8_t length; };").
  apply struct_piece; [exact W|]. intros v. lits.
Qed.
Lemma full_head m name : small (length m) -> wordy name ->
  piece LStart (lit "// Full " ++ name ++ lit " mappings: source -> [target1, target2, target3]" ++ nl ++ lit "// Total entries: " ++ @size_of (N * list N) m ++ nl)
    LStart [].
Proof.
  intros Hs Hw. pose proof (piece_line (lit "Full " ++ name ++ lit " mappings: source -> [target1, target2, target3]")
      ltac:(apply no10_lit_word; [no10|exact Hw|no10]) ltac:(rewrite app_assoc, last_app by discriminate; vm_compute; discriminate)) as P.
  pose proof (intro_lines _ m P Hs) as Q. eapply piece_eq; [exact Q| |reflexivity]. rewrite <- !app_assoc. reflexivity.
Qed.
Lemma entry_type (pre name post : str) : wordy pre -> pre <> [] -> wordy name -> wordy post ->
  piece LStart (lit "std::array<" ++ (pre ++ name ++ post) ++ lit ", ") LStart
    [TWord (lit "std"); TPunct 58; TPunct 58; TWord (lit "array"); TPunct 60; TWord (pre ++ name ++ post); TPunct 44].
Proof.
  intros A Hn X B. change [TWord (lit "std"); TPunct 58; TPunct 58; TWord (lit "array"); TPunct 60; TWord (pre ++ name ++ post); TPunct 44]
    with ([TWord (lit "std"); TPunct 58; TPunct 58; TWord (lit "array"); TPunct 60] ++ [] ++ [TWord (pre ++ name ++ post); TPunct 44]).
  apply (piece_app _ _ LStart); [lits|]. apply (piece_app _ _ (LWord (pre ++ name ++ post))); [|lits].
  apply piece_word0; [apply word_app3; assumption|]. destruct pre; [congruence|discriminate].
Qed.
Lemma full_table m name : Forall (map_ok 3) m -> small (length m) -> wordy name ->
  local_array (write_full m name) (Direct false) (lit "full_" ++ name ++ lit "_entry") (lit "full_" ++ name ++ lit "_table") (map (map_val 3 []) m) /\
  holds_text (write_full m name) (full_struct name).
Proof.
  intros Hm Hs Hw.
  assert (B : piece LStart (entries full_line m) LStart (ent_toks (map_toks 3 []) m)).
  { apply (entries_piece full_line (map_toks 3 []) (map_ok 3)); [|exact Hm]. intros x Hx c _. apply full_piece, Hx. }
  assert (L : local_array (write_full m name) (Direct false) (lit "full_" ++ name ++ lit "_entry") (lit "full_" ++ name ++ lit "_table") (map (map_val 3 []) m)).
  { unfold write_full.
    eapply (table_eq _ m ((lit "// Full " ++ name ++ lit " mappings: source -> [target1, target2, target3]" ++ nl ++ lit "// Total entries: " ++ size_of m ++ nl)
      ++ full_struct_text name) _ _ _ _ (entries full_line m) (ent_toks (map_toks 3 []) m)).
    - unfold full_struct_text. rewrite <- !app_assoc. reflexivity.
    - apply map_length.
    - exact Hs.
    - apply (piece_app _ _ LStart _ _ LStart _ (full_head m name Hs Hw) (full_struct_piece name Hw)).
    - apply entry_type; [wlit|discriminate|exact Hw|wlit].
    - apply word_app3; [wlit|exact Hw|wlit].
    - discriminate.
    - exact B.
    - intros h acc S rest. apply (entries_parse (map_toks 3 []) (map_val 3 []) (map_ok 3)); [|exact Hm]. intros x _ S'. apply map_parse. }
  split; [exact L|].
  destruct (numeral_wordy _ Hs) as [Nw Nn].
  assert (D : sound (lit "inline constexpr std::array<full_" ++ name ++ lit "_entry, " ++ size_of m ++ lit "> full_" ++ name ++ lit "_table {{" ++ nl
     ++ entries full_line m ++ lit "}};" ++ nl)).
  { apply (local_sound _ (Direct false) (lit "full_" ++ name ++ lit "_entry") (lit "full_" ++ name ++ lit "_table") (map (map_val 3 []) m)).
    eapply (table_eq _ m [] _ _ _ _ (entries full_line m) (ent_toks (map_toks 3 []) m)).
    - rewrite <- !app_assoc. reflexivity.
    - apply map_length.
    - exact Hs.
    - apply piece_nil.
    - apply entry_type; [wlit|discriminate|exact Hw|wlit].
    - apply word_app3; [wlit|exact Hw|wlit].
    - discriminate.
    - exact B.
    - intros h acc S rest. apply (entries_parse (map_toks 3 []) (map_val 3 []) (map_ok 3)); [|exact Hm]. intros x _ S'. apply map_parse. }
  destruct D as [dts D].
  pose proof (holds_piece _ _ _ (full_struct name) _ _ _ (full_head m name Hs Hw) (full_struct_piece name Hw) (full_struct_lex name Hw) D) as H.
  unfold write_full. unfold full_struct_text in H. revert H. rewrite <- !app_assoc. exact (fun z => z).
Qed.

(** ** Combining classes *)
Definition ccc_ok (e : N * Z) : Prop := u32 (fst e) /\ (0 <= snd e <= 255)%Z.
Definition ccc_toks (e : N * Z) : list tok := [TPunct 123; w (fst e); TPunct 44; wd (Z.to_N (snd e)); TPunct 125].
Definition ccc_val (e : N * Z) : init := IList [] [IExpr [w (fst e)]; IExpr [wd (Z.to_N (snd e))]].
Lemma to_N_small z : (0 <= z <= 255)%Z -> Z.to_N z < 2 ^ 8 /\ Z.to_N z < 2 ^ 64.
Proof. intros H. change (2 ^ 8) with 256. assert (Z.to_N z < 256) by lia. split; [assumption|]. eapply N.lt_trans; [eassumption|reflexivity]. Qed.
Lemma ccc_piece e c : ccc_ok e -> piece LStart (ccc_line e (ctext c)) LStart (ccc_toks e ++ ctoks c).
Proof.
  intros (H1 & H2). unfold ccc_line. rewrite fmt_i_d by lia. destruct (to_N_small _ H2) as [_ L].
  eapply piece_eq; [exact (piece_app _ _ _ _ _ _ _ (hex_open _ H1) (piece_app _ _ _ _ _ _ _ (dec_next (hexw (fst e)) _ L) (close_nl _ c)))| |].
  - rewrite <- !app_assoc. reflexivity.
  - destruct c; reflexivity.
Qed.
Lemma ccc_table m : Forall ccc_ok m -> small (length m) ->
  local_array (emit_ccc m) (Direct false) (lit "std::pair<char32_t, uint8_t>") (lit "ccc_table") (map ccc_val m).
Proof.
  intros Hm Hs. unfold emit_ccc.
  eapply (table_eq _ m ((lit "// Canonical Combining Class entries for non-zero CCC values" ++ nl) ++ lit "// Total entries: " ++ size_of m ++ nl)
    _ _ _ _ (entries ccc_line m) (ent_toks ccc_toks m)).
  - rewrite <- !app_assoc. reflexivity.
  - apply map_length.
  - exact Hs.
  - apply (intro_lines _ m); [lits|exact Hs].
  - lits.
  - wlit.
  - discriminate.
  - apply (entries_piece ccc_line ccc_toks ccc_ok); [|exact Hm]. intros x Hx c _. apply ccc_piece, Hx.
  - intros h acc S rest. apply (entries_parse ccc_toks ccc_val ccc_ok); [|exact Hm]. intros x _ S'. reflexivity.
Qed.
Lemma ccc_read m : Forall ccc_ok m -> all_some (read_pair 8) (map ccc_val m) = Some (write_ccc m).
Proof.
  intros H. unfold write_ccc. apply all_some_map. eapply Forall_impl; [|exact H]. intros [a b] (H1 & H2). cbn [fst snd] in *.
  destruct (to_N_small _ H2) as [L8 L]. unfold ccc_val, read_pair. cbn [fst snd]. rewrite unsigned_hex, (unsigned_dec 8 _ L8 L) by assumption. reflexivity.
Qed.
