(** Decompositions, compositions and sets. *)
From Coq Require Import String Lia.
From Verif Require Import Base M_Normalize M_Case M_TableGen Spec_Cpp M_Emit P_Emit P_Emit2 P_Emit3.
Open Scope N_scope.

Lemma hex_list_piece l : l <> [] -> Forall u32 l -> exists ts, piece LStart (hex_list l) (LWord (hexw (last l 0))) ts /\ ts ++ [w (last l 0)] = itoks w l.
Proof.
  induction l as [|x r IH]; intros Hn H; [congruence|]. pose proof (Forall_inv H) as Hx. pose proof (Forall_inv_tail H) as Hr.
  assert (P : piece LStart (hexw x) (LWord (hexw x)) []) by (apply piece_word0; [apply hexw_wordy, Hx|discriminate]).
  destruct r as [|y r].
  - exists []. split; [exact P|reflexivity].
  - destruct (IH ltac:(discriminate) Hr) as (ts & T & E).
    exists ([] ++ [w x; TPunct 44] ++ ts). split.
    + change (hex_list (x :: y :: r)) with (lit "0x" ++ fmt_X4 x ++ lit ", " ++ hex_list (y :: r)). rewrite app_assoc.
      change (lit "0x" ++ fmt_X4 x) with (hexw x). change (last (x :: y :: r) 0) with (last (y :: r) 0).
      apply (piece_app _ _ _ _ _ _ _ P). apply (piece_app _ _ LStart); [lits|exact T].
    + cbn [app]. change (last (x :: y :: r) 0) with (last (y :: r) 0). rewrite E. reflexivity.
Qed.

(** ** Canonical and compatibility decompositions *)
Lemma pad_ne k l : (1 <= k)%nat -> (length l <= k)%nat -> pad k l <> [].
Proof. intros H L E. pose proof (pad_length k l L) as X. rewrite E in X. cbn in X. lia. Qed.
Lemma targets_line a k l : u32 a -> Forall u32 l -> (1 <= k)%nat -> (length l <= k)%nat -> (length l <= 255)%nat ->
  piece LStart ((lit "    { 0x" ++ fmt_X4 a) ++ lit ", { " ++ hex_list (pad k l) ++ lit " }, " ++ size_of l) (LWord (fmt_d (N.of_nat (length l))))
     ([TPunct 123; w a; TPunct 44; TPunct 123] ++ itoks w (pad k l) ++ [TPunct 125; TPunct 44]).
Proof.
  intros H1 H2 K1 K2 H4. destruct (lt256 _ H4) as [_ L64].
  destruct (hex_list_piece _ (pad_ne k l K1 K2) (pad_u32 k l H2)) as (ts & T & E).
  assert (P : piece (LWord (hexw a)) (lit ", { ") LStart [w a; TPunct 44; TPunct 123]) by lits.
  eapply piece_eq; [exact (piece_app _ _ _ _ _ _ _ (hex_open a H1) (piece_app _ _ _ _ _ _ _ P (piece_app _ _ _ _ _ _ _ T (dec_after _ _ L64))))| |].
  - unfold size_of. rewrite <- ?app_assoc. reflexivity.
  - rewrite <- E. cbn [app]. rewrite <- ?app_assoc. reflexivity.
Qed.
Lemma canon_piece k e c : (1 <= k)%nat -> map_ok k e -> piece LStart (canon_line k e (ctext c)) LStart (map_toks k [] e ++ ctoks c).
Proof.
  intros K (H1 & H2 & H3 & H4). unfold canon_line, map_toks.
  eapply piece_eq; [exact (piece_app _ _ _ _ _ _ _ (targets_line _ k _ H1 H2 K H3 H4) (close_nl _ c))| |].
  - rewrite <- ?app_assoc. reflexivity.
  - rewrite <- ?app_assoc. cbn [app]. reflexivity.
Qed.
Lemma max_len_from l : forall a, (a <= fold_left (fun a (e : N * list N) => Nat.max a (length (snd e))) l a)%nat /\
  forall e, In e l -> (length (snd e) <= fold_left (fun a (e : N * list N) => Nat.max a (length (snd e))) l a)%nat.
Proof.
  induction l as [|x r IH]; intros a; cbn [fold_left]; [split; [lia|intros e []]|].
  destruct (IH (Nat.max a (length (snd x)))) as [H1 H2]. split; [lia|]. intros e [<-|He]; [lia|apply H2, He].
Qed.
Lemma max_len_4 l : (4 <= max_len l)%nat. Proof. apply max_len_from. Qed.
Lemma max_len_in l e : In e l -> (length (snd e) <= max_len l)%nat. Proof. intros H. apply max_len_from, H. Qed.
Definition dec_ok (e : N * list N) : Prop := u32 (fst e) /\ Forall u32 (snd e) /\ (length (snd e) <= 255)%nat.
Lemma dec_map_ok l : Forall dec_ok l -> Forall (map_ok (max_len l)) l.
Proof.
  intros H. apply Forall_forall. intros e He. rewrite Forall_forall in H. destruct (H e He) as (H1 & H2 & H3).
  repeat split; try assumption. apply max_len_in, He.
Qed.
Lemma max_len_255 l : Forall dec_ok l -> (max_len l <= 255)%nat.
Proof.
  intros H. unfold max_len. assert (X : forall a, (a <= 255)%nat -> (fold_left (fun a (e : N * list N) => Nat.max a (length (snd e))) l a <= 255)%nat).
  { induction H as [|x r (_ & _ & Hx) Hr IH]; intros a Ha; [exact Ha|]. cbn [fold_left]. apply IH. lia. }
  apply X. lia.
Qed.
Lemma num_piece_line n : n < 2 ^ 64 -> piece LLine (fmt_d n) LLine [].
Proof. intros H. apply piece_comment_word, fmt_d_wordy, H. Qed.
Lemma total_max {A} (l : list A) n : small (length l) -> n < 2 ^ 64 ->
  piece LStart (lit "// Total entries: " ++ size_of l ++ lit ", max length: " ++ fmt_d n ++ nl) LStart [].
Proof.
  intros H Hn. assert (P1 : piece LStart (lit "// Total entries: ") LLine []) by lits. assert (P2 : piece LLine (lit ", max length: ") LLine []) by lits.
  assert (P3 : piece LLine nl LStart []) by lits.
  exact (piece_app _ _ _ _ _ _ _ P1 (piece_app _ _ _ _ _ _ _ (num_piece_line _ H) (piece_app _ _ _ _ _ _ _ P2 (piece_app _ _ _ _ _ _ _ (num_piece_line _ Hn) P3)))).
Qed.
(** a structure with one array bound in it *)
Definition canon_struct (k : nat) : str :=
  lit "struct canonical_decomposition_entry { char32_t source; char32_t targets[" ++ numeral k ++ lit "]; uint8_t length; };".
Definition compat_struct (k : nat) : str :=
  lit "struct compatibility_decomposition_entry { char32_t source; char32_t targets[" ++ numeral k ++ lit "]; uint8_t length; uint8_t decomp_type; };".
Definition toks_of (s : str) : list tok := match lex s with Some t => t | None => [] end.
Definition struct_bound (a : list tok) (k : nat) (b : list tok) : list tok := a ++ TWord (numeral k) :: b.
Lemma struct_bound_piece s1 k s2 a b : small k -> piece LStart s1 LStart a -> (forall v, piece (LWord v) s2 LStart (TWord v :: b)) ->
  piece LStart (s1 ++ numeral k ++ s2) LStart (struct_bound a k b).
Proof.
  intros K A B. unfold struct_bound. destruct (numeral_wordy k K) as [W E]. change (a ++ TWord (numeral k) :: b) with (a ++ [] ++ (TWord (numeral k) :: b)).
  apply (piece_app _ _ _ _ _ _ _ A). apply (piece_app _ _ (LWord (numeral k))); [apply piece_word0; assumption|apply B].
Qed.
Definition canon_struct_text (k : nat) : str :=
  (lit "struct canonical_decomposition_entry {" ++ nl ++ lit "    char32_t source;" ++ nl ++ lit "    char32_t targets[") ++ numeral k
  ++ (lit "];" ++ nl ++ lit "    uint8_t length;" ++ nl ++ lit "};" ++ nl ++ nl).
Definition canon_struct_toks (k : nat) : list tok :=
  struct_bound (toks_of (lit "struct canonical_decomposition_entry { char32_t source; char32_t targets[")) k (toks_of (lit "]; uint8_t length; };")).
Lemma canon_struct_piece k : small k -> piece LStart (canon_struct_text k) LStart (canon_struct_toks k) /\ lex (canon_struct k) = Some (canon_struct_toks k).
Proof.
  intros K. split; [|apply piece_lex]; apply struct_bound_piece; try exact K; try lits; intros v; lits.
Qed.
Definition compat_struct_text (k : nat) : str :=
  (lit "struct compatibility_decomposition_entry {" ++ nl ++ lit "    char32_t source;" ++ nl ++ lit "    char32_t targets[") ++ numeral k
  ++ (lit "];" ++ nl ++ lit "    uint8_t length;" ++ nl ++ lit "    uint8_t decomp_type; // maps to Decomposition_Type enum ordinal" ++ nl ++ lit "};" ++ nl ++ nl).
Definition compat_struct_toks (k : nat) : list tok :=
  struct_bound (toks_of (lit "struct compatibility_decomposition_entry { char32_t source; char32_t targets[")) k
    (toks_of (lit "]; uint8_t length; uint8_t decomp_type; };")).
Lemma compat_struct_piece k : small k -> piece LStart (compat_struct_text k) LStart (compat_struct_toks k) /\ lex (compat_struct k) = Some (compat_struct_toks k).
Proof.
  intros K. split; [|apply piece_lex]; apply struct_bound_piece; try exact K; try lits; intros v; lits.
Qed.
Lemma fmt_numeral n : small n -> fmt_d (N.of_nat n) = numeral n.
Proof. intros H. unfold fmt_d, numeral. apply digits10, small20, H. Qed.
Lemma small255 n : (n <= 255)%nat -> small n. Proof. intros H. apply lt256, H. Qed.
Lemma canon_table m : Forall dec_ok m -> small (length m) ->
  local_array (emit_canonical m) (Direct false) (lit "canonical_decomposition_entry") (lit "canonical_decomposition_table") (map (map_val (max_len m) []) m) /\
  holds_text (emit_canonical m) (canon_struct (max_len m)).
Proof.
  intros Hd Hs. pose proof (dec_map_ok m Hd) as Hm. pose proof (small255 _ (max_len_255 m Hd)) as Hk. pose proof (max_len_4 m) as K4.
  set (k := max_len m) in *.
  assert (B : piece LStart (entries (canon_line k) m) LStart (ent_toks (map_toks k []) m)).
  { apply (entries_piece (canon_line k) (map_toks k []) (map_ok k)); [|exact Hm]. intros x Hx c _. apply canon_piece; [lia|exact Hx]. }
  assert (I : piece LStart (lit "// Canonical decomposition mappings" ++ nl ++ lit "// Total entries: " ++ size_of m ++ lit ", max length: " ++ numeral k ++ nl) LStart []).
  { rewrite <- (fmt_numeral k Hk). assert (P : piece LStart (lit "// Canonical decomposition mappings" ++ nl) LStart []) by lits.
    eapply piece_eq; [exact (piece_app _ _ _ _ _ _ _ P (total_max m _ Hs Hk))| |reflexivity]. rewrite <- ?app_assoc. reflexivity. }
  destruct (canon_struct_piece k Hk) as [SP SL].
  set (rest := lit "inline constexpr std::array<canonical_decomposition_entry, " ++ size_of m ++ lit "> canonical_decomposition_table {{" ++ nl
     ++ entries (canon_line k) m ++ lit "}};" ++ nl).
  assert (R : forall intro pre, piece LStart intro LStart pre ->
     local_array (intro ++ rest) (Direct false) (lit "canonical_decomposition_entry") (lit "canonical_decomposition_table") (map (map_val k []) m)).
  { intros intro pre P. eapply (table_eq _ m intro _ _ _ _ (entries (canon_line k) m) (ent_toks (map_toks k []) m)).
    - unfold rest. rewrite <- ?app_assoc. reflexivity.
    - apply map_length.
    - exact Hs.
    - exact P.
    - lits.
    - wlit.
    - discriminate.
    - exact B.
    - intros h acc S rest'. apply (entries_parse (map_toks k []) (map_val k []) (map_ok k)); [|exact Hm]. intros x _ S'. apply map_parse. }
  assert (E : emit_canonical m = ((lit "// Canonical decomposition mappings" ++ nl ++ lit "// Total entries: " ++ size_of m ++ lit ", max length: " ++ numeral k ++ nl)
      ++ canon_struct_text k) ++ rest).
  { unfold emit_canonical. fold k. rewrite (fmt_numeral k Hk). unfold rest, canon_struct_text. rewrite <- ?app_assoc. reflexivity. }
  rewrite E. split; [exact (R _ _ (piece_app _ _ _ _ _ _ _ I SP))|].
  destruct (local_sound _ _ _ _ _ (R [] [] (piece_nil _))) as [rts RT].
  rewrite <- app_assoc. exact (holds_piece _ _ _ _ _ _ _ I SP SL RT).
Qed.

Definition cdec_ok (e : N * (list N * str)) : Prop := dec_ok (fst e, fst (snd e)).
Definition cpair (e : N * (list N * str)) : N * list N := (fst e, fst (snd e)).
Lemma write_compat_eq m : write_compat m = map cpair (compat_entries m). Proof. reflexivity. Qed.
Definition ctype (e : N * (list N * str)) : N := type_ordinal (snd (snd e)).
Lemma ordinal_small t : type_ordinal t < 18.
Proof.
  unfold type_ordinal. repeat match goal with |- context [str_eqb ?a ?b] => destruct (str_eqb a b) end; reflexivity.
Qed.
Definition compat_toks (k : nat) (e : N * (list N * str)) := map_toks k [TPunct 44; wd (ctype e)] (cpair e).
Definition compat_val (k : nat) (e : N * (list N * str)) := map_val k [IExpr [wd (ctype e)]] (cpair e).
Lemma compat_piece k e c : (1 <= k)%nat -> map_ok k (cpair e) -> piece LStart (compat_line k e (ctext c)) LStart (compat_toks k e ++ ctoks c).
Proof.
  intros K (H1 & H2 & H3 & H4). unfold compat_line, compat_toks, map_toks. cbn [cpair fst snd] in *.
  assert (L : ctype e < 2 ^ 64) by (eapply N.lt_trans; [apply ordinal_small|reflexivity]).
  eapply piece_eq; [exact (piece_app _ _ _ _ _ _ _ (targets_line _ k _ H1 H2 K H3 H4) (piece_app _ _ _ _ _ _ _ (dec_next _ _ L) (close_nl _ c)))| |].
  - rewrite <- ?app_assoc. reflexivity.
  - rewrite <- ?app_assoc. cbn [app]. reflexivity.
Qed.
Lemma compat_parse k e S : parse_run (S, CNone) (compat_toks k e) = Some (S, CDone (compat_val k e)).
Proof.
  unfold compat_toks, compat_val, map_toks, map_val. cbn [app parse_run parse_step add_tok push_elem option_map w]. rewrite (parse_words hexw). reflexivity.
Qed.
Lemma compat_read k m : Forall (fun e => map_ok k (cpair e)) m -> all_some (read_mapping k 1) (map (compat_val k) m) = Some (map cpair m).
Proof.
  intros H. apply all_some_map. eapply Forall_impl; [|exact H]. intros e (H1 & H2 & H3 & H4).
  destruct (lt256 _ H4) as [L8 L64].
  assert (T8 : ctype e < 2 ^ 8) by (eapply N.lt_trans; [apply ordinal_small|reflexivity]).
  assert (T64 : ctype e < 2 ^ 64) by (eapply N.lt_trans; [apply ordinal_small|reflexivity]).
  unfold compat_val, map_val, read_mapping. cbn [app]. rewrite unsigned_hex by assumption. rewrite all_hex by (apply pad_u32, H2).
  rewrite (unsigned_dec 8 _ L8 L64). cbn [all_some]. rewrite (unsigned_dec 8 _ T8 T64). rewrite pad_length by exact H3. rewrite Nat.eqb_refl.
  replace (N.of_nat (length (snd (cpair e))) <=? N.of_nat k) with true by (symmetry; apply N.leb_le; lia). cbn [andb length Nat.eqb].
  rewrite Nat2N.id, pad_firstn. reflexivity.
Qed.
Lemma compat_table m : Forall cdec_ok (compat_entries m) -> small (length (compat_entries m)) ->
  let k := max_len (write_compat m) in
  local_array (emit_compat m) (Direct false) (lit "compatibility_decomposition_entry") (lit "compatibility_decomposition_table") (map (compat_val k) (compat_entries m)) /\
  holds_text (emit_compat m) (compat_struct k) /\ Forall (fun e => map_ok k (cpair e)) (compat_entries m).
Proof.
  intros Hd Hs k.
  assert (Hd' : Forall dec_ok (write_compat m)) by (rewrite write_compat_eq; apply Forall_map; exact Hd).
  pose proof (dec_map_ok _ Hd') as Hm'. rewrite write_compat_eq in Hm'. rewrite Forall_map in Hm'. rewrite <- write_compat_eq in Hm'. fold k in Hm'.
  pose proof (small255 _ (max_len_255 _ Hd')) as Hk. pose proof (max_len_4 (write_compat m)) as K4. fold k in Hk, K4.
  set (l := compat_entries m) in *.
  assert (B : piece LStart (entries (compat_line k) l) LStart (ent_toks (compat_toks k) l)).
  { apply (entries_piece (compat_line k) (compat_toks k) (fun e => map_ok k (cpair e))); [|exact Hm']. intros x Hx c _. apply compat_piece; [lia|exact Hx]. }
  assert (I : piece LStart (lit "// Compatibility decomposition mappings" ++ nl ++ lit "// Total entries: " ++ size_of l ++ lit ", max length: " ++ numeral k ++ nl) LStart []).
  { rewrite <- (fmt_numeral k Hk). assert (P : piece LStart (lit "// Compatibility decomposition mappings" ++ nl) LStart []) by lits.
    eapply piece_eq; [exact (piece_app _ _ _ _ _ _ _ P (total_max l _ Hs Hk))| |reflexivity]. rewrite <- ?app_assoc. reflexivity. }
  destruct (compat_struct_piece k Hk) as [SP SL].
  set (rest := lit "inline constexpr std::array<compatibility_decomposition_entry, " ++ size_of l ++ lit "> compatibility_decomposition_table {{" ++ nl
     ++ entries (compat_line k) l ++ lit "}};" ++ nl).
  assert (R : forall intro pre, piece LStart intro LStart pre ->
     local_array (intro ++ rest) (Direct false) (lit "compatibility_decomposition_entry") (lit "compatibility_decomposition_table") (map (compat_val k) l)).
  { intros intro pre P. eapply (table_eq _ l intro _ _ _ _ (entries (compat_line k) l) (ent_toks (compat_toks k) l)).
    - unfold rest. rewrite <- ?app_assoc. reflexivity.
    - apply map_length.
    - exact Hs.
    - exact P.
    - lits.
    - wlit.
    - discriminate.
    - exact B.
    - intros h acc S rest'. apply (entries_parse (compat_toks k) (compat_val k) (fun e => map_ok k (cpair e))); [|exact Hm']. intros x _ S'. apply compat_parse. }
  assert (E : emit_compat m = ((lit "// Compatibility decomposition mappings" ++ nl ++ lit "// Total entries: " ++ size_of l ++ lit ", max length: " ++ numeral k ++ nl)
      ++ compat_struct_text k) ++ rest).
  { unfold emit_compat. fold k l. rewrite (fmt_numeral k Hk). unfold rest, compat_struct_text. rewrite <- ?app_assoc. reflexivity. }
  rewrite E. split; [exact (R _ _ (piece_app _ _ _ _ _ _ _ I SP))|].
  destruct (local_sound _ _ _ _ _ (R [] [] (piece_nil _))) as [rts RT]. split; [|exact Hm'].
  rewrite <- app_assoc. exact (holds_piece _ _ _ _ _ _ _ I SP SL RT).
Qed.

(** ** Compositions *)
Definition comp_ok (e : N * N * N) : Prop := u32 (fst (fst e)) /\ u32 (snd (fst e)) /\ u32 (snd e).
Definition comp_toks (e : N * N * N) : list tok := [TPunct 123; w (fst (fst e)); TPunct 44; w (snd (fst e)); TPunct 44; w (snd e); TPunct 125].
Definition comp_val (e : N * N * N) : init := IList [] [IExpr [w (fst (fst e))]; IExpr [w (snd (fst e))]; IExpr [w (snd e)]].
Lemma comp_piece e c : comp_ok e -> piece LStart (comp_line e (ctext c)) LStart (comp_toks e ++ ctoks c).
Proof.
  intros (H1 & H2 & H3). unfold comp_line.
  eapply piece_eq; [exact (piece_app _ _ _ _ _ _ _ (hex_open _ H1) (piece_app _ _ _ _ _ _ _ (hex_next _ _ H2) (piece_app _ _ _ _ _ _ _ (hex_next _ _ H3) (close_nl _ c))))| |].
  - rewrite <- ?app_assoc. reflexivity.
  - destruct c; reflexivity.
Qed.
Definition comp_struct : str := lit "struct composition_pair { char32_t first; char32_t second; char32_t composed; };".
Lemma comp_table m : Forall comp_ok m -> small (length m) ->
  local_array (emit_compositions m) (Direct false) (lit "composition_pair") (lit "composition_table") (map comp_val m) /\
  holds_text (emit_compositions m) comp_struct.
Proof.
  intros Hm Hs.
  assert (B : piece LStart (entries comp_line m) LStart (ent_toks comp_toks m)).
  { apply (entries_piece comp_line comp_toks comp_ok); [|exact Hm]. intros x Hx c _. apply comp_piece, Hx. }
  set (st := lit "struct composition_pair {" ++ nl ++ lit "    char32_t first;" ++ nl ++ lit "    char32_t second;" ++ nl ++ lit "    char32_t composed;" ++ nl
    ++ lit "};" ++ nl ++ nl).
  assert (SP : piece LStart st LStart (toks_of comp_struct)) by lits.
  assert (I : piece LStart ((lit "// Canonical composition pairs (first + second -> composed)" ++ nl) ++ lit "// Total entries: " ++ size_of m ++ nl) LStart [])
    by (apply intro_lines; [lits|exact Hs]).
  set (rest := lit "inline constexpr std::array<composition_pair, " ++ size_of m ++ lit "> composition_table {{" ++ nl ++ entries comp_line m ++ lit "}};" ++ nl).
  assert (R : forall intro pre, piece LStart intro LStart pre ->
     local_array (intro ++ rest) (Direct false) (lit "composition_pair") (lit "composition_table") (map comp_val m)).
  { intros intro pre P. eapply (table_eq _ m intro _ _ _ _ (entries comp_line m) (ent_toks comp_toks m)).
    - unfold rest. rewrite <- ?app_assoc. reflexivity.
    - apply map_length.
    - exact Hs.
    - exact P.
    - lits.
    - wlit.
    - discriminate.
    - exact B.
    - intros h acc S rest'. apply (entries_parse comp_toks comp_val comp_ok); [|exact Hm]. intros x _ S'. reflexivity. }
  assert (E : emit_compositions m = (((lit "// Canonical composition pairs (first + second -> composed)" ++ nl) ++ lit "// Total entries: " ++ size_of m ++ nl) ++ st) ++ rest).
  { unfold emit_compositions, rest, st. rewrite <- ?app_assoc. reflexivity. }
  rewrite E. split; [exact (R _ _ (piece_app _ _ _ _ _ _ _ I SP))|].
  destruct (local_sound _ _ _ _ _ (R [] [] (piece_nil _))) as [rts RT].
  rewrite <- app_assoc. refine (holds_piece _ _ _ _ _ _ _ I SP _ RT). vm_compute. reflexivity.
Qed.
Lemma comp_read m : Forall comp_ok m -> all_some read_triple (map comp_val m) = Some m.
Proof.
  intros H. rewrite <- (map_id m) at 2. apply all_some_map. eapply Forall_impl; [|exact H]. intros [[a b] c] (H1 & H2 & H3). cbn [fst snd] in *.
  unfold comp_val, read_triple. cbn [fst snd]. rewrite !unsigned_hex by assumption. reflexivity.
Qed.

(** ** Sets *)
Lemma itoks_app (a b : list N) : a <> [] -> b <> [] -> itoks w (a ++ b) = itoks w a ++ TPunct 44 :: itoks w b.
Proof.
  intros Ha Hb. induction a as [|x a IH]; [congruence|]. destruct a as [|y a].
  - cbn [app]. rewrite itoks_cons. destruct b; [congruence|reflexivity].
  - change ((x :: y :: a) ++ b) with (x :: y :: (a ++ b)). change ((y :: a) ++ b) with (y :: (a ++ b)) in IH.
    rewrite (itoks_cons w x (y :: (a ++ b))), (itoks_cons w x (y :: a)). rewrite IH by discriminate. reflexivity.
Qed.
Lemma set_lines_piece f l : (length l <= f)%nat -> Forall u32 l -> piece LStart (set_lines f l) LStart (itoks w l).
Proof.
  revert l. induction f as [|f IH]; intros l L H; [destruct l; [apply piece_nil|cbn in L; lia]|].
  destruct l as [|x r]; [apply piece_nil|]. set (l := x :: r) in *.
  change (set_lines (S f) l) with (lit "    " ++ hex_list (firstn 8 l) ++ (match skipn 8 l with [] => [] | _ => lit "," end) ++ nl ++ set_lines f (skipn 8 l)).
  assert (Hf : firstn 8 l <> []) by discriminate.
  assert (HU : Forall u32 (firstn 8 l) /\ Forall u32 (skipn 8 l)).
  { apply Forall_app. rewrite firstn_skipn. exact H. } destruct HU as [HU1 HU2].
  destruct (hex_list_piece _ Hf HU1) as (ts & T & E).
  assert (Q : piece LStart (set_lines f (skipn 8 l)) LStart (itoks w (skipn 8 l))).
  { apply IH; [rewrite skipn_length; unfold l in *; cbn [length] in *; lia|exact HU2]. }
  assert (P : piece LStart (lit "    ") LStart []) by lits.
  destruct (skipn 8 l) as [|y r'] eqn:Sk.
  - assert (X : piece (LWord (hexw (last (firstn 8 l) 0))) nl LStart [w (last (firstn 8 l) 0)]) by lits.
    eapply piece_eq; [exact (piece_app _ _ _ _ _ _ _ P (piece_app _ _ _ _ _ _ _ T (piece_app _ _ _ _ _ _ _ X Q)))|rewrite <- ?app_assoc; reflexivity|].
    change (itoks w []) with (@nil tok). rewrite app_nil_r. change ([] ++ ts ++ [w (last (firstn 8 l) 0)]) with (ts ++ [w (last (firstn 8 l) 0)]). rewrite E.
    f_equal. rewrite <- (firstn_skipn 8 l) at 2. rewrite Sk, app_nil_r. reflexivity.
  - assert (X : piece (LWord (hexw (last (firstn 8 l) 0))) (lit "," ++ nl) LStart [w (last (firstn 8 l) 0); TPunct 44]) by lits.
    eapply piece_eq; [exact (piece_app _ _ _ _ _ _ _ P (piece_app _ _ _ _ _ _ _ T (piece_app _ _ _ _ _ _ _ X Q)))|rewrite <- ?app_assoc; reflexivity|].
    transitivity (itoks w (firstn 8 l ++ (y :: r'))).
    + rewrite itoks_app by (try exact Hf; discriminate). rewrite <- E. cbn [app]. rewrite <- app_assoc. reflexivity.
    + f_equal. rewrite <- Sk. apply firstn_skipn.
Qed.
Definition set_val (c : N) : init := IExpr [w c].
Lemma set_table s name : Forall u32 s -> small (length s) -> wordy name ->
  local_array (write_set s name) (Direct false) (lit "char32_t") (name ++ lit "_table") (map set_val s).
Proof.
  intros Hm Hs Hw. unfold write_set.
  eapply (table_eq _ s ((lit "// " ++ (name ++ lit " codepoints") ++ nl) ++ lit "// Total entries: " ++ size_of s ++ nl)
    _ _ _ _ (set_lines (length s) s) (itoks w s)).
  - rewrite <- ?app_assoc. reflexivity.
  - apply map_length.
  - exact Hs.
  - apply (intro_lines _ s); [|exact Hs]. apply piece_line.
    + apply Forall_app. split; [apply wordy_no10, Hw|no10].
    + rewrite last_app by discriminate. vm_compute. discriminate.
  - lits.
  - apply Forall_app. split; [exact Hw|wlit].
  - intros E. apply app_eq_nil in E. destruct E. discriminate.
  - apply set_lines_piece; [lia|exact Hm].
  - intros h acc S rest. apply (parse_words hexw).
Qed.
Lemma set_read s : Forall u32 s -> all_some (unsigned 32) (map set_val s) = Some s.
Proof. apply all_hex. Qed.
