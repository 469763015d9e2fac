(** Reading the printed tables back: lexing piece by piece, numbers, and the initializer lists. *)
From Coq Require Import String Lia.
From Verif Require Import Base M_TableGen Spec_Cpp M_Emit.
Open Scope N_scope.

(** ** Phase 2 and 3, piece by piece *)
Lemma splice_app : forall a b, last a 0 <> 92 -> splice (a ++ b) = splice a ++ splice b.
Proof.
  intros a. remember (length a) as n eqn:E. assert (L : (length a <= n)%nat) by lia. clear E. revert a L.
  induction n as [|n IH]; intros a L b H.
  - destruct a; [reflexivity|cbn in L; lia].
  - destruct a as [|c [|d r]]; [reflexivity| |].
    + cbn in H. cbn [app]. destruct b as [|d b]; [reflexivity|]. change ([c] ++ d :: b) with (c :: d :: b).
      cbn [splice]. destruct (N.eqb_spec c 92); [congruence|]. reflexivity.
    + change ((c :: d :: r) ++ b) with (c :: d :: (r ++ b)).
      change (splice (c :: d :: r)) with (if (c =? 92) && (d =? 10) then splice r else c :: splice (d :: r)).
      change (splice (c :: d :: (r ++ b))) with (if (c =? 92) && (d =? 10) then splice (r ++ b) else c :: splice ((d :: r) ++ b)).
      cbn in L. destruct ((c =? 92) && (d =? 10)) eqn:E.
      * apply IH; [lia|]. destruct r; [cbn; discriminate|exact H].
      * cbn [app]. f_equal. apply (IH (d :: r)); [cbn; lia|]. exact H.
Qed.
Lemma splice_id s : Forall (fun c => c <> 10) s -> splice s = s.
Proof.
  induction s as [|c r IH]; intros H; [reflexivity|]. pose proof (Forall_inv_tail H) as H'. destruct r as [|d r]; [reflexivity|].
  pose proof (Forall_inv H') as Hd. cbv beta in Hd.
  change (splice (c :: d :: r)) with (if (c =? 92) && (d =? 10) then splice r else c :: splice (d :: r)).
  destruct (N.eqb_spec d 10); [congruence|]. rewrite Bool.andb_false_r. f_equal. apply IH, H'.
Qed.
Lemma lex_run_app : forall a b st st1 st2 t1 t2, lex_run st a = Some (st1, t1) -> lex_run st1 b = Some (st2, t2) ->
  lex_run st (a ++ b) = Some (st2, t1 ++ t2).
Proof.
  induction a as [|c r IH]; intros b st st1 st2 t1 t2 H1 H2; cbn in *.
  - injection H1 as <- <-. exact H2.
  - destruct (lex_step st c) as [[st' ts]|]; [|discriminate]. destruct (lex_run st' r) as [[st'' ts'']|] eqn:E; cbn in H1; [|discriminate].
    injection H1 as -> <-. rewrite (IH b st' st1 st2 ts'' t2 E H2). cbn. rewrite app_assoc. reflexivity.
Qed.
Definition piece (st : lstate) (s : str) (st' : lstate) (ts : list tok) : Prop :=
  last s 0 <> 92 /\ lex_run st (splice s) = Some (st', ts).
Lemma last_app (a b : str) : b <> [] -> last (a ++ b) 0 = last b 0.
Proof.
  intros H. induction a as [|x a IH]; [reflexivity|]. cbn [app]. destruct (a ++ b) eqn:E; [apply app_eq_nil in E; tauto|].
  rewrite <- IH. reflexivity.
Qed.
Lemma piece_app st a st1 t1 b st2 t2 : piece st a st1 t1 -> piece st1 b st2 t2 -> piece st (a ++ b) st2 (t1 ++ t2).
Proof.
  intros [L1 R1] [L2 R2]. split.
  - destruct b as [|c b]; [rewrite app_nil_r; exact L1|]. rewrite last_app by discriminate. exact L2.
  - rewrite splice_app by exact L1. apply (lex_run_app _ _ _ _ _ _ _ R1 R2).
Qed.
Lemma piece_nil st : piece st [] st []. Proof. split; [cbn; discriminate|reflexivity]. Qed.
Lemma piece_eq st s st' ts s' ts' : piece st s st' ts -> s = s' -> ts = ts' -> piece st s' st' ts'.
Proof. intros H <- <-. exact H. Qed.

Definition wordy (w : str) : Prop := Forall (fun c => word_char c = true) w.
Lemma word_not c : word_char c = true -> c <> 92 /\ c <> 10.
Proof. intros H. split; intros ->; discriminate H. Qed.
Lemma wordy_last w : wordy w -> last w 0 <> 92.
Proof.
  intros H. induction H as [|c r Hc Hr IH]; [cbn; discriminate|]. destruct r; [|exact IH]. cbn. apply word_not, Hc.
Qed.
Lemma wordy_no10 w : wordy w -> Forall (fun c => c <> 10) w.
Proof. apply Forall_impl. intros c H. apply word_not, H. Qed.
Lemma piece_word v w : wordy w -> piece (LWord v) w (LWord (v ++ w)) [].
Proof.
  intros H. split; [apply wordy_last, H|]. rewrite splice_id by (apply wordy_no10, H). revert v.
  induction H as [|c r Hc Hr IH]; intros v; cbn; [rewrite app_nil_r; reflexivity|].
  rewrite Hc. rewrite IH. cbn. rewrite <- app_assoc. reflexivity.
Qed.
Lemma piece_word0 w : wordy w -> w <> [] -> piece LStart w (LWord w) [].
Proof.
  intros H Hn. split; [apply wordy_last, H|]. rewrite splice_id by (apply wordy_no10, H).
  destruct w as [|c r]; [congruence|]. cbn [lex_run lex_step]. pose proof (Forall_inv H) as Hc. cbv beta in Hc.
  assert (E : lex_start c = Some (LWord [c], [])).
  { unfold lex_start. rewrite Hc. replace (blank c) with false; [reflexivity|]. symmetry.
    destruct (blank c) eqn:B; [|reflexivity]. unfold blank in B. rewrite !Bool.orb_true_iff, !N.eqb_eq in B. destruct B as [[->| ->]| ->]; discriminate Hc. }
  rewrite E. destruct (piece_word [c] r (Forall_inv_tail H)) as [_ R]. rewrite splice_id in R by (apply wordy_no10, (Forall_inv_tail H)).
  rewrite R. reflexivity.
Qed.
(** text inside a line comment *)
Lemma piece_comment s : Forall (fun c => c <> 10) s -> last s 0 <> 92 -> piece LLine s LLine [].
Proof.
  intros H L. split; [exact L|]. rewrite splice_id by exact H. clear L.
  induction H as [|c r Hc Hr IH]; [reflexivity|]. cbn. destruct (N.eqb_spec c 10); [congruence|]. rewrite IH. reflexivity.
Qed.
Lemma piece_comment_word s : wordy s -> piece LLine s LLine [].
Proof. intros H. apply piece_comment; [apply wordy_no10, H|apply wordy_last, H]. Qed.
(** literal text, by computation *)
Ltac lits := match goal with |- piece _ _ _ _ => split; [vm_compute; discriminate|vm_compute; reflexivity] end.

(** ** Numbers *)
Lemma hexU_digit b d : d < b -> b <= 16 -> digit_val (hexU d) = Some d /\ word_char (hexU d) = true.
Proof.
  intros H1 H2. assert (d < 16) by lia. unfold hexU, digit_val, word_char. destruct (N.ltb_spec d 10).
  - replace (48 <=? 48 + d) with true by (symmetry; apply N.leb_le; lia). replace (48 + d <=? 57) with true by (symmetry; apply N.leb_le; lia).
    cbn. split; [f_equal; lia|reflexivity].
  - replace (48 <=? 55 + d) with true by (symmetry; apply N.leb_le; lia). replace (55 + d <=? 57) with false by (symmetry; apply N.leb_gt; lia).
    replace (65 <=? 55 + d) with true by (symmetry; apply N.leb_le; lia). replace (55 + d <=? 70) with true by (symmetry; apply N.leb_le; lia).
    replace (55 + d <=? 90) with true by (symmetry; apply N.leb_le; lia).
    cbn. split; [f_equal; lia|reflexivity].
Qed.
Lemma digits_val_app b s t acc v : digits_val b acc s = Some v -> digits_val b acc (s ++ t) = digits_val b v t.
Proof.
  revert acc. induction s as [|c r IH]; intros acc H; cbn in *; [injection H as ->; reflexivity|].
  destruct (digit_val c) as [d|]; [|discriminate]. destruct (d <? b); [|discriminate]. apply IH, H.
Qed.
Lemma fmt_digits_val b f n : 2 <= b -> b <= 16 -> n < b ^ N.of_nat f -> (1 <= f)%nat ->
  digits_val b 0 (fmt_digits f b n) = Some n /\ wordy (fmt_digits f b n) /\ fmt_digits f b n <> [].
Proof.
  intros Hb1 Hb2. revert n. induction f as [|f IH]; intros n H Hf; [lia|]. cbn [fmt_digits].
  destruct (N.ltb_spec n b) as [L|L].
  - destruct (hexU_digit b n L Hb2) as [D W]. cbn. rewrite D. replace (n <? b) with true by (symmetry; apply N.ltb_lt, L).
    split; [reflexivity|]. split; [|discriminate]. constructor; [exact W|constructor].
  - assert (Hm : n mod b < b) by (apply N.mod_lt; lia).
    destruct f as [|f].
    { change (b ^ N.of_nat 1) with (b ^ 1) in H. rewrite N.pow_1_r in H. lia. }
    destruct (IH (n / b)) as (V & W & _); [|lia|].
    { rewrite Nat2N.inj_succ, N.pow_succ_r' in H. apply N.div_lt_upper_bound; lia. }
    destruct (hexU_digit b _ Hm Hb2) as [D Wd].
    rewrite (digits_val_app _ _ _ _ _ V). cbn [digits_val]. rewrite D. replace (n mod b <? b) with true by (symmetry; apply N.ltb_lt, Hm).
    split; [f_equal; pose proof (N.div_mod n b ltac:(lia)); lia|].
    split; [|intros E; apply app_eq_nil in E; destruct E; discriminate].
    apply Forall_app. split; [exact W|]. constructor; [exact Wd|constructor].
Qed.
Lemma zeros_val b k s : (0 < b) -> digits_val b 0 (repeat 48 k ++ s) = digits_val b 0 s.
Proof. intros Hb. induction k as [|k IH]; [reflexivity|]. cbn [repeat app digits_val]. change (digit_val 48) with (Some 0). cbv iota beta.
  replace (0 <? b) with true by (symmetry; apply N.ltb_lt, Hb). rewrite N.mul_0_l. exact IH. Qed.
Lemma X4_val n : n < 2 ^ 32 -> digits_val 16 0 (fmt_X4 n) = Some n /\ wordy (fmt_X4 n) /\ fmt_X4 n <> [].
Proof.
  intros H. destruct (fmt_digits_val 16 8 n) as (V & W & E); [lia|lia|exact H|lia|].
  unfold fmt_X4. rewrite zeros_val by lia. split; [exact V|]. split.
  - apply Forall_app. split; [|exact W]. apply Forall_forall. intros c Hc. apply repeat_spec in Hc. subst c. reflexivity.
  - intros X. apply app_eq_nil in X. tauto.
Qed.
Definition hexw (n : N) : str := lit "0x" ++ fmt_X4 n.
Lemma hexw_val n : n < 2 ^ 32 -> int_literal (hexw n) = Some n.
Proof.
  intros H. destruct (X4_val n H) as (V & _ & E). unfold hexw. change (lit "0x") with [48; 120]. cbn [app int_literal N.eqb Pos.eqb orb].
  destruct (fmt_X4 n); [congruence|exact V].
Qed.
Lemma hexw_wordy n : n < 2 ^ 32 -> wordy (hexw n).
Proof. intros H. apply Forall_app. split; [repeat constructor|]. apply X4_val, H. Qed.
Definition small (n : nat) : Prop := N.of_nat n < 2 ^ 64.
Lemma digits10 f n : n < 10 ^ N.of_nat f -> fmt_digits f 10 n = dec_digits f n.
Proof.
  revert n. induction f as [|f IH]; intros n H; [reflexivity|]. cbn. destruct (N.ltb_spec n 10) as [L|L].
  - unfold hexU. replace (n <? 10) with true by (symmetry; apply N.ltb_lt, L). reflexivity.
  - rewrite IH by (rewrite Nat2N.inj_succ, N.pow_succ_r' in H; apply N.div_lt_upper_bound; lia).
    unfold hexU. replace (n mod 10 <? 10) with true by (symmetry; apply N.ltb_lt, N.mod_lt; lia). reflexivity.
Qed.
Lemma small20 n : n < 2 ^ 64 -> n < 10 ^ N.of_nat 20.
Proof. intros H. eapply N.lt_trans; [exact H|reflexivity]. Qed.
Lemma size_numeral {A} (l : list A) : small (length l) -> size_of l = numeral (length l).
Proof. intros H. unfold size_of, fmt_d, numeral. apply digits10, small20, H. Qed.
Lemma fmt_d_wordy n : n < 2 ^ 64 -> wordy (fmt_d n) /\ fmt_d n <> [].
Proof. intros H. unfold fmt_d. destruct (fmt_digits_val 10 20 n) as (_ & W & E); [lia|lia|apply small20, H|lia|]. split; assumption. Qed.
Lemma numeral_wordy n : small n -> wordy (numeral n) /\ numeral n <> [].
Proof. intros H. unfold numeral. rewrite <- digits10 by (apply small20, H). apply (fmt_d_wordy _ H). Qed.
(** no leading zero *)
Lemma digits_head f n : (1 <= f)%nat -> n <> 0 -> n < 10 ^ N.of_nat f -> exists c r, fmt_digits f 10 n = c :: r /\ c <> 48.
Proof.
  revert n. induction f as [|f IH]; intros n Hf H0 H; [lia|]. cbn. destruct (N.ltb_spec n 10) as [L|L].
  - exists (hexU n), []. split; [reflexivity|]. unfold hexU. replace (n <? 10) with true by (symmetry; apply N.ltb_lt, L). lia.
  - rewrite Nat2N.inj_succ, N.pow_succ_r' in H. destruct f as [|f]; [cbn in H; lia|].
    destruct (IH (n / 10)) as (c & r & E & Hc); [lia| |apply N.div_lt_upper_bound; lia|].
    { assert (1 <= n / 10) by (apply N.div_le_lower_bound; lia). lia. }
    exists c, (r ++ [hexU (n mod 10)]). rewrite E. split; [reflexivity|exact Hc].
Qed.
Lemma fmt_d_val n : n < 2 ^ 64 -> int_literal (fmt_d n) = Some n.
Proof.
  intros H. destruct (fmt_digits_val 10 20 n) as (V & W & E); [lia|lia|apply small20, H|lia|].
  unfold fmt_d. destruct (N.eq_dec n 0) as [->|H0]; [reflexivity|].
  destruct (digits_head 20 n) as (c & r & Ec & Hc); [lia|exact H0|apply small20, H|].
  rewrite Ec in *. destruct r as [|d r]; cbn [int_literal]; [exact V|]. destruct (N.eqb_spec c 48); [congruence|exact V].
Qed.
Lemma fmt_i_d z : (0 <= z)%Z -> fmt_i z = fmt_d (Z.to_N z).
Proof. intros H. destruct z; [reflexivity|reflexivity|lia]. Qed.

(** ** Initializer lists *)
Lemma parse_app st a st1 b : parse_run st a = Some st1 -> parse_run st (a ++ b) = parse_run st1 b.
Proof.
  revert st. induction a as [|t r IH]; intros st H; cbn in *; [injection H as ->; reflexivity|].
  destruct (parse_step st t); [|discriminate]. apply IH, H.
Qed.
Definition w (n : N) : tok := TWord (hexw n).
Definition wd (n : N) : tok := TWord (fmt_d n).
Fixpoint itoks {A} (t : A -> tok) (l : list A) : list tok :=
  match l with [] => [] | [x] => [t x] | x :: r => t x :: TPunct 44 :: itoks t r end.
Lemma itoks_cons {A} (t : A -> tok) x r : itoks t (x :: r) = t x :: (match r with [] => [] | _ => TPunct 44 :: itoks t r end).
Proof. destruct r; reflexivity. Qed.
Lemma parse_words {A} (f : A -> str) (l : list A) h acc S rest :
  parse_run ((h, acc) :: S, CNone) (itoks (fun x => TWord (f x)) l ++ TPunct 125 :: rest)
  = parse_run (S, CDone (IList h (acc ++ map (fun x => IExpr [TWord (f x)]) l))) rest.
Proof.
  revert acc. induction l as [|x r IH]; intros acc.
  - cbn. rewrite app_nil_r. reflexivity.
  - rewrite itoks_cons. destruct r as [|y r].
    + reflexivity.
    + cbn [app parse_run parse_step add_tok push_elem option_map]. rewrite IH. cbn [map]. rewrite <- app_assoc. reflexivity.
Qed.

(** ** Entries *)
Section entries.
  Context {A : Type} (line : A -> str -> str) (etoks : A -> list tok) (val : A -> init) (ok : A -> Prop).
  Hypothesis Hline : forall x, ok x -> forall c, c = true \/ c = false ->
    piece LStart (line x (if c then lit "," else [])) LStart (etoks x ++ if c then [TPunct 44] else []).
  Hypothesis Hval : forall x, ok x -> forall S, parse_run (S, CNone) (etoks x) = Some (S, CDone (val x)).
  Fixpoint ent_toks (l : list A) : list tok :=
    match l with [] => [] | x :: r => etoks x ++ (match r with [] => [] | _ => [TPunct 44] end) ++ ent_toks r end.
  Lemma entries_piece l : Forall ok l -> piece LStart (entries line l) LStart (ent_toks l).
  Proof.
    induction l as [|x r IH]; intros H; [apply piece_nil|]. cbn [entries ent_toks]. rewrite app_assoc.
    apply (piece_app _ _ LStart _ _ LStart); [|apply IH, (Forall_inv_tail H)].
    pose proof (Hline x (Forall_inv H)) as L. destruct r; [apply (L false); right; reflexivity|apply (L true); left; reflexivity].
  Qed.
  Lemma entries_parse l h acc S rest : Forall ok l ->
    parse_run ((h, acc) :: S, CNone) (ent_toks l ++ TPunct 125 :: rest) = parse_run (S, CDone (IList h (acc ++ map val l))) rest.
  Proof.
    revert acc. induction l as [|x r IH]; intros acc H; cbn [ent_toks map].
    - cbn. rewrite app_nil_r. reflexivity.
    - rewrite <- !app_assoc. rewrite (parse_app _ _ _ _ (Hval x (Forall_inv H) _)). destruct r as [|y r].
      + reflexivity.
      + cbn [app parse_run parse_step push_elem option_map].
        pose proof (IH (acc ++ [val x]) (Forall_inv_tail H)) as E. rewrite E. rewrite <- app_assoc. reflexivity.
  Qed.
End entries.

(** ** A whole table *)
Definition local_array (s : str) (f : form) (type name : str) (vals : list init) : Prop :=
  exists pre decl body post i, piece LStart s LStart (pre ++ decl ++ body ++ TPunct 59 :: post) /\
    lex (array_decl f type name (length vals)) = Some decl /\ parse_init body = Some i /\ elements i = Some vals.
Definition sound (s : str) : Prop := exists ts, piece LStart s LStart ts.
Lemma local_sound s f ty n v : local_array s f ty n v -> sound s.
Proof. intros (pre & decl & body & post & i & H & _). eexists. exact H. Qed.
Lemma sound_app a b : sound a -> sound b -> sound (a ++ b).
Proof. intros [x X] [y Y]. eexists. exact (piece_app _ _ _ _ _ _ _ X Y). Qed.
Lemma piece_lex s ts : piece LStart s LStart ts -> lex s = Some ts.
Proof. intros [_ R]. unfold lex. rewrite R. reflexivity. Qed.
Lemma local_in a s b f ty n v : sound a -> local_array s f ty n v -> sound b -> defines_array (a ++ s ++ b) f ty n v.
Proof.
  intros [x X] (pre & decl & body & post & i & H & D & P & E) [y Y].
  exists (x ++ pre), decl, body, (post ++ y), i. split; [|split; [exact D|split; [exact P|exact E]]].
  pose proof (piece_lex _ _ (piece_app _ _ _ _ _ _ _ X (piece_app _ _ _ _ _ _ _ H Y))) as L. rewrite L. f_equal.
  rewrite <- !app_assoc. cbn. rewrite <- ?app_assoc. reflexivity.
Qed.
Lemma local_text (s a b : str) t ts u v : piece LStart a LStart u -> lex t = Some ts -> piece LStart s LStart ts -> piece LStart b LStart v ->
  contains_text (a ++ s ++ b) t.
Proof.
  intros A T H B. exists u, ts, v. split; [|exact T]. apply piece_lex.
  exact (piece_app _ _ _ _ _ _ _ A (piece_app _ _ _ _ _ _ _ H B)).
Qed.
(** the declaration *)
Definition decl_toks (tt : list tok) (n : nat) (name : str) : list tok := tt ++ [TWord (numeral n); TPunct 62; TWord name].
Lemma piece_decl type tt n name : piece LStart (lit "std::array<" ++ type ++ lit ", ") LStart tt -> small n -> wordy name -> name <> [] ->
  piece LStart (lit "std::array<" ++ type ++ lit ", " ++ numeral n ++ lit "> " ++ name) (LWord name) (tt ++ [TWord (numeral n); TPunct 62]).
Proof.
  intros T Hn Hw Hne. destruct (numeral_wordy n Hn) as [Nw Nn].
  assert (E : lit "std::array<" ++ type ++ lit ", " ++ numeral n ++ lit "> " ++ name
              = (lit "std::array<" ++ type ++ lit ", ") ++ (numeral n ++ lit "> ") ++ name) by (rewrite <- !app_assoc; reflexivity).
  rewrite E. apply (piece_app _ _ _ _ _ _ _ T).
  replace [TWord (numeral n); TPunct 62] with (([] ++ [TWord (numeral n); TPunct 62]) ++ []) by reflexivity.
  apply (piece_app _ _ LStart); [|apply piece_word0; assumption].
  apply (piece_app _ _ (LWord (numeral n))); [apply piece_word0; assumption|lits].
Qed.
Lemma lex_decl type tt n name : piece LStart (lit "std::array<" ++ type ++ lit ", ") LStart tt -> small n -> wordy name -> name <> [] ->
  lex (array_decl (Direct false) type name n) = Some (decl_toks tt n name).
Proof.
  intros T Hn Hw Hne. destruct (piece_decl type tt n name T Hn Hw Hne) as [_ R].
  unfold array_decl, lex. cbn [app]. rewrite R. unfold decl_toks. rewrite <- app_assoc. reflexivity.
Qed.
(** "inline constexpr std::array<type, n> name {{", the entries, "}};" *)
Lemma table_local intro pre type tt name body btoks (vals : list init) :
  piece LStart intro LStart pre -> piece LStart (lit "std::array<" ++ type ++ lit ", ") LStart tt ->
  small (length vals) -> wordy name -> name <> [] -> piece LStart body LStart btoks ->
  (forall h acc S rest, parse_run ((h, acc) :: S, CNone) (btoks ++ TPunct 125 :: rest) = parse_run (S, CDone (IList h (acc ++ vals))) rest) ->
  local_array (intro ++ lit "inline constexpr std::array<" ++ type ++ lit ", " ++ numeral (length vals) ++ lit "> " ++ name ++ lit " {{" ++ nl
               ++ body ++ lit "}};" ++ nl) (Direct false) type name vals.
Proof.
  intros I T Hn Hw Hne B P.
  exists (pre ++ [TWord (lit "inline"); TWord (lit "constexpr")]), (decl_toks tt (length vals) name),
    ([TPunct 123; TPunct 123] ++ btoks ++ [TPunct 125; TPunct 125]), [], (IList [] [IList [] vals]).
  split; [|split; [apply lex_decl; assumption|split; [|reflexivity]]].
  - pose proof (piece_decl type tt (length vals) name T Hn Hw Hne) as D.
    assert (P1 : piece LStart (lit "inline constexpr ") LStart [TWord (lit "inline"); TWord (lit "constexpr")]) by lits.
    assert (P2 : piece (LWord name) (lit " {{" ++ nl) LStart [TWord name; TPunct 123; TPunct 123]) by lits.
    assert (P3 : piece LStart (lit "}};" ++ nl) LStart [TPunct 125; TPunct 125; TPunct 59]) by lits.
    pose proof (piece_app _ _ _ _ _ _ _ I (piece_app _ _ _ _ _ _ _ P1 (piece_app _ _ _ _ _ _ _ D (piece_app _ _ _ _ _ _ _ P2
                  (piece_app _ _ _ _ _ _ _ B P3))))) as X.
    eapply piece_eq; [exact X| |].
    + change (lit "inline constexpr std::array<") with (lit "inline constexpr " ++ lit "std::array<"). rewrite <- !app_assoc. reflexivity.
    + unfold decl_toks. rewrite <- !app_assoc. cbn. rewrite <- ?app_assoc. reflexivity.
  - unfold parse_init. cbn [app parse_run parse_step]. rewrite P. reflexivity.
Qed.
