(** Proofs about the command line tools. *)
From Coq Require Import Ascii String.
From Verif Require Import Base Spec_Utf M_Utf8 M_Convert M_Ucd M_Grapheme M_Utf8Grapheme M_Script M_Emoji M_Run M_TableGen M_Query Spec_Query
  P_Utf8 P_Convert.
Open Scope N_scope.

(** ** Numbers *)
Lemma hex_value_spec c d : hex_value c = Some d <-> hex_digit c d.
Proof.
  unfold hex_value, hex_digit.
  destruct (N.leb_spec 48 c); destruct (N.leb_spec c 57); destruct (N.leb_spec 65 c); destruct (N.leb_spec c 70);
  destruct (N.leb_spec 97 c); destruct (N.leb_spec c 102); cbn [andb]; (split; [intros [= <-]; lia | intros H7; try (f_equal; lia); exfalso; lia]) || (split; [discriminate | intros; exfalso; lia]).
Qed.
Lemma hex_digit_lt c d : hex_digit c d -> d < 16.
Proof. unfold hex_digit. lia. Qed.
Lemma hexd_digit d : d < 16 -> hex_digit (hexd d) d.
Proof. intros H. unfold hexd, hex_digit. destruct (N.ltb_spec d 10); lia. Qed.

(** the value of a string of hexadecimal digits, from the left *)
Fixpoint hval (s : str) (acc : N) : option N :=
  match s with [] => Some acc | c :: r => match hex_value c with Some d => hval r (acc * 16 + d) | None => None end end.
Lemma hval_app s c acc : hval (s ++ [c]) acc = match hval s acc with Some v => match hex_value c with Some d => Some (v * 16 + d) | None => None end | None => None end.
Proof.
  revert acc. induction s as [|x s IH]; intros acc; cbn.
  - destruct (hex_value c); reflexivity.
  - destruct (hex_value x); [apply IH|reflexivity].
Qed.
Lemma hval_spec s v : s <> [] -> (hval s 0 = Some v <-> hex_text s v).
Proof.
  intros NE. split.
  - revert v NE. induction s as [|c s IH] using rev_ind; intros v NE H; [congruence|].
    rewrite hval_app in H. destruct s as [|x s].
    + cbn in H. destruct (hex_value c) as [d|] eqn:E; [|discriminate]. injection H as <-. apply hex_value_spec in E.
      replace (0 * 16 + d) with d by lia. now constructor.
    + destruct (hval (x :: s) 0) as [w|] eqn:E; [|discriminate]. destruct (hex_value c) as [d|] eqn:E2; [|discriminate]. injection H as <-.
      replace (w * 16 + d) with (16 * w + d) by lia. apply hex_more; [apply IH; [discriminate|reflexivity]|now apply hex_value_spec].
  - clear NE. induction 1 as [c d Hd|s v c d H IH Hd].
    + cbn. apply hex_value_spec in Hd. rewrite Hd. f_equal; lia.
    + rewrite hval_app, IH. apply hex_value_spec in Hd. rewrite Hd. f_equal. lia.
Qed.
Lemma hval_take s acc v : hval s acc = Some v -> take_hex s acc = (v, []).
Proof.
  revert acc. induction s as [|c s IH]; intros acc; cbn; [intros [= ->]; reflexivity|].
  destruct (hex_value c); [apply IH|discriminate].
Qed.
Lemma hval_take_none s acc : hval s acc = None -> exists v r, take_hex s acc = (v, r) /\ r <> [].
Proof.
  revert acc. induction s as [|c s IH]; intros acc; cbn; [discriminate|].
  destruct (hex_value c); [apply IH|]. intros _. eexists _, _. split; [reflexivity|discriminate].
Qed.
Definition plain_char (s : str) : list N := match hval s 0 with Some v => [if v <? 4294967296 then v else 0] | None => [] end.
Lemma from_chars_plain s : s <> [] -> (let '(v, rest) := from_chars16 s in
  match rest with [] => Some (match v with Some x => x | None => 0 end) | _ => None end) = match hval s 0 with Some v => Some (if v <? 4294967296 then v else 0) | None => None end.
Proof.
  intros NE. destruct s as [|c s]; [congruence|]. unfold from_chars16. destruct (hval (c :: s) 0) as [v|] eqn:E.
  - assert (exists d, hex_value c = Some d) as (d & Ed) by (cbn in E; destruct (hex_value c); [eauto|discriminate]).
    rewrite Ed. rewrite (hval_take _ _ _ E). destruct (v <? 4294967296); reflexivity.
  - destruct (hex_value c) eqn:Ed; [|reflexivity].
    destruct (hval_take_none _ _ E) as (v & r & -> & NR). destruct r; [congruence|]. destruct (v <? 4294967296); reflexivity.
Qed.
Lemma strip_u_some s r : strip_u s = Some r <-> s = lit "U+" ++ r /\ r <> [].
Proof.
  unfold strip_u. change (lit "U+") with [85; 43]. destruct s as [|a [|b [|c s]]]; cbn [app]; try (split; [discriminate|intros [E ?]; destruct r; congruence]).
  destruct (N.eqb_spec a 85) as [->|]; destruct (N.eqb_spec b 43) as [->|]; cbn [andb]; (split; [first [discriminate | intros [= <-]; split; [reflexivity|discriminate]]|intros [E ?]; injection E; intros; subst; reflexivity || contradiction]).
Qed.
Lemma strip_u_none_hex s v : hval s 0 = Some v -> strip_u s = None.
Proof.
  intros H. destruct (strip_u s) as [r|] eqn:E; [|reflexivity]. apply strip_u_some in E. destruct E as [-> _]. change (lit "U+") with [85; 43] in H. cbn in H. discriminate.
Qed.
Lemma parse_char_spec s : s <> [] -> parse_char s =
  match hval (match strip_u s with Some r => r | None => s end) 0 with Some v => Some (if v <? 4294967296 then v else 0) | None => None end.
Proof.
  intros NE. unfold parse_char. apply from_chars_plain. destruct (strip_u s) eqn:E; [|exact NE]. apply strip_u_some in E. tauto.
Qed.
Lemma parse_u i s : s <> [] -> parse_chars i (lit "U+" ++ s) = Ok (plain_char (match strip_u s with Some r => r | None => s end)).
Proof.
  intros NE. unfold parse_chars. assert (E : strip_u (lit "U+" ++ s) = Some s) by (apply strip_u_some; auto). rewrite E.
  rewrite parse_char_spec by exact NE. unfold plain_char. destruct (hval _ 0); reflexivity.
Qed.
Lemma parse_u_hex i s v : hex_text s v -> parse_chars i (lit "U+" ++ s) = Ok [if v <? 4294967296 then v else 0].
Proof.
  intros H. assert (NE : s <> []) by (destruct H; [discriminate|now destruct s]). apply (hval_spec s v NE) in H.
  rewrite parse_u by exact NE. rewrite (strip_u_none_hex _ _ H). unfold plain_char. now rewrite H.
Qed.
Lemma hval_none s : s <> [] -> (forall v, ~ hex_text s v) -> hval s 0 = None.
Proof. intros NE H. destruct (hval s 0) eqn:E; [|reflexivity]. apply hval_spec in E; [|exact NE]. now apply H in E. Qed.

(** printed numbers *)
Lemma num_hex f n : n < 16 ^ N.of_nat (S f) -> hex_text (num (S f) 16 n) n.
Proof.
  revert n. induction f as [|f IH]; intros n H.
  - change (16 ^ N.of_nat 1) with 16 in H. cbn. destruct (N.ltb_spec n 16); [|lia]. constructor. now apply hexd_digit.
  - remember (S f) as f' eqn:Ef. cbn [num]. destruct (N.ltb_spec n 16); [constructor; now apply hexd_digit|].
    rewrite (N.div_mod n 16) at 3 by lia. apply hex_more.
    + subst f'. apply IH. apply N.div_lt_upper_bound; [lia|]. replace (N.of_nat (S (S f))) with (N.succ (N.of_nat (S f))) in H by lia.
      rewrite N.pow_succ_r' in H. exact H.
    + apply hexd_digit. apply N.mod_lt. lia.
Qed.
Lemma out_hex_text c : c < 4294967296 -> hex_text (out_hex c) c.
Proof. intros H. apply num_hex. exact H. Qed.
Lemma dec_text_ne s n : dec_text s n -> s <> [].
Proof. destruct 1; [discriminate|now destruct s]. Qed.
Lemma num_dec f n : n < 10 ^ N.of_nat (S f) -> dec_text (num (S f) 10 n) (N.to_nat n).
Proof.
  assert (HD : forall d, d < 10 -> hexd d = 48 + d) by (intros d Hd; unfold hexd; destruct (N.ltb_spec d 10); [reflexivity|lia]).
  revert n. induction f as [|f IH]; intros n H.
  - change (10 ^ N.of_nat 1) with 10 in H. cbn. destruct (N.ltb_spec n 10); [|lia]. rewrite HD by lia. now constructor.
  - remember (S f) as f' eqn:Ef. cbn [num]. destruct (N.ltb_spec n 10); [rewrite HD by lia; now constructor|].
    pose proof (N.mod_lt n 10 ltac:(lia)) as M. rewrite HD by exact M.
    replace (N.to_nat n) with (10 * N.to_nat (n / 10) + N.to_nat (n mod 10))%nat by (pose proof (N.div_mod n 10 ltac:(lia)); lia).
    apply dec_more; [|lia|exact M]. subst f'. apply IH. apply N.div_lt_upper_bound; [lia|].
    replace (N.of_nat (S (S f))) with (N.succ (N.of_nat (S f))) in H by lia. rewrite N.pow_succ_r' in H. exact H.
Qed.
Lemma out_dec_text n : N.of_nat n < 2 ^ 64 -> dec_text (out_dec n) n.
Proof. intros H. unfold out_dec. rewrite <- (Nat2N.id n) at 2. apply num_dec. eapply N.lt_trans; [exact H|]. reflexivity. Qed.

(** ** Escapes *)
Lemma hexd_char d : d < 16 -> hexd d = hex_char d.
Proof. intros H. apply N.eqb_eq. revert d H. apply (sweep (fun d => hexd d =? hex_char d) 16). vm_compute. reflexivity. Qed.
Lemma out_hex2_spec b : b < 256 -> out_hex2 b = byte_hex b.
Proof.
  intros H. unfold out_hex2, byte_hex. destruct (N.ltb_spec b 16); [now rewrite hexd_char|].
  rewrite (hexd_char (b / 16)) by (apply N.div_lt_upper_bound; lia). rewrite (hexd_char (b mod 16)) by (apply N.mod_lt; lia). reflexivity.
Qed.
Lemma char_val_low sc b : b < 128 -> char_val sc b = Z.of_N b.
Proof. intros H. unfold char_val. destruct (N.leb_spec 128 b); [lia|]. now rewrite andb_false_r. Qed.
Lemma escape_control_spec sc text : Forall byte text -> escape_control sc text = flat_map (shows_controls sc) text.
Proof.
  intros H. unfold escape_control. induction H as [|b text Hb H IH]; [reflexivity|]. cbn [flat_map]. f_equal; [|exact IH].
  unfold shows_controls. rewrite out_hex2_spec by exact Hb. unfold byte in Hb.
  assert (E : (char_val sc b <? 32)%Z = ((b <? 32) || (sc && (128 <=? b)))).
  { unfold char_val. destruct sc; cbn [andb]; [|rewrite orb_false_r; lia]. destruct (N.leb_spec 128 b); lia. }
  change 0x20%Z with 32%Z. rewrite E. reflexivity.
Qed.
Lemma isprint_ok tolerant sc b : byte b -> tolerant = true \/ sc = false \/ b < 128 -> isprint tolerant sc b = Ok ((32 <=? b) && (b <=? 126)).
Proof.
  unfold byte. intros Hb H. unfold isprint.
  assert (D : ((char_val sc b <? -1)%Z && negb tolerant) = false).
  { destruct H as [-> | [-> | H]]; [apply andb_false_r| |]; unfold char_val; cbn [andb]; [lia|]. destruct (N.leb_spec 128 b); [lia|]. rewrite andb_false_r. lia. }
  rewrite D. f_equal. unfold char_val. destruct sc; cbn [andb]; [destruct (N.leb_spec 128 b); lia|lia].
Qed.
Lemma isprint_ub b : 128 <= b < 255 -> isprint false true b = UB.
Proof. intros H. unfold isprint, char_val. cbn [andb]. destruct (N.leb_spec 128 b); [|lia]. destruct (Z.ltb_spec (Z.of_N b - 256) (-1)); [reflexivity|lia]. Qed.
Lemma escaped_spec tolerant sc text : Forall byte text -> isprint_defined tolerant sc text -> escaped tolerant sc text = Ok (flat_map shows_escaped text).
Proof.
  intros H D. induction H as [|b text Hb H IH]; [reflexivity|]. cbn [escaped].
  assert (DB : tolerant = true \/ sc = false \/ b < 128) by (destruct D as [?|[?|D]]; [auto|auto|right; right; now inversion D]).
  assert (DT : isprint_defined tolerant sc text) by (destruct D as [?|[?|D]]; [left|right; left|right; right]; auto; now inversion D).
  rewrite (isprint_ok _ _ _ Hb DB). cbn [bindR]. rewrite (IH DT). cbn [bindR flat_map]. unfold shows_escaped at 2.
  rewrite out_hex2_spec by exact Hb. reflexivity.
Qed.
Lemma escaped_ub text : Exists (fun b => 128 <= b < 255) text -> escaped false true text = UB.
Proof.
  induction 1 as [b text Hb|b text H IH]; cbn [escaped].
  - rewrite isprint_ub by exact Hb. reflexivity.
  - rewrite IH. destruct (isprint false true b) eqn:E; cbn [bindR]; try reflexivity. unfold isprint in E. destruct (_ && _); discriminate.
Qed.
Lemma byte_hex_inj a b : a < 256 -> b < 256 -> byte_hex a = byte_hex b -> a = b.
Proof.
  intros Ha Hb E. rewrite <- !out_hex2_spec in E by assumption.
  assert (A : forall n, n < 256 -> (fun n => let s := out_hex2 n in match s with [x; y] => (match hex_value x with Some p => 16 * p | None => 0 end + match hex_value y with Some q => q | None => 0 end =? n) | _ => false end) n = true).
  { apply sweep256. vm_compute. reflexivity. }
  pose proof (A a Ha) as A1. pose proof (A b Hb) as A2. cbv beta zeta in A1, A2. rewrite E in A1. destruct (out_hex2 b) as [|x [|y [|]]]; try discriminate.
  apply N.eqb_eq in A1, A2. congruence.
Qed.
Lemma byte_hex_two b : exists x y, byte_hex b = [x; y].
Proof. unfold byte_hex. destruct (b <? 16); eauto. Qed.
Lemma shows_escaped_cases b : (printable_ascii b /\ b <> 34 /\ shows_escaped b = [b]) \/ (exists x y, byte_hex b = [x; y] /\ shows_escaped b = [92; 120; x; y]).
Proof.
  unfold shows_escaped, printable_ascii. destruct (N.leb_spec 32 b); destruct (N.leb_spec b 126); destruct (N.eqb_spec b 34); cbn [andb negb];
  try (right; destruct (byte_hex_two b) as (x & y & E); exists x, y; split; [exact E|]; rewrite E; reflexivity). left. auto.
Qed.
Lemma escaped_inj t1 : forall t2, Forall byte t1 -> Forall byte t2 -> ~ In 92 t1 -> ~ In 92 t2 ->
  flat_map shows_escaped t1 = flat_map shows_escaped t2 -> t1 = t2.
Proof.
  induction t1 as [|a t1 IH]; intros t2 H1 H2 N1 N2 E.
  - destruct t2 as [|b t2]; [reflexivity|]. cbn [flat_map] in E. destruct (shows_escaped_cases b) as [(_ & _ & Eb)|(x & y & _ & Eb)]; rewrite Eb in E; discriminate.
  - destruct t2 as [|b t2]; [cbn [flat_map] in E; destruct (shows_escaped_cases a) as [(_ & _ & Eb)|(x & y & _ & Eb)]; rewrite Eb in E; discriminate|].
    inversion H1; inversion H2; subst. cbn [flat_map] in E. cbn [In] in N1, N2.
    destruct (shows_escaped_cases a) as [(_ & _ & Ea)|(x & y & Xa & Ea)]; destruct (shows_escaped_cases b) as [(_ & _ & Eb)|(x' & y' & Xb & Eb)]; rewrite Ea, Eb in E.
    + cbn [app] in E. injection E as -> E. f_equal. apply IH; auto.
    + cbn [app] in E. injection E as -> _. exfalso. tauto.
    + cbn [app] in E. injection E as <- _. exfalso. tauto.
    + cbn [app] in E. injection E as -> -> E. f_equal; [apply byte_hex_inj; [assumption|assumption|congruence]|]. apply IH; auto.
Qed.
Lemma hex_char_print d : d < 16 -> printable_ascii (hex_char d) /\ hex_char d <> 34.
Proof.
  intros H. assert (A : forall d, d < N.of_nat 16 -> (fun d => (32 <=? hex_char d) && (hex_char d <=? 126) && negb (hex_char d =? 34)) d = true) by (apply sweep; vm_compute; reflexivity).
  specialize (A d H). cbv beta in A. unfold printable_ascii. lia.
Qed.
Lemma byte_hex_print b : b < 256 -> Forall (fun c => printable_ascii c /\ c <> 34) (byte_hex b).
Proof.
  intros H. unfold byte_hex. destruct (N.ltb_spec b 16).
  - constructor; [unfold printable_ascii; lia|]. constructor; [now apply hex_char_print|constructor].
  - constructor; [apply hex_char_print, N.div_lt_upper_bound; lia|]. constructor; [apply hex_char_print, N.mod_lt; lia|constructor].
Qed.
Lemma escaped_print t : Forall byte t -> Forall (fun c => printable_ascii c /\ c <> 34) (flat_map shows_escaped t).
Proof.
  induction 1 as [|b t Hb H IH]; [constructor|]. cbn [flat_map]. apply Forall_app. split; [|exact IH].
  unfold shows_escaped. destruct (N.leb_spec 32 b); destruct (N.leb_spec b 126); destruct (N.eqb_spec b 34); cbn [andb negb];
  try (apply Forall_app; split; [change (lit "\x") with [92; 120]; unfold printable_ascii; constructor; [lia|constructor; [lia|constructor]]|now apply byte_hex_print]).
  constructor; [unfold printable_ascii; lia|constructor].
Qed.
Lemma shows_controls_low sc b c : byte b -> In c (shows_controls sc b) -> 32 <= c.
Proof.
  unfold byte, shows_controls. intros Hb. destruct (N.ltb_spec b 32); cbn [orb].
  - change (lit "\x") with [92; 120]. intros H1. apply in_app_iff in H1. destruct H1 as [[<-|[<-|[]]]|H1]; [lia|lia|].
    pose proof (byte_hex_print b Hb) as F. rewrite Forall_forall in F. destruct (F _ H1) as [P _]. unfold printable_ascii in P. lia.
  - destruct (sc && (128 <=? b)).
    + change (lit "\x") with [92; 120]. intros H1. apply in_app_iff in H1. destruct H1 as [[<-|[<-|[]]]|H1]; [lia|lia|].
      pose proof (byte_hex_print b Hb) as F. rewrite Forall_forall in F. destruct (F _ H1) as [P _]. unfold printable_ascii in P. lia.
    + intros [<-|[]]. lia.
Qed.
Lemma shows_low e sc t c : Forall byte t -> In c (shows e sc t) -> 32 <= c.
Proof.
  intros H I. unfold shows in I. destruct e.
  - pose proof (escaped_print t H) as F. rewrite Forall_forall in F. destruct (F _ I) as [P _]. unfold printable_ascii in P. lia.
  - apply in_flat_map in I. destruct I as (b & Ib & I). rewrite Forall_forall in H. eapply shows_controls_low; [apply H, Ib|exact I].
Qed.
Lemma shown_spec tolerant sc e t : scalars t -> (e = true -> isprint_defined tolerant sc (utf8_text t)) ->
  shown tolerant sc e t = Ok (shows e sc (utf8_text t)).
Proof.
  intros H D. unfold shown. pose proof (convert_it_units T32 T8 t H) as E. rewrite text_units_8, text_units_32 in E. rewrite E. cbn [bindR].
  unfold shows. destruct e.
  - apply escaped_spec; [apply utf8_text_bytes, H|auto].
  - f_equal. apply escape_control_spec, utf8_text_bytes, H.
Qed.
