(** Text lemmas for the table generator. *)
From Coq Require Import Ascii String Permutation.
From Verif Require Import Base M_Tables M_Normalize M_Case M_TableGen Spec_Tables Spec_TableGen P_Tables.
Open Scope N_scope.

(** ** Stripping *)
Lemma drop_front_app p w s : Forall (fun c => p c = true) w -> drop_front p (w ++ s) = drop_front p s.
Proof. induction 1 as [|c w Hc Hw IH]; [reflexivity|]. cbn [app drop_front]. rewrite Hc. exact IH. Qed.
Lemma drop_front_id p s : (forall c r, s = c :: r -> p c = false) -> drop_front p s = s.
Proof. destruct s as [|c r]; [reflexivity|]. intros H. cbn [drop_front]. rewrite (H c r eq_refl). reflexivity. Qed.
Lemma drop_front_split p s : exists w, s = w ++ drop_front p s /\ Forall (fun c => p c = true) w.
Proof.
  induction s as [|c s [w [E F]]]; [exists []; split; [reflexivity|constructor]|]. cbn [drop_front].
  destruct (p c) eqn:Ec; [|exists []; split; [reflexivity|constructor]].
  exists (c :: w). split; [cbn [app]; f_equal; exact E|constructor; assumption].
Qed.
Lemma drop_back_app p w s : Forall (fun c => p c = true) w -> drop_back p (s ++ w) = drop_back p s.
Proof. intros H. unfold drop_back. rewrite rev_app_distr, drop_front_app; [reflexivity|]. apply Forall_rev, H. Qed.
Lemma drop_back_id p s : (forall c r, s = r ++ [c] -> p c = false) -> drop_back p s = s.
Proof.
  intros H. unfold drop_back. rewrite drop_front_id; [apply rev_involutive|]. intros c r E. apply (H c (rev r)).
  apply (f_equal (@rev N)) in E. rewrite rev_involutive in E. exact E.
Qed.
Lemma drop_back_split p s : exists w, s = drop_back p s ++ w /\ Forall (fun c => p c = true) w.
Proof.
  destruct (drop_front_split p (rev s)) as [w [E F]]. exists (rev w). split; [|apply Forall_rev, F].
  unfold drop_back. apply (f_equal (@rev N)) in E. rewrite rev_involutive, rev_app_distr in E. exact E.
Qed.
Lemma is_ws_white c : is_ws c = true <-> white c.
Proof. unfold is_ws, white. lia. Qed.
Lemma ws_forall w : Forall white w <-> Forall (fun c => is_ws c = true) w.
Proof. split; apply Forall_impl; intros c; apply is_ws_white. Qed.
Lemma not_white c : ~ white c <-> is_ws c = false.
Proof. rewrite <- is_ws_white. destruct (is_ws c); intuition congruence. Qed.

Lemma trim_strip w1 s w2 : Forall white w1 -> Forall white w2 -> clean s -> trim (w1 ++ s ++ w2) = s.
Proof.
  intros H1 H2 [Hc Hd]. unfold trim. apply ws_forall in H1, H2. rewrite drop_front_app by exact H1.
  destruct s as [|c s].
  - cbn [app]. rewrite <- (app_nil_r w2), drop_front_app by exact H2. reflexivity.
  - rewrite drop_front_id.
    + rewrite drop_back_app by exact H2. apply drop_back_id. intros x r E. apply not_white, (Hd x r E).
    + intros x r E. cbn [app] in E. inversion E; subst. apply not_white, (Hc x s eq_refl).
Qed.
Lemma trim_id s : clean s -> trim s = s.
Proof. intros H. pose proof (trim_strip [] s [] (Forall_nil _) (Forall_nil _) H) as E. rewrite app_nil_r in E. exact E. Qed.
Lemma trim_white s : Forall white s -> trim s = [].
Proof.
  intros H. pose proof (trim_strip s [] [] H (Forall_nil _)) as E. cbn [app] in E. rewrite app_nil_r in E. apply E.
  split; intros c r X; [discriminate|destruct r; discriminate].
Qed.
Lemma clean_nil : clean [].
Proof. split; intros c r X; [discriminate|destruct r; discriminate]. Qed.
Lemma clean_no_white s : no_white s -> clean s.
Proof.
  intros H. unfold no_white in H. rewrite Forall_forall in H. split; intros c r ->; apply H; [left; reflexivity|].
  apply in_or_app. right. left. reflexivity.
Qed.
Lemma clean_ends c s d : ~ white c -> ~ white d -> clean (c :: s ++ [d]).
Proof.
  intros Hc Hd. split; intros x r E; [inversion E; subst; exact Hc|].
  change (c :: s ++ [d]) with ((c :: s) ++ [d]) in E. apply app_inj_tail in E. destruct E as [_ <-]. exact Hd.
Qed.
(** every string is white ++ trim ++ white *)
Lemma trim_split s : exists w1 w2, s = w1 ++ trim s ++ w2 /\ Forall white w1 /\ Forall white w2.
Proof.
  destruct (drop_front_split is_ws s) as [w1 [E1 F1]]. destruct (drop_back_split is_ws (drop_front is_ws s)) as [w2 [E2 F2]].
  exists w1, w2. split; [|split; apply ws_forall; assumption]. unfold trim. rewrite <- E2. exact E1.
Qed.
(** a line whose first byte and some later byte are not white keeps everything up to that byte *)
Lemma trim_keep c s x t : ~ white c -> ~ white x -> exists t', trim (c :: s ++ x :: t) = c :: s ++ x :: t'.
Proof.
  intros Hc Hx. unfold trim. rewrite drop_front_id; [|intros y r E; inversion E; subst; apply not_white, Hc].
  destruct (drop_back_split is_ws (x :: t)) as [w [E F]].
  destruct (drop_back is_ws (x :: t)) as [|y t'] eqn:Ed.
  - cbn [app] in E. subst w. inversion F; subst. apply not_white in Hx. congruence.
  - cbn [app] in E. inversion E; subst y t. exists t'.
    change (c :: s ++ x :: t' ++ w) with (c :: s ++ (x :: t') ++ w). rewrite app_assoc, app_comm_cons, drop_back_app by exact F.
    apply drop_back_id. intros z r Ez.
    assert (Hz : exists q, x :: t' = q ++ [z]).
    { destruct (exists_last (l := x :: t')) as [q [z' Eq]]; [discriminate|]. exists q. rewrite Eq in Ez |- *.
      rewrite app_comm_cons, app_assoc in Ez. apply app_inj_tail in Ez. destruct Ez as [_ ->]. reflexivity. }
    destruct Hz as [q Eq].
    destruct (drop_back_split is_ws (x :: t' ++ w)) as [w' [E' F']]. clear E' F' w'.
    (* the last byte of drop_back is not white *)
    revert Ed. unfold drop_back. intros Ed.
    assert (G : exists u, drop_front is_ws (rev (x :: t' ++ w)) = z :: u).
    { exists (rev q). apply (f_equal (@rev N)) in Ed. rewrite rev_involutive in Ed. rewrite Ed, Eq, rev_app_distr. reflexivity. }
    destruct G as [u Gu]. clear - Gu. revert Gu. generalize (rev (x :: t' ++ w)) as l.
    induction l as [|a l IH]; cbn [drop_front]; [discriminate|]. destruct (is_ws a) eqn:Ea; [exact IH|]. intros E. inversion E; subst. exact Ea.
Qed.

(** ** Searching *)
Lemma find_char_none c s : ~ In c s -> find_char c s = None.
Proof.
  induction s as [|x s IH]; intros H; [reflexivity|]. cbn [find_char].
  destruct (N.eqb_spec x c) as [->|]; [exfalso; apply H; left; reflexivity|]. rewrite IH; [reflexivity|]. intros G. apply H. right. exact G.
Qed.
Lemma find_char_app c a b : ~ In c a -> find_char c (a ++ c :: b) = Some (length a).
Proof.
  induction a as [|x a IH]; intros H; cbn [app find_char length]; [rewrite N.eqb_refl; reflexivity|].
  destruct (N.eqb_spec x c) as [->|]; [exfalso; apply H; left; reflexivity|]. rewrite IH; [reflexivity|]. intros G. apply H. right. exact G.
Qed.
Lemma firstn_len {A} (a b : list A) : firstn (length a) (a ++ b) = a.
Proof. rewrite firstn_app, firstn_all, Nat.sub_diag, firstn_O, app_nil_r. reflexivity. Qed.
Lemma skipn_len {A} (a b : list A) k : skipn (length a + k) (a ++ b) = skipn k b.
Proof. rewrite skipn_app, skipn_all2 by lia. cbn [app]. f_equal. lia. Qed.
Lemma find_dots_none s : ~ In ch_dot s -> find_dots s = None.
Proof.
  induction s as [|x s IH]; intros H; [reflexivity|]. cbn [find_dots]. destruct s as [|y s]; [reflexivity|].
  destruct (N.eqb_spec x ch_dot) as [->|]; [exfalso; apply H; left; reflexivity|]. cbn [andb]. rewrite IH; [reflexivity|].
  intros G. apply H. right. exact G.
Qed.
Lemma find_dots_app a b : ~ In ch_dot a -> find_dots (a ++ ch_dot :: ch_dot :: b) = Some (length a).
Proof.
  induction a as [|x a IH]; intros H; [reflexivity|].
  assert (Ea : find_dots (x :: a ++ ch_dot :: ch_dot :: b) = match find_dots (a ++ ch_dot :: ch_dot :: b) with Some n => Some (S n) | None => None end).
  { cbn [find_dots]. destruct (a ++ ch_dot :: ch_dot :: b) as [|y r] eqn:E; [destruct a; discriminate|].
    destruct (N.eqb_spec x ch_dot) as [->|]; [exfalso; apply H; left; reflexivity|]. reflexivity. }
  cbn [app length]. rewrite Ea, IH; [reflexivity|]. intros G. apply H. right. exact G.
Qed.

(** ** Splitting at semicolons *)
Lemma split_ne s : split_semi s <> [].
Proof. destruct s as [|c s]; cbn [split_semi]; [discriminate|]. destruct (c =? ch_semi); [discriminate|]. destruct (split_semi s); discriminate. Qed.
Lemma split_one s : ~ In ch_semi s -> split_semi s = [s].
Proof.
  induction s as [|c s IH]; intros H; [reflexivity|]. cbn [split_semi].
  destruct (N.eqb_spec c ch_semi) as [->|]; [exfalso; apply H; left; reflexivity|]. rewrite IH; [reflexivity|]. intros G. apply H. right. exact G.
Qed.
Lemma split_cons a b : ~ In ch_semi a -> split_semi (a ++ ch_semi :: b) = a :: split_semi b.
Proof.
  induction a as [|c a IH]; intros H; cbn [app split_semi]; [rewrite N.eqb_refl; reflexivity|].
  destruct (N.eqb_spec c ch_semi) as [->|]; [exfalso; apply H; left; reflexivity|]. rewrite IH; [reflexivity|]. intros G. apply H. right. exact G.
Qed.
Lemma split_join fs : fs <> [] -> Forall (fun f => ~ In ch_semi f) fs -> split_semi (join [ch_semi] fs) = fs.
Proof.
  induction fs as [|f fs IH]; intros Hne H; [congruence|]. inversion H; subst. destruct fs as [|g fs].
  - cbn [join]. apply split_one. assumption.
  - change (join [ch_semi] (f :: g :: fs)) with (f ++ ch_semi :: join [ch_semi] (g :: fs)). rewrite split_cons by assumption.
    rewrite IH; [reflexivity|discriminate|assumption].
Qed.
Lemma trim_front w s : Forall white w -> trim (w ++ s) = trim s.
Proof. intros H. unfold trim. apply ws_forall in H. rewrite drop_front_app by exact H. reflexivity. Qed.
Lemma trim_back s w : Forall white w -> trim (s ++ w) = trim s.
Proof.
  intros H. destruct (trim_split s) as [w1 [w2 [E [F1 F2]]]].
  assert (Hc : clean (trim s)).
  { clear. unfold trim. set (t := drop_front is_ws s). split.
    - intros c r E. apply not_white. destruct (drop_back_split is_ws t) as [w [E' _]]. rewrite E in E'. cbn [app] in E'.
      subst t. revert E'. clear. induction s as [|a s IH]; cbn [drop_front]; [discriminate|].
      destruct (is_ws a) eqn:Ea; [exact IH|]. intros X. inversion X; subst. exact Ea.
    - intros c r E. apply not_white. unfold drop_back in E. apply (f_equal (@rev N)) in E. rewrite rev_involutive, rev_app_distr in E. cbn [rev app] in E.
      revert E. generalize (rev t). clear. intros l. induction l as [|a l IH]; cbn [drop_front]; [discriminate|].
      destruct (is_ws a) eqn:Ea; [exact IH|]. intros X. inversion X; subst. exact Ea. }
  rewrite E at 1. rewrite <- !app_assoc. apply trim_strip; [exact F1|apply Forall_app; split; assumption|exact Hc].
Qed.
Lemma white_no_semi w : Forall white w -> ~ In ch_semi w.
Proof. intros H G. rewrite Forall_forall in H. specialize (H _ G). unfold white, ch_semi in H. lia. Qed.
Lemma split_front w s : Forall white w -> map trim (split_semi (w ++ s)) = map trim (split_semi s).
Proof.
  intros H. induction H as [|c w Hc Hw IH]; [reflexivity|]. rewrite <- IH. cbn [app split_semi].
  destruct (N.eqb_spec c ch_semi) as [->|]; [unfold white, ch_semi in Hc; lia|].
  destruct (split_semi (w ++ s)) as [|f fs] eqn:E; [exfalso; exact (split_ne _ E)|]. cbn [map].
  f_equal. apply (trim_front [c] f). constructor; [exact Hc|constructor].
Qed.
Lemma split_back w s : Forall white w -> map trim (split_semi (s ++ w)) = map trim (split_semi s).
Proof.
  intros H. induction s as [|c s IH].
  - cbn [app]. rewrite split_one by (apply white_no_semi, H). cbn [map split_semi]. rewrite trim_white by exact H. reflexivity.
  - cbn [app split_semi]. destruct (c =? ch_semi); [cbn [map]; f_equal; exact IH|].
    destruct (split_semi (s ++ w)) as [|f fs] eqn:E; [exfalso; exact (split_ne _ E)|].
    destruct (split_semi s) as [|g gs] eqn:E2; [exfalso; exact (split_ne _ E2)|].
    (* compare the first fields directly *)
    destruct (in_dec N.eq_dec ch_semi s) as [Hin|Hout].
    + assert (X : exists a b, s = a ++ ch_semi :: b /\ ~ In ch_semi a).
      { clear - Hin. induction s as [|x s IH]; [destruct Hin|]. destruct (N.eq_dec x ch_semi) as [->|Hn].
        - exists [], s. split; [reflexivity|intros []].
        - destruct IH as [a [b [-> Ha]]]; [destruct Hin; [congruence|assumption]|]. exists (x :: a), b. split; [reflexivity|].
          intros [G|G]; [congruence|exact (Ha G)]. }
      destruct X as [a [b [-> Ha]]]. rewrite <- app_assoc in E. cbn [app] in E. rewrite split_cons in E, E2 by exact Ha.
      inversion E; subst. inversion E2; subst. cbn [map] in IH |- *. inversion IH. f_equal; assumption.
    + rewrite (split_one s Hout) in E2. inversion E2; subst.
      rewrite split_one in E. 2:{ intros G. apply in_app_or in G. destruct G as [G|G]; [exact (Hout G)|exact (white_no_semi w H G)]. }
      inversion E; subst. cbn [map]. f_equal. apply (trim_back (c :: g) w H).
Qed.
(** trimming the whole line changes no trimmed field *)
Lemma split_trim s : map trim (split_semi (trim s)) = map trim (split_semi s).
Proof.
  destruct (trim_split s) as [w1 [w2 [E [F1 F2]]]]. rewrite E at 2. rewrite split_front, split_back by assumption. reflexivity.
Qed.
Lemma trim_field fs i : trim (field fs i) = nth i (map trim fs) [].
Proof. unfold field. change [] with (trim []) at 2. rewrite map_nth. reflexivity. Qed.

(** ** Equality of strings *)
Lemma str_eqb_eq a : forall b, str_eqb a b = true <-> a = b.
Proof.
  induction a as [|x a IH]; intros [|y b]; cbn [str_eqb]; try (split; [discriminate|congruence]); [tauto|].
  rewrite andb_true_iff, N.eqb_eq, IH. split; [intros [-> ->]; reflexivity|intros E; inversion E; auto].
Qed.
Lemma str_eqb_refl a : str_eqb a a = true.
Proof. apply str_eqb_eq. reflexivity. Qed.
Lemma str_eqb_neq a b : a <> b -> str_eqb a b = false.
Proof. intros H. destruct (str_eqb a b) eqn:E; [|reflexivity]. apply str_eqb_eq in E. contradiction. Qed.

(** ** Numbers *)
Lemma digits_lt b : 1 < b -> forall f n, Forall (fun d => d < b) (digits f b n).
Proof.
  intros Hb. induction f as [|f IH]; intros n; cbn [digits]; [constructor|]. destruct (N.ltb_spec n b); [repeat constructor; assumption|].
  apply Forall_app. split; [apply IH|]. repeat constructor. apply N.mod_lt. lia.
Qed.
Lemma value_snoc b ds d : value_of b (ds ++ [d]) = value_of b ds * b + d.
Proof. unfold value_of. rewrite fold_left_app. reflexivity. Qed.
Lemma digits_value b : 1 < b -> forall f n, n < b ^ N.of_nat f -> value_of b (digits f b n) = n.
Proof.
  intros Hb. induction f as [|f IH]; intros n Hn; [cbn in Hn |- *; lia|]. cbn [digits]. destruct (N.ltb_spec n b).
  - unfold value_of. cbn [fold_left]. lia.
  - rewrite value_snoc, IH.
    + rewrite (N.div_mod n b) at 3 by lia. rewrite (N.mul_comm b). reflexivity.
    + rewrite Nat2N.inj_succ, N.pow_succ_r' in Hn. apply N.div_lt_upper_bound; lia.
Qed.
Lemma digits_len b : 1 < b -> forall f n, n < b ^ N.of_nat f -> (f <> 0)%nat -> digits f b n <> [].
Proof. intros Hb f n Hn Hf. destruct f; [congruence|]. cbn [digits]. destruct (n <? b); [discriminate|]. intros E. destruct (digits f b (n / b)); discriminate. Qed.
Lemma value_zeros b k ds : value_of b (repeat 0 k ++ ds) = value_of b ds.
Proof. induction k as [|k IH]; [reflexivity|]. cbn [repeat app]. unfold value_of in *. cbn [fold_left]. exact IH. Qed.

Lemma hex_char_digit d : d < 16 -> digit_of 16 (hex_char d) = Some d.
Proof.
  intros H. unfold hex_char, digit_of. destruct (N.ltb_spec d 10).
  - replace ((48 <=? 48 + d) && (48 + d <=? 57)) with true by lia. replace (48 + d - 48) with d by lia.
    destruct (N.ltb_spec d 16); [reflexivity|lia].
  - replace ((48 <=? 55 + d) && (55 + d <=? 57)) with false by lia. replace ((65 <=? 55 + d) && (55 + d <=? 70)) with true by lia.
    replace (55 + d - 55) with d by lia. destruct (N.ltb_spec d 16); [reflexivity|lia].
Qed.
Lemma dec_char_digit d : d < 10 -> digit_of 10 (48 + d) = Some d.
Proof.
  intros H. unfold digit_of. replace ((48 <=? 48 + d) && (48 + d <=? 57)) with true by lia. replace (48 + d - 48) with d by lia.
  destruct (N.ltb_spec d 10); [reflexivity|lia].
Qed.
Lemma take_digits_map b (f : N -> N) ds : (forall d, d < b -> digit_of b (f d) = Some d) -> Forall (fun d => d < b) ds ->
  take_digits b (map f ds) = ds.
Proof. intros Hf. induction 1 as [|d ds Hd Hds IH]; [reflexivity|]. cbn [map take_digits]. rewrite Hf by exact Hd. f_equal. exact IH. Qed.

(** characters of numbers *)
Definition numchar (c : N) : Prop := 48 <= c <= 57 \/ 65 <= c <= 70.
Lemma hexs_chars n : Forall numchar (hexs n).
Proof.
  unfold hexs. apply Forall_map, Forall_app. split.
  - apply Forall_forall. intros x Hx. apply repeat_spec in Hx. subst. left. change (hex_char 0) with 48. lia.
  - eapply Forall_impl; [|apply (digits_lt 16); lia]. intros d Hd. cbv beta in Hd. unfold numchar, hex_char. destruct (N.ltb_spec d 10); lia.
Qed.
Lemma decs_chars n : Forall numchar (decs n).
Proof.
  unfold decs. apply Forall_map. eapply Forall_impl; [|apply (digits_lt 10); lia]. intros d Hd. cbv beta in Hd. unfold numchar. lia.
Qed.
Lemma hexs_ne n : hexs n <> [].
Proof.
  unfold hexs. intros E. apply map_eq_nil in E. destruct (digits 8 16 n) as [|d ds] eqn:Ed; [|destruct (repeat 0 _); discriminate].
  cbn in Ed. destruct (n <? 16); [discriminate|]. match type of Ed with ?a ++ _ = _ => destruct a; discriminate end.
Qed.
Lemma decs_ne n : decs n <> [].
Proof.
  unfold decs. intros E. apply map_eq_nil in E. cbn [digits] in E. destruct (n <? 10); [discriminate|].
  match type of E with ?a ++ _ = _ => destruct a; discriminate end.
Qed.
Lemma num_no_white s : Forall numchar s -> no_white s.
Proof. apply Forall_impl. intros c H. unfold numchar in H. unfold white. lia. Qed.
Lemma num_not s c : Forall numchar s -> ~ numchar c -> ~ In c s.
Proof. intros H Hc Hin. rewrite Forall_forall in H. exact (Hc (H c Hin)). Qed.
Lemma strip_sp s : (forall c, In c s -> c <> 32) -> forall k j, drop_back is_sp (drop_front is_sp (spaces k ++ s ++ spaces j)) = s.
Proof.
  intros H k j. assert (Hsp : forall k, Forall (fun c => is_sp c = true) (spaces k)).
  { intros i. apply Forall_forall. intros x Hx. apply repeat_spec in Hx. subst. reflexivity. }
  rewrite drop_front_app by apply Hsp. destruct s as [|c s].
  - cbn [app]. rewrite <- (app_nil_r (spaces j)), drop_front_app by apply Hsp. reflexivity.
  - rewrite drop_front_id.
    + rewrite drop_back_app by apply Hsp. apply drop_back_id. intros x r E. unfold is_sp. apply N.eqb_neq, H. rewrite E. apply in_or_app. right. left. reflexivity.
    + intros x r E. cbn [app] in E. inversion E; subst. unfold is_sp. apply N.eqb_neq, H. left. reflexivity.
Qed.
Lemma parse_hexs k n j : n <= 0x10FFFF -> parse_codepoint (spaces k ++ hexs n ++ spaces j) = n.
Proof.
  intros Hn. unfold parse_codepoint. rewrite strip_sp.
  2:{ intros c Hc. pose proof (hexs_chars n) as H. rewrite Forall_forall in H. specialize (H c Hc). unfold numchar in H. lia. }
  unfold hexs. rewrite (take_digits_map 16 hex_char); [|apply hex_char_digit|].
  - rewrite value_zeros, digits_value; [|lia|change (16 ^ N.of_nat 8) with 4294967296; lia]. change (2 ^ 32) with 4294967296.
    destruct (N.ltb_spec n 4294967296); [reflexivity|lia].
  - apply Forall_app. split; [|apply digits_lt; lia]. apply Forall_forall. intros x Hx. apply repeat_spec in Hx. subst. lia.
Qed.
Lemma parse_hexs0 n : n <= 0x10FFFF -> parse_codepoint (hexs n) = n.
Proof. intros H. pose proof (parse_hexs 0 n 0 H) as E. cbn [spaces repeat app] in E. rewrite app_nil_r in E. exact E. Qed.
Lemma parse_decs n : n <= 254 -> parse_int (decs n) = Z.of_N n.
Proof.
  intros Hn. unfold parse_int.
  assert (Et : take_digits 10 (decs n) = digits 10 10 n) by (apply take_digits_map; [apply dec_char_digit|apply digits_lt; lia]).
  destruct (decs n) as [|c r] eqn:E; [exfalso; exact (decs_ne n E)|].
  assert (Hc : c <> ch_minus).
  { pose proof (decs_chars n) as H. rewrite E in H. inversion H; subst. unfold numchar in *. unfold ch_minus. lia. }
  destruct (N.eqb_spec c ch_minus); [contradiction|]. rewrite Et.
  rewrite digits_value; [|lia|change (10 ^ N.of_nat 10) with 10000000000; lia]. change (2 ^ 31)%Z with 2147483648%Z.
  replace ((- (2147483648) <=? Z.of_N n)%Z && (Z.of_N n <? 2147483648)%Z) with true by lia. reflexivity.
Qed.

(** ** Words *)
Lemma words_word w cur s : (forall c, In c w -> c <> ch_space) -> words cur (w ++ s) = words (rev w ++ cur) s.
Proof.
  revert cur. induction w as [|c w IH]; intros cur H; [reflexivity|]. cbn [app words rev].
  destruct (N.eqb_spec c ch_space) as [E|]; [exfalso; exact (H c (or_introl eq_refl) E)|].
  rewrite IH by (intros x Hx; apply H; right; exact Hx). rewrite <- app_assoc. reflexivity.
Qed.
Lemma words_spaces k s : words [] (spaces k ++ s) = words [] s.
Proof. induction k as [|k IH]; [reflexivity|]. cbn [spaces repeat app words]. rewrite N.eqb_refl. exact IH. Qed.
Lemma words_join ws k j : Forall (fun w => w <> [] /\ forall c, In c w -> c <> ch_space) ws ->
  words [] (spaces k ++ join (spaces 1) ws ++ spaces j) = ws.
Proof.
  rewrite words_spaces. induction ws as [|w ws IH]; intros H.
  - cbn [join app]. rewrite <- (app_nil_r (spaces j)), words_spaces. reflexivity.
  - inversion H as [|? ? [Hne Hw] Hr]; subst.
    assert (Hrev : rev w <> []) by (intros E; apply Hne; rewrite <- (rev_involutive w), E; reflexivity).
    destruct ws as [|v ws].
    + cbn [join]. rewrite words_word by exact Hw. rewrite app_nil_r. destruct j as [|j].
      * cbn [spaces repeat words]. destruct (rev w) eqn:E; [congruence|]. rewrite <- E, rev_involutive. reflexivity.
      * cbn [spaces repeat words]. rewrite N.eqb_refl. destruct (rev w) eqn:E; [congruence|]. rewrite <- E, rev_involutive.
        f_equal. change (repeat ch_space j) with (spaces j). rewrite <- (app_nil_r (spaces j)), words_spaces. reflexivity.
    + change (join (spaces 1) (w :: v :: ws)) with (w ++ ch_space :: join (spaces 1) (v :: ws)). rewrite <- app_assoc, words_word by exact Hw.
      rewrite app_nil_r. cbn [app words]. rewrite N.eqb_refl. destruct (rev w) eqn:E; [congruence|]. rewrite <- E, rev_involutive.
      f_equal. apply IH, Hr.
Qed.
Lemma parse_cps k l j : Forall cp_ok l -> parse_codepoints (spaces k ++ cps_text l ++ spaces j) = l.
Proof.
  intros H. unfold parse_codepoints, cps_text. rewrite words_join.
  - rewrite map_map. rewrite <- (map_id l) at 2. apply map_ext_in. intros c Hc. rewrite Forall_forall in H. apply parse_hexs0, H, Hc.
  - apply Forall_map, Forall_forall. intros c _. split; [apply hexs_ne|]. intros x Hx E. subst x.
    apply (num_not _ ch_space (hexs_chars c)); [unfold numchar, ch_space; lia|exact Hx].
Qed.
Lemma cps_chars l : Forall (fun c => numchar c \/ c = ch_space) (cps_text l).
Proof.
  unfold cps_text. induction l as [|c l IH]; [constructor|]. cbn [map].
  assert (Hc : Forall (fun c => numchar c \/ c = ch_space) (hexs c)) by (eapply Forall_impl; [|apply hexs_chars]; auto).
  destruct l as [|d l]; [exact Hc|]. cbn [map join] in *. apply Forall_app. split; [exact Hc|]. apply Forall_app. split; [|exact IH].
  constructor; [right; reflexivity|constructor].
Qed.
Lemma cps_clean l : clean (cps_text l).
Proof.
  destruct l as [|c l]; [apply clean_nil|]. unfold cps_text. split.
  - intros x r E. destruct (hexs c) as [|y h] eqn:Eh; [exfalso; exact (hexs_ne c Eh)|].
    assert (x = y) by (cbn [map] in E; rewrite Eh in E; destruct (map hexs l); cbn [join app] in E; inversion E; reflexivity). subst y.
    pose proof (num_no_white _ (hexs_chars c)) as H. rewrite Eh in H. inversion H; assumption.
  - revert c. induction l as [|d l IH]; intros c x r E.
    + cbn [map join] in E. pose proof (num_no_white _ (hexs_chars c)) as H. rewrite E in H. unfold no_white in H. rewrite Forall_forall in H.
      apply H, in_or_app. right. left. reflexivity.
    + change (join (spaces 1) (map hexs (c :: d :: l))) with (hexs c ++ spaces 1 ++ join (spaces 1) (map hexs (d :: l))) in E.
      destruct (exists_last (l := join (spaces 1) (map hexs (d :: l)))) as [q [z Ez]].
      { cbn [map join]. destruct (map hexs l); [apply hexs_ne|]. destruct (hexs d) eqn:Eh; [exfalso; exact (hexs_ne d Eh)|discriminate]. }
      rewrite Ez, !app_assoc in E. apply app_inj_tail in E. destruct E as [_ <-]. exact (IH d z q Ez).
Qed.
Lemma cps_ne l : l <> [] -> cps_text l <> [].
Proof.
  destruct l as [|c l]; [congruence|]. intros _ E. unfold cps_text in E. cbn [map] in E. destruct (hexs c) eqn:Eh; [exact (hexs_ne c Eh)|].
  destruct (map hexs l); discriminate.
Qed.

(** ** Spans *)
Lemma cp_range_in a b c : In c (cp_range a b) <-> a <= c <= b.
Proof.
  unfold cp_range. rewrite in_map_iff. split.
  - intros [i [<- Hi]]. apply in_seq in Hi. lia.
  - intros H. exists (N.to_nat (c - a)). split; [lia|]. apply in_seq. lia.
Qed.
Lemma parse_range_span r c : span_ok r -> (In c (parse_range (span_text r)) <-> covers r c).
Proof.
  intros Hr. unfold parse_range. destruct r as [x|a b]; cbn [span_text covers span_ok] in *.
  - rewrite find_dots_none by (apply (num_not _ _ (hexs_chars x)); unfold numchar, ch_dot; lia). rewrite parse_hexs0 by exact Hr.
    cbn [In]. intuition congruence.
  - change (lit ".." ++ hexs b) with (ch_dot :: ch_dot :: hexs b).
    rewrite find_dots_app by (apply (num_not _ _ (hexs_chars a)); unfold numchar, ch_dot; lia).
    rewrite firstn_len, skipn_len. change (skipn 2 (ch_dot :: ch_dot :: hexs b)) with (hexs b).
    rewrite !parse_hexs0 by lia. apply cp_range_in.
Qed.
Lemma span_chars r : Forall (fun c => numchar c \/ c = ch_dot) (span_text r).
Proof.
  assert (H : forall n, Forall (fun c => numchar c \/ c = ch_dot) (hexs n)) by (intros n; eapply Forall_impl; [|apply hexs_chars]; auto).
  destruct r; cbn [span_text]; [apply H|]. apply Forall_app. split; [apply H|]. apply Forall_app. split; [|apply H].
  constructor; [right; reflexivity|constructor; [right; reflexivity|constructor]].
Qed.
Lemma span_ne r : span_text r <> [].
Proof. destruct r; cbn [span_text]; [apply hexs_ne|]. intros E. destruct (hexs first) eqn:Eh; [exact (hexs_ne _ Eh)|discriminate]. Qed.
Lemma span_not r c : ~ numchar c -> c <> ch_dot -> ~ In c (span_text r).
Proof. intros H1 H2 Hin. pose proof (span_chars r) as H. rewrite Forall_forall in H. destruct (H c Hin); contradiction. Qed.
Lemma span_no_white r : no_white (span_text r).
Proof. eapply Forall_impl; [|apply span_chars]. intros c [H|H]; unfold numchar, ch_dot in H; unfold white; lia. Qed.
