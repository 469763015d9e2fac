(** The common line format (parseStandardLine) and DerivedName.txt. *)
From Coq Require Import Ascii String Permutation Sorted.
From Verif Require Import Base M_TableGen Spec_TableGen P_TableGen P_TableGen2 P_TableGen3.
Open Scope N_scope.

Lemma find_char_some c s i : find_char c s = Some i -> exists r, s = firstn i s ++ c :: r /\ ~ In c (firstn i s) /\ skipn (i + 1) s = r.
Proof.
  revert i. induction s as [|x s IH]; intros i; cbn [find_char]; [discriminate|]. destruct (N.eqb_spec x c) as [->|Hx].
  - intros [= <-]. exists s. cbn. auto.
  - destruct (find_char c s) as [j|]; [|discriminate]. intros [= <-]. destruct (IH j eq_refl) as [r [E [Hn Hs]]]. exists r. cbn [firstn app Nat.add skipn].
    split; [congruence|split; [|exact Hs]]. intros [G|G]; [contradiction|exact (Hn G)].
Qed.
Lemma find_char_out c s : find_char c s = None -> ~ In c s.
Proof.
  induction s as [|x s IH]; cbn [find_char]; [intros _ []|]. destruct (N.eqb_spec x c) as [->|Hx]; [discriminate|].
  destruct (find_char c s) as [j|]; [discriminate|]. intros _ [G|G]; [contradiction|exact (IH eq_refl G)].
Qed.
Lemma drop_back_last p s c r : drop_back p s = r ++ [c] -> p c = false.
Proof.
  unfold drop_back. intros E. apply (f_equal (@rev N)) in E. rewrite rev_involutive, rev_app_distr in E. cbn in E.
  destruct (drop_front_split p (rev s)) as [w [_ _]]. revert E. generalize (rev s) as q. generalize (rev r) as r'. clear.
  intros r' q. induction q as [|x q IH]; cbn [drop_front]; [discriminate|]. destruct (p x) eqn:Ex; [exact IH|]. intros E. injection E as -> _. exact Ex.
Qed.
Lemma trim_clean s : clean (trim s).
Proof.
  unfold trim. split.
  - intros c r E. destruct (drop_back_split is_ws (drop_front is_ws s)) as [w [Ew _]]. rewrite E in Ew. cbn [app] in Ew.
    intros Hw. apply is_ws_white in Hw. revert Ew. clear - Hw. generalize (r ++ w) as q. induction s as [|x s IH]; cbn [drop_front]; [discriminate|].
    destruct (is_ws x) eqn:Ex; [exact IH|]. intros q E. injection E as -> _. congruence.
  - intros c r E Hw. apply is_ws_white in Hw. pose proof (drop_back_last is_ws (drop_front is_ws s) c r E). congruence.
Qed.
Lemma trim_incl s c : In c (trim s) -> In c s.
Proof. destruct (trim_split s) as [w1 [w2 [E _]]]. intros H. rewrite E. apply in_or_app. right. apply in_or_app. left. exact H. Qed.
Lemma skipn_incl {A} n (s : list A) c : In c (skipn n s) -> In c s.
Proof. intros H. rewrite <- (firstn_skipn n s). apply in_or_app. right. exact H. Qed.
Lemma firstn_incl {A} n (s : list A) c : In c (firstn n s) -> In c s.
Proof. intros H. rewrite <- (firstn_skipn n s). apply in_or_app. left. exact H. Qed.

(** whatever the bytes of the line *)
Lemma standard_safe line first last prop : parse_standard_line line = Some (first, last, prop) ->
  first <= last /\ last <= 0x10FFFF /\ clean prop /\ without ch_hash prop /\ (forall c, In c prop -> In c line).
Proof.
  unfold parse_standard_line.
  set (l0 := match rev line with c :: r => if c =? ch_cr then rev r else line | [] => line end).
  assert (H0 : forall c, In c l0 -> In c line).
  { subst l0. intros c. destruct (rev line) as [|x r] eqn:E; [auto|]. destruct (x =? ch_cr); [|auto]. intros H.
    apply (f_equal (@rev N)) in E. rewrite rev_involutive in E. rewrite E. cbn [rev]. apply in_or_app. left. exact H. }
  clearbody l0. destruct l0 as [|x l0]; [discriminate|]. destruct ((x =? ch_hash) || (x =? ch_at)); [discriminate|].
  set (l1 := match find_char ch_hash (x :: l0) with Some i => firstn i (x :: l0) | None => x :: l0 end).
  assert (H1 : ~ In ch_hash l1 /\ forall c, In c l1 -> In c line).
  { subst l1. destruct (find_char ch_hash (x :: l0)) as [i|] eqn:E.
    - destruct (find_char_some _ _ _ E) as [r [_ [Hn _]]]. split; [exact Hn|]. intros c H. apply H0. apply firstn_incl in H. exact H.
    - split; [apply find_char_out, E|exact H0]. }
  clearbody l1. destruct H1 as [H1 H2]. destruct (find_char ch_semi l1) as [i|] eqn:E; [|discriminate].
  destruct (match find_dots (trim (firstn i l1)) with Some k => _ | None => _ end) as [f l]. 
  destruct ((0x10FFFF <? f) || (0x10FFFF <? l) || (l <? f)) eqn:Eb; [discriminate|]. intros [= <- <- <-].
  apply orb_false_iff in Eb. destruct Eb as [Eb Eb3]. apply orb_false_iff in Eb. destruct Eb as [Eb1 Eb2].
  apply N.ltb_ge in Eb1, Eb2, Eb3. split; [exact Eb3|split; [exact Eb2|split; [apply trim_clean|split]]].
  - intros H. apply H1. apply trim_incl in H. apply skipn_incl in H. exact H.
  - intros c H. apply H2. apply trim_incl in H. apply skipn_incl in H. exact H.
Qed.

Lemma eol_cut s crlf : (forall r, s <> r ++ [ch_cr]) -> match rev (s ++ eol crlf) with c :: r => if c =? ch_cr then rev r else s ++ eol crlf | [] => s ++ eol crlf end = s.
Proof.
  intros H. destruct crlf; cbn [eol].
  - rewrite rev_app_distr. cbn [rev app]. rewrite N.eqb_refl, rev_involutive. reflexivity.
  - rewrite app_nil_r. destruct (rev s) as [|c r] eqn:E; [reflexivity|]. destruct (N.eqb_spec c ch_cr) as [->|]; [|reflexivity].
    exfalso. apply (H (rev r)). apply (f_equal (@rev N)) in E. rewrite rev_involutive in E. exact E.
Qed.
Lemma find_dots_span r : match find_dots (span_text r) with
   | Some k => (parse_codepoint (firstn k (span_text r)), parse_codepoint (skipn (k + 2) (span_text r)))
   | None => (parse_codepoint (span_text r), parse_codepoint (span_text r)) end =
  (match r with One c => parse_codepoint (hexs c) | Span a _ => parse_codepoint (hexs a) end, match r with One c => parse_codepoint (hexs c) | Span _ b => parse_codepoint (hexs b) end).
Proof.
  destruct r as [c|a b]; cbn [span_text].
  - rewrite find_dots_none by (apply hexs_not; notnum). reflexivity.
  - change (lit ".." ++ hexs b) with (ch_dot :: ch_dot :: hexs b). rewrite find_dots_app by (apply hexs_not; notnum). rewrite firstn_len, skipn_len. reflexivity.
Qed.
(** the data lines of the standard format *)
Lemma standard_exact l crlf : st_ok l ->
  parse_standard_line (st_text l ++ eol crlf) = Some (span_first (st_span l), span_last (st_span l), st_prop l).
Proof.
  intros [Hs [Hc [Hh Hq0]]]. assert (Hq : forall q r, st_comment l = Some q -> q <> r ++ [ch_cr]).
  { intros q r E ->. apply (Hq0 _ E). apply in_or_app. right. left. reflexivity. }
  unfold parse_standard_line. destruct (span_head (st_span l)) as [x [s [Es [Hw Hx]]]].
  rewrite eol_cut.
  2:{ intros r E. unfold st_text in E. destruct (st_comment l) as [q|] eqn:Eq; cbn [comment_text] in E.
      - destruct (list_eq_dec N.eq_dec q []) as [->|Hne].
        + rewrite !app_assoc in E. apply app_inj_tail in E. destruct E as [_ E]. discriminate.
        + destruct (exists_last Hne) as [q' [z Ez]]. subst q. apply (Hq (q' ++ [z]) q' eq_refl). f_equal.
          rewrite !app_assoc in E. change (ch_hash :: q' ++ [z]) with ((ch_hash :: q') ++ [z]) in E. rewrite app_assoc in E. apply app_inj_tail in E. destruct E as [_ ->]. reflexivity.
      - rewrite app_nil_r in E. destruct (st_gap2 l) as [|g].
        + cbn [spaces repeat] in E. rewrite app_nil_r in E. destruct (list_eq_dec N.eq_dec (st_prop l) []) as [En|Hne].
          * rewrite En, app_nil_r in E. destruct (st_gap1 l) as [|g'].
            -- cbn [spaces repeat] in E. rewrite app_nil_r, app_assoc in E. apply app_inj_tail in E. destruct E as [_ E]. discriminate.
            -- unfold spaces in E. replace (S g') with (g' + 1)%nat in E by lia. rewrite repeat_app, !app_assoc in E. apply app_inj_tail in E. destruct E as [_ E]. discriminate.
          * destruct (exists_last Hne) as [q' [z Ez]]. rewrite Ez, !app_assoc in E. apply app_inj_tail in E. destruct E as [_ ->].
            destruct Hc as [_ Hc]. apply (Hc ch_cr q' Ez). unfold white, ch_cr. auto.
        + unfold spaces in E. replace (S g) with (g + 1)%nat in E by lia. rewrite repeat_app, !app_assoc in E. apply app_inj_tail in E. destruct E as [_ E]. discriminate. }
  assert (Hx2 : x <> ch_at). { intros ->. pose proof (span_chars (st_span l)) as G. rewrite Es in G. inversion G as [|? ? [G1|G1] _]; subst; [unfold numchar, ch_at in G1; lia|discriminate G1]. }
  assert (Eh : exists t, st_text l = x :: t) by (unfold st_text; rewrite Es; eexists; reflexivity). destruct Eh as [t Eh].
  set (body := span_text (st_span l) ++ spaces (st_gap l) ++ lit ";" ++ spaces (st_gap1 l) ++ st_prop l ++ spaces (st_gap2 l)).
  assert (Hb : ~ In ch_hash body).
  { subst body. intros H. repeat (apply in_app_or in H; destruct H as [H|H]).
    - revert H. apply span_not; notnum.
    - apply repeat_spec in H. discriminate.
    - destruct H as [H|[]]. discriminate.
    - apply repeat_spec in H. discriminate.
    - exact (Hh H).
    - apply repeat_spec in H. discriminate. }
  assert (Ecut : match find_char ch_hash (st_text l) with Some i => firstn i (st_text l) | None => st_text l end = body).
  { assert (Et : st_text l = body ++ comment_text (st_comment l)) by (unfold st_text, body; rewrite <- !app_assoc; reflexivity). rewrite Et.
    destruct (st_comment l) as [q|]; cbn [comment_text]; [rewrite find_char_app, firstn_len by exact Hb; reflexivity|].
    rewrite app_nil_r, find_char_none by exact Hb. reflexivity. }
  rewrite Eh in Ecut |- *. destruct (N.eqb_spec x ch_hash); [contradiction|]. destruct (N.eqb_spec x ch_at); [contradiction|]. cbn [orb].
  rewrite Ecut. subst body. rewrite (app_assoc (span_text _)). change (lit ";" ++ ?y) with (ch_semi :: y). rewrite find_char_app.
  2:{ intros H. apply in_app_or in H. destruct H as [H|H]; [revert H; apply span_not; notnum|apply repeat_spec in H; discriminate]. }
  rewrite firstn_len, skipn_len. cbn [skipn].
  rewrite trim_back by apply white_spaces. rewrite trim_id by (apply clean_no_white, span_no_white).
  rewrite trim_strip by (assumption || apply white_spaces). rewrite find_dots_span.
  destruct (st_span l) as [c|a b]; cbn [span_ok span_first span_last] in *.
  - rewrite parse_hexs0 by lia. destruct (N.ltb_spec 0x10FFFF c); [lia|]. destruct (N.ltb_spec c c); [lia|]. reflexivity.
  - rewrite !parse_hexs0 by lia. destruct (N.ltb_spec 0x10FFFF a); [lia|]. destruct (N.ltb_spec 0x10FFFF b); [lia|]. destruct (N.ltb_spec b a); [lia|]. reflexivity.
Qed.
Lemma standard_skip crlf s : parse_standard_line ((ch_hash :: s) ++ eol crlf) = None /\ parse_standard_line ((ch_at :: s) ++ eol crlf) = None /\
  (Forall white s -> parse_standard_line (s ++ eol crlf) = None).
Proof.
  assert (G : forall h, h <> ch_cr -> exists t, match rev ((h :: s) ++ eol crlf) return str with c :: r => if c =? ch_cr then rev r else (h :: s) ++ eol crlf | [] => (h :: s) ++ eol crlf end = h :: t).
  { intros h Hh. destruct (rev ((h :: s) ++ eol crlf)) as [|c r] eqn:E; [eexists; reflexivity|]. destruct (N.eqb_spec c ch_cr) as [->|]; [|eexists; reflexivity].
    apply (f_equal (@rev N)) in E. rewrite rev_involutive in E. cbn [rev app] in E. destruct (rev r) as [|y r'] eqn:Er; [cbn in E; congruence|].
    cbn [app] in E. injection E as <- _. eexists. reflexivity. }
  unfold parse_standard_line. split; [|split].
  - destruct (G ch_hash ltac:(discriminate)) as [t ->]. reflexivity.
  - destruct (G ch_at ltac:(discriminate)) as [t ->]. reflexivity.
  - intros Hw. set (l0 := match rev (s ++ eol crlf) with c :: r => _ | [] => _ end).
    assert (H0 : Forall white l0).
    { assert (Ha : Forall white (s ++ eol crlf)) by (apply Forall_app; split; [exact Hw|apply eol_white]). subst l0.
      destruct (rev (s ++ eol crlf)) as [|c r] eqn:E; [exact Ha|]. destruct (c =? ch_cr); [|exact Ha].
      apply (f_equal (@rev N)) in E. rewrite rev_involutive in E. rewrite E in Ha. cbn [rev] in Ha. apply Forall_app in Ha. apply Ha. }
    clearbody l0. destruct l0 as [|c l]; [reflexivity|]. destruct ((c =? ch_hash) || (c =? ch_at)); [reflexivity|].
    assert (Hc : forall d, white d -> d <> ch_hash /\ d <> ch_semi) by (intros d; unfold white, ch_hash, ch_semi; lia).
    rewrite Forall_forall in H0.
    rewrite (find_char_none ch_hash (c :: l)) by (intros H; destruct (Hc _ (H0 _ H)); congruence). cbv zeta.
    rewrite (find_char_none ch_semi (c :: l)) by (intros H; destruct (Hc _ (H0 _ H)); congruence). reflexivity.
Qed.

(** ** Names *)
Lemma names_in crlf f c nm : lines_ok st_ok f -> (In (c, nm) (load_names (file_text st_text crlf f)) <-> exists l, has f l /\ covers (st_span l) c /\ st_prop l = nm).
Proof.
  intros Hok. unfold load_names, file_text. rewrite in_flat_map. split.
  - intros [t [Ht Hin]]. apply in_map_iff in Ht. destruct Ht as [l [<- Hl]]. specialize (Hok l Hl). change (if crlf then [ch_cr] else []) with (eol crlf) in Hin.
    destruct l as [a|s|s]; cbn [line_text] in Hin.
    + rewrite standard_exact in Hin by exact Hok. apply in_map_iff in Hin. destruct Hin as [x [E Hx]]. apply cp_range_in in Hx.
      exists a. split; [exact Hl|]. inversion E; subst. destruct Hok as [_ [Hc _]]. rewrite trim_id by exact Hc. split; [|reflexivity].
      destruct (st_span a); cbn [span_first span_last covers] in *; lia.
    + rewrite (proj1 (standard_skip crlf s)) in Hin. destruct Hin.
    + rewrite (proj2 (proj2 (standard_skip crlf s)) Hok) in Hin. destruct Hin.
  - intros [l [Hl [Hc <-]]]. exists (st_text l ++ eol crlf). pose proof (Hok _ Hl) as Hl'. cbn in Hl'. split.
    + apply in_map_iff. exists (Data l). split; [reflexivity|exact Hl].
    + rewrite standard_exact by exact Hl'. apply in_map_iff. exists c. destruct Hl' as [_ [Hcl _]]. rewrite trim_id by exact Hcl. split; [reflexivity|].
      apply cp_range_in. destruct (st_span l); cbn [span_first span_last covers] in *; lia.
Qed.
Lemma assign_names_spec l c : 
  (forall nm nm', In (c, nm) l -> In (c, nm') l -> nm = nm') ->
  (forall nm, In (c, nm) l -> assign_names l c = nm) /\ ((forall nm, ~ In (c, nm) l) -> assign_names l c = []).
Proof.
  unfold assign_names. intros Hu.
  assert (G : forall (l : list (N * str)) (acc : N -> str), (forall nm, In (c, nm) l -> fold_left set_name l acc c = nm \/
      exists nm', In (c, nm') l /\ fold_left set_name l acc c = nm') /\
     ((forall nm, ~ In (c, nm) l) -> fold_left set_name l acc c = acc c)).
  { clear. induction l as [|[k v] l IH]; intros acc; cbn [fold_left]; [split; [intros nm []|reflexivity]|].
    destruct (IH (set_name acc (k, v))) as [A B]. split.
    - intros nm H. assert (D : (exists nm', In (c, nm') l) \/ forall nm', ~ In (c, nm') l).
      { clear. induction l as [|[k v] l IH]; [right; intros nm' []|]. destruct (N.eq_dec k c) as [->|Hk]; [left; exists v; left; reflexivity|].
        destruct IH as [[nm' H]|H]; [left; exists nm'; right; exact H|]. right. intros nm' [G|G]; [inversion G; subst; contradiction|exact (H _ G)]. }
      destruct D as [[nm' D]|D].
      + right. destruct (A nm' D) as [E|[nm2 [E1 E2]]]; [exists nm'; split; [right; exact D|exact E]|exists nm2; split; [right; exact E1|exact E2]].
      + left. rewrite (B D). unfold set_name. cbn [fst snd]. destruct H as [H|H]; [inversion H; subst; rewrite N.eqb_refl; reflexivity|exfalso; exact (D _ H)].
    - intros H. rewrite B by (intros nm G; apply (H nm); right; exact G). unfold set_name. cbn [fst snd]. destruct (N.eqb_spec c k) as [->|]; [exfalso; apply (H v); left; reflexivity|reflexivity]. }
  destruct (G l (fun _ => [])) as [A B]. split; [|exact B]. intros nm H. destruct (A nm H) as [E|[nm' [E1 E2]]]; [exact E|]. rewrite E2. apply (Hu nm' nm E1 H).
Qed.
