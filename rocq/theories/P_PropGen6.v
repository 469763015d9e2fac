(** Proofs about the property table generator, part 6: DerivedGeneralCategory.txt, emoji-variation-sequences.txt, version names. *)
From Coq Require Import Ascii String Permutation Sorted.
From Verif Require Import Base M_TableGen M_PropGen Spec_TableGen Spec_PropGen P_TableGen P_TableGen2 P_TableGen3 P_TableGen8 P_PropGen P_PropGen2 P_PropGen3 P_PropGen4 P_PropGen5.
Open Scope N_scope.

Lemma st_text_head l : st_ok l -> exists c t, st_text l = c :: t /\ c <> ch_hash.
Proof.
  intros _. destruct (span_head (st_span l)) as [x [s [Es [_ Hx]]]]. exists x. unfold st_text. rewrite Es. cbn [app]. eexists. split; [reflexivity|exact Hx].
Qed.
Definition gc_state := option (str * list (str * list prange) * list prange).
Lemma load_gc_lines crlf (al : list (str * str)) f : lines_ok word_line f -> forall (st : gc_state),
  (forall l, has f l -> exists v, smap_get (st_prop l) al = Some v) -> st <> None ->
  exists cat m rl, fold_left (load_gc_line al) (file_text st_text crlf f) st = Some (cat, m, rl) /\
    forall r, In r rl <-> In r (match st with Some (_, _, l0) => l0 | None => [] end) \/
                         exists l v, has f l /\ smap_get (st_prop l) al = Some v /\ r = range_of l v.
Proof.
  induction f as [|l f IH]; intros Hf st Hal Hst.
  - destruct st as [[[cat m] rl]|]; [|contradiction]. exists cat, m, rl. split; [reflexivity|]. intros r. split; [auto|]. intros [H|[l [v [[] _]]]]. exact H.
  - apply lines_cons in Hf as [Hl Hf]. rewrite file_text_cons. cbn [fold_left]. destruct st as [[[cat m] rl]|]; [|contradiction].
    assert (Hp : parse_standard_line (line_text st_text l ++ eol crlf) = parsed_line crlf l).
    { apply parse_line. destruct l; auto. now apply word_line_ok. }
    assert (Hal' : forall l, has f l -> exists v, smap_get (st_prop l) al = Some v) by (intros l' Hl'; apply Hal; right; exact Hl').
    assert (Hskip : forall cat' m', load_gc_line al (Some (cat, m, rl)) (line_text st_text l ++ eol crlf) = Some (cat', m', rl) -> (forall x, l <> Data x) ->
      exists cat0 m0 rl0, fold_left (load_gc_line al) (file_text st_text crlf f) (load_gc_line al (Some (cat, m, rl)) (line_text st_text l ++ eol crlf)) = Some (cat0, m0, rl0) /\
      forall r, In r rl0 <-> In r rl \/ exists l0 v, has (l :: f) l0 /\ smap_get (st_prop l0) al = Some v /\ r = range_of l0 v).
    { intros cat' m' E Hno. rewrite E. destruct (IH Hf (Some (cat', m', rl)) Hal' ltac:(discriminate)) as (c2 & m2 & rl2 & E2 & H2). exists c2, m2, rl2.
      split; [exact E2|]. intros r. rewrite H2. split.
      - intros [H|[x [v [H G]]]]; [auto|right; exists x, v; split; [right; exact H|exact G]].
      - intros [H|[x [v [[H|H] G]]]]; [auto|destruct (Hno x H)|right; exists x, v; auto]. }
    destruct l as [l|s|s].
    + destruct (Hal l (or_introl eq_refl)) as [v Hv].
      assert (E : load_gc_line al (Some (cat, m, rl)) (line_text st_text (Data l) ++ eol crlf) = Some (cat, push cat (range_of l v) m, rl ++ [range_of l v])).
      { unfold load_gc_line. rewrite Hp. destruct (st_text_head l (word_line_ok l Hl)) as (c & t & Et & Hc).
        assert (Es : starts_with (lit "# General_Category=") (line_text st_text (Data l) ++ eol crlf) = false).
        { cbn [line_text]. rewrite Et. unfold lit. cbn [app list_ascii_of_string map starts_with]. rewrite (proj2 (N.eqb_neq _ _)); [reflexivity|].
          intros E. apply Hc. rewrite <- E. reflexivity. }
        rewrite Es. unfold parsed_line, range_of. rewrite first_word_id, Hv by apply Hl. reflexivity. }
      rewrite E. destruct (IH Hf (Some (cat, push cat (range_of l v) m, rl ++ [range_of l v])) Hal' ltac:(discriminate)) as (c2 & m2 & rl2 & E2 & H2).
      exists c2, m2, rl2. split; [exact E2|]. intros r. rewrite H2, in_app_iff. split.
      * intros [[H|[<-|[]]]|[x [u [H G]]]]; [auto|right; exists l, v; split; [left; reflexivity|auto]|right; exists x, u; split; [right; exact H|exact G]].
      * intros [H|[x [u [[H|H] [G1 G2]]]]]; [auto| |right; exists x, u; auto]. injection H as <-. left. right. left. congruence.
    + destruct (starts_with (lit "# General_Category=") (line_text st_text (Comment s) ++ eol crlf)) eqn:Es.
      * eapply Hskip; [|discriminate]. unfold load_gc_line. rewrite Es. reflexivity.
      * eapply Hskip; [|discriminate]. unfold load_gc_line. rewrite Es, Hp. reflexivity.
    + destruct (starts_with (lit "# General_Category=") (line_text st_text (Blank s) ++ eol crlf)) eqn:Es.
      * eapply Hskip; [|discriminate]. unfold load_gc_line. rewrite Es. reflexivity.
      * eapply Hskip; [|discriminate]. unfold load_gc_line. rewrite Es, Hp. reflexivity.
Qed.

(** ** emoji-variation-sequences.txt *)
Lemma take_word_app w t : Forall numchar w -> (match t with [] => True | c :: _ => is_space c = true end) -> take_word (w ++ t) = w.
Proof.
  induction 1 as [|c w Hc Hw IH]; intros Ht.
  - cbn [app]. destruct t as [|c t]; [reflexivity|]. cbn [take_word]. rewrite Ht. reflexivity.
  - cbn [app take_word]. assert (E : is_space c = false). { unfold is_space. unfold numchar in Hc. destruct (N.eqb_spec c 32); [lia|]. cbn [orb]. apply andb_false_iff. right. apply N.leb_gt. lia. }
    rewrite E. f_equal. exact (IH Ht).
Qed.
Lemma hexs_value n : n <= 0x10FFFF -> exists d ds, take_digits 16 (hexs n) = d :: ds /\ value_of 16 (d :: ds) = n.
Proof.
  intros Hn. assert (E : take_digits 16 (hexs n) = repeat 0 (4 - length (digits 8 16 n)) ++ digits 8 16 n).
  { unfold hexs. apply (take_digits_map 16 hex_char); [apply hex_char_digit|]. apply Forall_app. split; [|apply digits_lt; lia].
    apply Forall_forall. intros x Hx. apply repeat_spec in Hx. subst. lia. }
  assert (V : value_of 16 (take_digits 16 (hexs n)) = n).
  { rewrite E, value_zeros, digits_value; [reflexivity|lia|]. change (16 ^ N.of_nat 8) with 4294967296. lia. }
  destruct (take_digits 16 (hexs n)) as [|d ds] eqn:Et.
  - symmetry in E. apply app_eq_nil in E as [_ E]. exfalso. revert E. apply digits_len; [lia| |discriminate]. change (16 ^ N.of_nat 8) with 4294967296. lia.
  - exists d, ds. auto.
Qed.
Lemma evs_data crlf e : ev_ok e -> load_evs_line (ev_text e ++ eol crlf) = [ev_base e].
Proof.
  intros [Hb Hs]. unfold load_evs_line, ev_text. set (head := hexs (ev_base e) ++ spaces 1 ++ hexs (ev_selector e) ++ spaces (ev_gap e)).
  assert (Hc : forall c, ~ numchar c -> c <> 32 -> ~ In c head).
  { intros c H1 H2 H. subst head. apply in_app_or in H as [H|H]; [exact (hexs_not _ _ H1 H)|]. apply in_app_or in H as [H|H]; [apply repeat_spec in H; contradiction|].
    apply in_app_or in H as [H|H]; [exact (hexs_not _ _ H1 H)|apply repeat_spec in H; contradiction]. }
  replace ((hexs (ev_base e) ++ spaces 1 ++ hexs (ev_selector e) ++ spaces (ev_gap e) ++ lit ";" ++ ev_tail e) ++ eol crlf) with (head ++ ch_semi :: (ev_tail e ++ eol crlf)).
  2:{ subst head. change (lit ";") with [ch_semi]. rewrite <- !app_assoc. reflexivity. }
  assert (Hline : exists rest, match find_char ch_hash (head ++ ch_semi :: ev_tail e ++ eol crlf) with Some i => firstn i (head ++ ch_semi :: ev_tail e ++ eol crlf) | None => head ++ ch_semi :: ev_tail e ++ eol crlf end = head ++ ch_semi :: rest).
  { assert (Hh : ~ In ch_hash head) by (apply Hc; [notnum|discriminate]). assert (G : forall h t, ~ In ch_hash h -> match find_char ch_hash t with Some i => find_char ch_hash (h ++ t) = Some (length h + i)%nat | None => find_char ch_hash (h ++ t) = None end).
    { induction h as [|c h IH]; intros t Hn; cbn [app find_char length]; [destruct (find_char ch_hash t); reflexivity|].
      destruct (N.eqb_spec c ch_hash) as [->|]; [destruct Hn; left; reflexivity|]. specialize (IH t (fun H => Hn (or_intror H))). destruct (find_char ch_hash t); rewrite IH; reflexivity. }
    specialize (G head (ch_semi :: ev_tail e ++ eol crlf) Hh). cbn [find_char] in G. change (ch_semi =? ch_hash) with false in G. cbv iota in G.
    destruct (find_char ch_hash (ev_tail e ++ eol crlf)) as [i|]; rewrite G.
    - exists (firstn i (ev_tail e ++ eol crlf)). rewrite firstn_app_2. reflexivity.
    - eexists. reflexivity. }
  destruct Hline as [rest ->]. rewrite find_char_app by (apply Hc; [notnum|discriminate]). rewrite firstn_len.
  assert (Ed : drop_front is_space head = head).
  { apply drop_front_id. intros c r E. subst head. pose proof (hexs_chars (ev_base e)) as H. pose proof (hexs_ne (ev_base e)) as Hne. destruct (hexs (ev_base e)) as [|c' h]; [contradiction|].
    injection E as <- _. inversion_clear H as [|? ? Hc' _]. unfold is_space. unfold numchar in Hc'. destruct (N.eqb_spec c' 32); [lia|]. cbn [orb]. apply andb_false_iff. right. apply N.leb_gt. lia. }
  rewrite Ed. subst head. rewrite take_word_app; [|apply hexs_chars|reflexivity].
  destruct (hexs_value (ev_base e) Hb) as (d & ds & E1 & E2). pose proof (hexs_ne (ev_base e)) as Hne.
  destruct (hexs (ev_base e)) as [|x y]; [contradiction|]. rewrite E1, E2. reflexivity.
Qed.

Lemma evs_skip crlf s : load_evs_line ((ch_hash :: s) ++ eol crlf) = [] /\ (Forall white s -> load_evs_line (s ++ eol crlf) = []).
Proof.
  split; [reflexivity|]. intros H. unfold load_evs_line. assert (Hw : Forall white (s ++ eol crlf)) by (apply Forall_app; split; [exact H|apply eol_white]).
  assert (Hh : ~ In ch_hash (s ++ eol crlf)).
  { intros G. rewrite Forall_forall in Hw. specialize (Hw _ G). destruct Hw as [E|[E|[E|E]]]; discriminate E. }
  rewrite (find_char_none _ _ Hh), find_char_none by now apply white_no_semi. reflexivity.
Qed.
Lemma load_evs_in crlf f : lines_ok ev_ok f -> forall c, In c (load_evs (file_text ev_text crlf f)) <-> exists e, has f e /\ ev_base e = c.
Proof.
  intros Hf c. unfold load_evs. rewrite insert_all_in, in_flat_map. split.
  - intros [[line [Hin Hc]]|[]]. unfold file_text in Hin. apply in_map_iff in Hin as [l [<- Hl]]. specialize (Hf l Hl).
    change (if crlf then [ch_cr] else []) with (eol crlf) in Hc. destruct l as [e|s|s]; cbn [line_text] in Hc.
    + rewrite evs_data in Hc by exact Hf. destruct Hc as [<-|[]]. exists e. split; [exact Hl|reflexivity].
    + rewrite (proj1 (evs_skip crlf s)) in Hc. destruct Hc.
    + rewrite (proj2 (evs_skip crlf s) Hf) in Hc. destruct Hc.
  - intros [e [He <-]]. left. exists (ev_text e ++ eol crlf). split; [apply in_map_iff; exists (Data e); split; [reflexivity|exact He]|].
    rewrite evs_data by exact (Hf _ He). left. reflexivity.
Qed.

(** ** Version names *)
Lemma decs_digits n : n < 1000 -> take_digits 10 (decs n) = digits 10 10 n /\ digits 10 10 n <> [] /\ value_of 10 (digits 10 10 n) = n.
Proof.
  intros Hn. split; [apply take_digits_map; [apply dec_char_digit|apply digits_lt; lia]|]. split.
  - apply digits_len; [lia|change (10 ^ N.of_nat 10) with 10000000000; lia|discriminate].
  - apply digits_value; [lia|change (10 ^ N.of_nat 10) with 10000000000; lia].
Qed.
Lemma parse_version_name x y : x < 1000 -> y < 1000 -> parse_version (version_name x y) = Some (x, y).
Proof.
  intros Hx Hy. unfold parse_version, version_name.
  assert (E : find_char 95 (lit "V" ++ decs x ++ lit "_" ++ decs y) = Some (S (length (decs x)))).
  { change (lit "V" ++ decs x ++ lit "_" ++ decs y) with ((86 :: decs x) ++ 95 :: decs y). rewrite find_char_app; [reflexivity|].
    intros [H|H]; [discriminate H|]. revert H. apply num_not; [apply decs_chars|unfold numchar; lia]. }
  rewrite E. change (lit "V" ++ decs x ++ lit "_" ++ decs y) with (86 :: decs x ++ 95 :: decs y). cbn [skipn].
  replace (S (length (decs x)) - 1)%nat with (length (decs x)) by lia. rewrite firstn_len.
  replace (S (length (decs x)) + 1)%nat with (S (length (decs x) + 1)) by lia. cbn [skipn]. rewrite skipn_len. cbn [skipn].
  destruct (decs_digits x Hx) as (A & B & C). destruct (decs_digits y Hy) as (A' & B' & C'). rewrite A, A'.
  destruct (digits 10 10 x) as [|d ds]; [contradiction|]. destruct (digits 10 10 y) as [|d' ds']; [contradiction|]. rewrite C, C'. reflexivity.
Qed.
Lemma versions_ok al : (forall a v, In (a, v) al -> v = lit "Unassigned" \/ exists x y, v = version_name x y /\ x < 1000 /\ y < 1000) ->
  exists l, versions al = Some l /\ (forall v s, In (v, s) l <-> s <> lit "Unassigned" /\ (exists a, In (a, s) al) /\ parse_version s = Some v).
Proof.
  induction al as [|[a s] al IH]; intros H; [exists []; split; [reflexivity|]; intros v s; split; [intros []|intros [_ [[a []] _]]]|].
  destruct IH as (l & E & Hl); [intros a' v' Hin; apply (H a'); right; exact Hin|]. cbn [versions]. rewrite E.
  destruct (str_eqb_spec s (lit "Unassigned")) as [->|N].
  - exists l. split; [reflexivity|]. intros v s. rewrite Hl. split.
    + intros (A & [a' B] & C). split; [exact A|split; [exists a'; right; exact B|exact C]].
    + intros (A & [a' [B|B]] & C); [injection B as _ <-; contradiction|]. split; [exact A|split; [exists a'; exact B|exact C]].
  - destruct (H a s (or_introl eq_refl)) as [->|(x & y & -> & Hx & Hy)]; [contradiction|]. rewrite (parse_version_name x y Hx Hy).
    exists (((x, y), version_name x y) :: l). split; [reflexivity|]. intros v s. cbn [In]. rewrite Hl. split.
    + intros [G|(A & [a' B] & C)].
      * injection G as <- <-. split; [exact N|split; [exists a; left; reflexivity|now apply parse_version_name]].
      * split; [exact A|split; [exists a'; right; exact B|exact C]].
    + intros (A & [a' [B|B]] & C).
      * injection B as _ <-. left. rewrite (parse_version_name x y Hx Hy) in C. congruence.
      * right. split; [exact A|split; [exists a'; exact B|exact C]].
Qed.
Lemma vinsert_perm k l : Permutation (vinsert k l) (k :: l).
Proof. induction l as [|x l IH]; cbn [vinsert]; [reflexivity|]. destruct (version_less x k); [|reflexivity]. rewrite IH. apply perm_swap. Qed.
Lemma vsort_perm l : Permutation (fold_right vinsert [] l) l.
Proof. induction l as [|x l IH]; cbn [fold_right]; [reflexivity|]. rewrite vinsert_perm. now rewrite IH. Qed.
