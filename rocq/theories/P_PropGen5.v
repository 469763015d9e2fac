(** Proofs about the property table generator, part 5: PropertyValueAliases.txt, DerivedGeneralCategory.txt, emoji-variation-sequences.txt. *)
From Coq Require Import Ascii String Permutation Sorted.
From Verif Require Import Base M_TableGen M_PropGen Spec_TableGen Spec_PropGen P_TableGen P_TableGen2 P_TableGen8 P_PropGen P_PropGen2 P_PropGen3 P_PropGen4.
Open Scope N_scope.

Lemma drop_front_or p u v : drop_front p (u ++ v) = match drop_front p u with [] => drop_front p v | d => d ++ v end.
Proof. induction u as [|c u IH]; [reflexivity|]. cbn [app drop_front]. destruct (p c); [exact IH|reflexivity]. Qed.
Lemma drop_back_or p a b : drop_back p (a ++ b) = match drop_back p b with [] => drop_back p a | d => a ++ d end.
Proof.
  unfold drop_back. rewrite rev_app_distr, drop_front_or. destruct (drop_front p (rev b)) as [|c d] eqn:E; [reflexivity|].
  rewrite rev_app_distr, rev_involutive. destruct (rev (c :: d)) as [|y t] eqn:Er; [|reflexivity].
  apply (f_equal (@rev N)) in Er. rewrite rev_involutive in Er. discriminate.
Qed.
Lemma no_white_back w : no_white w -> drop_back is_ws w = w.
Proof.
  intros H. apply drop_back_id. intros c r ->. apply not_white. unfold no_white in H. rewrite Forall_forall in H. apply H. apply in_or_app. right. left. reflexivity.
Qed.
Lemma trim_word w x : w <> [] -> no_white w -> trim (w ++ x) = w ++ drop_back is_ws x.
Proof.
  intros Hne Hw. unfold trim. rewrite drop_front_id.
  2:{ intros c r E. destruct w as [|c' w]; [contradiction|]. injection E as <- _. apply not_white. inversion_clear Hw. assumption. }
  rewrite drop_back_or. destruct (drop_back is_ws x) as [|c d]; [rewrite app_nil_r; now apply no_white_back|reflexivity].
Qed.
Lemma tail_back t eol' : tail_ok t -> Forall white eol' -> tail_ok (drop_back is_ws (t ++ eol')).
Proof.
  intros Ht He. rewrite drop_back_app by now apply ws_forall. destruct (drop_back_split is_ws t) as [w [E _]].
  destruct (drop_back is_ws t) as [|c d]; [exact I|]. cbn [app] in E. rewrite E in Ht. exact Ht.
Qed.
(** the part of [s] before the first semicolon *)
Lemma split_head s : exists h rest, split_semi s = h :: rest /\ exists y, s = h ++ y /\ (y = [] \/ exists y', y = ch_semi :: y').
Proof.
  induction s as [|c s IH]; [exists [], []; split; [reflexivity|]; exists []; auto|]. cbn [split_semi]. destruct (N.eqb_spec c ch_semi) as [->|N].
  - exists [], (split_semi s). split; [reflexivity|]. exists (ch_semi :: s). split; [reflexivity|eauto].
  - destruct IH as (h & rest & E & y & Es & Hy). rewrite E. exists (c :: h), rest. split; [reflexivity|]. exists y. split; [cbn [app]; congruence|exact Hy].
Qed.
Lemma split_word w x : without ch_semi w -> exists h rest, split_semi (w ++ x) = (w ++ h) :: rest /\ exists y, x = h ++ y /\ (y = [] \/ exists y', y = ch_semi :: y').
Proof.
  induction w as [|c w IH]; intros Hw; [apply split_head|]. cbn [app split_semi].
  destruct (N.eqb_spec c ch_semi) as [->|N]; [destruct Hw; left; reflexivity|].
  destruct IH as (h & rest & E & Hx); [intros H; apply Hw; right; exact H|]. rewrite E. exists h, rest. split; [reflexivity|exact Hx].
Qed.
Lemma split_semicolons_fields s a b c rest : map trim (split_semi (trim s)) = a :: b :: c :: rest -> c <> [] ->
  (3 <= length (split_semicolons (trim s)))%nat /\ field (split_semicolons (trim s)) 1 = b /\ field (split_semicolons (trim s)) 2 = c.
Proof.
  unfold split_semicolons. destruct (split_semi (trim s)) as [|p0 [|p1 [|p2 ps]]]; try discriminate.
  intros E Hc. cbn [map] in E. assert (Hp2 : p2 <> []). { intros ->. injection E as _ _ E _. cbn in E. congruence. }
  assert (E1 : trim p1 = b) by congruence. assert (E2 : trim p2 = c) by congruence. clear E.
  destruct (rev (p0 :: p1 :: p2 :: ps)) as [|z r] eqn:Er.
  { apply (f_equal (@length str)) in Er. rewrite rev_length in Er. discriminate. }
  assert (Hps : p0 :: p1 :: p2 :: ps = rev r ++ [z]). { rewrite <- (rev_involutive (p0 :: p1 :: p2 :: ps)), Er. reflexivity. }
  destruct z as [|z0 z].
  - destruct (rev r) as [|q0 [|q1 [|q2 qs]]] eqn:Eq; cbn [app] in Hps.
    + discriminate. + discriminate. + injection Hps as _ _ Hps. congruence.
    + assert (q1 = p1 /\ q2 = p2) as [-> ->] by (split; congruence). cbn [map length]. split; [lia|]. unfold field. cbn [nth]. auto.
  - cbn [map length]. split; [lia|]. unfold field. cbn [nth]. auto.
Qed.
Definition noncommented (s : str) : Prop := match s with c :: _ => c <> ch_hash | [] => False end.
Lemma word_head w : word w -> exists c r, w = c :: r /\ c <> ch_hash /\ ~ white c.
Proof.
  intros (Hne & Hw & _ & Hh). destruct w as [|c r]; [contradiction|]. exists c, r. split; [reflexivity|]. split; [intros ->; apply Hh; left; reflexivity|].
  inversion_clear Hw. assumption.
Qed.
Lemma pv_fields crlf l : pv_ok l -> let sv := trim (pv_text l ++ eol crlf) in
  noncommented sv /\ (3 <= length (split_semicolons sv))%nat /\ first_word (field (split_semicolons sv) 1) = pv_abbrev l /\
  first_word (field (split_semicolons sv) 2) = pv_full l.
Proof.
  intros (Hs & Ha & Hf & Ht) sv.
  assert (Hsv : noncommented sv).
  { subst sv. unfold pv_text. rewrite <- app_assoc. rewrite trim_word; [|apply Hs|apply Hs].
    destruct (word_head _ Hs) as (c & r & -> & Hc & _). cbn [app noncommented]. exact Hc. }
  set (h2 := drop_back is_ws (fst (let x := pv_tail l ++ eol crlf in (match split_semi x with h :: _ => h | [] => [] end, tt)))).
  assert (E : exists rest, map trim (split_semi (pv_text l ++ eol crlf)) = pv_short l :: pv_abbrev l :: (pv_full l ++ h2) :: rest /\ tail_ok h2).
  { unfold pv_text.
    replace ((pv_short l ++ spaces (pv_g0 l) ++ lit ";" ++ spaces (pv_g1 l) ++ pv_abbrev l ++ spaces (pv_g2 l) ++ lit ";" ++ spaces (pv_g3 l) ++ pv_full l ++ pv_tail l) ++ eol crlf)
      with ((pv_short l ++ spaces (pv_g0 l)) ++ ch_semi :: ((spaces (pv_g1 l) ++ pv_abbrev l ++ spaces (pv_g2 l)) ++ ch_semi :: (spaces (pv_g3 l) ++ pv_full l ++ (pv_tail l ++ eol crlf)))).
    2:{ change (lit ";") with [ch_semi]. rewrite <- !app_assoc. cbn [app]. rewrite <- ?app_assoc. reflexivity. }
    assert (Hsp : forall k, ~ In ch_semi (spaces k)). { intros k H. apply repeat_spec in H. discriminate H. }
    rewrite split_cons. 2:{ intros H. apply in_app_or in H as [H|H]; [exact (proj1 (proj2 (proj2 Hs)) H)|exact (Hsp _ H)]. }
    rewrite split_cons.
    2:{ intros H. apply in_app_or in H as [H|H]; [exact (Hsp _ H)|]. apply in_app_or in H as [H|H]; [exact (proj1 (proj2 (proj2 Ha)) H)|exact (Hsp _ H)]. }
    rewrite (app_assoc (spaces (pv_g3 l)) (pv_full l)). destruct (split_head (pv_tail l ++ eol crlf)) as (h & rest & Eh & y & Ey & Hy).
    assert (Hw3 : without ch_semi (spaces (pv_g3 l) ++ pv_full l)).
    { intros H. apply in_app_or in H as [H|H]; [exact (Hsp _ H)|exact (proj1 (proj2 (proj2 Hf)) H)]. }
    assert (Es : forall w x h0 r0, without ch_semi w -> split_semi x = h0 :: r0 -> split_semi (w ++ x) = (w ++ h0) :: r0).
    { clear. induction w as [|c w IH]; intros x h0 r0 Hw Hx; [exact Hx|]. cbn [app split_semi].
      destruct (N.eqb_spec c ch_semi) as [->|N]; [destruct Hw; left; reflexivity|]. rewrite (IH x h0 r0); [reflexivity|intros H; apply Hw; right; exact H|exact Hx]. }
    rewrite (Es _ _ h rest Hw3 Eh). exists (map trim rest). cbn [map].
    assert (Eh2 : h2 = drop_back is_ws h). { subst h2. cbv zeta. rewrite Eh. reflexivity. }
    rewrite Eh2. split.
    - f_equal; [rewrite trim_back by apply white_spaces; apply trim_id, word_clean, Hs|]. f_equal.
      + rewrite trim_front, trim_back by apply white_spaces. apply trim_id, word_clean, Ha.
      + f_equal. rewrite <- app_assoc, trim_front by apply white_spaces. apply trim_word; apply Hf.
    - (* the tail *)
      destruct (drop_back_split is_ws h) as [w [Ew Hw]].
      destruct (drop_back is_ws h) as [|c d] eqn:Ed; [exact I|]. cbn [app] in Ew.
      destruct (pv_tail l) as [|t0 tl] eqn:Et.
      + exfalso. assert (Hall : Forall (fun c => is_ws c = true) (c :: d ++ w)).
        { rewrite <- Ew. pose proof (eol_white crlf) as He. cbn [app] in Ey. rewrite Ey in He. apply Forall_app in He as [He _]. now apply ws_forall. }
        rewrite <- Ew in Hall. unfold drop_back in Ed. apply (f_equal (@rev N)) in Ed. rewrite rev_involutive in Ed.
        assert (Z : drop_front is_ws (rev h) = []).
        { rewrite <- (app_nil_r (rev h)), drop_front_app; [reflexivity|]. apply Forall_rev. exact Hall. }
        rewrite Z in Ed. cbn [rev] in Ed. destruct (rev d); discriminate Ed.
      + rewrite Ew in Ey. cbn [app] in Ey. injection Ey as <- _. exact Ht. }
  destruct E as (rest & E & Hh2). rewrite <- split_trim in E. change (trim (pv_text l ++ eol crlf)) with sv in E.
  split; [exact Hsv|].
  assert (Hc : pv_full l ++ h2 <> []). { destruct (word_head _ Hf) as (c & r & -> & _). discriminate. }
  destruct (split_semicolons_fields _ _ _ _ _ E Hc) as (A & B & C). change (trim (pv_text l ++ eol crlf)) with sv in A, B, C.
  split; [exact A|]. rewrite B, C. split; [now apply first_word_id|].
  unfold first_word. rewrite trim_word by apply Hf. apply word_prefix_app; [apply Hf|apply Hf|].
  pose proof (tail_back h2 [] Hh2 (Forall_nil _)) as Z. rewrite app_nil_r in Z. exact Z.
Qed.

(** ** The sections *)
Definition body_map (body : list (fline pvline)) : list (str * str) :=
  fold_left (fun m l => match l with Data l => smap_set (pv_abbrev l) (pv_full l) m | _ => m end) body [].
Lemma find_sub_none p s c : In c p -> ~ In c s -> find_sub p s = None.
Proof.
  intros Hp. induction s as [|x s IH]; intros Hs.
  - cbn [find_sub]. destruct p; [destruct Hp|reflexivity].
  - cbn [find_sub]. assert (E : starts_with p (x :: s) = false).
    { destruct (starts_with p (x :: s)) eqn:E; [|reflexivity]. exfalso. apply Hs. clear IH Hs. revert E. generalize (x :: s). clear - Hp.
      revert Hp. induction p as [|y p IH]; intros Hp l; [destruct Hp|]. destruct l as [|z l]; [discriminate|]. cbn [starts_with]. intros E.
      apply andb_true_iff in E as [E1 E2]. apply N.eqb_eq in E1. subst z. destruct Hp as [<-|Hp]; [left; reflexivity|right; exact (IH Hp l E2)]. }
    rewrite E, IH; [reflexivity|]. intros H. apply Hs. right. exact H.
Qed.
Lemma find_sub_app a b : no_white a -> find_sub (lit " (") (a ++ lit " (" ++ b) = Some (length a).
Proof.
  induction a as [|c a IH]; intros Ha; [reflexivity|]. inversion_clear Ha as [|? ? Hc Ha']. cbn [app find_sub length].
  assert (E : starts_with (lit " (") (c :: a ++ lit " (" ++ b) = false).
  { unfold lit. cbn [list_ascii_of_string map starts_with]. rewrite (proj2 (N.eqb_neq _ _)); [reflexivity|]. intros E. apply Hc. left. rewrite <- E. reflexivity. }
  rewrite E, IH by exact Ha'. reflexivity.
Qed.
Lemma trim_hash s e : Forall white e -> exists q, trim ((ch_hash :: s) ++ e) = ch_hash :: q /\ forall c, In c q -> In c s.
Proof.
  intros He. rewrite trim_back by exact He. change (ch_hash :: s) with ([ch_hash] ++ s). rewrite trim_word; [|discriminate|].
  - exists (drop_back is_ws s). split; [reflexivity|]. intros c Hc. destruct (drop_back_split is_ws s) as [w [E _]]. rewrite E. apply in_or_app. left. exact Hc.
  - constructor; [intros [H|[H|[H|H]]]; discriminate H|constructor].
Qed.
Lemma skip_incl {A} n (l : list A) x : In x (skipn n l) -> In x l.
Proof. revert l. induction n as [|n IH]; intros [|y l] H; auto. right. apply IH. exact H. Qed.
(** a comment line: at most makes a new, empty entry *)
Lemma pva_comment crlf cur m s : exists p, load_pva_line (cur, m) ((ch_hash :: s) ++ eol crlf) = (cur, m) \/
  load_pva_line (cur, m) ((ch_hash :: s) ++ eol crlf) = (p, m) \/ load_pva_line (cur, m) ((ch_hash :: s) ++ eol crlf) = (p, smap_set p [] m).
Proof.
  destruct (trim_hash s (eol crlf) (eol_white crlf)) as [q [E _]]. unfold load_pva_line. rewrite E.
  destruct (starts_with (lit "# ") (ch_hash :: q)).
  2:{ exists []. left. reflexivity. }
  destruct (find_sub (lit " (") (skipn 2 (ch_hash :: q))) as [pos|]; [|exists []; left; reflexivity].
  destruct (match rev (skipn 2 (ch_hash :: q)) with x :: _ => x =? 41 | [] => false end); [|exists []; left; reflexivity].
  exists (firstn pos (skipn 2 (ch_hash :: q))). destruct (blacklisted _); auto.
Qed.
Lemma pva_plain crlf cur m s : without 40 s -> load_pva_line (cur, m) ((ch_hash :: s) ++ eol crlf) = (cur, m).
Proof.
  intros Hs. destruct (trim_hash s (eol crlf) (eol_white crlf)) as [q [E Hq]]. unfold load_pva_line. rewrite E.
  destruct (starts_with (lit "# ") (ch_hash :: q)).
  - rewrite (find_sub_none (lit " (") _ 40); [reflexivity|unfold lit; cbn; tauto|]. intros H. apply skip_incl in H. destruct H as [H|H]; [discriminate H|]. exact (Hs (Hq _ H)).
  - reflexivity.
Qed.
Lemma pva_header crlf cur m s : word (sec_name s) ->
  load_pva_line (cur, m) (line_text pv_text (Comment (lit " " ++ sec_name s ++ lit " (" ++ sec_short s ++ lit ")")) ++ eol crlf) =
  (sec_name s, if blacklisted (sec_name s) then m else smap_set (sec_name s) [] m).
Proof.
  intros Hn. cbn [line_text]. unfold load_pva_line.
  assert (E : trim ((ch_hash :: lit " " ++ sec_name s ++ lit " (" ++ sec_short s ++ lit ")") ++ eol crlf) =
              lit "# " ++ sec_name s ++ lit " (" ++ sec_short s ++ lit ")").
  { rewrite trim_back by apply eol_white. change (ch_hash :: lit " " ++ sec_name s ++ lit " (" ++ sec_short s ++ lit ")") with (lit "# " ++ sec_name s ++ lit " (" ++ sec_short s ++ lit ")").
    apply trim_id.
    replace (lit "# " ++ sec_name s ++ lit " (" ++ sec_short s ++ lit ")") with (ch_hash :: (ch_space :: sec_name s ++ lit " (" ++ sec_short s) ++ [41]).
    - apply clean_ends; intros [H|[H|[H|H]]]; discriminate H.
    - cbn [app]. rewrite <- !app_assoc. reflexivity. }
  rewrite E. change (lit "# " ++ sec_name s ++ lit " (" ++ sec_short s ++ lit ")") with (ch_hash :: ch_space :: sec_name s ++ lit " (" ++ sec_short s ++ lit ")").
  change (starts_with (lit "# ") (ch_hash :: ch_space :: sec_name s ++ lit " (" ++ sec_short s ++ lit ")")) with true.
  cbv iota. cbn [skipn]. rewrite find_sub_app by apply Hn.
  assert (Er : match rev (sec_name s ++ lit " (" ++ sec_short s ++ lit ")") with x :: _ => x =? 41 | [] => false end = true).
  { rewrite !app_assoc, rev_app_distr. reflexivity. }
  rewrite Er, firstn_len. reflexivity.
Qed.
Lemma pva_data crlf cur m l : pv_ok l -> load_pva_line (cur, m) (pv_text l ++ eol crlf) =
  if blacklisted cur then (cur, m)
  else (cur, smap_set cur (smap_set (pv_abbrev l) (pv_full l) (match smap_get cur m with Some l => l | None => [] end)) m).
Proof.
  intros Hl. destruct (pv_fields crlf l Hl) as (A & B & C & D). unfold load_pva_line. set (sv := trim (pv_text l ++ eol crlf)) in *.
  destruct sv as [|c sv']; [destruct A|]. cbn in A.
  assert (E1 : starts_with (lit "# ") (c :: sv') = false).
  { unfold lit. cbn [list_ascii_of_string map starts_with]. rewrite (proj2 (N.eqb_neq _ _)); [reflexivity|]. intros E. apply A. rewrite <- E. reflexivity. }
  rewrite E1, (proj2 (N.eqb_neq _ _) A). rewrite (proj2 (Nat.ltb_ge _ _) B), C, D. reflexivity.
Qed.
Lemma pva_body crlf name : forall body m, lines_ok pv_ok body -> (forall q, In (Comment q) body -> without 40 q) ->
  exists m', fold_left load_pva_line (file_text pv_text crlf body) (name, m) = (name, m') /\
  (blacklisted name = true -> m' = m) /\
  (blacklisted name = false -> forall k, smap_get k m' = if str_eqb k name then
      (if existsb (fun l => match l with Data _ => true | _ => false end) body || match smap_get name m with Some _ => true | None => false end
       then Some (fold_left (fun m l => match l with Data l => smap_set (pv_abbrev l) (pv_full l) m | _ => m end) body (match smap_get name m with Some l => l | None => [] end))
       else None) else smap_get k m).
Proof.
  induction body as [|l body IH]; intros m Hb Hc.
  - exists m. split; [reflexivity|split; [reflexivity|]]. intros _ k. cbn [existsb orb fold_left]. destruct (str_eqb_spec k name) as [->|]; [|reflexivity].
    destruct (smap_get name m); reflexivity.
  - apply lines_cons in Hb as [Hl Hb]. rewrite file_text_cons. cbn [fold_left].
    assert (Hc' : forall q, In (Comment q) body -> without 40 q) by (intros q Hq; apply Hc; right; exact Hq).
    destruct l as [l|s|s].
    + cbn [line_text]. rewrite (pva_data crlf name m l Hl). destruct (blacklisted name) eqn:Eb.
      * destruct (IH m Hb Hc') as (m' & E & A & B). exists m'. split; [exact E|]. split; [intros _; apply A; reflexivity|discriminate].
      * set (m1 := smap_set name _ m). destruct (IH m1 Hb Hc') as (m' & E & A & B). exists m'. split; [exact E|]. split; [discriminate|].
        intros _ k. rewrite (B eq_refl k). subst m1. rewrite !smap_get_set, str_eqb_refl. destruct (str_eqb_spec k name) as [->|]; [|reflexivity].
        rewrite orb_true_r. cbn [existsb orb]. reflexivity.
    + cbn [line_text]. rewrite (pva_plain crlf name m s) by (apply Hc; left; reflexivity). destruct (IH m Hb Hc') as (m' & E & A & B). exists m'. split; [exact E|]. split; [exact A|].
      intros Eb k. rewrite (B Eb k). reflexivity.
    + assert (E0 : load_pva_line (name, m) (line_text pv_text (Blank s) ++ eol crlf) = (name, m)).
      { unfold load_pva_line. cbn [line_text]. rewrite trim_white; [reflexivity|]. apply Forall_app. split; [exact Hl|apply eol_white]. }
      rewrite E0. destruct (IH m Hb Hc') as (m' & E & A & B). exists m'. split; [exact E|]. split; [exact A|]. intros Eb k. rewrite (B Eb k). reflexivity.
Qed.
Lemma pva_section crlf cur m s : sec_ok s ->
  exists m', fold_left load_pva_line (file_text pv_text crlf (Comment (lit " " ++ sec_name s ++ lit " (" ++ sec_short s ++ lit ")") :: sec_body s)) (cur, m) = (sec_name s, m') /\
  forall k, smap_get k m' = if str_eqb k (sec_name s) && negb (blacklisted k) then Some (body_map (sec_body s)) else smap_get k m.
Proof.
  intros (Hn & Hb & Hc). rewrite file_text_cons. cbn [fold_left]. rewrite (pva_header crlf cur m s Hn).
  destruct (blacklisted (sec_name s)) eqn:Eb.
  - destruct (pva_body crlf (sec_name s) (sec_body s) m Hb Hc) as (m' & E & A & _). exists m'. split; [exact E|]. intros k. rewrite (A Eb).
    destruct (str_eqb_spec k (sec_name s)) as [->|]; [rewrite Eb; reflexivity|reflexivity].
  - destruct (pva_body crlf (sec_name s) (sec_body s) (smap_set (sec_name s) [] m) Hb Hc) as (m' & E & _ & B). exists m'. split; [exact E|].
    intros k. rewrite (B Eb k), smap_get_set, str_eqb_refl. destruct (str_eqb_spec k (sec_name s)) as [->|N]; cbn [andb].
    + rewrite Eb, orb_true_r. reflexivity.
    + rewrite smap_get_set, str_eqb_neq by exact N. reflexivity.
Qed.
Lemma body_map_in body : (forall l l', has body l -> has body l' -> pv_abbrev l = pv_abbrev l' -> pv_full l = pv_full l') ->
  ssorted (body_map body) /\ forall a v, In (a, v) (body_map body) <-> exists l, has body l /\ pv_abbrev l = a /\ pv_full l = v.
Proof.
  intros Hu. unfold body_map.
  assert (G : forall b m, ssorted m -> (forall l, has b l -> has body l) -> (forall a v, smap_get a m = Some v -> exists l, has body l /\ pv_abbrev l = a /\ pv_full l = v) ->
    let m' := fold_left (fun m l => match l with Data l => smap_set (pv_abbrev l) (pv_full l) m | _ => m end) b m in
    ssorted m' /\ (forall a v, smap_get a m' = Some v -> exists l, has body l /\ pv_abbrev l = a /\ pv_full l = v) /\
    (forall a v, smap_get a m = Some v \/ (exists l, has b l /\ pv_abbrev l = a /\ pv_full l = v) -> smap_get a m' = Some v)).
  { induction b as [|l b IH]; intros m Hs Hb Hm m'; subst m'; cbn [fold_left].
    - split; [exact Hs|split; [exact Hm|]]. intros a0 v0 [H|[l [[] _]]]. exact H.
    - assert (Hb' : forall l, has b l -> has body l) by (intros l' Hl'; apply Hb; right; exact Hl').
      destruct l as [l|s|s].
      + assert (Hl : has body l) by (apply Hb; left; reflexivity).
        destruct (IH (smap_set (pv_abbrev l) (pv_full l) m) (smap_set_sorted _ _ _ Hs) Hb') as (A & B & C).
        { intros a0 v0. rewrite smap_get_set. destruct (str_eqb_spec a0 (pv_abbrev l)) as [->|]; [|apply Hm]. intros E. injection E as <-. eauto. }
        split; [exact A|split; [exact B|]]. intros a0 v0 H. apply C. rewrite smap_get_set. destruct (str_eqb_spec a0 (pv_abbrev l)) as [->|N].
        * left. f_equal. destruct H as [H|[l' [Hl' [E1 <-]]]]; [|apply Hu; auto].
          destruct (Hm _ _ H) as (l' & Hl' & E1 & <-). apply Hu; auto.
        * destruct H as [H|[l' [[E|Hl'] [E1 E2]]]]; [auto|injection E as <-; congruence|right; exists l'; auto].
      + destruct (IH m Hs Hb' Hm) as (A & B & C). split; [exact A|split; [exact B|]]. intros a0 v0 [H|[l' [[E|Hl'] [E1 E2]]]]; apply C; [auto|discriminate E|right; exists l'; auto].
      + destruct (IH m Hs Hb' Hm) as (A & B & C). split; [exact A|split; [exact B|]]. intros a0 v0 [H|[l' [[E|Hl'] [E1 E2]]]]; apply C; [auto|discriminate E|right; exists l'; auto]. }
  destruct (G body [] (SSorted_nil _)) as (A & B & C); [auto|discriminate|]. split; [exact A|]. intros a v. rewrite (smap_in _ a v A). split; [apply B|]. intros H. apply C. right. exact H.
Qed.
Lemma load_pva_in crlf pre secs prop : pva_ok secs -> prop <> lit "Block" ->
  let al := match smap_get prop (load_pva (pva_text crlf pre secs)) with Some l => l | None => [] end in
  ssorted al /\ forall a v, In (a, v) al <-> alias secs prop a v.
Proof.
  intros (Hn & Hs & Hu) Hp. cbv zeta. unfold load_pva, pva_text. rewrite fold_left_app.
  assert (Hpre : forall (cur : str) (m : pva), (smap_get prop m = None \/ smap_get prop m = Some []) ->
    exists cur' m', fold_left load_pva_line (file_text (fun s : str => s) crlf (map Comment pre)) (cur, m) = (cur', m') /\ (smap_get prop m' = None \/ smap_get prop m' = Some [])).
  { induction pre as [|s pre IH]; intros cur m Hm; [exists cur, m; auto|]. cbn [map]. rewrite file_text_cons. cbn [fold_left line_text].
    match goal with |- context [load_pva_line (cur, m) ?x] => change x with ((ch_hash :: s) ++ eol crlf) end.
    destruct (pva_comment crlf cur m s) as [p [E|[E|E]]]; rewrite E; [now apply IH|now apply IH|]. apply IH. rewrite smap_get_set. destruct (str_eqb prop p); auto. }
  destruct (Hpre [] []) as (cur & m & E & Hm); [left; reflexivity|].
  match goal with |- context [fold_left load_pva_line ?x ?st] => change st with (([] : str), ([] : pva)) end. rewrite E. clear Hpre E pre.
  assert (Hsec : forall secs (cur : str) (m : pva), (forall s, In s secs -> sec_ok s) ->
    exists cur' m', fold_left load_pva_line (flat_map (fun s => file_text pv_text crlf (Comment (lit " " ++ sec_name s ++ lit " (" ++ sec_short s ++ lit ")") :: sec_body s)) secs) (cur, m) = (cur', m') /\
    ((~ In prop (map sec_name secs) /\ smap_get prop m' = smap_get prop m) \/ exists s, In s secs /\ sec_name s = prop /\ smap_get prop m' = Some (body_map (sec_body s)))).
  { clear - Hp. induction secs as [|s secs IH]; intros cur m Hs; [exists cur, m; split; [reflexivity|left; auto]|]. cbn [flat_map]. rewrite fold_left_app.
    destruct (pva_section crlf cur m s (Hs s (or_introl eq_refl))) as (m1 & E1 & G1). rewrite E1.
    destruct (IH (sec_name s) m1) as (cur' & m' & E & H); [intros s' Hs'; apply Hs; right; exact Hs'|]. exists cur', m'. split; [exact E|].
    destruct H as [[H1 H2]|[s' [H1 [H2 H3]]]]; [|right; exists s'; split; [right; exact H1|auto]].
    rewrite H2, G1. assert (Eb : blacklisted prop = false) by now apply str_eqb_neq. rewrite Eb, andb_true_r.
    destruct (str_eqb_spec prop (sec_name s)) as [Es|N].
    - right. exists s. split; [left; reflexivity|]. split; [auto|reflexivity].
    - left. split; [|reflexivity]. intros [H|H]; [congruence|contradiction]. }
  destruct (Hsec secs cur m Hs) as (cur' & m' & E & H). rewrite E. cbn [snd].
  destruct H as [[H1 H2]|[s [H1 [H2 H3]]]].
  - rewrite H2. split; [destruct Hm as [-> | ->]; constructor|]. intros a v. split; [destruct Hm as [-> | ->]; intros []|]. intros (s & l & Hin & Hname & _). destruct H1. apply in_map_iff. exists s. auto.
  - rewrite H3. destruct (body_map_in (sec_body s)) as [Hbs Hbm].
    + intros l l' Hl Hl' El. apply (Hu prop (pv_abbrev l)); [exact Hp| |]; [exists s, l; auto|exists s, l'; rewrite El; auto].
    + split; [exact Hbs|]. intros a v. rewrite Hbm. split; [intros [l [A [B C]]]; exists s, l; auto|]. intros (s' & l & A & B & C & D & F). exists l.
      assert (s' = s) as ->; [|auto]. clear - Hn A H1 B H2. induction secs as [|x secs IH]; [destruct A|]. inversion_clear Hn as [|? ? Hx Hn'].
      destruct A as [->|A], H1 as [->|H1]; auto.
      * destruct Hx. apply in_map_iff. exists s. split; [congruence|exact H1].
      * destruct Hx. apply in_map_iff. exists s'. split; [congruence|exact A].
Qed.
