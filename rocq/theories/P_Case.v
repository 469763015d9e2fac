(** Proofs about case mapping. *)
From Coq Require Import ZArith.
From Verif Require Import Base Spec_Utf M_Utf8 M_Convert P_Utf8 P_Convert M_Ucd M_Word P_Word M_Tables Spec_Tables P_Tables M_Case Spec_Case
  P_NormUtf8.
Open Scope N_scope.

Definition full_gen (full : list (N * list N)) (simple : N -> N) (cp : N) : Res (list N) :=
  do r <- lookup_full full cp ;
  match r with
  | _ :: _ => Ok r
  | [] => if negb (simple cp =? cp) then Ok [simple cp] else Ok []
  end.
Lemma full_of_gen tb k cp : full_of tb k cp = full_gen (full_table tb k) (simple_of tb k) cp.
Proof. destruct k; reflexivity. Qed.

Lemma ascii_dec k c : ascii_changes k c \/ ~ ascii_changes k c.
Proof. destruct k; cbn [ascii_changes]; lia. Qed.

Lemma lookup_simple_spec tbl c : strictly_sorted fst tbl ->
  In (c, lookup_simple tbl c) tbl \/ ((forall s', ~ In (c, s') tbl) /\ lookup_simple tbl c = c).
Proof.
  intros Hs. unfold lookup_simple. destruct (find_entry fst tbl c) as [[k s]|] eqn:E.
  - left. apply find_entry_exact in E; [|exact Hs]. destruct E as [E1 E2]. cbn [fst snd] in *. subst. exact E1.
  - right. split; [|reflexivity]. intros s' Hin. rewrite (find_entry_none fst tbl c Hs) in E. apply (E (c, s') Hin). reflexivity.
Qed.
Lemma simple_of_eq tb k c : simple_of tb k c = if match k with Upper | Title => (0x61 <=? c) && (c <=? 0x7A) | _ => (0x41 <=? c) && (c <=? 0x5A) end
  then ascii_swap k c else lookup_simple (simple_table tb k) c.
Proof. destruct k; reflexivity. Qed.

Section Tables.
Variable tb : case_tables.
Hypothesis OK : tables_ok tb.

Lemma simple_of_spec k c : simple_map tb k c (simple_of tb k c).
Proof.
  rewrite simple_of_eq. unfold simple_map.
  destruct (match k with Upper | Title => (0x61 <=? c) && (c <=? 0x7A) | _ => (0x41 <=? c) && (c <=? 0x5A) end) eqn:E.
  - left. split; [|reflexivity]. clear OK. destruct k; cbn [ascii_changes]; lia.
  - right. assert (Ha : ~ ascii_changes k c) by (clear OK; destruct k; cbn [ascii_changes]; lia).
    destruct (OK k) as (Hs & _). destruct (lookup_simple_spec _ c Hs) as [H|[H1 H2]]; auto.
Qed.
Lemma simple_map_fun k c s : simple_map tb k c s -> s = simple_of tb k c.
Proof.
  intros H. pose proof (simple_of_spec k c) as G. destruct H as [[H1 H2]|[[H1 H2]|[H1 [H2 H3]]]], G as [[G1 G2]|[[G1 G2]|[G1 [G2 G3]]]];
    try tauto; try congruence.
  - destruct (OK k) as (Hs & _).
    pose proof (proj2 (find_entry_exact fst _ c (c, s) Hs) (conj H2 eq_refl)) as A.
    pose proof (proj2 (find_entry_exact fst _ c _ Hs) (conj G2 eq_refl)) as B. congruence.
  - exfalso. apply (G2 _ H2).
  - exfalso. apply (H2 _ G2).
Qed.

Lemma lookup_full_spec k c :
  (exists m, lookup_full (full_table tb k) c = Ok m /\ In (c, m) (full_table tb k) /\ m <> []) \/
  (lookup_full (full_table tb k) c = Ok [] /\ forall m, ~ In (c, m) (full_table tb k)).
Proof.
  destruct (OK k) as (_ & Hs & Hl). unfold lookup_full. destruct (find_entry fst (full_table tb k) c) as [[c' m]|] eqn:E.
  - left. apply find_entry_exact in E; [|exact Hs]. destruct E as [E1 E2]. cbn [fst snd] in *. subst c'. exists m.
    specialize (Hl _ _ E1). replace (3 <? length m)%nat with false by lia. repeat split; auto. intros ->. cbn in Hl. lia.
  - right. split; [reflexivity|]. intros m Hin. rewrite (find_entry_none fst _ c Hs) in E. apply (E _ Hin). reflexivity.
Qed.
Lemma full_entry_fun k c m m' : In (c, m) (full_table tb k) -> In (c, m') (full_table tb k) -> m = m'.
Proof.
  intros H1 H2. destruct (OK k) as (_ & Hs & _).
  pose proof (proj2 (find_entry_exact fst _ c _ Hs) (conj H1 eq_refl)) as A.
  pose proof (proj2 (find_entry_exact fst _ c _ Hs) (conj H2 eq_refl)) as B. congruence.
Qed.

(** The mapping written for one code point *)
Lemma full_of_spec k c : exists m, full_of tb k c = Ok m /\ char_map tb k c (emit c m) /\ (m = [] <-> full_of tb k c = Ok []).
Proof.
  rewrite full_of_gen. unfold full_gen. destruct (lookup_full_spec k c) as [(m & E & Hin & Hne)|[E Hno]]; rewrite E; cbn [bindR].
  - destruct m as [|x m]; [congruence|]. exists (x :: m). split; [reflexivity|]. split; [left; exact Hin|]. split; intros A; discriminate.
  - destruct (N.eqb_spec (simple_of tb k c) c) as [Es|Es]; cbn [negb].
    + exists []. split; [reflexivity|]. split; [|tauto]. right. split; [exact Hno|]. exists c. split; [|reflexivity].
      rewrite <- Es at 2. apply simple_of_spec.
    + exists [simple_of tb k c]. split; [reflexivity|]. split; [|split; discriminate]. right. split; [exact Hno|].
      exists (simple_of tb k c). split; [apply simple_of_spec|reflexivity].
Qed.
Lemma char_map_fun k c r r' : char_map tb k c r -> char_map tb k c r' -> r = r'.
Proof.
  intros [H|[H (s & Hs & ->)]] [G|[G (s' & Hs' & ->)]].
  - apply (full_entry_fun k c); assumption.
  - exfalso. apply (G _ H).
  - exfalso. apply (H _ G).
  - rewrite (simple_map_fun k c s Hs), (simple_map_fun k c s' Hs'). reflexivity.
Qed.
Lemma char_map_len k c r : char_map tb k c r -> (1 <= length r <= 3)%nat.
Proof.
  intros [H|[_ (s & _ & ->)]]; [|cbn; lia]. destruct (OK k) as (_ & _ & Hl). apply (Hl _ _ H).
Qed.

(** Text: concatenation of the character mappings *)
Lemma map_text_spec k t : exists rs, map_text (full_of tb k) t = Ok (concat rs) /\ Forall2 (char_map tb k) t rs.
Proof.
  induction t as [|c t IH]; [exists []; split; [reflexivity|constructor]|]. destruct IH as (rs & E & H).
  destruct (full_of_spec k c) as (m & Em & Hm & _). exists (emit c m :: rs). cbn [map_text]. rewrite Em. cbn [bindR]. rewrite E. cbn [bindR concat].
  split; [reflexivity|]. constructor; assumption.
Qed.
Lemma convert_of_spec k t : exists rs, convert_of tb k t = Ok (concat rs) /\ Forall2 (char_map tb k) t rs.
Proof. destruct (map_text_spec k t) as (rs & E & H). exists rs. split; [|exact H]. destruct k; exact E. Qed.
Lemma char_maps_fun k t rs rs' : Forall2 (char_map tb k) t rs -> Forall2 (char_map tb k) t rs' -> rs = rs'.
Proof.
  intros H. revert rs'. induction H as [|c r t rs Hc Ht IH]; intros rs' G; inversion G as [|? ? ? ? Gc Gt]; subst; [reflexivity|].
  f_equal; [apply (char_map_fun k c); assumption|apply IH; assumption].
Qed.

(** Title case *)
Lemma is_cased_spec gc c : is_cased gc c = cased_letter gc c.
Proof using. unfold is_cased, cased_letter. destruct (gc c); reflexivity. Qed.
Lemma title_false_spec gc w : exists ls, title_word tb gc false w = Ok (concat ls) /\ Forall2 (rest_map tb (cased_letter gc)) w ls.
Proof.
  induction w as [|c w IH]; [exists []; split; [reflexivity|constructor]|]. destruct IH as (ls & E & H).
  cbn [title_word andb negb]. rewrite is_cased_spec. destruct (cased_letter gc c) eqn:Ec.
  - destruct (full_of_spec Lower c) as (m & Em & Hm & _). cbn [full_of] in Em. rewrite Em. cbn [bindR]. rewrite E. cbn [bindR].
    exists (emit c m :: ls). split; [reflexivity|]. constructor; [|exact H]. unfold rest_map. rewrite Ec. exact Hm.
  - rewrite E. cbn [bindR]. exists ([c] :: ls). split; [reflexivity|]. constructor; [|exact H]. unfold rest_map. rewrite Ec. reflexivity.
Qed.
Lemma title_word_spec gc w : exists r, title_word tb gc true w = Ok r /\ titled tb (cased_letter gc) w r.
Proof.
  induction w as [|c w IH]; [exists []; split; [reflexivity|left; auto]|]. destruct IH as (r & E & H).
  cbn [title_word andb negb]. rewrite is_cased_spec. destruct (cased_letter gc c) eqn:Ec.
  - destruct (full_of_spec Title c) as (m & Em & Hm & _). cbn [full_of] in Em. rewrite Em. cbn [bindR].
    destruct (title_false_spec gc w) as (ls & El & Hl). rewrite El. cbn [bindR]. eexists. split; [reflexivity|].
    right. exists [], c, w, (emit c m), ls. repeat split; auto.
  - rewrite E. cbn [bindR]. exists (c :: r). split; [reflexivity|]. destruct H as [[H ->]|(pre & x & post & t & ls & -> & Hp & Hx & Ht & Hl & ->)].
    + left. split; [constructor; assumption|reflexivity].
    + right. exists (c :: pre), x, post, t, ls. repeat split; auto.
Qed.
Lemma titled_fun gc w r r' : titled tb gc w r -> titled tb gc w r' -> r = r'.
Proof.
  assert (Rf : forall post ls ls', Forall2 (rest_map tb gc) post ls -> Forall2 (rest_map tb gc) post ls' -> ls = ls').
  { intros post ls ls' H. revert ls'. induction H as [|c l post ls Hc Hp IH]; intros ls' G; inversion G as [|? ? ? ? Gc Gp]; subst; [reflexivity|].
    f_equal; [|apply IH, Gp]. unfold rest_map in *. destruct (gc c); [apply (char_map_fun Lower c); assumption|congruence]. }
  assert (Sp : forall pre pre' c c' post post', pre ++ c :: post = pre' ++ c' :: post' -> Forall (fun x => gc x = false) pre ->
     Forall (fun x => gc x = false) pre' -> gc c = true -> gc c' = true -> pre = pre' /\ c = c' /\ post = post').
  { clear. intros pre. induction pre as [|x pre IH]; intros [|y pre'] c c' post post' E H H' Hc Hc'; cbn [app] in E; injection E as -> E.
    - subst. auto.
    - inversion H'; congruence.
    - inversion H; congruence.
    - inversion H; inversion H'; subst. destruct (IH pre' c c' post post' E) as (-> & -> & ->); auto. }
  intros [[H ->]|(pre & c & post & t & ls & -> & Hp & Hc & Ht & Hl & ->)] [[G ->]|(pre' & c' & post' & t' & ls' & E & Hp' & Hc' & Ht' & Hl' & ->)].
  - reflexivity.
  - subst. exfalso. rewrite Forall_forall in H. rewrite (H c') in Hc' by (apply in_or_app; right; left; reflexivity). discriminate.
  - exfalso. rewrite Forall_forall in G. rewrite (G c) in Hc by (apply in_or_app; right; left; reflexivity). discriminate.
  - destruct (Sp _ _ _ _ _ _ E Hp Hp' Hc Hc') as (-> & -> & ->). rewrite (char_map_fun Title c' t t' Ht Ht'), (Rf _ _ _ Hl Hl'). reflexivity.
Qed.
Lemma title_loop_spec u gc : forall fuel seg ws, wseg_collect u fuel seg = Ok ws ->
  exists rs, title_loop tb u gc (S fuel) seg = Ok (concat rs) /\ Forall2 (titled tb (cased_letter gc)) ws rs.
Proof.
  induction fuel as [|f IH]; intros seg ws H; cbn [wseg_collect] in H; destruct (wseg_available seg) eqn:Ea; try discriminate.
  - injection H as <-. destruct (title_word_spec gc (wseg_value seg)) as (r & E & Hr).
    cbn [title_loop]. rewrite Ea. cbn [negb]. exists [r]. split; [|constructor; [exact Hr|constructor]]. cbn [concat]. rewrite app_nil_r.
    destruct (wseg_value seg) as [|x w] eqn:Ew; [cbn [title_word] in E; injection E as <-; reflexivity|]. rewrite E. reflexivity.
  - destruct (wseg_collect u f (wseg_next u seg)) as [l| |] eqn:El; try discriminate. cbn [bindR] in H. injection H as <-.
    destruct (IH _ _ El) as (rs & E & Hrs). destruct (title_word_spec gc (wseg_value seg)) as (r & Er & Hr).
    exists (r :: rs). split; [|constructor; assumption]. change (title_loop tb u gc (S (S f)) seg) with
      (if match wseg_value seg with [] => negb (wseg_available seg) | _ => false end then Ok []
       else do w <- title_word tb gc true (wseg_value seg) ;
         if negb (wseg_available seg) then Ok w else do rest <- title_loop tb u gc (S f) (wseg_next u seg) ; Ok (w ++ rest)).
    rewrite Ea, Er. cbn [negb bindR]. rewrite E. cbn [bindR concat]. destruct (wseg_value seg); reflexivity.
  - injection H as <-. destruct (title_word_spec gc (wseg_value seg)) as (r & E & Hr).
    change (title_loop tb u gc (S (S f)) seg) with
      (if match wseg_value seg with [] => negb (wseg_available seg) | _ => false end then Ok []
       else do w <- title_word tb gc true (wseg_value seg) ;
         if negb (wseg_available seg) then Ok w else do rest <- title_loop tb u gc (S f) (wseg_next u seg) ; Ok (w ++ rest)).
    rewrite Ea. cbn [negb]. exists [r]. split; [|constructor; [exact Hr|constructor]]. cbn [concat]. rewrite app_nil_r.
    destruct (wseg_value seg) as [|x w] eqn:Ew; [cbn [title_word] in E; injection E as <-; reflexivity|]. rewrite E. reflexivity.
Qed.
Lemma to_titlecase_spec u gc text ws : word_segments u text = Ok ws ->
  exists rs, to_titlecase tb u gc text = Ok (concat rs) /\ Forall2 (titled tb (cased_letter gc)) ws rs.
Proof. apply title_loop_spec. Qed.

(** Scalars stay scalars *)
Hypothesis SC : case_scalars tb.
Lemma char_map_scalar k c r : scalar c -> char_map tb k c r -> scalars r.
Proof.
  destruct (SC k) as [S1 S2]. intros Hc [H|[_ (s & Hs & ->)]]; [apply (S2 _ _ H)|]. constructor; [|constructor].
  destruct Hs as [[Ha ->]|[[_ H]|[_ [_ ->]]]]; [|apply (S1 _ _ H)|exact Hc].
  clear -Ha. unfold scalar. destruct k; cbn [ascii_changes ascii_swap] in *; lia.
Qed.
Lemma char_maps_scalar k t rs : scalars t -> Forall2 (char_map tb k) t rs -> scalars (concat rs).
Proof.
  intros Ht H. induction H as [|c r t rs Hc Hr IH]; [constructor|]. inversion Ht; subst. cbn [concat]. apply Forall_app.
  split; [apply (char_map_scalar k c); assumption|apply IH; assumption].
Qed.
Lemma titled_scalar gc w r : scalars w -> titled tb gc w r -> scalars r.
Proof.
  intros Hw [[_ ->]|(pre & c & post & t & ls & -> & _ & _ & Ht & Hl & ->)]; [exact Hw|].
  apply Forall_app in Hw. destruct Hw as [Hp Hw]. inversion Hw as [|? ? Hc Hpost]; subst. apply Forall_app. split; [exact Hp|].
  apply Forall_app. split; [apply (char_map_scalar Title c); assumption|].
  clear -SC OK Hpost Hl. induction Hl as [|x l post ls Hx Hl IH]; [constructor|]. inversion Hpost; subst. cbn [concat]. apply Forall_app.
  split; [|apply IH; assumption]. unfold rest_map in Hx. destruct (gc x); [apply (char_map_scalar Lower x); assumption|].
  subst. constructor; [assumption|constructor].
Qed.
End Tables.

(** ** std::string::compare *)
Lemma string_compare_cons x a y b : string_compare (x :: a) (y :: b) =
  if x <? y then (-1)%Z else if y <? x then 1%Z else string_compare a b.
Proof.
  unfold string_compare. cbn [length Nat.min traits_compare]. destruct (x <? y); [reflexivity|]. destruct (y <? x); [reflexivity|].
  destruct (traits_compare _ a b =? 0)%Z; [|reflexivity]. lia.
Qed.
Lemma string_compare_lex a : forall b, (string_compare a b ?= 0)%Z = lex a b.
Proof.
  induction a as [|x a IH]; intros [|y b].
  - reflexivity.
  - unfold string_compare. cbn [length Nat.min traits_compare lex]. apply Z.compare_lt_iff. cbn [Z.eqb]. lia.
  - unfold string_compare. cbn [length Nat.min traits_compare lex]. apply Z.compare_gt_iff. cbn [Z.eqb]. lia.
  - rewrite string_compare_cons. cbn [lex]. destruct (N.compare_spec x y) as [->|H|H].
    + rewrite N.ltb_irrefl. apply IH.
    + replace (x <? y) with true by lia. reflexivity.
    + replace (x <? y) with false by lia. replace (y <? x) with true by lia. reflexivity.
Qed.
Lemma lex_eq a : forall b, lex a b = Eq <-> a = b.
Proof.
  induction a as [|x a IH]; intros [|y b]; cbn [lex]; try (split; congruence).
  destruct (N.compare_spec x y) as [->|H|H]; [rewrite IH; split; congruence|split; [discriminate|intros [= -> ->]; lia]..].
Qed.
Lemma lex_trans_le a : forall b c, lex a b <> Gt -> lex b c <> Gt -> lex a c <> Gt.
Proof.
  induction a as [|x a IH]; intros [|y b] [|z c]; cbn [lex]; try congruence.
  destruct (N.compare_spec x y), (N.compare_spec y z), (N.compare_spec x z); subst; intros; try congruence; try lia. eapply IH; eassumption.
Qed.
