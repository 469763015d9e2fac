(** Property theorems C46, C47 (case half), C48, C49, C50, C67. *)
From Coq Require Import ZArith.
From Verif Require Import Base Spec_Utf M_Utf8 M_Convert P_Utf8 P_Convert M_Ucd M_Word P_Word Ucd_Demo T_Word M_Tables Spec_Tables P_Tables
  M_Case Spec_Case P_NormUtf8 P_Case Norm_Demo.
Open Scope N_scope.

(** A few entries of the UCD *)
Definition cdemo : case_tables := {|
  s_upper := [(0xB5, 0x39C); (0xE9, 0xC9); (0x1C6, 0x1C4); (0x24D0, 0x24B6)];
  s_lower := [(0xC9, 0xE9); (0x1C4, 0x1C6); (0x1C5, 0x1C6); (0x24B6, 0x24D0)];
  s_title := [(0xB5, 0x39C); (0xE9, 0xC9); (0x1C4, 0x1C5); (0x1C5, 0x1C5); (0x1C6, 0x1C5); (0x24D0, 0x24B6)];
  s_fold := [(0xB5, 0x3BC); (0xC9, 0xE9); (0x1C4, 0x1C6); (0x1C5, 0x1C6); (0x24B6, 0x24D0)];
  f_upper := [(0xDF, [0x53; 0x53]); (0xFB03, [0x46; 0x46; 0x49])];
  f_lower := [(0x130, [0x69; 0x307])];
  f_title := [(0xDF, [0x53; 0x73]); (0xFB03, [0x46; 0x66; 0x69])];
  f_fold := [(0xDF, [0x73; 0x73]); (0x130, [0x69; 0x307]); (0xFB03, [0x66; 0x66; 0x69])] |}.
Lemma cdemo_ok : tables_ok cdemo.
Proof.
  assert (S : forall A (l : list (N * A)), sortedb (fun a b => fst a <? fst b) l = true -> strictly_sorted fst l).
  { intros A l H. refine (sortedb_ok _ _ l _ _ H); cbn beta; intros; lia. }
  intros k. split; [|split].
  - apply S. destruct k; reflexivity.
  - apply S. destruct k; reflexivity.
  - intros c m. destruct k; cbn; intros H; repeat (destruct H as [H|H]; [injection H as <- <-; cbn; lia|]); destruct H.
Qed.
Lemma cdemo_scalars : case_scalars cdemo.
Proof.
  intros k. split; intros c m; destruct k; cbn; intros H; unfold scalars, scalar;
    repeat (destruct H as [H|H]; [injection H as <- <-; (lia || (repeat (constructor; [lia|]); constructor))|]); destruct H.
Qed.
Lemma cdemo_no_identities : no_identities cdemo.
Proof.
  intros k c H; destruct k; cbn in H; repeat (destruct H as [H|H]; [congruence|]); destruct H.
Qed.

(** * C46 *)
(** Every conversion acts character by character: each code point yields its full mapping if the table has one, else its simple
    mapping, else itself, and the results are concatenated in order. *)
Theorem C46_characterwise : forall tb, tables_ok tb -> forall k t r,
  convert_of tb k t = Ok r <-> exists rs, Forall2 (char_map tb k) t rs /\ r = concat rs.
Proof.
  intros tb OK k t r. destruct (convert_of_spec tb OK k t) as (rs & E & H). rewrite E. split.
  - intros [= <-]. eauto.
  - intros (rs' & H' & ->). rewrite (char_maps_fun tb OK k t rs rs' H H'). reflexivity.
Qed.
Print Assumptions C46_characterwise.
Theorem C46_char_unique : forall tb, tables_ok tb -> forall k c, exists! r, char_map tb k c r.
Proof.
  intros tb OK k c. destruct (full_of_spec tb OK k c) as (m & _ & H & _). exists (emit c m). split; [exact H|].
  intros r Hr. apply (char_map_fun tb OK k c); assumption.
Qed.
Theorem C46_concatenation : forall tb, tables_ok tb -> forall k a b, exists x y,
  convert_of tb k a = Ok x /\ convert_of tb k b = Ok y /\ convert_of tb k (a ++ b) = Ok (x ++ y).
Proof.
  intros tb OK k a b. destruct (convert_of_spec tb OK k a) as (ra & Ea & Ha). destruct (convert_of_spec tb OK k b) as (rb & Eb & Hb).
  exists (concat ra), (concat rb). split; [exact Ea|]. split; [exact Eb|]. apply (C46_characterwise tb OK). exists (ra ++ rb).
  split; [apply Forall2_app; assumption|symmetry; apply concat_app].
Qed.
Print Assumptions C46_concatenation.
(** Never shorter, never more than three times as long. *)
Theorem C46_length : forall tb, tables_ok tb -> forall k t r, convert_of tb k t = Ok r ->
  (length t <= length r <= 3 * length t)%nat.
Proof.
  intros tb OK k t r H. apply (C46_characterwise tb OK) in H. destruct H as (rs & H & ->).
  induction H as [|c x t rs Hc Ht IH]; [cbn; lia|]. cbn [concat length]. rewrite app_length.
  pose proof (char_map_len tb OK k c x Hc). lia.
Qed.
Print Assumptions C46_length.
(** ASCII letters map to ASCII letters, whatever the simple tables say about them. *)
Theorem C46_ascii : forall tb, tables_ok tb -> forall k t, Forall (fun c => c < 0x80 /\ forall m, ~ In (c, m) (full_table tb k)) t ->
  Forall (fun c => ascii_changes k c \/ forall s, ~ In (c, s) (simple_table tb k)) t ->
  convert_of tb k t = Ok (map (fun c => if match k with Upper | Title => (0x61 <=? c) && (c <=? 0x7A) | _ => (0x41 <=? c) && (c <=? 0x5A) end
                                       then ascii_swap k c else c) t).
Proof.
  intros tb OK k t H G. apply (C46_characterwise tb OK).
  exists (map (fun c => [if match k with Upper | Title => (0x61 <=? c) && (c <=? 0x7A) | _ => (0x41 <=? c) && (c <=? 0x5A) end
                         then ascii_swap k c else c]) t).
  split.
  - induction t as [|c t IH]; [constructor|]. inversion H as [|? ? [H1 H2] H3]; subst. inversion G as [|? ? G1 G2]; subst. cbn [map].
    constructor; [|apply IH; assumption]. right. split; [exact H2|]. eexists. split; [|reflexivity].
    destruct (match k with Upper | Title => (0x61 <=? c) && (c <=? 0x7A) | _ => (0x41 <=? c) && (c <=? 0x5A) end) eqn:E.
    + left. split; [|reflexivity]. clear -E. destruct k; cbn [ascii_changes]; lia.
    + right. right. assert (Hn : ~ ascii_changes k c) by (clear -E; destruct k; cbn [ascii_changes]; lia). tauto.
  - clear. induction t as [|c t IH]; [reflexivity|]. cbn [map concat app]. f_equal. exact IH.
Qed.
Print Assumptions C46_ascii.
(** simple_*: one code point, the table's if there is one *)
Theorem C46_simple : forall tb, tables_ok tb -> forall k c s, simple_of tb k c = s <-> simple_map tb k c s.
Proof.
  intros tb OK k c s. split; [intros <-; apply simple_of_spec, OK|]. intros H. symmetry. apply simple_map_fun; assumption.
Qed.
Example C46_demo : tables_ok cdemo /\ to_uppercase cdemo [0x53; 0x74; 0x72; 0x61; 0xDF; 0x65] = Ok [0x53; 0x54; 0x52; 0x41; 0x53; 0x53; 0x45]
  /\ casefold cdemo [0xDF; 0xB5; 0x41] = Ok [0x73; 0x73; 0x3BC; 0x61] /\ to_lowercase cdemo [0x130; 0x1C5] = Ok [0x69; 0x307; 0x1C6].
Proof. split; [exact cdemo_ok|vm_compute; auto]. Qed.

(** * C47, case half *)
Lemma via_spec i f t r : scalars t -> (forall t, scalars t -> exists r, f t = Ok r /\ scalars r) ->
  (via_utf32 i f (utf8_text t) = Ok r <-> exists r', f t = Ok r' /\ r = utf8_text r').
Proof.
  intros Ht Hf. unfold via_utf32. rewrite decode_text by exact Ht. cbn [bindR]. destruct (Hf t Ht) as (r' & E & Hr). rewrite E. cbn [bindR].
  rewrite encode_text by exact Hr. split; [intros [= <-]; eauto|intros (x & [= <-] & ->); reflexivity].
Qed.
Theorem C47_case : forall tb, tables_ok tb -> case_scalars tb -> forall i t r, scalars t ->
  (to_uppercase8 tb i (utf8_text t) = Ok r <-> exists r', to_uppercase tb t = Ok r' /\ r = utf8_text r') /\
  (to_lowercase8 tb i (utf8_text t) = Ok r <-> exists r', to_lowercase tb t = Ok r' /\ r = utf8_text r') /\
  (casefold8 tb i (utf8_text t) = Ok r <-> exists r', casefold tb t = Ok r' /\ r = utf8_text r').
Proof.
  intros tb OK SC i t r Ht.
  assert (G : forall k t, scalars t -> exists r, convert_of tb k t = Ok r /\ scalars r).
  { intros k s Hs. destruct (convert_of_spec tb OK k s) as (rs & E & H). exists (concat rs). split; [exact E|].
    apply (char_maps_scalar tb SC k s); assumption. }
  split; [|split]; apply via_spec; try exact Ht; [apply (G Upper)|apply (G Lower)|apply (G Fold)].
Qed.
Theorem C47_titlecase : forall tb, tables_ok tb -> case_scalars tb -> forall u gc i t r, scalars t ->
  (to_titlecase8 tb u gc i (utf8_text t) = Ok r <-> exists r', to_titlecase tb u gc t = Ok r' /\ r = utf8_text r').
Proof.
  intros tb OK SC u gc i t r Ht. apply via_spec; [exact Ht|]. clear t r Ht. intros t Ht.
  destruct (C22_words_partition u t) as (ws & Ew & Hw & He & _).
  destruct (to_titlecase_spec tb OK u gc t ws Ew) as (rs & E & H). exists (concat rs). split; [exact E|].
  assert (Hws : Forall scalars ws).
  { destruct t as [|c t]; [rewrite He by reflexivity; constructor; [constructor|constructor]|].
    destruct (Hw ltac:(discriminate)) as [Hc _]. rewrite Forall_forall. intros w Hin. unfold scalars in *. rewrite Forall_forall in *.
    intros x Hx. apply Ht. rewrite <- Hc. apply in_concat. eauto. }
  clear -OK SC H Hws. induction H as [|w r ws rs Hr Hrs IH]; [constructor|]. inversion Hws; subst. cbn [concat]. apply Forall_app.
  split; [|apply IH; assumption]. eapply titled_scalar; eassumption.
Qed.
Print Assumptions C47_case.
Print Assumptions C47_titlecase.
Example C47_case_demo : tables_ok cdemo /\ case_scalars cdemo /\ to_uppercase8 cdemo (X86 W128) [0x61; 0xC3; 0x9F] = Ok [0x41; 0x53; 0x53].
Proof. split; [exact cdemo_ok|]. split; [exact cdemo_scalars|]. vm_compute. reflexivity. Qed.

(** * C48 *)
Lemma compare_lex tb (OK : tables_ok tb) a b : exists x y z, casefold tb a = Ok x /\ casefold tb b = Ok y /\
  casefold_compare tb a b = Ok z /\ (z ?= 0)%Z = lex x y.
Proof.
  destruct (convert_of_spec tb OK Fold a) as (ra & Ea & _). destruct (convert_of_spec tb OK Fold b) as (rb & Eb & _). cbn [convert_of] in *.
  exists (concat ra), (concat rb), (string_compare (concat ra) (concat rb)). unfold casefold_compare. rewrite Ea, Eb. cbn [bindR].
  repeat split. apply string_compare_lex.
Qed.
(** The sign of casefold_compare is the code point order of the folded texts. *)
Theorem C48_sign : forall tb, tables_ok tb -> forall a b x y z, casefold tb a = Ok x -> casefold tb b = Ok y ->
  casefold_compare tb a b = Ok z -> (z ?= 0)%Z = lex x y.
Proof.
  intros tb OK a b x y z Hx Hy Hz. destruct (compare_lex tb OK a b) as (x' & y' & z' & E1 & E2 & E3 & H). congruence.
Qed.
Print Assumptions C48_sign.
Theorem C48_total : forall tb, tables_ok tb -> forall a b, exists z, casefold_compare tb a b = Ok z.
Proof. intros tb OK a b. destruct (compare_lex tb OK a b) as (x' & y' & z' & E1 & E2 & E3 & H). eauto. Qed.
Theorem C48_antisymmetric : forall tb, tables_ok tb -> forall a b z z', casefold_compare tb a b = Ok z -> casefold_compare tb b a = Ok z' ->
  Z.sgn z' = (- Z.sgn z)%Z.
Proof.
  intros tb OK a b z z' H H'. destruct (compare_lex tb OK a b) as (x & y & z0 & E1 & E2 & E3 & L).
  destruct (compare_lex tb OK b a) as (x' & y' & z1 & F1 & F2 & F3 & L').
  assert (z0 = z) by congruence. assert (z1 = z') by congruence. assert (x' = y) by congruence. assert (y' = x) by congruence. subst.
  rewrite lex_antisym in L'. clear -L L'. destruct (lex x y); cbn [CompOpp] in *; rewrite ?Z.compare_eq_iff, ?Z.compare_lt_iff, ?Z.compare_gt_iff in *; lia.
Qed.
Theorem C48_transitive : forall tb, tables_ok tb -> forall a b c x y z, casefold_compare tb a b = Ok x -> casefold_compare tb b c = Ok y ->
  casefold_compare tb a c = Ok z -> (x <= 0)%Z -> (y <= 0)%Z -> (z <= 0)%Z.
Proof.
  intros tb OK a b c x y z Hx Hy Hz Lx Ly. destruct (compare_lex tb OK a b) as (fa & fb & z0 & E1 & E2 & E3 & L1).
  destruct (compare_lex tb OK b c) as (fb' & fc & z1 & F1 & F2 & F3 & L2). destruct (compare_lex tb OK a c) as (fa' & fc' & z2 & G1 & G2 & G3 & L3).
  assert (fb' = fb) by congruence. assert (fa' = fa) by congruence. assert (fc' = fc) by congruence.
  assert (z0 = x) by congruence. assert (z1 = y) by congruence. assert (z2 = z) by congruence. subst.
  assert (T : lex fa fc <> Gt) by (apply (lex_trans_le fa fb fc); rewrite <- ?L1, <- ?L2, Z.compare_gt_iff; lia).
  rewrite <- L3, Z.compare_gt_iff in T. lia.
Qed.
Print Assumptions C48_antisymmetric.
Print Assumptions C48_transitive.
Theorem C48_equals : forall tb, tables_ok tb -> forall a b r, casefold_equals tb a b = Ok r ->
  (r = true <-> casefold tb a = casefold tb b) /\ (r = true <-> casefold_compare tb a b = Ok 0%Z).
Proof.
  intros tb OK a b r H. destruct (compare_lex tb OK a b) as (x & y & z & E1 & E2 & E3 & L). unfold casefold_equals in H. rewrite E3 in *. cbn [bindR] in H.
  injection H as <-. rewrite E1, E2, Z.eqb_eq. split.
  - rewrite <- Z.compare_eq_iff, L, lex_eq. split; congruence.
  - split; congruence.
Qed.
Theorem C48_equals_equivalence : forall tb, tables_ok tb ->
  (forall a, casefold_equals tb a a = Ok true) /\
  (forall a b, casefold_equals tb a b = Ok true -> casefold_equals tb b a = Ok true) /\
  (forall a b c, casefold_equals tb a b = Ok true -> casefold_equals tb b c = Ok true -> casefold_equals tb a c = Ok true).
Proof.
  intros tb OK.
  assert (T : forall a b, exists r, casefold_equals tb a b = Ok r).
  { intros a b. destruct (C48_total tb OK a b) as (z & E). unfold casefold_equals. rewrite E. cbn [bindR]. eauto. }
  assert (I : forall a b, casefold_equals tb a b = Ok true <-> casefold tb a = casefold tb b).
  { intros a b. destruct (T a b) as (r & E). destruct (C48_equals tb OK a b r E) as [H _]. rewrite E. split; [intros [= ->]; tauto|].
    intros G. f_equal. tauto. }
  split; [|split]; intros; rewrite ?I in *; congruence.
Qed.
Print Assumptions C48_equals.
Print Assumptions C48_equals_equivalence.
(** The UTF-8 overloads have the same sign on well-formed text. *)
Theorem C48_utf8_agrees : forall tb, tables_ok tb -> case_scalars tb -> forall i a b, scalars a -> scalars b ->
  exists z z8, casefold_compare tb a b = Ok z /\ casefold_compare8 tb i (utf8_text a) (utf8_text b) = Ok z8 /\ Z.sgn z = Z.sgn z8 /\
    casefold_equals8 tb i (utf8_text a) (utf8_text b) = casefold_equals tb a b.
Proof.
  intros tb OK SC i a b Ha Hb.
  destruct (convert_of_spec tb OK Fold a) as (ra & Ea & Fa). destruct (convert_of_spec tb OK Fold b) as (rb & Eb & Fb). cbn [convert_of] in *.
  pose proof (char_maps_scalar tb SC Fold a ra Ha Fa) as Sa. pose proof (char_maps_scalar tb SC Fold b rb Hb Fb) as Sb.
  assert (Ga : casefold8 tb i (utf8_text a) = Ok (utf8_text (concat ra))).
  { unfold casefold8, via_utf32. rewrite decode_text by exact Ha. cbn [bindR]. rewrite Ea. cbn [bindR]. apply encode_text, Sa. }
  assert (Gb : casefold8 tb i (utf8_text b) = Ok (utf8_text (concat rb))).
  { unfold casefold8, via_utf32. rewrite decode_text by exact Hb. cbn [bindR]. rewrite Eb. cbn [bindR]. apply encode_text, Sb. }
  exists (string_compare (concat ra) (concat rb)), (string_compare (utf8_text (concat ra)) (utf8_text (concat rb))).
  unfold casefold_equals8, casefold_equals, casefold_compare8, casefold_compare. rewrite Ea, Eb, Ga, Gb. cbn [bindR].
  pose proof (string_compare_lex (concat ra) (concat rb)) as L1.
  pose proof (string_compare_lex (utf8_text (concat ra)) (utf8_text (concat rb))) as L2. rewrite utf8_text_lex in L2 by assumption.
  rewrite <- L1 in L2. split; [reflexivity|]. split; [reflexivity|].
  set (p := string_compare (concat ra) (concat rb)) in *. set (q := string_compare (utf8_text (concat ra)) (utf8_text (concat rb))) in *. clearbody p q.
  split; [|f_equal]; destruct p, q; try discriminate; reflexivity.
Qed.
Print Assumptions C48_utf8_agrees.
Example C48_demo : tables_ok cdemo /\ case_scalars cdemo /\ casefold_compare cdemo [0x53; 0x54; 0xDF] [0x73; 0x74; 0x73; 0x53] = Ok 0%Z
  /\ casefold_compare cdemo [0xB5] [0x41; 0x42] = Ok 1%Z /\ casefold_compare8 cdemo NoSimd [0xC2; 0xB5] [0x41; 0x42] = Ok 1%Z.
Proof. split; [exact cdemo_ok|]. split; [exact cdemo_scalars|]. vm_compute. auto. Qed.

(** * C49 *)
(** The words are those of word_segmenter (C22: a partition of the text; C23: cut at the UAX #29 boundaries); in each word the first
    cased code point gets its title case mapping, later cased ones their lower case mapping, all others stay. *)
Theorem C49_titlecase : forall tb, tables_ok tb -> forall u gc text r,
  to_titlecase tb u gc text = Ok r <->
  exists ws rs, word_segments u text = Ok ws /\ Forall2 (titled tb (cased_letter gc)) ws rs /\ r = concat rs.
Proof.
  intros tb OK u gc text r. destruct (C22_words_partition u text) as (ws & Ew & _).
  destruct (to_titlecase_spec tb OK u gc text ws Ew) as (rs & E & H). rewrite E. split.
  - intros [= <-]. exists ws, rs. auto.
  - intros (ws' & rs' & Ew' & H' & ->). assert (ws' = ws) by congruence. subst ws'. do 2 f_equal.
    clear -OK H H'. revert rs' H'. induction H as [|w x ws rs Hw Hws IH]; intros rs' H'; inversion H' as [|? ? ? ? G1 G2]; subst; [reflexivity|].
    f_equal; [eapply titled_fun; eassumption|apply IH; assumption].
Qed.
Print Assumptions C49_titlecase.
Theorem C49_total : forall tb, tables_ok tb -> forall u gc text, exists! r, to_titlecase tb u gc text = Ok r.
Proof.
  intros tb OK u gc text. destruct (C22_words_partition u text) as (ws & Ew & _).
  destruct (to_titlecase_spec tb OK u gc text ws Ew) as (rs & E & H). exists (concat rs). split; [exact E|]. intros r Hr. congruence.
Qed.
(** A text without cased characters is returned unchanged. *)
Theorem C49_uncased_unchanged : forall tb, tables_ok tb -> forall u gc text, Forall (fun c => cased_letter gc c = false) text ->
  to_titlecase tb u gc text = Ok text.
Proof.
  intros tb OK u gc text H. destruct (C22_words_partition u text) as (ws & Ew & Hw & He & _). apply (C49_titlecase tb OK). exists ws, ws.
  split; [exact Ew|]. assert (Hc : concat ws = text).
  { destruct text as [|c t]; [rewrite He by reflexivity; reflexivity|]. apply Hw. discriminate. }
  split; [|symmetry; exact Hc].
  assert (G : forall w, In w ws -> titled tb (cased_letter gc) w w).
  { intros w Hin. left. split; [|reflexivity]. rewrite Forall_forall in *. intros x Hx. apply H. rewrite <- Hc. apply in_concat. eauto. }
  clear -G. induction ws as [|w ws IH]; constructor; [apply G; left; reflexivity|apply IH; intros; apply G; right; assumption].
Qed.
Print Assumptions C49_uncased_unchanged.
Definition gcdemo (c : N) : gencat :=
  if (0x61 <=? c) && (c <=? 0x7A) || (c =? 0xDF) || (c =? 0x1C6) then Ll else if (0x41 <=? c) && (c <=? 0x5A) then Lu else if c =? 0x1C5 then Lt else GCother.
Example C49_demo : to_titlecase cdemo demo gcdemo [0x2E; 0x68; 0x45; 0x20; 0x1C6; 0x20; 0x27; 0xDF; 0x41] =
  Ok [0x2E; 0x48; 0x65; 0x20; 0x1C5; 0x20; 0x27; 0x53; 0x73; 0x41].
Proof. vm_compute. reflexivity. Qed.

(** * C50 *)
Definition text_case (tb : case_tables) (u : ucd) (gc : N -> gencat) (k : ckind) : list N -> Res (list N) :=
  match k with Upper => to_uppercase tb | Lower => to_lowercase tb | Title => to_titlecase tb u gc | Fold => casefold tb end.
Definition C50_statement : Prop := forall tb, tables_ok tb -> no_identities tb -> forall u gc k c b, changes_when tb k c = Ok b ->
  (b = true <-> text_case tb u gc k [c] <> Ok [c]).
(** False for title case: to_titlecase only touches Lu, Ll and Lt, so U+24D0 (circled a, So) does not change although
    changes_when_titlecased says so. *)
Theorem C50_titlecase_refuted : ~ C50_statement.
Proof.
  intros H. specialize (H cdemo cdemo_ok cdemo_no_identities demo gcdemo Title 0x24D0 true eq_refl). destruct H as [H _].
  apply (H eq_refl). vm_compute. reflexivity.
Qed.
Print Assumptions C50_titlecase_refuted.
Lemma changes_spec tb (OK : tables_ok tb) (NI : no_identities tb) k c : exists b r, changes_when tb k c = Ok b /\ char_map tb k c r /\ (b = true <-> r <> [c]).
Proof.
  assert (E : changes_when tb k c = if negb (simple_of tb k c =? c) then Ok true
                                    else do m <- full_of tb k c ; Ok (match m with [] => false | _ => true end)) by (destruct k; reflexivity).
  rewrite E. clear E. pose proof (NI k c) as N2. pose proof (simple_of_spec tb OK k c) as Hs.
  destruct (full_of_spec tb OK k c) as (m & Em & Hm & _).
  destruct (N.eqb_spec (simple_of tb k c) c) as [Es|Es]; cbn [negb].
  - rewrite Em. cbn [bindR]. eexists _, (emit c m). split; [reflexivity|]. split; [exact Hm|]. destruct m as [|x m]; cbn [emit].
    + split; [discriminate|congruence].
    + split; [|reflexivity]. intros _ E. cbn [emit] in Hm. rewrite E in Hm. destruct Hm as [Hm|[_ (s & Hs' & [= <-])]]; [tauto|].
      rewrite full_of_gen in Em. unfold full_gen in Em. destruct (lookup_full_spec tb OK k c) as [(m' & El & Hin & Hne)|[El Hno]]; rewrite El in Em; cbn [bindR] in Em.
      * destruct m'; [congruence|]. injection Em as -> ->. rewrite E in Hin. tauto.
      * rewrite Es, N.eqb_refl in Em. discriminate.
  - exists true, (emit c m). split; [reflexivity|]. split; [exact Hm|]. split; [|reflexivity]. intros _ E. rewrite E in Hm.
    destruct Hm as [Hm|[_ (s & Hs' & [= <-])]]; [tauto|]. apply Es. symmetry. apply (simple_map_fun tb OK k c c Hs').
Qed.
Theorem C50_upper_lower_fold_partial : forall tb, tables_ok tb -> no_identities tb -> forall u gc k c b, k <> Title -> changes_when tb k c = Ok b ->
  (b = true <-> text_case tb u gc k [c] <> Ok [c]).
Proof.
  intros tb OK NI u gc k c b Hk H. destruct (changes_spec tb OK NI k c) as (b' & r & E & Hr & Hb). assert (b' = b) by congruence. subst b'. rewrite Hb.
  assert (Ht : text_case tb u gc k [c] = Ok r).
  { assert (G : convert_of tb k [c] = Ok r).
    { apply (C46_characterwise tb OK). exists [r]. split; [constructor; [exact Hr|constructor]|cbn; rewrite app_nil_r; reflexivity]. }
    destruct k; [exact G|exact G|congruence|exact G]. }
  rewrite Ht. split; congruence.
Qed.
Print Assumptions C50_upper_lower_fold_partial.
(** For title case it holds of every cased code point. *)
Theorem C50_title_cased_partial : forall tb, tables_ok tb -> no_identities tb -> forall u gc c b, cased_letter gc c = true ->
  changes_when tb Title c = Ok b -> (b = true <-> text_case tb u gc Title [c] <> Ok [c]).
Proof.
  intros tb OK NI u gc c b Hc H. destruct (changes_spec tb OK NI Title c) as (b' & r & E & Hr & Hb). assert (b' = b) by congruence. subst b'. rewrite Hb.
  assert (Ht : text_case tb u gc Title [c] = Ok r).
  { cbn [text_case]. apply (C49_titlecase tb OK). destruct (C22_words_partition u [c]) as (ws & Ew & Hw & _ & Hl).
    destruct (Hw ltac:(discriminate)) as [Hcat Hne]. exists ws, [r]. split; [exact Ew|]. split; [|cbn; rewrite app_nil_r; reflexivity].
    destruct ws as [|w [|w' ws]].
    - discriminate.
    - cbn [concat] in Hcat. rewrite app_nil_r in Hcat. subst w. constructor; [|constructor].
      right. exists [], c, [], r, []. repeat split; auto. cbn. rewrite app_nil_r. reflexivity.
    - cbn [length] in Hl. lia. }
  rewrite Ht. split; congruence.
Qed.
Print Assumptions C50_title_cased_partial.
(** And exactly: to_titlecase changes a code point on its own if and only if changes_when_titlecased says so and its general category
    is Lu, Ll or Lt. *)
Theorem C50_title_exact_partial : forall tb, tables_ok tb -> no_identities tb -> forall u gc c b,
  changes_when tb Title c = Ok b -> (text_case tb u gc Title [c] <> Ok [c] <-> b = true /\ (gc c = Lu \/ gc c = Ll \/ gc c = Lt)).
Proof.
  intros tb OK NI u gc c b H. assert (Hg : cased_letter gc c = true <-> (gc c = Lu \/ gc c = Ll \/ gc c = Lt)).
  { unfold cased_letter. destruct (gc c); split; intros G; try reflexivity; try discriminate G; try tauto; decompose [or] G; discriminate. }
  rewrite <- Hg. destruct (cased_letter gc c) eqn:E.
  - rewrite <- (C50_title_cased_partial tb OK NI u gc c b E H). tauto.
  - cbn [text_case]. rewrite (C49_uncased_unchanged tb OK u gc [c]) by (constructor; [exact E|constructor]). split; [congruence|]. intros (_ & F). discriminate F.
Qed.
Print Assumptions C50_title_exact_partial.
Example C50_demo : changes_when cdemo Title 0x24D0 = Ok true /\ to_titlecase cdemo demo gcdemo [0x24D0] = Ok [0x24D0] /\
  changes_when cdemo Upper 0xDF = Ok true /\ changes_when cdemo Fold 0x73 = Ok false /\ changes_when cdemo Title 0x1C6 = Ok true /\ changes_when cdemo Title 0x1C5 = Ok false.
Proof. vm_compute. auto 10. Qed.

(** * C67 *)
Theorem C67_idempotent : forall tb, tables_ok tb -> forall k, closed tb k -> forall t r, convert_of tb k t = Ok r -> convert_of tb k r = Ok r.
Proof.
  intros tb OK k Hcl t r H. apply (C46_characterwise tb OK) in H. destruct H as (rs & H & ->). apply (C46_characterwise tb OK).
  exists (map (fun x => [x]) (concat rs)). split.
  - assert (G : forall x, In x (concat rs) -> char_map tb k x [x]).
    { induction H as [|c y t rs Hc Ht IH]; [intros x []|]. intros x Hx. cbn [concat] in Hx. apply in_app_or in Hx. destruct Hx as [Hx|Hx]; [apply (Hcl c y x Hc Hx)|apply IH, Hx]. }
    clear -G. induction (concat rs) as [|x l IH]; constructor; [apply G; left; reflexivity|apply IH; intros; apply G; right; assumption].
  - clear. induction (concat rs) as [|x l IH]; [reflexivity|]. cbn [map concat app]. f_equal. exact IH.
Qed.
Print Assumptions C67_idempotent.
(** Hence the folded forms are canonical representatives of casefold_equals. *)
Theorem C67_casefold_representative : forall tb, tables_ok tb -> closed tb Fold -> forall t r, casefold tb t = Ok r -> casefold_equals tb t r = Ok true.
Proof.
  intros tb OK Hcl t r H. pose proof (C67_idempotent tb OK Fold Hcl t r H) as G. cbn [convert_of] in G.
  unfold casefold_equals, casefold_compare. rewrite H, G. cbn [bindR]. f_equal. apply Z.eqb_eq, Z.compare_eq_iff.
  rewrite string_compare_lex. apply lex_eq. reflexivity.
Qed.
Print Assumptions C67_casefold_representative.
Example C67_demo : tables_ok cdemo /\ casefold cdemo [0xDF; 0x130] = Ok [0x73; 0x73; 0x69; 0x307] /\ casefold cdemo [0x73; 0x73; 0x69; 0x307] = Ok [0x73; 0x73; 0x69; 0x307].
Proof. split; [exact cdemo_ok|vm_compute; auto]. Qed.
Example C67_demo_closed : closed cdemo Fold.
Proof.
  assert (F : forall x, (forall m, ~ In (x, m) (f_fold cdemo)) -> (forall s, ~ In (x, s) (s_fold cdemo)) -> ~ ascii_changes Fold x -> char_map cdemo Fold x [x]).
  { intros x H1 H2 H3. right. split; [exact H1|]. exists x. split; [|reflexivity]. right. right. auto. }
  assert (G : forall x, existsb (N.eqb x) (map fst (f_fold cdemo) ++ map fst (s_fold cdemo)) = false -> (x < 0x41 \/ 0x5A < x) -> char_map cdemo Fold x [x]).
  { intros x H Hx. rewrite <- Bool.not_true_iff_false, <- existsb_in in H. apply F.
    - intros m Hm. apply H, in_or_app. left. apply in_map_iff. exists (x, m). auto.
    - intros s Hm. apply H, in_or_app. right. apply in_map_iff. exists (x, s). auto.
    - cbn [ascii_changes]. lia. }
  intros c r x [H|[H1 (s & [[Ha ->]|[[Ha Hs]|[Ha [Hs ->]]]] & ->)]] Hx.
  - cbn in H. repeat (destruct H as [H|H]; [injection H as <- <-; cbn in Hx; repeat (destruct Hx as [<-|Hx]; [apply G; [reflexivity|lia]|]); destruct Hx|]). destruct H.
  - destruct Hx as [<-|[]]. cbn [ascii_changes ascii_swap] in *.
    assert (K : forallb (fun c => negb (existsb (N.eqb (c + 32)) (map fst (f_fold cdemo) ++ map fst (s_fold cdemo)))) (nrange 0x41 26) = true) by (vm_compute; reflexivity).
    rewrite forallb_forall in K. apply G; [|lia]. specialize (K c). rewrite Bool.negb_true_iff in K. apply K. apply in_nrange. lia.
  - destruct Hx as [<-|[]]. cbn in Hs. repeat (destruct Hs as [Hs|Hs]; [injection Hs as <- <-; apply G; [reflexivity|lia]|]). destruct Hs.
  - destruct Hx as [<-|[]]. apply F; auto.
Qed.
