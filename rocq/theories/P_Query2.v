(** Proofs about the command line tools: commands, options, replacing, uc-inspect. *)
From Coq Require Import Ascii String.
From Verif Require Import Base Spec_Utf M_Utf8 M_Convert M_Ucd M_Grapheme M_Utf8Grapheme M_Script M_Emoji M_Run M_TableGen M_Query Spec_Query
  Spec_Grapheme Spec_Script Spec_Run P_Utf8 P_Convert P_Grapheme P_Utf8Grapheme P_Query.
Open Scope N_scope.

Lemma str_eqb_spec (a b : str) : reflect (a = b) (str_eqb a b).
Proof.
  revert b. induction a as [|x a IH]; intros [|y b]; cbn; try (constructor; congruence).
  destruct (N.eqb_spec x y) as [->|]; cbn [andb]; [|constructor; congruence]. destruct (IH b); constructor; congruence.
Qed.

(** ** gc *)
Lemma defined_incl tolerant sc a b : (forall x, In x a -> In x b) -> isprint_defined tolerant sc b -> isprint_defined tolerant sc a.
Proof. intros I [?|[?|F]]; [left; auto|right; left; auto|right; right]. rewrite Forall_forall in *. auto. Qed.
Lemma scalars_concat (cls : list (list N)) : scalars (concat cls) -> Forall scalars cls.
Proof.
  induction cls as [|c cls IH]; intros H; [constructor|]. cbn [concat] in H. apply Forall_app in H. destruct H. constructor; auto.
Qed.
Lemma utf8_text_app a b : utf8_text (a ++ b) = utf8_text a ++ utf8_text b.
Proof. unfold utf8_text. apply flat_map_app. Qed.
Lemma gc_lines_spec tolerant sc e cls : Forall scalars cls -> (e = true -> isprint_defined tolerant sc (utf8_text (concat cls))) ->
  gc_lines tolerant sc e cls = Ok (flat_map (fun c => shows e sc (utf8_text c) ++ [10]) cls).
Proof.
  intros H D. induction H as [|c cls Hc H IH]; [reflexivity|]. cbn [gc_lines concat] in *. rewrite utf8_text_app in D.
  rewrite shown_spec; [|exact Hc|intros E; eapply defined_incl; [|exact (D E)]; intros; apply in_app_iff; auto]. cbn [bindR].
  rewrite IH; [|intros E; eapply defined_incl; [|exact (D E)]; intros; apply in_app_iff; auto]. cbn [bindR flat_map]. rewrite <- app_assoc. reflexivity.
Qed.
(** the clusters of a valid text *)
Lemma gc_clusters u t : scalars t -> t <> [] ->
  exists cl, grapheme_clusters u t = Ok cl /\ u8_grapheme_clusters u (utf8_text t) = Ok cl /\ concat cl = t.
Proof.
  intros Hs Hne. exists (clusters_of u t). rewrite grapheme_clusters_eq. split; [reflexivity|]. split; [|apply clusters_of_concat].
  rewrite u8_clusters_lossy.
  - destruct (from_utf8_run_text dinit t eq_refl Hs) as (st' & E & _). rewrite E. cbn [snd]. rewrite lossy_text. reflexivity.
  - destruct t as [|c t]; [congruence|]. cbn [utf8_text flat_map]. intros H. apply app_eq_nil in H. destruct H as [H _]. exact (utf8_nonempty c H).
Qed.

(** ** Options *)
Lemma opts_inv a r e t : opts (a :: r) e t ->
  (exists e1, a = lit "-e" /\ e = true /\ opts r e1 t) \/ (a = lit "--" /\ e = false /\ t = r) \/ ((forall b, a <> 45 :: b) /\ e = false /\ t = a :: r).
Proof.
  intros H. remember (a :: r) as l eqn:E. destruct H as [|a' r' H|r'|r' e' t' H].
  - discriminate.
  - injection E as -> ->. right. right. auto.
  - injection E as <- ->. right. left. auto.
  - injection E as <- ->. left. exists e'. auto.
Qed.
Lemma options_spec args : forall e0 e t, options args e0 = Some (e, t) <-> exists e', opts args e' t /\ e = e0 || e'.
Proof.
  induction args as [|a r IH]; intros e0 e t; cbn [options].
  - split; [intros [= <- <-]; exists false; split; [constructor|now rewrite orb_false_r]|]. intros (e' & O & ->). inversion O; subst. now rewrite orb_false_r.
  - destruct (str_eqb_spec a (lit "-e")) as [->|NE].
    + rewrite IH. split.
      * intros (e' & O & ->). exists true. split; [now constructor 4 with (e := e')|now rewrite orb_true_r].
      * intros (e' & O & ->). apply opts_inv in O. destruct O as [(e1 & _ & -> & O)|[(X & _)|(X & _)]];
        [exists e1; split; [exact O|now rewrite orb_true_r]|discriminate X|exfalso; exact (X _ eq_refl)].
    + destruct (str_eqb_spec a (lit "--")) as [->|ND].
      * split; [intros [= <- <-]; exists false; split; [constructor|now rewrite orb_false_r]|].
        intros (e' & O & ->). apply opts_inv in O. destruct O as [(e1 & X & _)|[(_ & -> & ->)|(X & _)]]; [discriminate X|now rewrite orb_false_r|exfalso; exact (X _ eq_refl)].
      * assert (OT : forall e' t', opts (a :: r) e' t' -> (forall b, a <> 45 :: b) /\ e' = false /\ t' = a :: r).
        { intros e' t' O. apply opts_inv in O. destruct O as [(e1 & X & _)|[(X & _)|X]]; [congruence|congruence|exact X]. }
        destruct a as [|x a]; [|destruct (N.eqb_spec x 45) as [->|NX]].
        -- split; [intros [= <- <-]; exists false; split; [constructor; discriminate|now rewrite orb_false_r]|].
           intros (e' & O & ->). destruct (OT _ _ O) as (_ & -> & ->). now rewrite orb_false_r.
        -- split; [discriminate|]. intros (e' & O & _). destruct (OT _ _ O) as (X & _). exfalso. exact (X _ eq_refl).
        -- assert (OO : opts ((x :: a) :: r) false ((x :: a) :: r)) by (constructor; congruence).
           match goal with |- ?m = Some (e, t) <-> _ => assert (EM : m = Some (e0, (x :: a) :: r)) by (clear - NX; destruct x as [|p]; [reflexivity|repeat (destruct p as [p|p|]; try reflexivity); congruence]) end.
           rewrite EM. split; [intros [= <- <-]; exists false; split; [exact OO|now rewrite orb_false_r]|].
           intros (e' & O & ->). destruct (OT _ _ O) as (_ & -> & ->). now rewrite orb_false_r.
Qed.
Lemma options_some args e t : opts args e t -> options args false = Some (e, t).
Proof. intros O. apply options_spec. exists e. split; [exact O|reflexivity]. Qed.
Lemma options_none args : (forall e t, ~ opts args e t) -> options args false = None.
Proof.
  intros H. destruct (options args false) as [[e t]|] eqn:E; [|reflexivity]. apply options_spec in E. destruct E as (e' & O & _). exfalso. exact (H _ _ O).
Qed.

(** ** properties *)
Lemma escaped_total sc t : exists o, escaped true sc t = Ok o.
Proof.
  induction t as [|b t [o IH]]; [eexists; reflexivity|]. cbn [escaped]. unfold isprint. rewrite andb_false_r. cbn [bindR]. rewrite IH. eexists. reflexivity.
Qed.
Lemma convert_one c : exists o, convert_to_one T8 T32 c = Ok o.
Proof. eexists. reflexivity. Qed.
Lemma show_codepoint_spec sc ndebug info c : exists o, show_codepoint true sc ndebug info c = Ok o /\
  (o = None <-> pretty_age ndebug (ci_age (info c)) = None).
Proof.
  unfold show_codepoint. destruct (pretty_age ndebug (ci_age (info c))) as [age|].
  - destruct (convert_one c) as (u8 & E). rewrite E. cbn [bindR]. unfold quoted_and_escaped. destruct (escaped_total sc u8) as (q & Eq). rewrite Eq. cbn [bindR].
    eexists. split; [reflexivity|]. split; discriminate.
  - exists None. split; [reflexivity|]. tauto.
Qed.
Lemma show_codepoints_spec sc ndebug info cs : exists o, show_codepoints true sc ndebug info cs = Ok o /\
  (o = None <-> exists c, In c cs /\ pretty_age ndebug (ci_age (info c)) = None).
Proof.
  induction cs as [|c cs (o & E & IH)]; cbn [show_codepoints].
  - exists (Some []). split; [reflexivity|]. split; [discriminate|intros (c & [] & _)].
  - destruct (show_codepoint_spec sc ndebug info c) as (o1 & E1 & H1). rewrite E1. cbn [bindR]. destruct o1 as [a|].
    + rewrite E. cbn [bindR]. destruct o as [b|].
      * eexists. split; [reflexivity|]. split; [discriminate|]. intros (c' & [<-|I] & P); [apply H1 in P; discriminate|]. assert (Some b = None) by (apply IH; eauto). discriminate.
      * eexists. split; [reflexivity|]. split; [intros _|reflexivity]. destruct IH as [IH _]. destruct (IH eq_refl) as (c' & I & P). exists c'. split; [now right|exact P].
    + eexists. split; [reflexivity|]. split; [intros _|reflexivity]. exists c. split; [now left|now apply H1].
Qed.
(** what the arguments parse to *)
Definition parsed (i : impl) (a : str) (cs : list N) : Prop := parse_chars i a = Ok cs.
Lemma parse_total i a : Forall byte a -> exists cs, parse_chars i a = Ok cs.
Proof.
  intros H. unfold parse_chars. destruct (strip_u a) as [r|]; [eexists; reflexivity|]. rewrite convert_to_utf32 by exact H. eexists. reflexivity.
Qed.
Fixpoint messages (i : impl) (args : list str) : str :=
  match args with
  | [] => []
  | a :: r => match parse_chars i a with Ok [] => lit "Failed to parse codepoint " ++ a ++ [10] | _ => [] end ++ messages i r
  end.
Lemma show_args_spec sc ndebug i info args : Forall (Forall byte) args -> forall out err,
  (exists o, show_args true sc ndebug i info args out err = Ok (Exited 0 o (err ++ messages i args)) /\
     forall a cs c, In a args -> parse_chars i a = Ok cs -> In c cs -> pretty_age ndebug (ci_age (info c)) <> None) \/
  (show_args true sc ndebug i info args out err = Ok Aborted /\
     exists a cs c, In a args /\ parse_chars i a = Ok cs /\ In c cs /\ pretty_age ndebug (ci_age (info c)) = None).
Proof.
  induction 1 as [|a args Ha H IH]; intros out err; cbn [show_args messages].
  - left. exists out. rewrite app_nil_r. split; [reflexivity|]. intros a cs c [].
  - destruct (parse_total i a Ha) as (cs & E). rewrite E. cbn [bindR]. destruct cs as [|c cs].
    + destruct (IH out (err ++ lit "Failed to parse codepoint " ++ a ++ nl)) as [(o & E1 & H1)|(E1 & a' & cs' & c' & I & P)].
      * left. exists o. rewrite E1. split; [rewrite <- !app_assoc; reflexivity|]. intros a' cs' c' [<-|I] P Q; [rewrite E in P; injection P as <-; destruct Q|eapply H1; eauto].
      * right. split; [exact E1|]. exists a', cs', c'. split; [now right|exact P].
    + destruct (show_codepoints_spec sc ndebug info (c :: cs)) as (o & E1 & H1). rewrite E1. cbn [bindR]. destruct o as [o|].
      * destruct (IH (out ++ o) err) as [(o' & E2 & H2)|(E2 & a' & cs' & c' & I & P)].
        -- left. exists o'. split; [exact E2|]. intros a' cs' c' [<-|I] P Q A; [|eapply H2; eauto].
           rewrite E in P. injection P as <-. assert (Some o = None) by (apply H1; eauto). discriminate.
        -- right. split; [exact E2|]. exists a', cs', c'. split; [now right|exact P].
      * right. split; [reflexivity|]. destruct H1 as [H1 _]. destruct (H1 eq_refl) as (c' & I & P). exists a, (c :: cs), c'. split; [now left|]. auto.
Qed.

(** ** Replacing *)
Lemma prefixb_spec p s : prefixb p s = true <-> exists post, s = p ++ post.
Proof.
  revert s. induction p as [|x p IH]; intros s; cbn.
  - split; [intros _; now exists s|reflexivity].
  - destruct s as [|y s]; [split; [discriminate|intros (post & E); discriminate]|].
    destruct (N.eqb_spec x y) as [->|NE]; cbn [andb].
    + rewrite IH. split; intros (post & E); exists post; [now rewrite E|]. now injection E.
    + split; [discriminate|]. intros (post & E). congruence.
Qed.
Lemma occurs_at_0 what text : occurs_at what text 0 <-> prefixb what text = true.
Proof. unfold occurs_at. cbn [skipn]. symmetry. apply prefixb_spec. Qed.
Lemma occurs_at_S what x text k : occurs_at what (x :: text) (S k) <-> occurs_at what text k.
Proof. reflexivity. Qed.
Lemma occurs_at_nil what k : what <> [] -> ~ occurs_at what [] k.
Proof. unfold occurs_at. rewrite skipn_nil. intros NE (post & E). destruct what; [congruence|discriminate]. Qed.
Lemma find_at_spec what text : what <> [] -> forall pos,
  match find_at what text pos with
  | Some b => exists k, b = (pos + k)%nat /\ occurs_at what text k /\ forall j, (j < k)%nat -> ~ occurs_at what text j
  | None => forall k, ~ occurs_at what text k
  end.
Proof.
  intros NE. induction text as [|x text IH]; intros pos; cbn [find_at].
  - destruct what; [congruence|]. intros k. now apply occurs_at_nil.
  - destruct (prefixb what (x :: text)) eqn:P.
    + exists O. split; [lia|]. split; [now apply occurs_at_0|]. intros; lia.
    + assert (N0 : ~ occurs_at what (x :: text) 0) by (rewrite occurs_at_0, P; discriminate).
      specialize (IH (S pos)). destruct (find_at what text (S pos)) as [b|].
      * destruct IH as (k & -> & O & M). exists (S k). split; [lia|]. split; [exact O|]. intros [|j] Hj; [exact N0|]. rewrite occurs_at_S. apply M. lia.
      * intros [|k]; [exact N0|]. rewrite occurs_at_S. apply IH.
Qed.
Lemma occurs_skip what text p k : occurs_at what (skipn p text) k <-> occurs_at what text (p + k).
Proof. unfold occurs_at. now rewrite skipn_skipn. Qed.
Lemma find_from_spec what text pos : what <> [] ->
  match find_from what text pos with
  | Some b => (pos <= b)%nat /\ occurs_at what text b /\ forall j, (pos <= j < b)%nat -> ~ occurs_at what text j
  | None => forall k, (pos <= k)%nat -> ~ occurs_at what text k
  end.
Proof.
  intros NE. unfold find_from. destruct (Nat.ltb_spec (length text) pos) as [L|L].
  - intros k Hk (post & E). rewrite skipn_all2 in E by lia. destruct what; [congruence|discriminate].
  - pose proof (find_at_spec what (skipn pos text) NE pos) as F. destruct (find_at what (skipn pos text) pos) as [b|].
    + destruct F as (k & -> & O & M). split; [lia|]. split; [now apply occurs_skip|]. intros j Hj. replace j with (pos + (j - pos))%nat by lia. rewrite <- occurs_skip. apply M. lia.
    + intros k Hk. replace k with (pos + (k - pos))%nat by lia. rewrite <- occurs_skip. apply F.
Qed.
Lemma replace_loop_spec what with_ text : what <> [] -> forall fuel again a s, (a <= length text)%nat -> (length text - a < fuel)%nat ->
  exists r, replace_loop fuel what with_ text a (find_from what text (if again : bool then a + 1 else a)) s = Ok (s ++ r) /\
    replaced_but what with_ again (skipn a text) r.
Proof.
  intros NE. induction fuel as [|fuel IH]; intros again a s Ha Hf; [lia|].
  pose proof (find_from_spec what text (if again then (a + 1)%nat else a) NE) as F. cbn [replace_loop].
  destruct (find_from what text (if again then (a + 1)%nat else a)) as [b|].
  - destruct F as (Lb & O & M). destruct (Nat.ltb_spec (length text) a); [lia|]. destruct O as (post & E).
    assert (LE : (b + length what <= length text)%nat).
    { assert (length (skipn b text) = length (what ++ post)) by now rewrite E. rewrite skipn_length, app_length in H0. destruct what; [congruence|]. cbn [length] in *. lia. }
    assert (a <= b)%nat by (destruct again; lia).
    assert (W : (1 <= length what)%nat) by (destruct what; [congruence|cbn; lia]).
    destruct (IH true (b + length what)%nat (s ++ firstn (b - a) (skipn a text) ++ with_)) as (r & ER & RR); [lia|lia|].
    exists (firstn (b - a) (skipn a text) ++ with_ ++ r). rewrite ER. split; [now rewrite <- !app_assoc|].
    assert (S1 : skipn a text = firstn (b - a) (skipn a text) ++ what ++ post).
    { rewrite <- (firstn_skipn (b - a) (skipn a text)) at 1. f_equal. rewrite skipn_skipn. replace (a + (b - a))%nat with b by lia. exact E. }
    assert (S2 : skipn (b + length what) text = post).
    { rewrite <- skipn_skipn, E. rewrite skipn_app, skipn_all, Nat.sub_diag. reflexivity. }
    assert (LP : length (firstn (b - a) (skipn a text)) = (b - a)%nat) by (rewrite firstn_length, skipn_length; lia).
    rewrite S2 in RR. rewrite S1 at 1. apply repb_one; [| |exact RR].
    + intros ->. intros Z. rewrite Z in LP. cbn in LP. lia.
    + intros k Hk Lk. rewrite LP in Lk. rewrite <- S1, occurs_skip. apply M. destruct again; [specialize (Hk eq_refl)|]; lia.
  - destruct (Nat.ltb_spec (length text) a); [lia|]. exists (skipn a text). split; [reflexivity|]. constructor.
    intros k Hk. rewrite occurs_skip. apply F. destruct again; [specialize (Hk eq_refl)|]; lia.
Qed.
Lemma replace_all_spec what with_ text : what <> [] -> exists r, replace_all what with_ text = Ok r /\ replaced_but what with_ false text r.
Proof.
  intros NE. destruct (replace_loop_spec what with_ text NE (S (length text)) false 0 []) as (r & E & R); [lia|lia|]. exists r. split; [exact E|exact R].
Qed.
Lemma find_from_empty text p : find_from [] text p = if (length text <? p)%nat then None else Some p.
Proof. unfold find_from. destruct (length text <? p)%nat; [reflexivity|]. destruct (skipn p text); reflexivity. Qed.
Lemma replace_loop_empty with_ text : forall fuel a b s, (a <= length text)%nat -> (S (length text) - b <= fuel)%nat ->
  exists r, replace_loop fuel [] with_ text a (find_from [] text b) s = Ok r.
Proof.
  induction fuel as [|fuel IH]; intros a b s Ha Hf; rewrite find_from_empty; destruct (Nat.ltb_spec (length text) b); cbn [replace_loop]; try lia;
  destruct (Nat.ltb_spec (length text) a); try lia; try (eexists; reflexivity).
  cbn [length]. rewrite Nat.add_0_r. apply IH; lia.
Qed.
Lemma replace_all_total what with_ text : exists r, replace_all what with_ text = Ok r.
Proof.
  destruct what as [|x what].
  - apply replace_loop_empty; lia.
  - destruct (replace_all_spec (x :: what) with_ text) as (r & E & _); [discriminate|]. eauto.
Qed.
Lemma occurs_app_l what pre text k : occurs_at what text k -> occurs_at what (pre ++ text) (length pre + k).
Proof. intros (post & E). exists post. rewrite skipn_app, skipn_all2 by lia. cbn [app]. replace (length pre + k - length pre)%nat with k by lia. exact E. Qed.
(** without doubled occurrences nothing is overlooked *)
Lemma replaced_but_all what with_ : what <> [] -> forall again text r, replaced_but what with_ again text r ->
  ~ doubled what text -> (again = true -> ~ occurs_at what text 0) -> replaced what with_ text r.
Proof.
  intros NE again text r H. induction H as [again text M|again pre post r HP M H IH]; intros ND NO.
  - constructor. intros k O. destruct k as [|k].
    + destruct again; [now apply NO|]. apply (M 0%nat); [discriminate|exact O].
    + apply (M (S k)); [intros _; discriminate|exact O].
  - constructor.
    + intros k Hk O. destruct k as [|k].
      * destruct again; [now apply NO|]. apply (M 0%nat); [discriminate|exact Hk|exact O].
      * apply (M (S k)); [intros _; discriminate|exact Hk|exact O].
    + apply IH.
      * intros (k & O). apply ND. exists (length pre + (length what + k))%nat. apply occurs_app_l, occurs_app_l, O.
      * intros _ (q & E). cbn [skipn] in E. apply ND. exists (length pre). exists q. rewrite skipn_app, skipn_all, Nat.sub_diag. cbn [skipn app].
        rewrite E. now rewrite <- app_assoc.
Qed.
Lemma replaced_no b with_ text r : replaced [b] with_ text r -> ~ In b with_ -> ~ In b r.
Proof.
  intros H NW. induction H as [text M|pre post r M H IH].
  - intros I. apply in_split in I. destruct I as (l1 & l2 & ->). apply (M (length l1)). exists l2. rewrite skipn_app, skipn_all, Nat.sub_diag. reflexivity.
  - intros I. rewrite !in_app_iff in I. destruct I as [I|[I|I]]; [|tauto|tauto].
    apply in_split in I. destruct I as (l1 & l2 & ->). apply (M (length l1)); [rewrite app_length; cbn; lia|].
    exists (l2 ++ [b] ++ post). rewrite <- !app_assoc. cbn [app]. rewrite skipn_app, skipn_all, Nat.sub_diag. reflexivity.
Qed.
