(** Proofs about the property table generator, part 4: DerivedCoreProperties.txt, emoji-data.txt, emoji-variation-sequences.txt,
    DerivedGeneralCategory.txt. *)
From Coq Require Import Ascii String Permutation Sorted.
From Verif Require Import Base M_TableGen M_PropGen Spec_TableGen Spec_PropGen P_TableGen P_TableGen2 P_TableGen8 P_PropGen P_PropGen2 P_PropGen3.
Open Scope N_scope.

(** [r] is in the group [k] *)
Definition gin (k : str) (r : prange) (m : list (str * list prange)) : Prop := exists l, In (k, l) m /\ In r l.
Lemma gin_get k r m : ssorted m -> (gin k r m <-> exists l, smap_get k m = Some l /\ In r l).
Proof. intros Hs. unfold gin. split; intros [l [A B]]; exists l; (split; [|exact B]); apply (smap_in m k l Hs); exact A. Qed.
Lemma gin_push k v m k' r : ssorted m -> (gin k' r (push k v m) <-> gin k' r m \/ (k' = k /\ r = v)).
Proof.
  intros Hs. rewrite !gin_get by auto using push_sorted. rewrite push_get. destruct (str_eqb_spec k' k) as [->|N].
  - split.
    + intros [l [E H]]. injection E as <-. apply in_app_or in H as [H|[<-|[]]]; [|auto]. left. destruct (smap_get k m) as [l|]; [eauto|destruct H].
    + intros [[l [E H]]|[_ ->]].
      * rewrite E. eexists. split; [reflexivity|]. apply in_or_app. auto.
      * eexists. split; [reflexivity|]. apply in_or_app. right. left. reflexivity.
  - split; [auto|]. intros [H|[H _]]; [exact H|contradiction].
Qed.
Lemma reordered_gin m m' k r : reordered m m' -> (gin k r m' <-> gin k r m).
Proof.
  unfold reordered, gin. induction 1 as [|[k1 l1] [k2 l2] m m' [E P] _ IH]; [reflexivity|]. cbn [fst snd] in E, P. subst k2. split.
  - intros [l [[E|H] Hr]].
    + injection E as <- <-. exists l1. split; [left; reflexivity|]. exact (Permutation_in _ (Permutation_sym P) Hr).
    + destruct (proj1 IH) as [l' [A B]]; [eauto|]. exists l'. split; [right; exact A|exact B].
  - intros [l [[E|H] Hr]].
    + injection E as <- <-. exists l2. split; [left; reflexivity|]. exact (Permutation_in _ P Hr).
    + destruct (proj2 IH) as [l' [A B]]; [eauto|]. exists l'. split; [right; exact A|exact B].
Qed.
Lemma reordered_sorted m m' : reordered m m' -> ssorted m -> ssorted m'.
Proof.
  unfold reordered, ssorted. induction 1 as [|g1 g2 m m' [E _] H IH]; intros Hs; [constructor|].
  inversion_clear Hs as [|? ? Hm Hf]. constructor; [exact (IH Hm)|]. rewrite <- E. clear IH Hm E. induction H as [|h1 h2 m m' [E _] _ IH]; [constructor|].
  inversion_clear Hf. constructor; [rewrite <- E; assumption|auto].
Qed.
Lemma ungroup_gin m r : In r (ungroup m) <-> exists k, gin k r m.
Proof. rewrite ungroup_in. unfold gin. reflexivity. Qed.
Lemma reordered_ungroup m m' r : reordered m m' -> (In r (ungroup m') <-> In r (ungroup m)).
Proof. intros H. rewrite !ungroup_gin. split; intros [k G]; exists k; apply (reordered_gin m m' k r H); exact G. Qed.

(** ** emoji-data.txt *)
Lemma load_emoji_in crlf f : lines_ok word_line f -> ssorted (load_emoji (file_text st_text crlf f)) /\
  forall k r, gin k r (load_emoji (file_text st_text crlf f)) <-> exists l, has f l /\ st_prop l = k /\ r = range_of l k.
Proof.
  intros Hf. unfold load_emoji.
  assert (G : forall m, ssorted m -> ssorted (fold_left load_emoji_line (file_text st_text crlf f) m) /\
    forall k r, gin k r (fold_left load_emoji_line (file_text st_text crlf f) m) <-> gin k r m \/ exists l, has f l /\ st_prop l = k /\ r = range_of l k).
  { induction f as [|l f IH]; intros m Hs; [cbn [file_text map fold_left]; split; [exact Hs|]; intros k r; split; [auto|intros [H|[l [[] _]]]; exact H]|].
    apply lines_cons in Hf as [Hl Hf]. rewrite file_text_cons. cbn [fold_left].
    assert (Hp : parse_standard_line (line_text st_text l ++ eol crlf) = parsed_line crlf l).
    { apply parse_line. destruct l; auto. now apply word_line_ok. }
    assert (E : load_emoji_line m (line_text st_text l ++ eol crlf) = match l with Data l => push (st_prop l) (range_of l (st_prop l)) m | _ => m end).
    { unfold load_emoji_line. rewrite Hp. destruct l as [l|s|s]; cbn [parsed_line]; [|reflexivity|reflexivity]. unfold range_of at 1.
      rewrite first_word_id by apply Hl. reflexivity. }
    rewrite E. destruct l as [l|s|s].
    - destruct (IH Hf _ (push_sorted (st_prop l) (range_of l (st_prop l)) m Hs)) as [A B]. split; [exact A|]. intros k r. rewrite B, gin_push by exact Hs. split.
      + intros [[H|[-> ->]]|[l' [H [<- ->]]]]; [auto|right; exists l; split; [left; reflexivity|auto]|right; exists l'; split; [right; exact H|auto]].
      + intros [H|[l' [[E'|H] [<- ->]]]]; [auto|injection E' as <-; auto|right; exists l'; auto].
    - destruct (IH Hf m Hs) as [A B]. split; [exact A|]. intros k r. rewrite B. split.
      + intros [H|[l' [H [<- ->]]]]; [auto|right; exists l'; split; [right; exact H|auto]].
      + intros [H|[l' [[E'|H] [<- ->]]]]; [auto|discriminate E'|right; exists l'; auto].
    - destruct (IH Hf m Hs) as [A B]. split; [exact A|]. intros k r. rewrite B. split.
      + intros [H|[l' [H [<- ->]]]]; [auto|right; exists l'; split; [right; exact H|auto]].
      + intros [H|[l' [[E'|H] [<- ->]]]]; [auto|discriminate E'|right; exists l'; auto]. }
  destruct (G [] (SSorted_nil _)) as [A B]. split; [exact A|]. intros k r. rewrite B. split; [intros [[l [[] _]]|H]; exact H|auto].
Qed.

(** ** DerivedCoreProperties.txt *)
Lemma core_line_ok l : core_line l -> st_ok l.
Proof. intros [H _]. exact H. Qed.
Lemma core_split p v : word p -> word v -> find_char ch_semi (p ++ lit "; " ++ v) = Some (length p) /\
  trim (firstn (length p) (p ++ lit "; " ++ v)) = p /\ trim (skipn (length p + 1) (p ++ lit "; " ++ v)) = v.
Proof.
  intros Hp Hv. split; [|split].
  - change (p ++ lit "; " ++ v) with (p ++ ch_semi :: (ch_space :: v)). apply find_char_app. apply Hp.
  - rewrite firstn_len. apply trim_id, word_clean, Hp.
  - rewrite skipn_len. change (skipn 1 (lit "; " ++ v)) with ([ch_space] ++ v). rewrite trim_front by (repeat constructor; left; reflexivity).
    apply trim_id, word_clean, Hv.
Qed.
Definition is_incb (l : stline) (v : str) : Prop := word v /\ st_prop l = incb v.
Lemma word_not_incb w v : word w -> w <> incb v.
Proof. intros (_ & _ & Hs & _) ->. apply Hs. unfold incb. apply in_or_app. left. unfold lit, ch_semi. cbn. tauto. Qed.
Lemma split_inj p v p' v' : word p -> word v -> word p' -> word v' -> p ++ lit "; " ++ v = p' ++ lit "; " ++ v' -> p = p' /\ v = v'.
Proof.
  intros Hp Hv Hp' Hv' E. destruct (core_split p v Hp Hv) as (A & B & C). destruct (core_split p' v' Hp' Hv') as (A' & B' & C').
  rewrite E in A, B, C. rewrite A in A'. injection A' as A'. rewrite A' in B, C. split; congruence.
Qed.
Lemma word_incb : word (lit "InCB").
Proof.
  split; [discriminate|]. split; [|split; intros H; unfold lit, ch_semi, ch_hash in H; cbn in H; repeat (destruct H as [H|H]; [discriminate H|]); exact H].
  unfold no_white, lit. cbn. repeat (constructor; [intros [H|[H|[H|H]]]; discriminate H|]). constructor.
Qed.
Lemma load_core_in crlf f : lines_ok core_line f ->
  let m := load_core (file_text st_text crlf f) in
  ssorted (fst m) /\ ssorted (snd m) /\
  (forall k r, gin k r (fst m) <-> exists l, has f l /\ word (st_prop l) /\ st_prop l = k /\ r = range_of l []) /\
  (forall v r, gin v r (snd m) <-> exists l, has f l /\ is_incb l v /\ r = range_of l v).
Proof.
  intros Hf m. subst m. unfold load_core.
  assert (G : forall core inc, ssorted core -> ssorted inc ->
    let m := fold_left load_core_line (file_text st_text crlf f) (core, inc) in
    ssorted (fst m) /\ ssorted (snd m) /\
    (forall k r, gin k r (fst m) <-> gin k r core \/ exists l, has f l /\ word (st_prop l) /\ st_prop l = k /\ r = range_of l []) /\
    (forall v r, gin v r (snd m) <-> gin v r inc \/ exists l, has f l /\ is_incb l v /\ r = range_of l v)).
  { induction f as [|l f IH]; intros core inc Hc Hi; cbv zeta.
    { cbn [file_text map fold_left fst snd]. split; [exact Hc|split; [exact Hi|]]. split; intros k r; (split; [auto|intros [H|[l [[] _]]]; exact H]). }
    apply lines_cons in Hf as [Hl Hf]. rewrite file_text_cons. cbn [fold_left].
    assert (Hp : parse_standard_line (line_text st_text l ++ eol crlf) = parsed_line crlf l).
    { apply parse_line. destruct l; auto. now apply core_line_ok. }
    assert (Hskip : load_core_line (core, inc) (line_text st_text l ++ eol crlf) = (core, inc) ->
       (forall x, l = Data x -> ~ word (st_prop x) /\ forall v, ~ is_incb x v) ->
       let m := fold_left load_core_line (file_text st_text crlf f) (load_core_line (core, inc) (line_text st_text l ++ eol crlf)) in
       ssorted (fst m) /\ ssorted (snd m) /\
       (forall k r, gin k r (fst m) <-> gin k r core \/ exists x, has (l :: f) x /\ word (st_prop x) /\ st_prop x = k /\ r = range_of x []) /\
       (forall v r, gin v r (snd m) <-> gin v r inc \/ exists x, has (l :: f) x /\ is_incb x v /\ r = range_of x v)).
    { intros E Hno. rewrite E. destruct (IH Hf core inc Hc Hi) as (A & B & C & D). split; [exact A|split; [exact B|split]].
      - intros k r. rewrite C. split.
        + intros [H|[x [H [Hw [<- ->]]]]]; [auto|right; exists x; split; [right; exact H|auto]].
        + intros [H|[x [[E'|H] [Hw [<- ->]]]]]; [auto|destruct (Hno x E') as [N _]; contradiction|right; exists x; auto].
      - intros v r. rewrite D. split.
        + intros [H|[x [H [Hw ->]]]]; [auto|right; exists x; split; [right; exact H|auto]].
        + intros [H|[x [[E'|H] [Hw ->]]]]; [auto|destruct (Hno x E') as [_ N]; destruct (N _ Hw)|right; exists x; auto]. }
    destruct l as [l|s|s]; [|apply Hskip; [unfold load_core_line; rewrite Hp; reflexivity|discriminate]|apply Hskip; [unfold load_core_line; rewrite Hp; reflexivity|discriminate]].
    destruct Hl as [Hok [Hw|(p & v & Hpw & Hvw & Ep)]].
    - assert (E : load_core_line (core, inc) (line_text st_text (Data l) ++ eol crlf) = (push (st_prop l) (range_of l []) core, inc)).
      { unfold load_core_line. rewrite Hp. unfold parsed_line, range_of. rewrite find_char_none by apply Hw. rewrite first_word_id by exact Hw. reflexivity. }
      rewrite E. destruct (IH Hf (push (st_prop l) (range_of l []) core) inc (push_sorted _ _ _ Hc) Hi) as (A & B & C & D).
      split; [exact A|split; [exact B|split]].
      + intros k r. rewrite C, gin_push by exact Hc. split.
        * intros [[H|[-> ->]]|[x [H [Hx [<- ->]]]]]; [auto|right; exists l; split; [left; reflexivity|auto]|right; exists x; split; [right; exact H|auto]].
        * intros [H|[x [[E'|H] [Hx [<- ->]]]]]; [auto|injection E' as <-; auto|right; exists x; auto].
      + intros v r. rewrite D. split.
        * intros [H|[x [H [Hx ->]]]]; [auto|right; exists x; split; [right; exact H|auto]].
        * intros [H|[x [[E'|H] [Hx ->]]]]; [auto|injection E' as <-; destruct Hx as [_ Hx]; destruct (word_not_incb _ v Hw Hx)|right; exists x; auto].
    - destruct (core_split p v Hpw Hvw) as (S1 & S2 & S3). rewrite <- Ep in S1, S2, S3.
      assert (Hnw : ~ word (st_prop l)).
      { intros (_ & _ & Hs & _). apply Hs. rewrite Ep. apply in_or_app. right. left. reflexivity. }
      destruct (str_eqb_spec p (lit "InCB")) as [->|Np].
      + assert (E : load_core_line (core, inc) (line_text st_text (Data l) ++ eol crlf) = (core, push v (range_of l v) inc)).
        { unfold load_core_line. rewrite Hp. unfold parsed_line, range_of. rewrite S1, S2, S3, str_eqb_refl. reflexivity. }
        rewrite E. destruct (IH Hf core (push v (range_of l v) inc) Hc (push_sorted _ _ _ Hi)) as (A & B & C & D).
        split; [exact A|split; [exact B|split]].
        * intros k r. rewrite C. split.
          -- intros [H|[x [H [Hx [<- ->]]]]]; [auto|right; exists x; split; [right; exact H|auto]].
          -- intros [H|[x [[E'|H] [Hx [<- ->]]]]]; [auto|injection E' as <-; contradiction|right; exists x; auto].
        * assert (Hlv : is_incb l v) by (split; [exact Hvw|exact Ep]).
          intros u r. rewrite D, gin_push by exact Hi. split.
          -- intros [[H|[-> ->]]|[x [H [Hx ->]]]]; [auto|right; exists l; split; [left; reflexivity|auto]|right; exists x; split; [right; exact H|auto]].
          -- intros [H|[x [[E'|H] [Hx ->]]]]; [auto| |right; exists x; auto]. injection E' as <-. destruct Hx as [Hu Hx].
             assert (u = v). { unfold incb in Hx. change (lit "InCB; ") with (lit "InCB" ++ lit "; ") in Hx. rewrite Ep, <- app_assoc in Hx.
               destruct (split_inj _ _ _ _ Hpw Hvw Hpw Hu Hx) as [_ ?]. auto. }
             subst u. auto.
      + apply Hskip.
        * unfold load_core_line. rewrite Hp. unfold parsed_line, range_of. rewrite S1, S2, str_eqb_neq by exact Np. reflexivity.
        * intros x E'. injection E' as <-. split; [exact Hnw|]. intros u [Hu Hx]. apply Np.
          unfold incb in Hx. change (lit "InCB; ") with (lit "InCB" ++ lit "; ") in Hx. rewrite Ep, <- app_assoc in Hx.
          destruct (split_inj _ _ _ _ Hpw Hvw word_incb Hu Hx) as [? _]. auto. }
  destruct (G [] [] (SSorted_nil _) (SSorted_nil _)) as (A & B & C & D). split; [exact A|split; [exact B|split]].
  - intros k r. rewrite C. split; [intros [[l [[] _]]|H]; exact H|auto].
  - intros k r. rewrite D. split; [intros [[l [[] _]]|H]; exact H|auto].
Qed.
