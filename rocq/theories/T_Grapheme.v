(** Property theorems: grapheme segmentation (C17, C18, C19, C21). *)
From Verif Require Import Base M_Ucd M_Grapheme Spec_Grapheme Ucd_Demo P_Grapheme.
Open Scope N_scope.

(** The concrete table meets the data hypotheses. *)
Lemma demo_ok : ucd_grapheme_ok demo.
Proof.
  constructor.
  - intros c Hc. pose (P c := (gcb_beq (p_gcb (demo c)) GOther || is_ctl (p_gcb (demo c))) && incb_beq (p_incb (demo c)) INone && negb (p_extpic (demo c))).
    assert (H : P c = true).
    { apply (sweep P 128); [vm_compute; reflexivity|lia]. }
    unfold P in H. rewrite !andb_true_iff, orb_true_iff, gcb_beq_eq, is_ctl_iff, incb_beq_eq, negb_true_iff in H. tauto.
  - apply (table_all (fun p => p_incb p = ILinker \/ p_incb p = IExtend -> p_gcb p = GExtend \/ p_gcb p = GZWJ \/ p_gcb p = GSpacingMark)).
    + cbn. intros [H|H]; discriminate.
    + unfold demo_table. repeat (apply Forall_cons; [cbn; intros [H|H]; try discriminate; auto|]). apply Forall_nil.
  - apply (table_all (fun p => p_incb p = IConsonant -> p_gcb p = GOther)).
    + cbn. reflexivity.
    + unfold demo_table. repeat (apply Forall_cons; [cbn; intros H; try discriminate; auto|]). apply Forall_nil.
  - apply (table_all (fun p => p_extpic p = true -> p_gcb p = GOther)).
    + cbn. reflexivity.
    + unfold demo_table. repeat (apply Forall_cons; [cbn; intros H; try discriminate; auto|]). apply Forall_nil.
Qed.

(** C17.  Iterating the segmenter over a non-empty text terminates within one increment per code point (the fuel of
    [grapheme_clusters]) and yields a partition of the text; over the empty text it yields the empty view only. *)
Theorem C17_clusters_partition : forall u text,
  exists cl, grapheme_clusters u text = Ok cl /\
    (text <> [] -> partition_of text cl) /\ (text = [] -> cl = [[]]) /\ (length cl <= Nat.max 1 (length text))%nat.
Proof.
  intros u text. exists (clusters_of u text). split; [apply grapheme_clusters_eq|]. split; [|split].
  - intros H. split; [apply clusters_of_concat|]. destruct text as [|c r]; [congruence|]. apply group_nonempty. discriminate.
  - intros ->. reflexivity.
  - destruct text as [|c r]; [cbn; lia|]. cbn [clusters_of]. pose proof (group_length r [c] (flags u (process_init u c) r)). cbn [length]. lia.
Qed.
Print Assumptions C17_clusters_partition.
Example C17_example : grapheme_clusters demo [0x61; 0x301; 0x0D; 0x0A; 0x1F469; 0x200D; 0x1F466; 0x1F1E9; 0x1F1EA; 0x1F1EB; 0x915; 0x94D; 0x915]
  = Ok [[0x61; 0x301]; [0x0D; 0x0A]; [0x1F469; 0x200D; 0x1F466]; [0x1F1E9; 0x1F1EA]; [0x1F1EB]; [0x915; 0x94D; 0x915]].
Proof. vm_compute. reflexivity. Qed.

(** C18.  The full claim: boundaries are exactly those of UAX #29. *)
Definition C18_statement : Prop := forall u, ucd_grapheme_ok u -> forall text cl, text <> [] ->
  grapheme_clusters u text = Ok cl -> forall k, cut_at cl k <-> boundary_in (uax29_boundary u) text k.

(** First deviation: after "pictograph ZWJ ZWJ" UAX #29 breaks before the next pictograph, the segmenter does not. *)
Theorem C18_double_zwj_refuted : ~ C18_statement.
Proof.
  intros H. specialize (H demo demo_ok [0x1F469; 0x200D; 0x200D; 0x1F469] [[0x1F469; 0x200D; 0x200D; 0x1F469]] ltac:(discriminate) ltac:(vm_compute; reflexivity) 3%nat).
  assert (B : boundary_in (uax29_boundary demo) [0x1F469; 0x200D; 0x200D; 0x1F469] 3).
  { right; right. exists 0x1F469, []. split; [reflexivity|]. split; [cbn; lia|]. cbn [firstn rev app]. split.
    - intros (a & r & E & K1 & K2). vm_compute in K2. discriminate.
    - right; right. intros [K|[K|[K|[K|[K|[K|[K|[K|K]]]]]]]].
      + destruct K as (a & r & E & K & _). injection E as <- <-. vm_compute in K. discriminate.
      + destruct K as (a & r & E & K & _). injection E as <- <-. vm_compute in K. destruct K; discriminate.
      + destruct K as (a & r & E & K & _). injection E as <- <-. vm_compute in K. destruct K; discriminate.
      + vm_compute in K. destruct K; discriminate.
      + vm_compute in K. discriminate.
      + destruct K as (a & r & E & K). injection E as <- <-. vm_compute in K. discriminate.
      + destruct K as (m2 & l & m1 & c & r & _ & _ & _ & _ & _ & K). vm_compute in K. discriminate.
      + destruct K as (z & es & e & r & E & K1 & K2 & K3 & K4). injection E as <- E.
        destruct es as [|x es]; injection E as <- E; [vm_compute in K3; discriminate|].
        inversion K2 as [|? ? K5 _]; subst. vm_compute in K5. discriminate.
      + destruct K as (ris & r & _ & _ & _ & _ & K). vm_compute in K. discriminate. }
  apply H in B. rewrite cut_at_cons in B. cbn [length] in B. destruct B as [B|[B _]]; lia.
Qed.
Print Assumptions C18_double_zwj_refuted.

(** Second deviation: a flag directly after a Prepend character (here U+0600) is split by the segmenter. *)
Theorem C18_prepend_flag_refuted : ~ C18_statement.
Proof.
  intros H. specialize (H demo demo_ok [0x600; 0x1F1E9; 0x1F1EA] [[0x600; 0x1F1E9]; [0x1F1EA]] ltac:(discriminate) ltac:(vm_compute; reflexivity) 2%nat).
  assert (B : cut_at [[0x600; 0x1F1E9]; [0x1F1EA]] 2) by (exists [[0x600; 0x1F1E9]], [[0x1F1EA]]; split; reflexivity).
  apply H in B. destruct B as [B|[B|(b & post & E & _ & _ & B)]]; [discriminate|discriminate|].
  cbn in E. injection E as <- <-. cbn [firstn rev app] in B. destruct B as [B|[B|B]].
  - destruct B as (a & r & E & K). injection E as <- <-. vm_compute in K. destruct K as [K|[K|K]]; discriminate.
  - vm_compute in B. destruct B as [K|[K|K]]; discriminate.
  - apply B. do 8 right. exists [0x1F1E9], [0x600]. split; [reflexivity|]. split; [repeat constructor|].
    split; [exists O; reflexivity|]. split; [|reflexivity]. intros x r' E. injection E as <- <-. vm_compute. discriminate.
Qed.
Print Assumptions C18_prepend_flag_refuted.

(** What is proved of every text: the boundaries are those of UAX #29 with GB11 and GB12/13 replaced by the "loose"
    variants written out in Spec_Grapheme (and nothing else changed). *)
Theorem C18_exact_rules_partial : forall u, ucd_grapheme_ok u -> forall text cl, text <> [] ->
  grapheme_clusters u text = Ok cl -> forall k, cut_at cl k <-> boundary_in (loose_boundary u) text k.
Proof.
  intros u OK text cl Hne H k. rewrite grapheme_clusters_eq in H. injection H as <-. apply clusters_cuts; assumption.
Qed.
Print Assumptions C18_exact_rules_partial.

(** ... hence exactly UAX #29 on every text without "ZWJ Extend* ZWJ" and without "Prepend RI". *)
Theorem C18_uax29_partial : forall u, ucd_grapheme_ok u -> forall text cl, text <> [] ->
  no_double_zwj u text -> no_prepend_ri u text ->
  grapheme_clusters u text = Ok cl -> forall k, cut_at cl k <-> boundary_in (uax29_boundary u) text k.
Proof.
  intros u OK text cl Hne H1 H2 H k. rewrite (C18_exact_rules_partial u OK text cl Hne H k). unfold boundary_in.
  assert (G : forall b post, text = firstn k text ++ b :: post ->
     (loose_boundary u (rev (firstn k text)) b <-> uax29_boundary u (rev (firstn k text)) b)).
  { intros b post E. apply (loose_is_uax29 u _ b post); rewrite rev_involutive, <- E; assumption. }
  split; (intros [K|[K|(b & post & E & K1 & K2)]]; [auto|auto|right; right; exists b, post; split; [exact E|split; [exact K1|apply (G b post E), K2]]]).
Qed.
Print Assumptions C18_uax29_partial.
Example C18_example : let t := [0x1F469; 0x200D; 0x1F466; 0x1F1E9; 0x1F1EA; 0x915; 0x94D; 0x915] in
  ucd_grapheme_ok demo /\ no_double_zwj demo t /\ no_prepend_ri demo t.
Proof.
  split; [exact demo_ok|]. split.
  - intros l z1 es z2 r E K1 K2 _.
    assert (C : (length (filter (fun c => gcb_beq (p_gcb (demo c)) GZWJ) [0x1F469; 0x200D; 0x1F466; 0x1F1E9; 0x1F1EA; 0x915; 0x94D; 0x915]) = 1%nat)) by (vm_compute; reflexivity).
    rewrite E, filter_app in C. cbn [filter] in C. rewrite K1, filter_app in C. cbn [filter gcb_beq] in C. rewrite K2 in C.
    cbn [gcb_beq] in C. rewrite app_length in C. cbn [length] in C. rewrite app_length in C. cbn [length] in C. lia.
  - intros l p x r E K1 _.
    assert (C : (length (filter (fun c => gcb_beq (p_gcb (demo c)) GPrepend) [0x1F469; 0x200D; 0x1F466; 0x1F1E9; 0x1F1EA; 0x915; 0x94D; 0x915]) = 0%nat)) by (vm_compute; reflexivity).
    rewrite E, filter_app in C. cbn [filter] in C. rewrite K1 in C. cbn [gcb_beq] in C. rewrite app_length in C. cbn [length] in C. lia.
Qed.

(** C19.  For every property table: a boundary before a position of [t1] is there in [t1 ++ t2] iff it is there in [t1]. *)
Theorem C19_prefix_stable : forall u t1 t2 cl1 cl2,
  grapheme_clusters u t1 = Ok cl1 -> grapheme_clusters u (t1 ++ t2) = Ok cl2 ->
  forall k, (k < length t1)%nat -> (cut_at cl1 k <-> cut_at cl2 k).
Proof.
  intros u t1 t2 cl1 cl2 H1 H2 k Hk. rewrite grapheme_clusters_eq in H1, H2. injection H1 as <-. injection H2 as <-.
  apply clusters_prefix, Hk.
Qed.
Print Assumptions C19_prefix_stable.
Example C19_example : grapheme_clusters demo [0x61; 0x62] = Ok [[0x61]; [0x62]] /\
  grapheme_clusters demo ([0x61; 0x62] ++ [0x301]) = Ok [[0x61]; [0x62; 0x301]].
Proof. vm_compute. auto. Qed.

(** C21.  The full claim. *)
Definition C21_statement : Prop := forall u, ucd_grapheme_ok u -> forall c rest cl,
  grapheme_clusters u (c :: rest) = Ok cl -> forall k, (k < length rest)%nat ->
  (nth_error (stateful_breaks u (c :: rest)) k = Some true <-> cut_at cl (S k)).
(** "a" + flag: without re-initialisation the flag is split. *)
Theorem C21_stateful_refuted : ~ C21_statement.
Proof.
  intros H. specialize (H demo demo_ok 0x61 [0x1F1E9; 0x1F1EA] [[0x61]; [0x1F1E9; 0x1F1EA]] ltac:(vm_compute; reflexivity) 1%nat ltac:(cbn; lia)).
  assert (B : nth_error (stateful_breaks demo [0x61; 0x1F1E9; 0x1F1EA]) 1 = Some true) by (vm_compute; reflexivity).
  apply H in B. rewrite !cut_at_cons in B. cbn [length] in B. lia.
Qed.
Print Assumptions C21_stateful_refuted.
(** Holds whenever every pair of adjacent regional indicators stands at the very start of the text. *)
Theorem C21_stateful_partial : forall u, ucd_grapheme_ok u -> forall c rest cl,
  (forall l a b r, c :: rest = l ++ a :: b :: r -> p_gcb (u a) = GRI -> p_gcb (u b) = GRI -> l = []) ->
  grapheme_clusters u (c :: rest) = Ok cl -> forall k, (k < length rest)%nat ->
  (nth_error (stateful_breaks u (c :: rest)) k = Some true <-> cut_at cl (S k)).
Proof.
  intros u OK c rest cl HR H k Hk. rewrite grapheme_clusters_eq in H. injection H as <-. apply stateful_eq_clusters; assumption.
Qed.
Print Assumptions C21_stateful_partial.
(** On every text, exactly: the stateful API breaks where the segmenter breaks, and also between any two adjacent regional indicators
    that are not the first two code points of the text. *)
Theorem C21_stateful_exact_partial : forall u, ucd_grapheme_ok u -> forall c rest cl,
  grapheme_clusters u (c :: rest) = Ok cl -> forall k, (k < length rest)%nat ->
  (nth_error (stateful_breaks u (c :: rest)) k = Some true <->
   cut_at cl (S k) \/
   exists l a b r, c :: rest = l ++ a :: b :: r /\ length l = k /\ k <> O /\ p_gcb (u a) = GRI /\ p_gcb (u b) = GRI).
Proof.
  intros u OK c rest cl H k Hk. rewrite grapheme_clusters_eq in H. injection H as <-. apply stateful_exact; assumption.
Qed.
Print Assumptions C21_stateful_exact_partial.
Example C21_exact_example : stateful_breaks demo [0x61; 0x1F1E9; 0x1F1EA; 0x301] = [true; true; false] /\
  grapheme_clusters demo [0x61; 0x1F1E9; 0x1F1EA; 0x301] = Ok [[0x61]; [0x1F1E9; 0x1F1EA; 0x301]].
Proof. vm_compute. auto. Qed.
Example C21_example : forall l a b r, [0x1F1E9; 0x1F1EA; 0x61; 0x301] = l ++ a :: b :: r ->
  p_gcb (demo a) = GRI -> p_gcb (demo b) = GRI -> l = [].
Proof.
  intros l a b r E Ha Hb. destruct l as [|x1 l]; [reflexivity|]. exfalso.
  destruct l as [|x2 l]; [inversion E; subst; vm_compute in Hb; discriminate|].
  destruct l as [|x3 l]; [inversion E; subst; vm_compute in Hb; discriminate|].
  destruct l as [|x4 l]; [inversion E|]. destruct l; inversion E.
Qed.
