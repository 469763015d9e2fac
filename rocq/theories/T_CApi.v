(** Property theorems: C API (C59, C60). *)
From Verif Require Import Base Spec_Utf M_Utf8 M_Convert M_Ucd M_Grapheme M_Width M_CApi Spec_Grapheme Spec_Width Ucd_Demo
  P_Utf8 P_Convert P_Grapheme P_Width.
Open Scope Z_scope.

(** C59.  The full claim: memory safe, and success whenever the encoding fits. *)
Definition C59_statement : Prop := forall src dest, scalars src ->
  exists r dest', u32u8_convert src dest = Ok (r, dest') /\ length dest' = length dest /\
    ((length (utf8_text src) <= length dest)%nat -> r = Z.of_nat (length (utf8_text src))).
Theorem C59_exact_fit_refuted : ~ C59_statement.
Proof.
  intros H. destruct (H [0x61]%N [0]%N) as (r & dest' & E & _ & K).
  - constructor; [left; reflexivity|constructor].
  - vm_compute in E. injection E as <- <-. specialize (K ltac:(vm_compute; lia)). vm_compute in K. discriminate.
Qed.
Print Assumptions C59_exact_fit_refuted.
(** What holds for every source (scalar or not) and every destination size: no write outside the destination, nothing
    behind the written bytes is touched on success, success exactly when the encoding is *strictly* shorter than the
    buffer (or there is nothing to write). *)
Theorem C59_convert_partial : forall src dest, scalars src ->
  exists r dest', u32u8_convert src dest = Ok (r, dest') /\ length dest' = length dest /\
    ((src = [] \/ (length (utf8_text src) < length dest)%nat) ->
        r = Z.of_nat (length (utf8_text src)) /\ dest' = utf8_text src ++ skipn (length (utf8_text src)) dest) /\
    (src <> [] -> (length dest <= length (utf8_text src))%nat -> r = -1).
Proof.
  intros src dest Hs. unfold u32u8_convert.
  assert (E : flat_map encoder_char src = utf8_text src).
  { unfold utf8_text. clear -Hs. induction Hs as [|c l Hc Hl IH]; [reflexivity|]. cbn [flat_map]. rewrite IH, encoders_agree, to_utf8_char_spec by (apply scalar_lt in Hc; lia). reflexivity. }
  destruct (u32u8_loop_spec src [] dest 0) as (r & dest' & E1 & L & _ & D). cbn [app length] in *. rewrite E in D.
  exists r, dest'. split; [exact E1|]. split; [exact L|]. split.
  - intros H. destruct D as [(R & DD & _)|(R & S1 & S2)]; [split; [lia|exact DD]|]. destruct H as [H|H]; [congruence|lia].
  - intros H1 H2. destruct D as [(R & DD & [S|S])|(R & _)]; [congruence|lia|exact R].
Qed.
Print Assumptions C59_convert_partial.
Example C59_example : u32u8_convert [0x61; 0x20AC]%N [0;0;0;0;7;9]%N = Ok (4, [0x61; 0xE2; 0x82; 0xAC; 7; 9]%N).
Proof. vm_compute. reflexivity. Qed.

(** C60.  Counting: every text, every table. *)
Theorem C60_gc_count : forall u t cl, grapheme_clusters u t = Ok cl ->
  u32_gc_count u t = Ok (if Nat.eqb (length t) 0 then 0 else Z.of_nat (length cl)).
Proof.
  intros u t cl H. unfold u32_gc_count. destruct t as [|c t]; [reflexivity|]. unfold grapheme_clusters in H.
  rewrite (count_loop_spec u _ _ 1 cl H). cbn [length Nat.eqb]. f_equal. lia.
Qed.
Theorem C60_u8_gc_count : forall i u bytes t, Forall byte bytes -> convert_to false i T32 T8 bytes = Ok t ->
  u8_gc_count i u bytes = u32_gc_count u t.
Proof. intros i u bytes t _ H. unfold u8_gc_count. rewrite H. reflexivity. Qed.
Print Assumptions C60_gc_count.
Print Assumptions C60_u8_gc_count.
(** u32_grapheme_unbreakable(a, b) is "the two-character text ab is one cluster". *)
Theorem C60_unbreakable : forall u a b cl, grapheme_clusters u [a; b] = Ok cl ->
  (u32_grapheme_unbreakable u a b = true <-> cl = [[a; b]]).
Proof.
  intros u a b cl H. rewrite grapheme_clusters_eq in H. injection H as <-. unfold u32_grapheme_unbreakable. cbn [clusters_of flags].
  destruct (process_breakable u b (process_init u a)) as [brk st']. cbn [fst]. destruct brk; cbn; split; congruence.
Qed.
Print Assumptions C60_unbreakable.
(** Base-width mode, non-empty text. *)
Theorem C60_base_width : forall u t cl, t <> [] -> grapheme_clusters u t = Ok cl ->
  u32_gc_width u t NonModifiable = Ok (zsum (map (fun c => cp_width u (hd 0%N c)) cl)).
Proof.
  intros u t cl Hne H. rewrite grapheme_clusters_eq in H. injection H as <-. unfold u32_gc_width. rewrite sum_clusters_text.
  destruct t as [|c t]; [congruence|]. cbn [clusters_of].
  pose proof (group_nonempty t [c] (flags u (process_init u c) t) ltac:(discriminate)) as HF.
  revert HF. generalize (group [c] t (flags u (process_init u c) t)). intros cl HF.
  rewrite <- (Z.add_0_l (zsum _)).
  match goal with |- fold_left ?f cl _ = Ok (_ + ?w) => enough (G : forall z, fold_left f cl (Ok z) = Ok (z + w)) by apply G end.
  induction HF as [|x cl Hx HF IH]; intros z; cbn [fold_left bindR map].
  - unfold zsum. cbn [fold_right]. f_equal. lia.
  - destruct x as [|y x]; [congruence|]. cbn [process_cluster bindR]. rewrite IH. unfold zsum. cbn [fold_right hd]. f_equal. lia.
Qed.
Print Assumptions C60_base_width.
(** The full claim about measuring, defined for every input including the empty one, is false. *)
Definition C60_width_statement : Prop := forall u t m, exists w, u32_gc_width u t m = Ok w.
Theorem C60_empty_text_refuted : ~ C60_width_statement.
Proof. intros H. destruct (H demo [] NonModifiable) as [w K]. vm_compute in K. discriminate. Qed.
Print Assumptions C60_empty_text_refuted.
(** Full-cluster mode: every text, also the empty one. *)
Theorem C60_modifiable_width : forall u t cl, grapheme_clusters u t = Ok cl ->
  u32_gc_width u t Modifiable = Ok (zsum (map (cluster_width u) cl)).
Proof.
  intros u t cl H. rewrite grapheme_clusters_eq in H. injection H as <-. unfold u32_gc_width. rewrite sum_clusters_text.
  cbn [process_cluster]. rewrite fold_sum_ok, fold_add. reflexivity.
Qed.
(** The UTF-8 entry point measures the decoded text. *)
Theorem C60_u8_gc_width : forall i u bytes t m, convert_to false i T32 T8 bytes = Ok t ->
  u8_gc_width i u bytes m = u32_gc_width u t m.
Proof. intros i u bytes t m H. unfold u8_gc_width. rewrite H. reflexivity. Qed.
Print Assumptions C60_modifiable_width.
Print Assumptions C60_u8_gc_width.
Example C60_example : u32_gc_count demo [0x61; 0x301; 0x1F469; 0x200D; 0x1F466]%N = Ok 2 /\
  u32_gc_width demo [0x2764; 0xFE0F]%N NonModifiable = Ok 1 /\ u32_gc_width demo [0x2764; 0xFE0F]%N Modifiable = Ok 2.
Proof. vm_compute. auto. Qed.
