(** C44: the streaming normalizer, exactly. *)
From Coq Require Import Sorted Permutation.
From Verif Require Import Base M_Tables M_Normalize Spec_Tables Spec_Normalize P_Tables P_Order P_Normalize P_Hangul P_Compose P_Compose2 P_Stream
  Spec_Grapheme P_Grapheme Spec_StreamSeg P_StreamSeg Norm_Demo T_Normalize T_Compose T_QcYes.
Open Scope N_scope.

(** One call of feed(): nothing is returned and the code point is kept, unless something is pending and the code point is a
    flush point; then exactly the normalization of what was pending is returned. *)
Theorem C44_feed : forall tb, acyclic tb -> forall form pending c,
  ((pending = [] \/ ~ flush_point tb form c) -> forall fuel, nfeed tb fuel form pending c = Ok ([], pending ++ [c])) /\
  (pending <> [] -> flush_point tb form c -> forall n, normalizes tb form pending n -> exists fuel, nfeed tb fuel form pending c = Ok (n, [c])).
Proof.
  intros tb Ha form pending c. split.
  - intros H fuel. unfold nfeed. destruct pending as [|q pd]; [reflexivity|]. destruct H as [H|H]; [discriminate|].
    destruct (is_boundary tb form c) eqn:Eb; [apply is_boundary_spec in Eb; contradiction|reflexivity].
  - intros Hp Hc n [fuel Hn]. exists fuel. unfold nfeed. destruct pending as [|q pd]; [congruence|]. apply is_boundary_spec in Hc. rewrite Hc, emit_eq, Hn. reflexivity.
Qed.
(** On every text: it is cut in front of the flush points and nowhere else, each part is normalized on its own, and the results are
    returned in order. *)
Theorem C44_segments : forall tb, acyclic tb -> forall form s,
  exists segs outs, partition_of s segs /\
    (forall k, cut_at segs k <-> k = O \/ k = length s \/ exists l a c r, s = l ++ a :: c :: r /\ k = S (length l) /\ flush_point tb form c) /\
    Forall2 (normalizes tb form) segs outs /\ streams tb form s (concat outs) /\ (forall b, streams tb form s b -> b = concat outs).
Proof.
  intros tb [rank Hr] form s. exists (segments tb form s), (map (NF tb rank form) (segments tb form s)).
  split; [apply segments_partition|]. split; [intros k; apply (segments_cuts tb rank Hr)|]. split.
  - induction (segments tb form s) as [|a l IH]; constructor; [|exact IH]. destruct (normalize_NF tb rank Hr form a) as [f H]. exists f. apply H. lia.
  - pose proof (stream_segments tb rank Hr form s) as E. split; [exact E|]. intros b Hb. eapply streams_det; eassumption.
Qed.
(** NFC and NFKC: with the Standard's quick-check tables streaming and normalize() agree on every text (U+11A7 aside). *)
Theorem C44_composing_partial : forall tb, acyclic tb -> jamos_plain tb -> comp_starters tb ->
  forall form, composing form -> qc_yes_exact tb form -> forall s, ~ In TBase s ->
  forall b r, streams tb form s b -> normalizes tb form s r -> b = r.
Proof.
  intros tb [rank Hr] Hj Hst form Hf Hq s Hb b r Sb Nr. apply (normalizes_NF tb rank Hr) in Nr. subst r.
  rewrite (streams_det tb form s _ _ Sb (stream_segments tb rank Hr form s)).
  apply (segments_NF tb rank Hr Hst Hj). intros c Hc Eb. apply is_boundary_spec in Eb. destruct (flush_yes tb form c Hf Eb) as [Hy Hz].
  assert (In c s) by (destruct s; [destruct Hc|right; exact Hc]).
  destruct (Hq c Hy) as [_ Q]; [intros ->; contradiction|]. destruct (Q Hz) as [_ (h & l & A & B & C)]. exists h, l. auto.
Qed.
(** NFD and NFKD: putting the streamed text in canonical order gives normalize()'s result, so the two agree exactly when the streamed
    text is in canonical order. *)
Theorem C44_decomposing_exact_partial : forall tb, acyclic tb -> forall form, decomposing form -> forall s b r,
  streams tb form s b -> normalizes tb form s r ->
  r = canonical_order tb b /\ (b = r <-> ordered (canonical_combining_class tb) b).
Proof.
  intros tb [rank Hr] form Hf s b r Sb Nr. apply (normalizes_NF tb rank Hr) in Nr. subst r.
  rewrite (streams_det tb form s _ _ Sb (stream_segments tb rank Hr form s)). set (segs := segments tb form s).
  assert (Hc : composes form = false) by (destruct Hf as [-> | ->]; reflexivity).
  pose proof (concat_reorders tb rank form segs Hc) as R. rewrite (proj1 (segments_partition tb form s) : concat segs = s) in R.
  assert (E : NF tb rank form s = canonical_order tb (concat (map (NF tb rank form) segs))).
  { unfold NF at 1. rewrite Hc. apply order_reorders, R. }
  split; [exact E|]. rewrite E. split.
  - intros ->. apply canonical_order_ordered.
  - intros O. symmetry. apply canonical_order_id, O.
Qed.
Print Assumptions C44_feed.
Print Assumptions C44_segments.
Print Assumptions C44_composing_partial.
Print Assumptions C44_decomposing_exact_partial.
Example C44_segments_demo : flush_point ndemo NFC 0x41 /\ ~ flush_point ndemo NFC 0x3099 /\ ~ flush_point ndemo NFC 0x30A /\ ~ flush_point ndemo NFC 0x212B /\
  flush_point ndemo NFD 0x212B /\ qc_yes_exact ndemo NFC /\ qc_yes_exact ndemo NFKC /\
  streams ndemo NFC [0x41; 0x30A; 0x304B; 0x3099; 0x41] [0xC5; 0x304C; 0x41] /\ streams ndemo NFD [0xF40; 0xF74; 0xF73] [0xF40; 0xF74; 0xF71; 0xF72].
Proof.
  assert (B : forall f c, is_boundary ndemo f c = true -> flush_point ndemo f c) by (intros; apply is_boundary_spec; assumption).
  assert (B' : forall f c, is_boundary ndemo f c = false -> ~ flush_point ndemo f c) by (intros f c H K; apply is_boundary_spec in K; congruence).
  split; [apply B; vm_compute; reflexivity|]. split; [apply B'; vm_compute; reflexivity|]. split; [apply B'; vm_compute; reflexivity|]. split; [apply B'; vm_compute; reflexivity|].
  split; [apply B; vm_compute; reflexivity|]. split; [apply ndemo_qc_yes; left; reflexivity|]. split; [apply ndemo_qc_yes; right; reflexivity|].
  split; exists 5%nat; vm_compute; reflexivity.
Qed.
