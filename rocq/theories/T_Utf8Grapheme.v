(** Property theorems: utf8_grapheme_segmenter (C20). *)
From Verif Require Import Base Spec_Utf M_Utf8 M_Ucd M_Grapheme M_Utf8Grapheme Spec_Grapheme Spec_Lossy Ucd_Demo
  P_Utf8 P_Utf8b P_Grapheme P_Utf8Grapheme.
Open Scope N_scope.

(** C20, well-formed input: the same clusters as the UTF-32 segmenter, for every table. *)
Theorem C20_wellformed : forall u t, t <> [] -> scalars t ->
  u8_grapheme_clusters u (utf8_text t) = grapheme_clusters u t.
Proof.
  intros u t Hne Hs. rewrite grapheme_clusters_eq. rewrite u8_clusters_lossy.
  - destruct (from_utf8_run_text dinit t eq_refl Hs) as (st' & E & _). rewrite E. cbn [snd]. rewrite lossy_text. reflexivity.
  - destruct t as [|c t]; [congruence|]. cbn [utf8_text flat_map]. intros H. apply app_eq_nil in H. destruct H as [H _].
    exact (utf8_nonempty c H).
Qed.
Print Assumptions C20_wellformed.
(** C20, every byte string: iteration ends, and yields the clusters of the lossily decoded text. *)
Theorem C20_every_byte_string : forall u bs, bs <> [] ->
  u8_grapheme_clusters u bs = grapheme_clusters u (lossy (snd (from_utf8_run dinit bs))).
Proof. intros u bs H. rewrite grapheme_clusters_eq. apply u8_clusters_lossy, H. Qed.
Theorem C20_empty : forall u, u8_grapheme_clusters u [] = Ok [].
Proof. reflexivity. Qed.
Print Assumptions C20_every_byte_string.
Print Assumptions C20_empty.
Example C20_example : u8_grapheme_clusters demo (utf8_text [0x61; 0x301; 0x1F1E9; 0x1F1EA; 0x62]) = Ok [[0x61; 0x301]; [0x1F1E9; 0x1F1EA]; [0x62]].
Proof. vm_compute. reflexivity. Qed.
Example C20_example_broken : u8_grapheme_clusters demo [0x61; 0xFF; 0x62; 0xE2; 0x82] = Ok [[0x61]; [0xFFFD]; [0x62]; [0]].
Proof. vm_compute. reflexivity. Qed.
