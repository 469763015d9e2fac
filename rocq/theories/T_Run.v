(** Theorems about the run segmenter: C58. *)
From Verif Require Import Base M_Script M_Emoji M_Run Spec_Script Spec_Emoji Spec_Run P_Script P_Emoji P_Run T_Script T_Emoji.
Require Import Lia.

(** C58.  basic_run_segmenter over any non-empty pack of segmenters that each segment the same text of [n] code points well: the runs it
    reports are the common refinement of the segmentations, and every run carries the properties of the segments it lies in. *)
Theorem C58_refinement : forall (S P : Type) (next : S -> Res (option (nat * P) * S)) (n : nat) (d : P) (segs : list S) (segss : list (list (nat * P))),
  segss <> [] -> Forall2 (fun rs s => yields next s rs) segss segs -> Forall (segmentation n) segss ->
  forall fuel calls, (1 <= fuel)%nat -> (n < calls)%nat ->
  exists runs, rseg_all next fuel calls (rseg_new d n segs) = Ok runs /\ common_refinement n segss runs.
Proof. intros S P next n d segs segss NE F G [|fuel] calls Hf Hc; [lia|]. now apply run_refinement. Qed.
Print Assumptions C58_refinement.

(** C58.  run_segmenter: the runs of every text are the common refinement of its script runs and its emoji segments. *)
Theorem C58_run_segmenter : forall (tb : script_tables) (cat : N -> ecat) (t : list N) efuel fuel calls,
  (length t < efuel)%nat -> (1 <= fuel)%nat -> (length t < calls)%nat ->
  exists scripts e emojis runs,
    script_runs tb calls (sseg_new t) = Ok scripts /\ eseg_new (map cat t) = Ok e /\ eseg_all efuel calls e = Ok emojis /\
    run_segments tb cat efuel fuel calls t = Ok runs /\
    common_refinement (length t)
      [map (fun r => (snd r, PScript (fst r))) scripts; map (fun r => (fst r, PEmoji (snd r))) emojis] runs.
Proof.
  intros tb cat t efuel fuel calls He Hf Hc. destruct (C54_partition tb t calls Hc) as (scripts & ES & FS).
  destruct (C57_partition (map cat t) efuel calls) as (e & emojis & EN & EA & EO); [now rewrite map_length|now rewrite map_length|].
  rewrite map_length in EO. apply segments_ends in EO.
  destruct (C58_refinement _ _ (rs_next tb efuel) (length t) (PScript 0%N) [RScript (sseg_new t); REmoji e]
    [map (fun r => (snd r, PScript (fst r))) scripts; map (fun r => (fst r, PEmoji (snd r))) emojis]) with (fuel := fuel) (calls := calls)
    as (runs & ER & RR); auto.
  - discriminate.
  - constructor; [eapply script_yields; exact ES|]. constructor; [eapply emoji_yields; exact EA|constructor].
  - constructor; [|constructor; [|constructor]]; unfold segmentation; rewrite map_map; cbn; assumption.
  - exists scripts, e, emojis, runs. split; auto. split; auto. split; auto. split; auto. unfold run_segments, run_segmenter. rewrite EN. cbn [bindR]. exact ER.
Qed.
Print Assumptions C58_run_segmenter.

(** "ab" + emoji + "b" with an Arabic letter inside: 'a' 'b' EMOJI(Common) ALEF 'a' *)
Example C58_demo : run_segments sdemo (fun c => if (c =? 0x1F600)%N then EEmojiPres else EInvalid) 8 1 8 [0x61; 0x62; 0x1F600; 0x627; 0x61]%N
  = Ok [(0%nat, 2%nat, [PScript 10; PEmoji false]); (2%nat, 3%nat, [PScript 10; PEmoji true]); (3%nat, 4%nat, [PScript 11; PEmoji false]);
        (4%nat, 5%nat, [PScript 10; PEmoji false])].
Proof. vm_compute. reflexivity. Qed.
