(** Theorems about the emoji scanner and segmenter: C56, C57. *)
From Verif Require Import Base M_Emoji Spec_Emoji P_Emoji.
Require Import Lia.

(** C56.  On every non-empty text the table-driven scanner returns, without reading outside its tables or the text, the longest prefix
    that a rule of the grammar matches, with the presentation of the first rule that matches it; it consumes at least one code point. *)
Theorem C56_scanner : forall l, l <> [] -> exists n b, scan_emoji l = Ok (n, b) /\ token l n b.
Proof. exact scan_token. Qed.
Print Assumptions C56_scanner.
(** C56.  The grammar determines the token. *)
Theorem C56_token_unique : forall l n b n' b', token l n b -> token l n' b' -> n = n' /\ b = b'.
Proof. exact token_unique. Qed.
Print Assumptions C56_token_unique.
(** C56.  On an empty text nothing is consumed. *)
Theorem C56_empty : scan_emoji [] = Ok (0%nat, false).
Proof. vm_compute. reflexivity. Qed.
(** a ZWJ sequence of a modifier sequence and a presentation sequence, followed by text; a VS15 sequence; a flag; a broken tag sequence *)
Example C56_demo :
  scan_emoji [EModBase; EModifier; EZwj; ETextPres; EVs16; EInvalid] = Ok (5%nat, true) /\
  scan_emoji [EEmojiPres; EVs15; EInvalid] = Ok (2%nat, false) /\
  scan_emoji [ERegional; ERegional; ERegional] = Ok (2%nat, true) /\
  scan_emoji [ETagBase; ETagSeq; ETagSeq; EInvalid] = Ok (1%nat, true) /\
  scan_emoji [ETextPres; EZwj; EInvalid] = Ok (1%nat, false).
Proof. split; [|split; [|split; [|split]]]; vm_compute; reflexivity. Qed.

(** C57.  consume() ends each segment where the next token of the text has the other presentation: the segments are the maximal runs of
    tokens of equal presentation.  Whatever the bounds on loop iterations and calls, as long as they exceed the text's length. *)
Theorem C57_segments : forall t, exists st ts, eseg_new t = Ok st /\ tokens t ts /\
  forall fuel calls, (length t < fuel)%nat -> (length t < calls)%nat -> eseg_all fuel calls st = Ok (groups 0 ts).
Proof.
  intros t. destruct (tokens_exist t) as (ts & T). destruct (new_ready t ts T) as (st & E & R & En & _). exists st, ts. split; [exact E|].
  split; [exact T|]. intros fuel calls Hf Hc. pose proof (tokens_len _ _ T). rewrite (all_spec fuel calls st ts R) by lia. now rewrite En.
Qed.
Print Assumptions C57_segments.

(** C57.  The segments partition the text in order, none is empty, and neighbours differ in presentation. *)
Theorem C57_partition : forall t fuel calls, (length t < fuel)%nat -> (length t < calls)%nat ->
  exists st segs, eseg_new t = Ok st /\ eseg_all fuel calls st = Ok segs /\ segments_ok (length t) 0 None segs.
Proof.
  intros t fuel calls Hf Hc. destruct (C57_segments t) as (st & ts & E & T & H). exists st, (groups 0 ts). split; [exact E|].
  split; [now apply H|]. apply (groups_ok t ts T 0).
Qed.
Print Assumptions C57_partition.

(** C57.  After each consume(), substr() is the segment just reported and isEmoji() its presentation. *)
Theorem C57_views : forall t fuel calls st segs, (length t < fuel)%nat -> (length t < calls)%nat ->
  eseg_new t = Ok st -> eseg_all fuel calls st = Ok segs -> eseg_views fuel calls st = Ok (views 0 segs).
Proof.
  intros t fuel calls st segs Hf Hc E A. destruct (tokens_exist t) as (ts & T). destruct (new_ready t ts T) as (st' & E' & R & En & _).
  rewrite E in E'. injection E' as <-. pose proof (tokens_len _ _ T) as L. rewrite (all_spec fuel calls st ts R) in A by lia. injection A as <-.
  rewrite (views_spec fuel calls st ts R) by lia. now rewrite En.
Qed.
Print Assumptions C57_views.

Example C57_demo : exists st, eseg_new [EInvalid; EInvalid; EEmojiPres; EModBase; EModifier; ETextPres; EInvalid] = Ok st /\
  eseg_all 8 8 st = Ok [(2%nat, false); (5%nat, true); (7%nat, false)].
Proof. eexists. split; [vm_compute; reflexivity|]. vm_compute. reflexivity. Qed.
