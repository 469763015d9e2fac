(** Property theorems: word segmentation (C22, C23). *)
From Verif Require Import Base M_Ucd M_Word Spec_Grapheme Spec_Word Ucd_Demo P_Grapheme P_Word.
Open Scope N_scope.

Lemma demo_word_ok : ucd_word_ok demo.
Proof.
  intros c. unfold demo. revert c. refine (table_all (fun p => p_extpic p = true -> ~ ignorable (p_wb p)) demo_table _ _).
  - cbn. discriminate.
  - unfold demo_table.
    repeat (apply Forall_cons; [cbn; intros H; try discriminate; intros [K|[K|K]]; discriminate|]). apply Forall_nil.
Qed.

(** C22.  For every property table, iterating terminates within one increment per code point and partitions the text. *)
Theorem C22_words_partition : forall u text,
  exists ws, word_segments u text = Ok ws /\
    (text <> [] -> partition_of text ws) /\ (text = [] -> ws = [[]]) /\ (length ws <= Nat.max 1 (length text))%nat.
Proof.
  intros u text. exists (words_of u text). split; [apply word_segments_eq|]. split; [|split].
  - intros H. destruct text as [|c r]; [congruence|]. split.
    + unfold words_of. cbn [words_from]. rewrite group_concat by apply wflags_length. reflexivity.
    + apply group_nonempty. discriminate.
  - intros ->. reflexivity.
  - destruct text as [|c r]; [cbn; lia|]. unfold words_of. cbn [words_from].
    pose proof (group_length r [c] (wflags u (word_init u c wstate0) r)). cbn [length]. lia.
Qed.
Print Assumptions C22_words_partition.
(** can't 3.14 "a": *)
Example C22_example : word_segments demo [0x63;0x61;0x6E;0x27;0x74;0x20;0x20;0x33;0x2E;0x31;0x34;0x20;0x22;0x61;0x22]
  = Ok [[0x63;0x61;0x6E;0x27;0x74];[0x20;0x20];[0x33;0x2E;0x31;0x34];[0x20];[0x22];[0x61];[0x22]].
Proof. vm_compute. reflexivity. Qed.

(** C23.  The segments start exactly at the word boundaries of UAX #29. *)
Theorem C23_words_uax29 : forall u, ucd_word_ok u -> forall text ws, text <> [] -> word_segments u text = Ok ws ->
  forall k, cut_at ws k <-> word_boundary_at u text k.
Proof.
  intros u OK text ws Hne H k. rewrite word_segments_eq in H. injection H as <-. apply words_cuts; assumption.
Qed.
Print Assumptions C23_words_uax29.
Example C23_example : ucd_word_ok demo /\
  word_segments demo [0x61; 0x301; 0x27; 0x200D; 0x62; 0x0D; 0x0A; 0x301; 0x1F1E9; 0x301; 0x1F1EA; 0x1F1EB]
  = Ok [[0x61; 0x301; 0x27; 0x200D; 0x62]; [0x0D; 0x0A]; [0x301]; [0x1F1E9; 0x301; 0x1F1EA]; [0x1F1EB]].
Proof. split; [exact demo_word_ok|vm_compute; reflexivity]. Qed.
