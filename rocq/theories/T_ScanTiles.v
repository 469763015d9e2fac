(** C34, C64 for arbitrary bytes: every byte consumed is given to the receiver exactly once, in order, and no range begins
    inside a sequence. *)
From Verif Require Import Base Spec_Utf M_Utf8 M_Convert M_AsciiScan M_Ucd M_Grapheme M_Width M_Scan Spec_Scan P_Scan Spec_ScanTiles P_ScanTiles Ucd_Demo.
Open Scope Z_scope.

Theorem C34_any_bytes_partial : forall u uchar i st buf max, Forall byte buf -> 0 <= max ->
  d_exp (s_utf8 st) = 0%N -> 0 <= s_rep st -> s_next st = None ->
  exists r st' ev n, scan_text u uchar i st buf max = Ok (r, st', ev) /\ s_next st' = Some n /\ tiles (char_start buf) ev 0 n.
Proof.
  intros u uchar i st buf max Hb Hm Hd Hr Hn. destruct (scan_text_spec u uchar i st buf max Hb Hm Hd Hr (or_introl Hn)) as (r & st' & ev & a & ch & pe & rest & E & _).
  destruct (scan_text_tiles buf Hb u uchar i st max Hm Hd Hr Hn r st' ev E) as (n & H1 & H2). exists r, st', ev, n. auto.
Qed.
(** So a cluster consists of whole sequences, accepted or rejected, unless it is the last one handed over, which may end in
    an unfinished sequence. *)
Theorem C64_whole_sequences_partial : forall u uchar i st buf max, Forall byte buf -> 0 <= max ->
  d_exp (s_utf8 st) = 0%N -> 0 <= s_rep st -> s_next st = None ->
  exists r st' ev n, scan_text u uchar i st buf max = Ok (r, st', ev) /\ s_next st' = Some n /\
    forall x y, In (x, y) (cluster_ranges ev) -> 0 <= x < y /\ y <= n /\ char_start buf x /\ (char_start buf y \/ y = n).
Proof.
  intros u uchar i st buf max Hb Hm Hd Hr Hn. destruct (C34_any_bytes_partial u uchar i st buf max Hb Hm Hd Hr Hn) as (r & st' & ev & n & E & Hnx & T).
  exists r, st', ev, n. split; [exact E|]. split; [exact Hnx|]. clear E Hnx st' r.
  assert (G : forall ev a, 0 <= a -> tiles (char_start buf) ev a n -> a <= n /\ (a = n \/ char_start buf a) /\
    forall x y, In (x, y) (cluster_ranges ev) -> 0 <= x < y /\ y <= n /\ char_start buf x /\ (char_start buf y \/ y = n)).
  { clear ev T. induction ev as [|[p q|p q w|] ev IH]; intros a Ha T; cbn [tiles cluster_ranges] in *.
    - subst. split; [lia|]. split; [auto|]. intros x y [].
    - destruct T as (-> & L & Hp & T). destruct (IH q ltac:(lia) T) as (I1 & I2 & I3). split; [lia|]. split; [auto|exact I3].
    - destruct T as (-> & L & Hp & T). destruct (IH q ltac:(lia) T) as (I1 & I2 & I3). split; [lia|]. split; [auto|]. intros x y [K|K]; [|auto]. injection K as <- <-.
      split; [lia|]. split; [lia|]. split; [exact Hp|]. destruct I2; auto.
    - apply IH; assumption. }
  intros x y K. apply (G ev 0 ltac:(lia) T). exact K.
Qed.
Print Assumptions C34_any_bytes_partial.
Print Assumptions C64_whole_sequences_partial.
(** a rejected byte, an accented letter, a truncated sequence joined to it before a 7-bit character *)
Example C64_any_demo : exists r st' ev, scan_text demo true (X86 W128) (sstate0 demo) [0xFF; 0xC3; 0xA9; 0xE2; 0x82; 0x61]%N 80 = Ok (r, st', ev) /\
  ev = [EInvalid; ECluster 0 1 0; ECluster 1 5 1; EInvalid; EAscii 5 6] /\ s_next st' = Some 6.
Proof. do 3 eexists. vm_compute. repeat split; reflexivity. Qed.
