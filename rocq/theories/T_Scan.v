(** Property theorems: scan_text (C28-C35, C63, C64). *)
From Verif Require Import Base Spec_Utf M_Utf8 M_Convert M_AsciiScan M_Ucd M_Grapheme M_Width M_Scan Spec_Grapheme Spec_Width Spec_Scan Ucd_Demo
  P_Utf8 P_Utf8b P_Grapheme P_Width P_Scan P_Scan2 P_Scan3 P_Scan4 P_ScanCuts P_Scan5 P_Scan6 T_Grapheme T_Width.
Open Scope Z_scope.

Lemma demo_scan_ok : ucd_scan_ok demo.
Proof.
  constructor.
  - intros c H. pose proof (table_all (fun _ => True) demo_table I) as _.
    assert (E : forallb (fun n => let c := N.of_nat n in (p_width (demo c) =? 1)%N && gcb_beq (p_gcb (demo c)) GOther) (seq 0x20 95) = true) by (vm_compute; reflexivity).
    rewrite forallb_forall in E. specialize (E (N.to_nat c) ltac:(apply in_seq; lia)). cbv beta zeta in E. rewrite N2Nat.id in E.
    apply andb_true_iff in E. destruct E as [E1 E2]. apply N.eqb_eq in E1. apply gcb_beq_eq in E2. auto.
  - intros c. unfold demo. unfold ezs.
    refine (table_all (fun p => p_varbase p = true -> p_width p = 2%N -> ~ (p_gcb p = GExtend \/ p_gcb p = GZWJ \/ p_gcb p = GSpacingMark)) demo_table _ _ c).
    + cbn. discriminate.
    + unfold demo_table. repeat (apply Forall_cons; [cbn; intros; try discriminate; intuition discriminate|]). apply Forall_nil.
Qed.

(** C28.  Any bytes, any limit, any idle state: no undefined behaviour, and the cursors are ordered. *)
Theorem C28_cursors_ordered : forall u uchar i st buf max, Forall byte buf -> 0 <= max ->
  d_exp (s_utf8 st) = 0%N -> 0 <= s_rep st -> s_next st = None ->
  exists r st' ev n, scan_text u uchar i st buf max = Ok (r, st', ev) /\ s_next st' = Some n /\
    r_start r = 0 /\ 0 <= r_end r <= n /\ n <= Z.of_nat (length buf) /\ 0 <= r_count r.
Proof.
  intros u uchar i st buf max Hb Hm Hd Hr Hn.
  destruct (scan_text_spec u uchar i st buf max Hb Hm Hd Hr (or_introl Hn)) as (r & st' & ev & a & ch & pd & rs & E & []).
  exists r, st', ev, (Z.of_nat (length (a ++ concat ch ++ pd))). split; [exact E|]. split; [exact fp_next|]. rewrite fp_buf. rewrite !app_length in *. rewrite fp_end. repeat split; auto; try lia.
Qed.
Print Assumptions C28_cursors_ordered.
Example C28_example : exists ev st', scan_text demo true (X86 W128) (sstate0 demo) [0x61; 0xC3; 0xA9; 0xFF; 0xE2; 0x82]%N 80 = Ok (SR 3 0 3, st', ev) /\ s_next st' = Some 6.
Proof. do 2 eexists. vm_compute. split; reflexivity. Qed.

(** C29.  "The count never exceeds maxColumnCount" is false for ill-formed input. *)
Definition C29_statement : Prop := forall u uchar i buf max, Forall byte buf -> 0 <= max ->
  forall r st' ev, scan_text u uchar i (sstate0 u) buf max = Ok (r, st', ev) -> r_count r <= max.
Theorem C29_limit_refuted : ~ C29_statement.
Proof.
  intros H. destruct (scan_text demo true (X86 W128) (sstate0 demo) [0xFF; 0xFF; 0xFF; 0x61]%N 1) as [[[r st'] ev]| |] eqn:E; try (vm_compute in E; discriminate).
  specialize (H demo true (X86 W128) [0xFF; 0xFF; 0xFF; 0x61]%N 1 ltac:(repeat constructor) ltac:(lia) r st' ev E).
  vm_compute in E. injection E as <- _ _. cbn in H. lia.
Qed.
(** It is true of well-formed text (with any state left by earlier calls), ... *)
Theorem C29_limit_wellformed_partial : forall u uchar i st t max, scalars t -> 0 <= max ->
  d_exp (s_utf8 st) = 0%N -> 0 <= s_rep st -> s_next st = None ->
  exists r st' ev, scan_text u uchar i st (utf8_text t) max = Ok (r, st', ev) /\ 0 <= r_count r <= max.
Proof.
  intros u uchar i st t max Hs Hm Hd Hr Hn.
  destruct (scan_text_wf u uchar i st t max False Hs Hm Hd Hr (or_introl Hn) ltac:(tauto)) as (r & st' & ev & xs & ys & E & []). eauto 10.
Qed.
(** ... and any input overshoots by at most one column, and only if it reported an invalid sequence. *)
Theorem C29_at_most_one_over_partial : forall u uchar i st buf max, Forall byte buf -> 0 <= max ->
  d_exp (s_utf8 st) = 0%N -> 0 <= s_rep st -> s_next st = None ->
  exists r st' ev, scan_text u uchar i st buf max = Ok (r, st', ev) /\ (r_count r <= max \/ ((0 < invalids ev)%nat /\ r_count r = max + 1)).
Proof.
  intros u uchar i st buf max Hb Hm Hd Hr Hn.
  destruct (scan_text_spec u uchar i st buf max Hb Hm Hd Hr (or_introl Hn)) as (r & st' & ev & a & ch & pd & rs & E & []).
  exists r, st', ev. split; [exact E|]. destruct fp_max as [|[? ?]]; [left; assumption|].
  destruct (Z.leb_spec (r_count r) max); [left; assumption|right; split; [assumption|lia]].
Qed.
Print Assumptions C29_limit_refuted.
Print Assumptions C29_limit_wellformed_partial.
Print Assumptions C29_at_most_one_over_partial.

(** C30.  On well-formed text end and next are the same character boundary and no character is pending. *)
Theorem C30_never_splits : forall u uchar i st t max, scalars t -> 0 <= max ->
  d_exp (s_utf8 st) = 0%N -> 0 <= s_rep st -> s_next st = None ->
  exists r st' ev xs ys, scan_text u uchar i st (utf8_text t) max = Ok (r, st', ev) /\ t = xs ++ ys /\
    r_end r = Z.of_nat (length (utf8_text xs)) /\ s_next st' = Some (Z.of_nat (length (utf8_text xs))) /\ d_exp (s_utf8 st') = 0%N.
Proof.
  intros u uchar i st t max Hs Hm Hd Hr Hn.
  destruct (scan_text_wf u uchar i st t max False Hs Hm Hd Hr (or_introl Hn) ltac:(tauto)) as (r & st' & ev & xs & ys & E & []). exists r, st', ev, xs, ys. auto.
Qed.
Print Assumptions C30_never_splits.
Example C30_example : exists ev st', scan_text demo true (X86 W128) (sstate0 demo) (utf8_text [0x61; 0x4E00; 0x4E01]%N) 4 = Ok (SR 3 0 4, st', ev).
Proof. do 2 eexists. vm_compute. reflexivity. Qed.

(** C31.  Nothing the scan moved past is a C0 control, or a C1 byte at a character boundary ... *)
Theorem C31_no_control_scanned : forall u uchar i st buf max, Forall byte buf -> 0 <= max ->
  d_exp (s_utf8 st) = 0%N -> 0 <= s_rep st -> s_next st = None ->
  exists r st' ev n, scan_text u uchar i st buf max = Ok (r, st', ev) /\ s_next st' = Some n /\ r_end r <= n /\
    Forall (fun b => ~ c0 b) (firstn (Z.to_nat n) buf) /\
    forall p b q, firstn (Z.to_nat n) buf = p ++ b :: q -> at_boundary p -> ~ c1 b.
Proof.
  intros u uchar i st buf max Hb Hm Hd Hr Hn.
  destruct (scan_text_spec u uchar i st buf max Hb Hm Hd Hr (or_introl Hn)) as (r & st' & ev & a & ch & pd & rs & E & []).
  exists r, st', ev, (Z.of_nat (length (a ++ concat ch ++ pd))). split; [exact E|]. split; [exact fp_next|].
  split; [rewrite fp_end, !app_length; lia|]. rewrite Nat2Z.id.
  assert (EF : firstn (length (a ++ concat ch ++ pd)) buf = a ++ concat ch ++ pd).
  { replace buf with ((a ++ concat ch ++ pd) ++ rs) by (rewrite fp_buf, <- !app_assoc; reflexivity).
    rewrite firstn_app, firstn_all, Nat.sub_diag, app_nil_r. reflexivity. }
  rewrite EF. exact fp_clean.
Qed.
(** ... and control-free well-formed text that fits is scanned completely, up to exactly the first control. *)
Theorem C31_stops_in_front : forall u, ucd_width_ok u -> widths_le2 u -> ucd_scan_ok u ->
  forall uchar i t b rest max, scalars t -> Forall plain_text t -> c0 b \/ c1 b -> Forall byte (b :: rest) -> 2 * Z.of_nat (length t) < max ->
  exists r st' ev, scan_text u uchar i (sstate0 u) (utf8_text t ++ b :: rest) max = Ok (r, st', ev) /\
    r_end r = Z.of_nat (length (utf8_text t)) /\ s_next st' = Some (Z.of_nat (length (utf8_text t))).
Proof.
  intros u OK HW SOK uchar i t b rest max Hs Ht Hb Hby Hm.
  destruct (scan_text_m u uchar i (sstate0 u) t (b :: rest) max) as (r & st' & ev & E & R1 & R2 & R3 & R4 & R5 & R6); auto.
  - right. eauto.
  - apply plain_text_cp, Ht.
  - lia.
  - apply minv_fits; auto; [apply plain_printing; assumption|apply minv_start].
  - exists r, st', ev. auto.
Qed.
Print Assumptions C31_no_control_scanned.
Print Assumptions C31_stops_in_front.
Example C31_example : ucd_scan_ok demo /\ exists ev st', scan_text demo true (X86 W128) (sstate0 demo) [0x61; 0xC3; 0xA9; 0x1B; 0x5B]%N 80 = Ok (SR 2 0 3, st', ev).
Proof. split; [exact demo_scan_ok|]. do 2 eexists. vm_compute. reflexivity. Qed.

(** C32.  "The count is the sum of the cluster widths" is false: a flag after other text is measured as two clusters,
    and so is a Prepend character with the 7-bit character it belongs to. *)
Definition C32_statement : Prop := forall u, ucd_grapheme_ok u -> ucd_width_ok u -> widths_le2 u -> ucd_scan_ok u ->
  forall uchar i t max, scalars t -> Forall plain_text t -> 2 * Z.of_nat (length t) < max ->
  forall r st' ev cl, scan_text u uchar i (sstate0 u) (utf8_text t) max = Ok (r, st', ev) -> grapheme_clusters u t = Ok cl ->
  r_count r = zsum (map (cluster_width u) cl).
Theorem C32_scan_is_cluster_width_refuted : ~ C32_statement.
Proof.
  intros H. set (t := [0x61; 0x1F1E9; 0x1F1EA]%N).
  destruct (scan_text demo true (X86 W128) (sstate0 demo) (utf8_text t) 80) as [[[r st'] ev]| |] eqn:E; try (vm_compute in E; discriminate).
  specialize (H demo demo_ok demo_width_ok demo_le2 demo_scan_ok true (X86 W128) t 80).
  specialize (H ltac:(repeat (apply Forall_cons; [unfold scalar; lia|]); apply Forall_nil)
               ltac:(repeat (apply Forall_cons; [split; [lia|discriminate]|]); apply Forall_nil) ltac:(cbn; lia) r st' ev [[0x61]; [0x1F1E9; 0x1F1EA]]%N E ltac:(vm_compute; reflexivity)).
  vm_compute in E. injection E as <- _ _. vm_compute in H. discriminate.
Qed.
(** True when no flag follows other text and no Prepend character stands before a 7-bit one. *)
Theorem C32_scan_is_cluster_width_partial : forall u, ucd_grapheme_ok u -> ucd_width_ok u -> widths_le2 u -> ucd_scan_ok u ->
  forall uchar i t max, scalars t -> Forall plain_text t -> no_flags_no_prepend u t -> 2 * Z.of_nat (length t) < max ->
  exists r st' ev cl, scan_text u uchar i (sstate0 u) (utf8_text t) max = Ok (r, st', ev) /\ grapheme_clusters u t = Ok cl /\
  r_end r = Z.of_nat (length (utf8_text t)) /\ r_count r = zsum (map (cluster_width u) cl).
Proof.
  intros u OK WOK HW SOK uchar i t max Hs Ht HN Hm.
  destruct (scan_text_m u uchar i (sstate0 u) t [] max) as (r & st' & ev & E & R1 & R2 & R3 & R4 & R5 & R6); auto.
  - left. reflexivity.
  - apply plain_text_cp, Ht.
  - lia.
  - apply minv_fits; auto; [apply plain_printing; assumption|apply minv_start].
  - rewrite app_nil_r in E. exists r, st', ev, (clusters_of u t). split; [exact E|]. split; [apply grapheme_clusters_eq|]. split; [exact R3|].
    rewrite R1. apply mrun_clusters; auto. intros l a b q Et. destruct (HN l a b q Et) as [N1 N2]. split; [|exact N2].
    intros A B. rewrite (N1 A B). reflexivity.
Qed.
(** On every control-free well-formed text that fits, exactly: the count is the sum of the widths of the pieces obtained from the
    segmenter's clusters by cutting, in addition, before every 7-bit character and between any two regional indicators that are not
    the first two code points. *)
Theorem C32_scan_exact_partial : forall u, ucd_grapheme_ok u -> ucd_width_ok u -> widths_le2 u -> ucd_scan_ok u ->
  forall uchar i t max, scalars t -> Forall plain_text t -> 2 * Z.of_nat (length t) < max ->
  exists r st' ev cl pieces, scan_text u uchar i (sstate0 u) (utf8_text t) max = Ok (r, st', ev) /\ grapheme_clusters u t = Ok cl /\
  r_end r = Z.of_nat (length (utf8_text t)) /\ partition_of t pieces /\
  (forall k, cut_at pieces k <-> cut_at cl k \/ exists l a b q, t = l ++ a :: b :: q /\ k = S (length l) /\
     ((b < 0x80)%N \/ (l <> [] /\ p_gcb (u a) = GRI /\ p_gcb (u b) = GRI))) /\
  r_count r = zsum (map (cluster_width u) pieces).
Proof.
  intros u OK WOK HW SOK uchar i t max Hs Ht Hm.
  destruct (scan_text_m u uchar i (sstate0 u) t [] max) as (r & st' & ev & E & R1 & R2 & R3 & R4 & R5 & R6); auto.
  - left. reflexivity.
  - apply plain_text_cp, Ht.
  - lia.
  - apply minv_fits; auto; [apply plain_printing; assumption|apply minv_start].
  - rewrite app_nil_r in E. exists r, st', ev, (clusters_of u t), (terms_of u t). split; [exact E|]. split; [apply grapheme_clusters_eq|]. split; [exact R3|].
    split; [apply terms_partition|]. split; [intros k; apply terms_cuts, OK|]. rewrite R1. apply mrun_terms; auto.
Qed.
Print Assumptions C32_scan_exact_partial.
Print Assumptions C32_scan_is_cluster_width_refuted.
Print Assumptions C32_scan_is_cluster_width_partial.
Example C32_example : no_flags_no_prepend demo [0x1F1E9; 0x1F1EA; 0x61; 0x301; 0x231A; 0xFE0E; 0x4E00]%N.
Proof.
  intros l a b r E. 
  destruct l as [|x1 [|x2 [|x3 [|x4 [|x5 [|x6 [|x7 l]]]]]]]; cbn [app] in E; try (injection E; intros; subst; split; intros; try reflexivity; exfalso; vm_compute in *; discriminate).
  apply (f_equal (@length N)) in E. cbn [length] in E. rewrite app_length in E. cbn in E. lia.
Qed.
(** Second deviation: U+0600 (Prepend, no width) before 'a' splits the cluster in the middle; the totals differ as soon as the
    Prepend character is visible. *)
Example C32_prepend : let u := fun c => if (c =? 0x600)%N then pr 1 GPrepend INone WNumeric false else demo c in
  exists st' ev, scan_text u true (X86 W128) (sstate0 u) (utf8_text [0x600; 0x61]%N) 80 = Ok (SR 2 0 3, st', ev) /\
  grapheme_clusters u [0x600; 0x61]%N = Ok [[0x600; 0x61]%N].
Proof. do 2 eexists. vm_compute. split; reflexivity. Qed.

(** C33.  Everything between the start of the buffer and state.next is: the reported range, then rejected sequences (each
    reported as invalid), then the beginning of a character at the very end of the buffer whose bytes are kept in the
    decoder state. *)
Theorem C33_loses_no_byte : forall u uchar i st buf max, Forall byte buf -> 0 <= max ->
  d_exp (s_utf8 st) = 0%N -> 0 <= s_rep st -> s_next st = None ->
  exists r st' ev shown bad pending rest, scan_text u uchar i st buf max = Ok (r, st', ev) /\
    buf = shown ++ concat bad ++ pending ++ rest /\
    r_start r = 0 /\ r_end r = Z.of_nat (length shown) /\ s_next st' = Some (Z.of_nat (length (shown ++ concat bad ++ pending))) /\
    Forall rejected bad /\ (length bad <= invalids ev)%nat /\
    unfinished pending /\ (pending <> [] -> s_utf8 st' = fst (from_utf8_run dinit pending) /\ rest = []) /\ (pending = [] -> d_exp (s_utf8 st') = 0%N).
Proof.
  intros u uchar i st buf max Hb Hm Hd Hr Hn.
  destruct (scan_text_spec u uchar i st buf max Hb Hm Hd Hr (or_introl Hn)) as (r & st' & ev & a & ch & pd & rs & E & []).
  exists r, st', ev, a, ch, pd, rs. auto 12.
Qed.
Print Assumptions C33_loses_no_byte.
Example C33_example : exists ev st', scan_text demo true (X86 W128) (sstate0 demo) [0x61; 0xC3; 0xA9; 0xFF; 0xE2; 0x82]%N 80 = Ok (SR 3 0 3, st', ev) /\
  invalids ev = 1%nat /\ s_utf8 st' = fst (from_utf8_run dinit [0xE2; 0x82]%N).
Proof. do 2 eexists. vm_compute. repeat split; reflexivity. Qed.

(** C34.  The ranges given to the receiver tile the scanned range exactly ... *)
Theorem C34_receiver_covers_partial : forall u uchar i st t max, scalars t -> 0 <= max ->
  d_exp (s_utf8 st) = 0%N -> 0 <= s_rep st -> s_next st = None ->
  exists r st' ev, scan_text u uchar i st (utf8_text t) max = Ok (r, st', ev) /\ covers ev 0 (r_end r).
Proof.
  intros u uchar i st t max Hs Hm Hd Hr Hn.
  destruct (scan_text_wf u uchar i st t max False Hs Hm Hd Hr (or_introl Hn) ltac:(tauto)) as (r & st' & ev & xs & ys & E & []).
  exists r, st', ev. split; [exact E|]. rewrite wp_end. exact wp_cov.
Qed.
(** ... but their column counts do not add up to the count: a combining mark after an ASCII letter announces the letter's
    column again. *)
Definition C34_statement : Prop := forall u, ucd_grapheme_ok u -> ucd_width_ok u -> widths_le2 u -> ucd_scan_ok u ->
  forall uchar i t max, scalars t -> 0 <= max ->
  forall r st' ev, scan_text u uchar i (sstate0 u) (utf8_text t) max = Ok (r, st', ev) -> announced ev = r_count r.
Theorem C34_columns_refuted : ~ C34_statement.
Proof.
  intros H. set (t := [0x65; 0x301]%N).
  destruct (scan_text demo true (X86 W128) (sstate0 demo) (utf8_text t) 80) as [[[r st'] ev]| |] eqn:E; try (vm_compute in E; discriminate).
  specialize (H demo demo_ok demo_width_ok demo_le2 demo_scan_ok true (X86 W128) t 80).
  specialize (H ltac:(repeat (apply Forall_cons; [unfold scalar; lia|]); apply Forall_nil) ltac:(lia) r st' ev E).
  vm_compute in E. injection E as <- _ <-. vm_compute in H. discriminate.
Qed.
(** They do when nothing attaches to a 7-bit character. *)
Theorem C34_columns_partial : forall u, ucd_grapheme_ok u -> forall uchar i st t max, scalars t -> 0 <= max ->
  d_exp (s_utf8 st) = 0%N -> 0 <= s_rep st -> s_next st = None -> s_hint st = 0%N -> unattached u t ->
  exists r st' ev, scan_text u uchar i st (utf8_text t) max = Ok (r, st', ev) /\ covers ev 0 (r_end r) /\ announced ev = r_count r.
Proof.
  intros u OK uchar i st t max Hs Hm Hd Hr Hn Hh HU.
  destruct (scan_text_wf u uchar i st t max True Hs Hm Hd Hr (or_introl Hn)) as (r & st' & ev & xs & ys & E & []).
  - intros _. split; [|exact Hh]. intros l a b q Et Ha Hb. destruct (HU l a b q Et Ha Hb) as [H1 H2].
    pose proof (process_breakable_spec u [a] (process_init u a) b OK (process_init_inv u a)) as S.
    destruct (process_breakable u b (process_init u a)) as [brk g]. destruct S as [-> _]. cbn [fst loose_b ist est rst].
    destruct (ok_ascii u OK a Ha) as (G & Gi & Ge). rewrite Gi. unfold ext_update. rewrite Ge. cbn [incb_update].
    change (0 =? 2)%N with false. change (negb (0 =? 0)%N || false) with false. cbv iota. change (0 =? 1)%N with false.
    unfold ezs in H1. rewrite !andb_false_r, !orb_false_r. 
    destruct G as [G|[G|[G|G]]]; rewrite G; cbn; destruct (p_gcb (u b)); cbn; try reflexivity; exfalso; auto.
  - exists r, st', ev. split; [exact E|]. rewrite wp_end. auto.
Qed.
Print Assumptions C34_receiver_covers_partial.
Print Assumptions C34_columns_refuted.
Print Assumptions C34_columns_partial.
Example C34_example : unattached demo [0x61; 0x4E00; 0x301]%N /\ exists r st' ev,
  scan_text demo true (X86 W128) (sstate0 demo) (utf8_text [0x61; 0x4E00; 0x301]%N) 80 = Ok (r, st', ev) /\ ev = [EAscii 0 1; ECluster 1 6 2].
Proof.
  split.
  - intros l a b r E Ha Hb. destruct l as [|x1 [|x2 [|x3 l]]]; cbn [app] in E.
    + injection E as <- <- <-. vm_compute. split; [intros [|[|]]; discriminate|discriminate].
    + injection E as <- <- <- <-. exfalso. revert Ha. vm_compute. discriminate.
    + injection E as <- <- _ E. discriminate.
    + apply (f_equal (@length N)) in E. cbn [length] in E. rewrite app_length in E. cbn in E. lia.
  - do 3 eexists. vm_compute. split; reflexivity.
Qed.

(** C35.  "A resumed scan only reads its own buffer" is false in three ways: the second buffer may still not complete the
    character, it may be empty, or the completed character may not fit into the columns that are left.  Each time
    text.front() is taken of a range that starts before the buffer. *)
Definition C35_statement : Prop := forall u uchar i buf1 max1 r1 st1 ev1, Forall byte buf1 -> 0 <= max1 ->
  scan_text u uchar i (sstate0 u) buf1 max1 = Ok (r1, st1, ev1) ->
  forall buf2 max2, Forall byte buf2 -> 0 <= max2 -> scan_text u uchar i (next_buffer st1) buf2 max2 <> UB.
Ltac c35 buf1 buf2 m2 := intros H;
  destruct (scan_text demo true (X86 W128) (sstate0 demo) buf1 80) as [[[r1 st1] ev1]| |] eqn:E; try (vm_compute in E; discriminate);
  apply (H demo true (X86 W128) buf1 80 r1 st1 ev1 ltac:(repeat constructor) ltac:(lia) E buf2 m2 ltac:(repeat constructor) ltac:(lia));
  vm_compute in E; injection E as _ <- _; vm_compute; reflexivity.
Theorem C35_still_incomplete_refuted : ~ C35_statement.
Proof. c35 [0xF0]%N [0x9F]%N 80. Qed.
Theorem C35_empty_buffer_refuted : ~ C35_statement.
Proof. c35 [0xF0]%N (@nil N) 80. Qed.
Theorem C35_no_room_refuted : ~ C35_statement.
Proof. c35 [0xE4]%N [0xB8; 0x80]%N 1. Qed.
(** True when the second buffer starts with the rest of the character and everything fits ... *)
Theorem C35_completed_partial : forall u, ucd_width_ok u -> widths_le2 u -> ucd_scan_ok u ->
  forall uchar i t1 c p q t2 max max2, scalar c -> (0x80 <= c)%N -> utf8 c = p ++ q -> p <> [] -> q <> [] ->
  scalars t1 -> Forall plain_text t1 -> scalars t2 -> Forall plain_text t2 ->
  2 * Z.of_nat (length t1) < max -> 2 * Z.of_nat (S (length t2)) < max2 ->
  exists r1 st1 ev1 r2 st2 ev2,
    scan_text u uchar i (sstate0 u) (utf8_text t1 ++ p) max = Ok (r1, st1, ev1) /\ d_exp (s_utf8 st1) <> 0%N /\
    scan_text u uchar i (next_buffer st1) (q ++ utf8_text t2) max2 = Ok (r2, st2, ev2) /\
    r_end r2 = Z.of_nat (length (q ++ utf8_text t2)) /\ s_next st2 = Some (r_end r2).
Proof.
  intros u OK HW SOK uchar i t1 c p q t2 max max2 Hc Hhi Ec Hp Hq Hs1 Ht1 Hs2 Ht2 Hm Hm2.
  assert (SC : split_char c p q) by (repeat split; auto).
  assert (HI : minv (snd (mrun u (mst (sstate0 u)) t1))) by (apply minv_run; auto; [apply plain_printing; assumption|apply minv_start]).
  destruct (scan_text_p u uchar i (sstate0 u) t1 c p q max SC Hs1) as (r1 & st1 & ev1 & d & E1 & S1 & S2 & S3 & S4 & S5 & S6 & S7); auto.
  - apply plain_text_cp, Ht1.
  - lia.
  - apply minv_fits; auto; [apply plain_printing; assumption|apply minv_start].
  - destruct (split_results c p q d SC S5) as (d' & _ & _ & _ & P4).
    destruct (scan_text_resume u uchar i (next_buffer st1) d t2 c p q max2) as (r2 & st2 & ev2 & E2 & T1 & T3 & T4 & T5 & T6); auto.
    + apply plain_text_cp, Ht2.
    + lia.
    + rewrite mst_next, S7. apply minv_fits; auto; [|apply minv_clear; exact HI].
      constructor; [|apply plain_printing; assumption]. split; lia.
    + exists r1, st1, ev1, r2, st2, ev2. rewrite S6, T3. auto 10.
Qed.
(** ... or with any 7-bit byte, whatever follows. *)
Theorem C35_interrupted_partial : forall u uchar i st b rest max, d_exp (s_utf8 st) <> 0%N -> (b < 0x80)%N -> Forall byte rest -> 0 <= max ->
  exists r st' ev n, scan_text u uchar i st (b :: rest) max = Ok (r, st', ev) /\ s_next st' = Some n /\ 0 <= r_end r <= n /\ n <= Z.of_nat (length (b :: rest)).
Proof.
  intros u uchar i st b rest max Hd Hb Hr Hm.
  destruct (scan_text_interrupted u uchar i st b rest max Hd Hm Hb Hr) as (r & st' & ev & a & ch & pd & rs & E & R1 & R2 & R3).
  exists r, st', ev, (Z.of_nat (length (a ++ concat ch ++ pd))). split; [exact E|]. split; [exact R2|].
  rewrite R1, R3. rewrite !app_length. lia.
Qed.
Print Assumptions C35_still_incomplete_refuted.
Print Assumptions C35_empty_buffer_refuted.
Print Assumptions C35_no_room_refuted.
Print Assumptions C35_completed_partial.
Print Assumptions C35_interrupted_partial.

(** C63.  "Counts stay additive no matter where the chunk boundaries fall" is false: text presentation that arrives in the
    second buffer cannot take back the column already reported. *)
Definition C63_statement : Prop := forall u, ucd_grapheme_ok u -> ucd_width_ok u -> widths_le2 u -> ucd_scan_ok u ->
  forall uchar i t k max, scalars t -> Forall plain_text t -> 2 * Z.of_nat (length t) < max -> (k <= length (utf8_text t))%nat ->
  forall r st ev r1 st1 ev1 r2 st2 ev2,
    scan_text u uchar i (sstate0 u) (utf8_text t) max = Ok (r, st, ev) ->
    scan_text u uchar i (sstate0 u) (firstn k (utf8_text t)) max = Ok (r1, st1, ev1) ->
    scan_text u uchar i (next_buffer st1) (skipn k (utf8_text t)) max = Ok (r2, st2, ev2) ->
    r_count r1 + r_count r2 = r_count r.
Theorem C63_additive_refuted : ~ C63_statement.
Proof.
  intros H. set (t := [0x231A; 0xFE0E]%N).
  assert (E : exists y, scan_text demo true (X86 W128) (sstate0 demo) (utf8_text t) 80 = Ok y /\ r_count (fst (fst y)) = 1) by (eexists; vm_compute; split; reflexivity).
  assert (E1 : exists y, scan_text demo true (X86 W128) (sstate0 demo) (firstn 3 (utf8_text t)) 80 = Ok y /\ r_count (fst (fst y)) = 2 /\
    exists z, scan_text demo true (X86 W128) (next_buffer (snd (fst y))) (skipn 3 (utf8_text t)) 80 = Ok z /\ r_count (fst (fst z)) = 0).
  { eexists. split; [vm_compute; reflexivity|]. split; [reflexivity|]. eexists. split; [vm_compute; reflexivity|reflexivity]. }
  destruct E as [[[r st] ev] [E X]]. destruct E1 as [[[r1 st1] ev1] (E1 & X1 & [[r2 st2] ev2] & E2 & X2)]. cbn [fst snd] in *.
  specialize (H demo demo_ok demo_width_ok demo_le2 demo_scan_ok true (X86 W128) t 3%nat 80).
  specialize (H ltac:(repeat (apply Forall_cons; [unfold scalar; lia|]); apply Forall_nil)
               ltac:(repeat (apply Forall_cons; [split; [lia|discriminate]|]); apply Forall_nil) ltac:(cbn; lia) ltac:(vm_compute; lia) r st ev r1 st1 ev1 r2 st2 ev2 E E1 E2).
  lia.
Qed.
(** Without U+FE0E they are, for every cut position, also inside a character, and from every state earlier scans can leave
    ([0 <= s_rep = width of the open cluster]). *)
Theorem C63_additive_partial : forall u, ucd_width_ok u -> widths_le2 u -> ucd_scan_ok u ->
  forall uchar i t k max, scalars t -> Forall plain_text t -> ~ In 0xFE0E%N t -> 2 * Z.of_nat (length t) < max -> (k <= length (utf8_text t))%nat ->
  exists r st ev r1 st1 ev1 r2 st2 ev2,
    scan_text u uchar i (sstate0 u) (utf8_text t) max = Ok (r, st, ev) /\
    scan_text u uchar i (sstate0 u) (firstn k (utf8_text t)) max = Ok (r1, st1, ev1) /\
    scan_text u uchar i (next_buffer st1) (skipn k (utf8_text t)) max = Ok (r2, st2, ev2) /\
    r_count r1 + r_count r2 = r_count r /\ same_memory st2 st.
Proof.
  intros u OK HW SOK uchar i t k max Hs Ht Hv Hm Hk. apply counts_additive; auto. apply minv_start.
Qed.
Print Assumptions C63_additive_refuted.
Print Assumptions C63_additive_partial.
Example C63_example : exists r1 st1 ev1 r2 st2 ev2,
  scan_text demo true (X86 W128) (sstate0 demo) (firstn 5 (utf8_text [0x61; 0x4E00; 0x1F466; 0xFE0F]%N)) 80 = Ok (r1, st1, ev1) /\
  scan_text demo true (X86 W128) (next_buffer st1) (skipn 5 (utf8_text [0x61; 0x4E00; 0x1F466; 0xFE0F]%N)) 80 = Ok (r2, st2, ev2) /\
  r_count r1 = 3 /\ r_count r2 = 2 /\ d_exp (s_utf8 st1) = 4%N.
Proof. do 6 eexists. split; [vm_compute; reflexivity|]. split; [vm_compute; reflexivity|]. vm_compute. auto. Qed.

(** C64.  The receiver can be handed ill-formed bytes as a cluster: the bytes of a rejected sequence are given again, as a
    cluster of zero columns, before the next one. *)
Definition C64_statement : Prop := forall u uchar i buf max, Forall byte buf -> 0 <= max ->
  forall r st' ev x y, scan_text u uchar i (sstate0 u) buf max = Ok (r, st', ev) -> In (x, y) (cluster_ranges ev) ->
  exists t, scalars t /\ slice buf x y = utf8_text t.
Theorem C64_receiver_wellformed_refuted : ~ C64_statement.
Proof.
  intros H. set (buf := [0xFF; 0xC3; 0xA9]%N).
  destruct (scan_text demo true (X86 W128) (sstate0 demo) buf 80) as [[[r st] ev]| |] eqn:E; try (vm_compute in E; discriminate).
  specialize (H demo true (X86 W128) buf 80 ltac:(repeat constructor) ltac:(lia) r st ev 0 1 E).
  vm_compute in E. injection E as _ _ <-. specialize (H ltac:(vm_compute; auto)). destruct H as (t & Hs & Et).
  change (slice buf 0 1) with [0xFF]%N in Et. destruct t as [|c t]; [discriminate|]. inversion Hs; subst.
  destruct (utf8 c) as [|b bs] eqn:Eu; [destruct (utf8_nonempty c Eu)|]. cbn [utf8_text flat_map] in Et. rewrite Eu in Et. injection Et as <- _.
  pose proof (from_utf8_run_char dinit c eq_refl ltac:(assumption)) as (d & R & _). rewrite Eu in R. cbn [from_utf8_run] in R.
  destruct (from_utf8 dinit 0xFF) as [d1 x] eqn:EF. vm_compute in EF. injection EF as <- <-. destruct (from_utf8_run _ bs) as [d2 rs].
  injection R as _ R. unfold char_results in R. destruct (length (utf8 c) - 1)%nat; discriminate.
Qed.
Print Assumptions C64_receiver_wellformed_refuted.
(** On well-formed text, from any idle state, it is well-formed: every cluster handed over is a run of whole characters of the text. *)
Theorem C64_wellformed_text_partial : forall u uchar i st t max, scalars t -> 0 <= max ->
  d_exp (s_utf8 st) = 0%N -> 0 <= s_rep st -> s_next st = None ->
  exists r st' ev, scan_text u uchar i st (utf8_text t) max = Ok (r, st', ev) /\
    forall x y, In (x, y) (cluster_ranges ev) -> exists a b c, t = a ++ b ++ c /\ b <> [] /\
      x = Z.of_nat (length (utf8_text a)) /\ slice (utf8_text t) x y = utf8_text b.
Proof.
  intros u uchar i st t max Hs Hm Hd Hr Hn.
  destruct (scan_text_wf u uchar i st t max False Hs Hm Hd Hr (or_introl Hn) ltac:(tauto)) as (r & st' & ev & xs & ys & E & []).
  exists r, st', ev. split; [exact E|]. intros x y Hin.
  assert (H : x < y /\ exists p q p' q', t = p ++ q /\ x = bl p /\ t = p' ++ q' /\ y = bl p').
  { clear E wp_t wp_end wp_next wp_cols. revert wp_cov wp_pts Hin. generalize 0 at 1. generalize (bl xs). induction ev as [|e ev IH]; [cbn; tauto|]. intros z1 z0 C F I.
    inversion F as [|? ? F1 F2]; subst. destruct e as [a b|a b w|]; cbn [covers cluster_ranges evp] in *.
    - destruct C as (_ & _ & C). eapply IH; eassumption.
    - destruct C as (_ & L & C). destruct I as [I|I]; [|eapply IH; eassumption]. injection I as -> ->. split; [exact L|].
      destruct F1 as [(p & q & F1 & F1') (p' & q' & F3 & F3')]. exists p, q, p', q'. auto.
    - destruct C. }
  destruct H as (L & p & q & p' & q' & E1 & -> & E2 & ->).
  assert (H : exists m, p' = p ++ m /\ m <> []).
  { rewrite E1 in E2. destruct (app_eq_app _ _ _ _ E2) as (m & [[A B]|[A B]]).
    - exfalso. subst p. rewrite bl_app in L. pose proof (bl_nonneg m). lia.
    - exists m. split; [exact A|]. intros ->. rewrite app_nil_r in A. subst. lia. }
  destruct H as (m & -> & Hm0). exists p, m, q'. rewrite E2, <- app_assoc. split; [reflexivity|]. split; [exact Hm0|]. split; [reflexivity|].
  unfold slice. rewrite bl_app. replace (bl p + bl m - bl p) with (bl m) by lia. unfold bl. rewrite !Nat2Z.id, !utf8_text_app.
  rewrite skipn_app, skipn_all, Nat.sub_diag. cbn [skipn app]. rewrite firstn_app, firstn_all, Nat.sub_diag. apply app_nil_r.
Qed.
Print Assumptions C64_wellformed_text_partial.
Example C64_example : exists r st' ev, scan_text demo true (X86 W128) (sstate0 demo) (utf8_text [0x61; 0x4E00; 0x301]%N) 80 = Ok (r, st', ev) /\
  cluster_ranges ev = [(1, 6)] /\ slice (utf8_text [0x61; 0x4E00; 0x301]%N) 1 6 = utf8_text [0x4E00; 0x301]%N.
Proof. do 3 eexists. split; [vm_compute; reflexivity|]. split; reflexivity. Qed.
