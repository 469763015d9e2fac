(** C113, C114.  scan_text with a column limit: how much it takes, and how the next line goes on. *)
From Verif Require Import Base Spec_Utf M_Utf8 P_Utf8 M_Convert M_AsciiScan M_Ucd M_Grapheme M_Width
  Spec_Grapheme P_Grapheme Spec_Width P_Width M_Scan Spec_Scan P_Scan P_Scan2 P_Scan3 P_Scan4 P_Scan5 P_Scan6 P_ScanCuts P_ScanCut2 Spec_ScanLimit P_ScanLimit P_ScanLimit2 Spec_ScanLines P_ScanLimit3
  Ucd_Demo T_Grapheme T_Width T_Scan.
Open Scope Z_scope.
Local Ltac tx := repeat (apply Forall_cons; [first [unfold scalar; lia | split; [lia|discriminate] | lia | vm_compute; discriminate]|]); apply Forall_nil.

(** C113.  "The call takes the longest run of whole grapheme clusters that fits": not so. *)
Definition C113_statement : Prop := forall u, ucd_grapheme_ok u -> ucd_width_ok u -> widths_le2 u -> ucd_scan_ok u ->
  forall uchar i t max r st ev cl, scalars t -> Forall plain_text t -> 0 <= max -> grapheme_clusters u t = Ok cl ->
  scan_text u uchar i (sstate0 u) (utf8_text t) max = Ok (r, st, ev) ->
  exists l rest, cl = l ++ rest /\ r_end r = Z.of_nat (length (utf8_text (concat l))).
(** An accent is left behind when the letter under it fills the line. *)
Theorem C113_whole_clusters_refuted : ~ C113_statement.
Proof.
  intros H. destruct (scan_text demo true (X86 W128) (sstate0 demo) (utf8_text [0x65; 0x301]%N) 1) as [[[r st'] ev]| |] eqn:E; try (vm_compute in E; discriminate).
  destruct (grapheme_clusters demo [0x65; 0x301]%N) as [cl| |] eqn:EC; try (vm_compute in EC; discriminate).
  destruct (H demo demo_ok demo_width_ok demo_le2 demo_scan_ok true (X86 W128) [0x65; 0x301]%N 1 r st' ev cl) as (l & rest & H1 & H2); auto.
  - tx.
  - tx.
  - lia.
  - vm_compute in E. injection E as <- _ _. vm_compute in EC. injection EC as <-. cbn [r_end] in H2.
    destruct l as [|x [|y l]]; [vm_compute in H2; discriminate| |].
    + cbn [app] in H1. injection H1 as <- _. vm_compute in H2. discriminate.
    + cbn [app] in H1. injection H1 as _ H1. discriminate.
Qed.
Definition C113_longest_statement : Prop := forall u, ucd_grapheme_ok u -> ucd_width_ok u -> widths_le2 u -> ucd_scan_ok u ->
  forall uchar i t max r st ev cl, scalars t -> Forall (fun c => (0x80 <= c)%N) t -> 0 <= max -> grapheme_clusters u t = Ok cl ->
  scan_text u uchar i (sstate0 u) (utf8_text t) max = Ok (r, st, ev) -> zsum (map (cluster_width u) cl) <= max -> r_end r = Z.of_nat (length (utf8_text t)).
(** A cluster that becomes narrower with its last character is refused for the width it has before. *)
Theorem C113_longest_refuted : ~ C113_longest_statement.
Proof.
  intros H. destruct (scan_text demo true (X86 W128) (sstate0 demo) (utf8_text [0x231A; 0xFE0E]%N) 1) as [[[r st'] ev]| |] eqn:E; try (vm_compute in E; discriminate).
  destruct (grapheme_clusters demo [0x231A; 0xFE0E]%N) as [cl| |] eqn:EC; try (vm_compute in EC; discriminate).
  assert (W : zsum (map (cluster_width demo) cl) <= 1) by (vm_compute in EC; injection EC as <-; vm_compute; discriminate).
  specialize (H demo demo_ok demo_width_ok demo_le2 demo_scan_ok true (X86 W128) [0x231A; 0xFE0E]%N 1 r st' ev cl).
  assert (X : r_end r = Z.of_nat (length (utf8_text [0x231A; 0xFE0E]%N))).
  { apply H; auto; try lia; tx. }
  vm_compute in E. injection E as <- _ _. vm_compute in X. discriminate.
Qed.
(** What it takes, for every text and every limit: [take], over the clusters cut further before 7-bit characters and between regional
    indicators that are not at the start. *)
Theorem C113_exact_partial : forall u, ucd_grapheme_ok u -> ucd_width_ok u -> ucd_scan_ok u ->
  forall uchar i t tail max, scalars t -> Forall plain_text t -> (tail = [] \/ exists b q, tail = b :: q /\ (c0 b \/ c1 b)) -> Forall byte tail ->
  exists r st ev cl pieces tk n,
    scan_text u uchar i (sstate0 u) (utf8_text t ++ tail) max = Ok (r, st, ev) /\
    grapheme_clusters u t = Ok cl /\ partition_of t pieces /\
    (forall j, cut_at pieces j <-> cut_at cl j \/ exists p c d q, t = p ++ c :: d :: q /\ j = S (length p) /\
       ((d < 0x80)%N \/ (p <> [] /\ p_gcb (u c) = GRI /\ p_gcb (u d) = GRI))) /\
    take u max 0 false pieces = (n, tk) /\ r_count r = n /\ r_start r = 0 /\ r_end r = Z.of_nat (length (utf8_text tk)) /\ s_next st = Some (r_end r) /\
    d_exp (s_utf8 st) = 0%N.
Proof.
  intros u GOK WOK SOK uchar i t tail max Hs Ht Htl Hb.
  pose proof (scan_text_lim u uchar i (sstate0 u) t tail max Htl Hb Hs (plain_text_cp t Ht) eq_refl (or_introl eq_refl)) as L.
  rewrite (lim_terms u max t (mst (sstate0 u)) GOK WOK SOK eq_refl Ht) in L.
  destruct (take u max 0 false (terms_of u t)) as [n tk] eqn:ET. destruct L as (r & st & ev & E & R1 & R2 & R3 & R4 & R5 & _).
  exists r, st, ev, (clusters_of u t), (terms_of u t), tk, n. split; [exact E|]. split; [apply grapheme_clusters_eq|]. split; [apply terms_partition|].
  split; [intros j; apply terms_cuts, GOK|]. split; [exact ET|]. rewrite R3. auto 8.
Qed.
(** In words: some of the pieces are taken, whole, and measured by their widths; or in addition the 7-bit character that begins the next
    piece, without what attaches to it.  If text is left, the line is full or the next piece, while read, becomes wider than the room left. *)
Theorem C113_stop_partial : forall u, ucd_grapheme_ok u -> ucd_width_ok u -> ucd_scan_ok u ->
  forall uchar i t max, scalars t -> Forall plain_text t ->
  exists r st ev cl pieces l rest,
    scan_text u uchar i (sstate0 u) (utf8_text t) max = Ok (r, st, ev) /\
    grapheme_clusters u t = Ok cl /\ partition_of t pieces /\
    (forall j, cut_at pieces j <-> cut_at cl j \/ exists p c d q, t = p ++ c :: d :: q /\ j = S (length p) /\
       ((d < 0x80)%N \/ (p <> [] /\ p_gcb (u c) = GRI /\ p_gcb (u d) = GRI))) /\
    pieces = l ++ rest /\
    ((r_count r = zsum (map (cluster_width u) l) /\ r_end r = Z.of_nat (length (utf8_text (concat l))) /\
      (rest = [] \/ exists p rest', rest = p :: rest' /\ (max <= r_count r \/ exists k, max < r_count r + cluster_width u (firstn k p)))) \/
     (exists c d q rest', rest = (c :: d :: q) :: rest' /\ (c < 0x80)%N /\
      r_count r = zsum (map (cluster_width u) l) + 1 /\ r_end r = Z.of_nat (length (utf8_text (concat l ++ [c]))) /\
      (max <= r_count r \/ exists k, max < zsum (map (cluster_width u) l) + cluster_width u (firstn k (c :: d :: q))))).
Proof.
  intros u GOK WOK SOK uchar i t max Hs Ht.
  pose proof (scan_text_lim u uchar i (sstate0 u) t [] max ltac:(left; reflexivity) ltac:(constructor) Hs (plain_text_cp t Ht) eq_refl (or_introl eq_refl)) as L.
  rewrite (lim_terms u max t (mst (sstate0 u)) GOK WOK SOK eq_refl Ht), app_nil_r in L.
  destruct (take_spec u max (terms_of u t) 0 false (terms_7 u t GOK WOK SOK Ht)) as (l & rest & EP & D).
  assert (NF : forall room p, fits_in u room p = false -> exists k, room < cluster_width u (firstn k p)).
  { intros room p F. unfold fits_in in F. apply forallb_false_ex in F. destruct F as (k & _ & F). exists k. apply Z.leb_gt, F. }
  rewrite Z.add_0_l in D.
  destruct D as [[D1 D2]|(c & d & q & rest' & D1 & D2 & D3 & D4)].
  - rewrite D1 in L. destruct L as (r & st & ev & E & R1 & R2 & R3 & R4 & R5 & _).
    exists r, st, ev, (clusters_of u t), (terms_of u t), l, rest. split; [exact E|]. split; [apply grapheme_clusters_eq|]. split; [apply terms_partition|].
    split; [intros j; apply terms_cuts, GOK|]. split; [exact EP|]. left. split; [exact R1|]. split; [exact R3|].
    destruct D2 as [D2|(p & rest' & D2 & D3)]; [left; exact D2|right]. exists p, rest'. split; [exact D2|]. rewrite R1. destruct D3 as [D3|D3]; [left; exact D3|right].
    destruct (NF _ _ D3) as [k K]. exists k. lia.
  - rewrite D3 in L. destruct L as (r & st & ev & E & R1 & R2 & R3 & R4 & R5 & _).
    exists r, st, ev, (clusters_of u t), (terms_of u t), l, rest. split; [exact E|]. split; [apply grapheme_clusters_eq|]. split; [apply terms_partition|].
    split; [intros j; apply terms_cuts, GOK|]. split; [exact EP|]. right. exists c, d, q, rest'. split; [exact D1|]. split; [exact D2|]. split; [exact R1|]. split; [exact R3|].
    rewrite R1. destruct D4 as [D4|D4]; [left; exact D4|right]. destruct (NF _ _ D4) as [k K]. exists k. lia.
Qed.
Print Assumptions C113_whole_clusters_refuted.
Print Assumptions C113_longest_refuted.
Print Assumptions C113_exact_partial.
Print Assumptions C113_stop_partial.
(** a CJK character and a watch with text presentation, in four columns: the watch fits with its final width 1 and its peak 2 *)
Example C113_demo : take demo 4 0 false [[0x4E00]; [0x231A; 0xFE0E]; [0x61]; [0x62]]%N = (4, [0x4E00; 0x231A; 0xFE0E; 0x61]%N) /\
  take demo 3 0 false [[0x4E00]; [0x231A; 0xFE0E]; [0x61]]%N = (2, [0x4E00]%N) /\ take demo 1 0 false [[0x65; 0x301]]%N = (1, [0x65]%N).
Proof. vm_compute. auto. Qed.

(** C114.  "The next line is measured like a text of its own": not so when a regional indicator did not fit; the state already counts it as
    read. *)
Definition C114_statement : Prop := forall u, ucd_grapheme_ok u -> ucd_width_ok u -> widths_le2 u -> ucd_scan_ok u ->
  forall uchar i t max r st ev rest max2 r1 st1 ev1 r2 st2 ev2, scalars t -> Forall plain_text t -> 0 <= max ->
  scan_text u uchar i (sstate0 u) (utf8_text t) max = Ok (r, st, ev) -> utf8_text rest = skipn (Z.to_nat (r_end r)) (utf8_text t) ->
  scan_text u uchar i (next_buffer st) (utf8_text rest) max2 = Ok (r1, st1, ev1) ->
  scan_text u uchar i (sstate0 u) (utf8_text rest) max2 = Ok (r2, st2, ev2) -> r_count r1 = r_count r2.
Theorem C114_next_line_refuted : ~ C114_statement.
Proof.
  intros H. set (t := [0x4E00; 0x1F1E9; 0x1F1EA]%N). set (rest := [0x1F1E9; 0x1F1EA]%N).
  assert (X : exists r st ev r1 st1 ev1 r2 st2 ev2, scan_text demo true (X86 W128) (sstate0 demo) (utf8_text t) 3 = Ok (r, st, ev) /\
    scan_text demo true (X86 W128) (next_buffer st) (utf8_text rest) 80 = Ok (r1, st1, ev1) /\
    scan_text demo true (X86 W128) (sstate0 demo) (utf8_text rest) 80 = Ok (r2, st2, ev2) /\ r_end r = 3 /\ r_count r1 = 4 /\ r_count r2 = 2).
  { do 9 eexists. split; [vm_compute; reflexivity|]. split; [vm_compute; reflexivity|]. split; [vm_compute; reflexivity|]. split; [reflexivity|]. split; reflexivity. }
  destruct X as (r & st & ev & r1 & st1 & ev1 & r2 & st2 & ev2 & E & E1 & E2 & X1 & X2 & X3).
  assert (S1 : scalars t) by (unfold t; tx). assert (S2 : Forall plain_text t) by (unfold t; tx).
  assert (S3 : utf8_text rest = skipn (Z.to_nat (r_end r)) (utf8_text t)) by (rewrite X1; vm_compute; reflexivity).
  pose proof (H demo demo_ok demo_width_ok demo_le2 demo_scan_ok true (X86 W128) t 3 r st ev rest 80 r1 st1 ev1 r2 st2 ev2 S1 S2 ltac:(lia) E S3 E1 E2) as X. lia.
Qed.
(** It is, after any number of lines, when the line begins with a character that stands alone (7-bit, or like a CJK character). *)
Theorem C114_next_line_partial : forall u, ucd_grapheme_ok u -> ucd_width_ok u -> ucd_scan_ok u ->
  forall uchar i st c q tail max, between_lines u uchar i st -> stands_alone u c -> scalars (c :: q) -> Forall plain_text (c :: q) ->
  (tail = [] \/ exists b q', tail = b :: q' /\ (c0 b \/ c1 b)) -> Forall byte tail ->
  exists r1 st1 ev1 r2 st2 ev2,
    scan_text u uchar i st (utf8_text (c :: q) ++ tail) max = Ok (r1, st1, ev1) /\
    scan_text u uchar i (sstate0 u) (utf8_text (c :: q) ++ tail) max = Ok (r2, st2, ev2) /\
    r_count r1 = r_count r2 /\ r_start r1 = r_start r2 /\ r_end r1 = r_end r2 /\ s_next st1 = s_next st2.
Proof.
  intros u GOK WOK SOK uchar i st c q tail max HB HA Hs Ht Htl Hb. destruct (lines_G u uchar i st GOK HB) as (HG & Hd & Hn).
  pose proof (scan_text_lim u uchar i st (c :: q) tail max Htl Hb Hs (plain_text_cp _ Ht) Hd (or_introl Hn)) as L.
  pose proof (scan_text_lim u uchar i (sstate0 u) (c :: q) tail max Htl Hb Hs (plain_text_cp _ Ht) eq_refl (or_introl eq_refl)) as L2.
  rewrite (lim_terms u max _ (mst (sstate0 u)) GOK WOK SOK eq_refl Ht) in L2. rewrite (lim_resume u max (mst st) c q GOK WOK SOK HG HA Ht) in L.
  destruct (take u max 0 false (terms_of u (c :: q))) as [n tk]. destruct L as (r1 & st1 & ev1 & E1 & A1 & A2 & A3 & A4 & _). destruct L2 as (r2 & st2 & ev2 & E2 & B1 & B2 & B3 & B4 & _).
  exists r1, st1, ev1, r2, st2, ev2. split; [exact E1|]. split; [exact E2|]. repeat split; congruence.
Qed.
Print Assumptions C114_next_line_refuted.
Print Assumptions C114_next_line_partial.
Example C114_demo : stands_alone demo 0x4E00 /\ exists st, between_lines demo true (X86 W128) st /\ s_hint st = 0x4E01%N.
Proof.
  split; [right; vm_compute; auto|].
  destruct (scan_text demo true (X86 W128) (sstate0 demo) (utf8_text [0x4E00; 0x4E01]%N) 3) as [[[r st] ev]| |] eqn:E; try (vm_compute in E; discriminate).
  exists (next_buffer st). split.
  - eapply after_line; [apply before_first| | | |exact E]; tx.
  - vm_compute in E. injection E as _ <- _. reflexivity.
Qed.
