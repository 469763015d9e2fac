(** C34, exactly: the columns announced to the receiver exceed the column count by one for every 7-bit character to which
    the next character attaches. *)
From Verif Require Import Base Spec_Utf M_Utf8 M_Convert M_AsciiScan M_Ucd M_Grapheme Spec_Grapheme M_Width Spec_Width M_Scan Spec_Scan P_Scan2 P_Scan4 Spec_ScanCols P_ScanCols
  Ucd_Demo T_Grapheme T_Width T_Scan.
Open Scope Z_scope.

Theorem C34_columns_exact_partial : forall u, ucd_grapheme_ok u -> ucd_width_ok u -> ucd_scan_ok u -> p_gcb (u 0x7F%N) = GControl ->
  forall uchar i st t max, scalars t -> 0 <= max -> d_exp (s_utf8 st) = 0%N -> s_hint st = 0%N -> s_next st = None ->
  exists r st' ev xs ys, scan_text u uchar i st (utf8_text t) max = Ok (r, st', ev) /\
    t = xs ++ ys /\ r_end r = Z.of_nat (length (utf8_text xs)) /\ announced ev = r_count r + attachments u xs.
Proof.
  intros u OK WOK SOK DEL uchar i st t max Hs Hm Hd Hh Hn.
  destruct (scan_text_cols u OK WOK SOK DEL uchar i st t max Hs Hm Hd Hh (or_introl Hn)) as (r & st' & ev & xs & ys & E & []).
  exists r, st', ev, xs, ys. auto.
Qed.
Print Assumptions C34_columns_exact_partial.

Example C34_exact_demo : p_gcb (demo 0x7F%N) = GControl /\ attachments demo [0x65; 0x301; 0x301; 0x61; 0x4E00; 0x301]%N = 1 /\
  exists r st' ev, scan_text demo true (X86 W128) (sstate0 demo) (utf8_text [0x65; 0x301; 0x301; 0x61; 0x4E00; 0x301]%N) 80 = Ok (r, st', ev) /\
    ev = [EAscii 0 1; ECluster 1 5 1; EAscii 5 6; ECluster 6 11 2] /\ r_count r = 4 /\ announced ev = 5.
Proof. split; [reflexivity|]. split; [reflexivity|]. do 3 eexists. vm_compute. repeat split; reflexivity. Qed.
