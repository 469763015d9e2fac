(** C63, exactly: what is counted when the same text comes in two buffers. *)
From Verif Require Import Base Spec_Utf M_Utf8 P_Utf8 M_Convert M_AsciiScan M_Ucd M_Grapheme M_Width
  Spec_Grapheme P_Grapheme Spec_Width P_Width M_Scan Spec_Scan P_ScanCuts Spec_ScanCut P_ScanCut2 Ucd_Demo.
Open Scope Z_scope.

(** For every cut position the two counts add up to the count of one call plus the columns by which the piece that was open at the
    cut falls, while the second buffer completes it, below the width it had at the cut. *)
Theorem C63_exact_partial : forall u, ucd_grapheme_ok u -> ucd_width_ok u -> widths_le2 u -> ucd_scan_ok u ->
  forall uchar i t k max, scalars t -> Forall plain_text t -> t <> [] -> 2 * Z.of_nat (length t) < max -> (k <= length (utf8_text t))%nat ->
  exists r st ev r1 st1 ev1 r2 st2 ev2 cl pieces t1 t2 l a b rr x,
    scan_text u uchar i (sstate0 u) (utf8_text t) max = Ok (r, st, ev) /\
    scan_text u uchar i (sstate0 u) (firstn k (utf8_text t)) max = Ok (r1, st1, ev1) /\
    scan_text u uchar i (next_buffer st1) (skipn k (utf8_text t)) max = Ok (r2, st2, ev2) /\
    grapheme_clusters u t = Ok cl /\ partition_of t pieces /\
    (forall j, cut_at pieces j <-> cut_at cl j \/ exists p c d q, t = p ++ c :: d :: q /\ j = S (length p) /\
       ((d < 0x80)%N \/ (p <> [] /\ p_gcb (u c) = GRI /\ p_gcb (u d) = GRI))) /\
    complete_before t k t1 t2 (fun s => length (utf8_text s)) /\
    pieces = l ++ (a ++ b) :: rr /\ t1 = concat l ++ a /\ falls_back u a b x /\
    r_count r1 + r_count r2 = r_count r + x /\ same_memory st2 st.
Proof.
  intros u GOK OK HW SOK uchar i t k max Hs Ht Hne Hm Hk.
  destruct (counts_cut u uchar i t k max GOK OK HW SOK Hs Ht Hne Hm Hk) as (r & st & ev & r1 & st1 & ev1 & r2 & st2 & ev2 & t1 & t2 & l & a & b & rr & x & E & E1 & E2 & CB & C1 & C2 & C3 & C4 & C5).
  exists r, st, ev, r1, st1, ev1, r2, st2, ev2, (clusters_of u t), (terms_of u t), t1, t2, l, a, b, rr, x.
  split; [exact E|]. split; [exact E1|]. split; [exact E2|]. split; [apply grapheme_clusters_eq|]. split; [apply terms_partition|].
  split; [intros j; apply terms_cuts, GOK|]. split; [exact CB|]. split; [exact C1|]. split; [symmetry; exact C2|]. auto.
Qed.
(** In particular no column is ever lost at a buffer boundary. *)
Theorem C63_never_less_partial : forall u, ucd_grapheme_ok u -> ucd_width_ok u -> widths_le2 u -> ucd_scan_ok u ->
  forall uchar i t k max, scalars t -> Forall plain_text t -> 2 * Z.of_nat (length t) < max -> (k <= length (utf8_text t))%nat ->
  forall r st ev r1 st1 ev1 r2 st2 ev2,
    scan_text u uchar i (sstate0 u) (utf8_text t) max = Ok (r, st, ev) ->
    scan_text u uchar i (sstate0 u) (firstn k (utf8_text t)) max = Ok (r1, st1, ev1) ->
    scan_text u uchar i (next_buffer st1) (skipn k (utf8_text t)) max = Ok (r2, st2, ev2) ->
    r_count r <= r_count r1 + r_count r2.
Proof.
  intros u GOK OK HW SOK uchar i t k max Hs Ht Hm Hk r st ev r1 st1 ev1 r2 st2 ev2 F F1 F2.
  destruct t as [|c0 t0] eqn:Q.
  { cbn [utf8_text flat_map] in *. rewrite firstn_nil in F1. rewrite skipn_nil in F2. rewrite F in F1. injection F1 as <- <- _.
    cbn in F. injection F as <- <- _. cbn in F2. injection F2 as <- _ _. cbn. lia. }
  rewrite <- Q in *. assert (Hne : t <> []) by congruence.
  destruct (counts_cut u uchar i t k max GOK OK HW SOK Hs Ht Hne Hm Hk) as (r' & st' & ev' & r1' & st1' & ev1' & r2' & st2' & ev2' & t1 & t2 & l & a & b & rr & x & E & E1 & E2 & CB & C1 & C2 & C3 & C4 & C5).
  rewrite F in E. injection E as <- <- <-. rewrite F1 in E1. injection E1 as <- <- <-. rewrite F2 in E2. injection E2 as <- <- <-.
  assert (Hx : 0 <= x) by (destruct C3 as [_ C3]; specialize (C3 O); cbn [firstn] in C3; rewrite app_nil_r in C3; lia). lia.
Qed.
Print Assumptions C63_exact_partial.
Print Assumptions C63_never_less_partial.
(** U+231A is two columns wide, U+231A U+FE0E one: cut between them (after 3 bytes), the excess is 1; not cut, or cut in front, 0. *)
Example C63_exact_demo : let u := demo in
  (falls_back u [0x231A]%N [0xFE0E]%N 1) /\ (falls_back u nil [0x231A; 0xFE0E]%N 0) /\ (falls_back u [0x231A; 0xFE0E]%N nil 0) /\
  complete_before [0x231A; 0xFE0E]%N 4 [0x231A]%N [0xFE0E]%N (fun s => length (utf8_text s)).
Proof.
  cbv zeta. split; [|split; [|split]].
  - split; [exists 1%nat; reflexivity|]. intros [|k]; [vm_compute; discriminate|]. cbn [firstn]. rewrite firstn_nil. vm_compute. discriminate.
  - split; [exists O; reflexivity|]. intros [|[|k]]; [vm_compute; discriminate|vm_compute; discriminate|]. cbn [firstn]. rewrite firstn_nil. vm_compute. discriminate.
  - split; [exists O; reflexivity|]. intros k. rewrite firstn_nil, app_nil_r. lia.
  - split; [reflexivity|]. split; [vm_compute; lia|]. intros c q H. injection H as <- <-. vm_compute. lia.
Qed.
