(** C144, C145: the convenience functions of normalization.h, from the database files. *)
From Coq Require Import String Permutation Sorted.
From Verif Require Import Base Spec_Utf M_Utf8 M_Convert M_Tables M_Normalize M_NormUtf8 M_NormApi Spec_NormApi M_TableGen Spec_Tables Spec_Normalize Spec_TableGen Spec_LinkNorm Spec_NormUtf8
  Spec_Emit Spec_EmitFiles2 P_Order P_Normalize P_Hangul P_TableGen4 P_TableGen5 P_LinkNorm P_NormUtf8 T_Normalize T_NormUtf8 T_TableGen T_LinkNorm T_EmitFiles2.
Open Scope N_scope.

Lemma step_scalars ud k c m : scalar_data ud -> file_step ud k c m -> scalars m.
Proof.
  intros H [(l & v & t & (-> & Hl & Hv & Ht) & ->)|[_ [(u & Hu & _ & ->)|[_ ->]]]]; [| |constructor].
  - assert (S : forall x, x < 0xD800 -> scalar x) by (intros x Hx; unfold scalar; lia).
    apply Forall_app. split; [repeat (constructor; [apply S; lia|]); constructor|].
    destruct (t =? 0); [constructor|]. constructor; [apply S; lia|constructor].
  - unfold line_step. destruct (ul_dec u) as [[ty l]|] eqn:E; [|constructor]. destruct (H u ty l Hu E) as [_ F].
    destruct ty; [destruct k; [exact F|constructor]|exact F].
Qed.
(** tables of such files mention scalar values only *)
Lemma files_scalar crlf ud ex np tb : norm_files_ok ud ex np -> generated_norm crlf ud ex np tb -> scalar_data ud -> scalar_tables tb.
Proof.
  intros Hf Hg H. split.
  - intros c x Hx. assert (S : forall k, scalars (step_of tb k c)) by (intros k; eapply step_scalars; [exact H|apply (lib_step crlf ud ex np tb Hf Hg)]).
    destruct Hx as [Hx|Hx]; [specialize (S false)|specialize (S true)]; unfold step_of, scalars in S; rewrite Forall_forall in S; apply S, Hx.
  - intros a b c Hin. apply (tcomp_in crlf ud ex np Hf tb Hg) in Hin as [(u & Hu & <- & Hd) _]. exact (proj1 (H u _ _ Hu Hd)).
Qed.

Lemma computes_norm tb i form std : scalar_tables tb -> acyclic tb ->
  (forall s r, normalizes tb form s r <-> std s r) -> computes (fun k s => normalize tb k s form) (fun k s => normalize8 tb i k s form) std.
Proof.
  intros Hs Ha H. split; [|split; [|split]].
  - intros s. destruct (C39_normalize_terminates tb Ha form s) as (r & R & _). exists r. exact R.
  - exact H.
  - intros s Hsc. destruct (C39_normalize_terminates tb Ha form s) as (r & R & _). exists (utf8_text r). apply C47_normalize; [exact Hs|exact Hsc|]. exists r. split; [exact R|reflexivity].
  - intros s r8 Hsc. split.
    + intros R. apply (C47_normalize tb i form s r8 Hs Hsc) in R as (r & R & E). exists r. split; [apply H, R|exact E].
    + intros (r & R & E). apply (C47_normalize tb i form s r8 Hs Hsc). exists r. split; [apply H, R|exact E].
Qed.
Lemma decides_norm tb i form P : acyclic tb -> (forall s b, normalized_check tb form s b -> (b = true <-> P s)) ->
  decides (fun k s => is_normalized tb k s form) (fun k s => is_normalized8 tb i k s form) P.
Proof.
  intros Ha H. assert (D : forall s, exists b, normalized_check tb form s b) by (intros s; apply (C43_decided tb Ha form s)). split; [|split; [|split]].
  - intros s. destruct (D s) as (b & B). exists b. split; [exact B|exact (H s b B)].
  - exact H.
  - intros s Hs. destruct (D s) as (b & B). exists b. split; [|exact (H s b B)]. destruct B as (fuel & B). exists fuel. cbv beta. rewrite C47_is_normalized by exact Hs. exact B.
  - intros s b Hs (fuel & B). cbv beta in B. rewrite C47_is_normalized in B by exact Hs. apply H. exists fuel. exact B.
Qed.

(** C144.  From the files through the printed tables: to_nfd and to_nfkd compute the Standard's decomposed forms, on UTF-32 and on UTF-8. *)
Theorem C144_decomposed : forall crlf ud sc cf ex np text, case_files_ok ud sc cf -> norm_files_ok ud ex np -> printable_data ud cf -> norm_data_ok ud ex np ->
  scalar_data ud -> header_for crlf ud sc cf ex np text ->
  exists tb, norm_tables_in text tb /\ forall i ccc canon compat, reads_ccc ud ccc -> reads_step ud false canon -> reads_step ud true compat ->
    computes (to_nfd tb) (to_nfd8 tb i) (standard_decomposed ccc canon) /\ computes (to_nfkd tb) (to_nfkd8 tb i) (standard_decomposed ccc compat).
Proof.
  intros crlf ud sc cf ex np text Hc Hn Hp Hd Hsd Ht. destruct (header_tables crlf ud sc cf ex np text Hc Hn Hp Ht) as (tbc & tb & _ & Gn & _ & Tn).
  exists tb. split; [exact Tn|]. intros i ccc canon compat R1 R2 R3. pose proof (files_scalar crlf ud ex np tb Hn Gn Hsd) as St.
  destruct (data_ready crlf ud ex np Hn tb Gn Hd) as (Ha & _).
  split; (apply computes_norm; [exact St|exact Ha|]); intros s.
  - exact (proj2 (C118_decomposed crlf ud ex np tb Hn Hd Gn NFD (or_introl eq_refl) ccc canon R1 R2 s)).
  - exact (proj2 (C118_decomposed crlf ud ex np tb Hn Hd Gn NFKD (or_intror eq_refl) ccc compat R1 R3 s)).
Qed.
Print Assumptions C144_decomposed.

(** C144.  is_nfd and is_nfkd decide whether the text is its own decomposed form, on UTF-32 and on UTF-8. *)
Theorem C144_decomposed_checks : forall crlf ud sc cf ex np text, case_files_ok ud sc cf -> norm_files_ok ud ex np -> printable_data ud cf -> norm_data_ok ud ex np ->
  qc_decomposed_derived ud np -> header_for crlf ud sc cf ex np text ->
  exists tb, norm_tables_in text tb /\ forall i ccc canon compat, reads_ccc ud ccc -> reads_step ud false canon -> reads_step ud true compat ->
    decides (is_nfd tb) (is_nfd8 tb i) (fun s => standard_decomposed ccc canon s s) /\ decides (is_nfkd tb) (is_nfkd8 tb i) (fun s => standard_decomposed ccc compat s s).
Proof.
  intros crlf ud sc cf ex np text Hc Hn Hp Hd Hq Ht. destruct (header_tables crlf ud sc cf ex np text Hc Hn Hp Ht) as (tbc & tb & _ & Gn & _ & Tn).
  exists tb. split; [exact Tn|]. intros i ccc canon compat R1 R2 R3. destruct (data_ready crlf ud ex np Hn tb Gn Hd) as (Ha & _).
  split; (apply decides_norm; [exact Ha|]); intros s.
  - exact (proj2 (proj2 (C118_decomposed_checks crlf ud ex np tb Hn Hd Hq Gn NFD (or_introl eq_refl) ccc canon R1 R2 s))).
  - exact (proj2 (proj2 (C118_decomposed_checks crlf ud ex np tb Hn Hd Hq Gn NFKD (or_intror eq_refl) ccc compat R1 R3 s))).
Qed.
Print Assumptions C144_decomposed_checks.

(** C144.  The equivalence queries, on UTF-32 and on UTF-8, compare the Standard's decomposed forms. *)
Theorem C144_equivalence : forall crlf ud sc cf ex np text, case_files_ok ud sc cf -> norm_files_ok ud ex np -> printable_data ud cf -> norm_data_ok ud ex np ->
  scalar_data ud -> header_for crlf ud sc cf ex np text ->
  exists tb, norm_tables_in text tb /\ forall i ccc canon compat, reads_ccc ud ccc -> reads_step ud false canon -> reads_step ud true compat -> forall a b,
    let same step := exists n, standard_decomposed ccc step a n /\ standard_decomposed ccc step b n in
    (returns (fun k => is_canonically_equivalent tb k a b) true <-> same canon) /\ (returns (fun k => is_compatibility_equivalent tb k a b) true <-> same compat) /\
    (scalars a -> scalars b ->
       (returns (fun k => is_canonically_equivalent8 tb i k (utf8_text a) (utf8_text b)) true <-> same canon) /\
       (returns (fun k => is_compatibility_equivalent8 tb i k (utf8_text a) (utf8_text b)) true <-> same compat)).
Proof.
  intros crlf ud sc cf ex np text Hc Hn Hp Hd Hsd Ht. destruct (header_tables crlf ud sc cf ex np text Hc Hn Hp Ht) as (tbc & tb & _ & Gn & _ & Tn).
  exists tb. split; [exact Tn|]. intros i ccc canon compat R1 R2 R3 a b. cbv zeta. pose proof (files_scalar crlf ud ex np tb Hn Gn Hsd) as St.
  destruct (C118_equivalent crlf ud ex np tb Hn Hd Gn ccc canon compat R1 R2 R3 a b) as [E1 E2]. split; [exact E1|]. split; [exact E2|].
  intros Sa Sb. unfold canon_equiv, compat_equiv in E1, E2. split; [rewrite <- E1|rewrite <- E2]; unfold returns; split; intros (fuel & H); exists fuel;
    destruct (C47_equivalence tb i fuel a b St Sa Sb) as [X Y]; first [rewrite X in H; exact H|rewrite Y in H; exact H|rewrite X; exact H|rewrite Y; exact H].
Qed.
Print Assumptions C144_equivalence.

(** C145.  to_nfc and to_nfkc terminate and compute the Standard's composed form with every starter written behind the marks that follow it
    (C118_composed_partial), on UTF-32 and on UTF-8 texts without U+11A7. *)
Theorem C145_composed_partial : forall crlf ud sc cf ex np text, case_files_ok ud sc cf -> norm_files_ok ud ex np -> printable_data ud cf -> norm_data_ok ud ex np ->
  exclusions_derived ud ex np -> composites_unique ud ex np -> composites_plain ud ex np -> no_11A7 ud -> scalar_data ud -> header_for crlf ud sc cf ex np text ->
  exists tb, norm_tables_in text tb /\ forall i ccc canon compat, reads_ccc ud ccc -> reads_step ud false canon -> reads_step ud true compat ->
    forall s, ~ In 0x11A7 s ->
    (forall r, returns (fun k => to_nfc tb k s) r <-> exists t, standard_composed ccc canon (file_primary ud ex np) s t /\ r = behind ccc [] t) /\
    (forall r, returns (fun k => to_nfkc tb k s) r <-> exists t, standard_composed ccc compat (file_primary ud ex np) s t /\ r = behind ccc [] t) /\
    (scalars s ->
      (forall r8, returns (fun k => to_nfc8 tb i k (utf8_text s)) r8 <-> exists t, standard_composed ccc canon (file_primary ud ex np) s t /\ r8 = utf8_text (behind ccc [] t)) /\
      (forall r8, returns (fun k => to_nfkc8 tb i k (utf8_text s)) r8 <-> exists t, standard_composed ccc compat (file_primary ud ex np) s t /\ r8 = utf8_text (behind ccc [] t))).
Proof.
  intros crlf ud sc cf ex np text Hc Hn Hp Hd Hx Hu Hpl H7 Hsd Ht. destruct (header_tables crlf ud sc cf ex np text Hc Hn Hp Ht) as (tbc & tb & _ & Gn & _ & Tn).
  exists tb. split; [exact Tn|]. intros i ccc canon compat R1 R2 R3 s Hs7. pose proof (files_scalar crlf ud ex np tb Hn Gn Hsd) as St.
  assert (K : forall form step, composing form -> reads_step ud (use_compat form) step ->
    (forall r, normalizes tb form s r <-> exists t, standard_composed ccc step (file_primary ud ex np) s t /\ r = behind ccc [] t)).
  { intros form step Hf Rs r. destruct (C118_composed_partial crlf ud ex np tb Hn Hd Hx Hu Hpl H7 Gn form Hf ccc step R1 Rs s Hs7) as (t & T & U & B & _). split.
    - intros R. exists t. split; [exact T|]. exact (normalizes_det tb form s _ _ R B).
    - intros (t' & T' & ->). rewrite (U t' T'). exact B. }
  pose proof (K NFC canon (or_introl eq_refl) R2) as K1. pose proof (K NFKC compat (or_intror eq_refl) R3) as K2.
  split; [exact K1|]. split; [exact K2|]. intros Hsc.
  split; intros r8; (etransitivity; [exact (C47_normalize tb i _ s r8 St Hsc)|]).
  - split; [intros (r & R & ->); apply K1 in R as (t & T & ->); exists t; auto|intros (t & T & ->); exists (behind ccc [] t); split; [apply K1; exists t; auto|reflexivity]].
  - split; [intros (r & R & ->); apply K2 in R as (t & T & ->); exists t; auto|intros (t & T & ->); exists (behind ccc [] t); split; [apply K2; exists t; auto|reflexivity]].
Qed.
Print Assumptions C145_composed_partial.

(** ** The hypotheses are satisfiable, with UCD lines *)
From Verif Require Import TableGen_Demo.
Definition scalarb (c : N) : bool := (c <? 0xD800) || ((0xDFFF <? c) && (c <=? 0x10FFFF)).
Definition scalar_datab (ud : list (fline udline)) : bool :=
  forallb (fun u => match ul_dec u with Some (_, l) => scalarb (ul_cp u) && forallb scalarb l | None => true end) (datas ud).
Lemma scalarb_ok c : scalarb c = true -> scalar c.
Proof. unfold scalarb, scalar. lia. Qed.
Lemma scalar_datab_ok ud : scalar_datab ud = true -> scalar_data ud.
Proof.
  intros H u t l Hu E. unfold scalar_datab in H. rewrite forallb_forall in H. apply datas_in in Hu. specialize (H u Hu). rewrite E in H.
  apply andb_true_iff in H as [A B]. split; [exact (scalarb_ok _ A)|]. apply Forall_forall. rewrite forallb_forall in B. intros x Hx. apply scalarb_ok, B, Hx.
Qed.
Example C144_C145_hypotheses : case_files_ok ud_demo sc_demo cf_demo /\ norm_files_ok ud_demo ex_demo np_link /\ printable_data ud_demo cf_demo /\ norm_data_ok ud_demo ex_demo np_link /\
  qc_decomposed_derived ud_demo np_link /\ exclusions_derived ud_demo ex_demo np_link /\ composites_unique ud_demo ex_demo np_link /\ composites_plain ud_demo ex_demo np_link /\
  no_11A7 ud_demo /\ scalar_data ud_demo /\ exists text, header_for true ud_demo sc_demo cf_demo ex_demo np_link text.
Proof.
  destruct C137_norm_hypotheses as (A & B & C & D & E & F & G & H & I). repeat (split; [assumption|]). split; [exact link_qc_decomposed|].
  repeat (split; [assumption|]). split; [apply scalar_datab_ok; vm_compute; reflexivity|exact I].
Qed.
(** U+00C5 as UTF-8, decomposed and composed again; it is in NFC and not in NFD *)
Example C144_demo : to_nfd8 tb_demo NoSimd 5 [0xC3; 0x85] = Ok [0x41; 0xCC; 0x8A] /\ to_nfc8 tb_demo NoSimd 5 [0x41; 0xCC; 0x8A] = Ok [0xC3; 0x85] /\
  is_nfd8 tb_demo NoSimd 5 [0xC3; 0x85] = Ok false /\ to_nfkd tb_demo 5 [0xFB00] = Ok [0x66; 0x66] /\ to_nfd tb_demo 5 [0xFB00] = Ok [0xFB00].
Proof. repeat split; vm_compute; reflexivity. Qed.
