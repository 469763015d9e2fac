(** C137: the tables in case_normalization_data.h are those of the files; the functions that search them follow the files. *)
From Coq Require Import Ascii String Permutation Sorted Lia.
From Verif Require Import Base M_Normalize M_Case M_TableGen M_Emit Spec_Tables Spec_TableGen Spec_Case Spec_Normalize Spec_Cpp Spec_Emit Spec_LinkNorm Spec_EmitFiles2
  P_TableGen2 P_TableGen3 P_TableGen4 P_TableGen6 P_Case T_TableGen T_LinkNorm T_Emit.
Open Scope N_scope.

(** at most 0x110000 different code points *)
Lemma points_few (l : list N) : NoDup l -> Forall (fun c => c <= 0x10FFFF) l -> N.of_nat (length l) < 2 ^ 64.
Proof.
  intros Nd H. assert (L : (length (map N.to_nat l) <= length (seq 0 (N.to_nat 0x110000)))%nat).
  { apply NoDup_incl_length.
    - clear H. induction Nd as [|x l Hx Nd IH]; cbn [map]; constructor; [|exact IH]. intros K. apply in_map_iff in K as (y & E & Hy). apply N2Nat.inj in E. subst y. exact (Hx Hy).
    - intros k Hk. apply in_map_iff in Hk as (x & <- & Hx). rewrite Forall_forall in H. specialize (H x Hx). apply in_seq. lia. }
  rewrite map_length, seq_length in L. apply N.le_lt_trans with 0x110000; [|reflexivity]. lia.
Qed.
Lemma sorted_nodup {A} (k : A -> N) l : strictly_sorted k l -> NoDup (map k l).
Proof.
  induction 1 as [|x l Hs IH Hx]; cbn [map]; constructor; [|exact IH]. intros H. apply in_map_iff in H as (y & E & Hy). rewrite Forall_forall in Hx. specialize (Hx y Hy). cbv beta in Hx. lia.
Qed.
Lemma sorted_few {A} (k : A -> N) l : strictly_sorted k l -> (forall x, In x l -> k x <= 0x10FFFF) -> countable l.
Proof.
  intros S H. unfold countable. rewrite <- (map_length k). apply points_few; [now apply sorted_nodup|]. apply Forall_map, Forall_forall. exact H.
Qed.
Lemma cp_fits c : cp_ok c -> cp32 c.
Proof. intros H. unfold cp32. apply N.le_lt_trans with 0x10FFFF; [exact H|reflexivity]. Qed.
Lemma cps_fit l : Forall cp_ok l -> Forall cp32 l.
Proof. apply Forall_impl. exact cp_fits. Qed.
Lemma set_ok (l : list N) : strictly_sorted (fun x => x) l -> (forall c, In c l -> cp_ok c) -> set_fits l.
Proof. intros S H. split; [exact (sorted_few (fun x => x) l S H)|]. apply Forall_forall. intros c Hc. apply cp_fits, H, Hc. Qed.
Lemma covers_ok r c : span_ok r -> covers r c -> cp_ok c.
Proof. destruct r as [a|a b]; cbn; unfold cp_ok; lia. Qed.

Section Files.
Variables (crlf : bool) (ud : list (fline udline)) (sc : list (fline scline)) (cf : list (fline cfline)) (ex : list (fline exline)) (np : list (fline npline)).
Hypothesis Hc : case_files_ok ud sc cf.
Hypothesis Hn : norm_files_ok ud ex np.
Variable tbc : case_tables.
Hypothesis Gc : generated_case crlf ud sc cf tbc.
Variable tbn : norm_tables.
Hypothesis Gn : generated_norm crlf ud ex np tbn.
Hypothesis Hlong : forall u t l, has ud u -> ul_dec u = Some (t, l) -> (length l <= 255)%nat.

Lemma ud_has u : has ud u -> ud_ok u.
Proof. intros H. exact (proj1 Hc (Data u) H). Qed.
Lemma simple_values k c s : file_simple ud cf k c s -> cp_ok c /\ cp_ok s.
Proof.
  destruct k; cbn [file_simple]; intros H.
  4: { destruct H as (l & Hl & <- & _ & Em). destruct (cf_has ud sc cf Hc l Hl) as (A & B & _). rewrite Em in B. split; [exact A|]. exact (Forall_inv B). }
  all: destruct H as (u & Hu & <- & E); destruct (ud_has u Hu) as (A & _ & _ & _ & U & L & T); split; [exact A|].
  all: first [rewrite E in U; exact U|rewrite E in L; exact L|rewrite E in T; exact T].
Qed.
Lemma simple_ok k : pairs_fit (simple_table tbc k) /\ ((forall s, ~ file_simple ud cf k 0x5C s) -> Forall (fun e => fst e <> 0x5C) (simple_table tbc k)).
Proof.
  destruct (simple_in crlf ud sc cf Hc tbc Gc k) as [S I]. split; [split|].
  - apply (sorted_few fst); [exact S|]. intros [c s] H. apply I in H. exact (proj1 (simple_values k c s H)).
  - apply Forall_forall. intros [c s] H. apply I in H. destruct (simple_values k c s H) as [A B]. cbn [fst snd]. split; now apply cp_fits.
  - intros Hb. apply Forall_forall. intros [c s] H E. apply I in H. cbn [fst] in E. subst c. exact (Hb s H).
Qed.
Lemma special_values k c m : file_special sc cf k c m -> cp_ok c /\ Forall cp_ok m /\ (length m <= 3)%nat.
Proof.
  destruct k; cbn [file_special]; intros H.
  4: { destruct H as (l & Hl & <- & _ & <-). destruct (cf_has ud sc cf Hc l Hl) as (A & B & L). split; [exact A|]. split; [exact B|]. destruct (cf_status l); lia. }
  all: destruct H as (s & Hs & <- & _ & <-); destruct (sc_has ud sc cf Hc s Hs) as (A & B & (L1 & L2 & L3) & _); apply Forall_app in B as [B1 B2]; apply Forall_app in B2 as [B2 B3]; auto.
Qed.
Lemma full_ok k : maps_fit 3 (full_table tbc k).
Proof.
  destruct (full_in crlf ud sc cf Hc tbc Gc k) as [S I]. split.
  - apply (sorted_few fst); [exact S|]. intros [c m] H. apply I in H. destruct H as [H _]. exact (proj1 (special_values k c m H)).
  - apply Forall_forall. intros [c m] H. apply I in H. destruct H as [H _]. destruct (special_values k c m H) as (A & B & L). cbn [fst snd].
    split; [now apply cp_fits|]. split; [now apply cps_fit|exact L].
Qed.
Lemma case_fit : case_fits tbc.
Proof.
  split; [exact (proj1 (simple_ok Upper))|]. split; [exact (proj1 (simple_ok Lower))|]. split; [exact (proj1 (simple_ok Title))|]. split; [exact (proj1 (simple_ok Fold))|].
  split; [exact (full_ok Upper)|]. split; [exact (full_ok Lower)|]. split; [exact (full_ok Title)|exact (full_ok Fold)].
Qed.
Lemma dec_values u t l : has ud u -> ul_dec u = Some (t, l) -> Forall cp_ok l.
Proof. intros Hu E. destruct (ud_has u Hu) as (_ & _ & _ & D & _). rewrite E in D. apply D. Qed.
Lemma qc_ok proj p0 v0 excl :
  (forall p v cps m, proj (insert_props p v cps m) = if sel_of p0 v0 p v then insert_all cps (proj m) else proj m) ->
  proj (np0 excl) = [] -> v0 <> [] -> set_fits (proj (load_nprops excl (Spec_TableGen.file_text np_text crlf np))).
Proof.
  intros P Z V. destruct Hn as (_ & _ & _ & Ok). destruct (qc_set proj p0 v0 crlf np excl P Z V Ok) as [S I]. apply set_ok; [exact S|].
  intros c H. apply I in H. destruct H as (n & Hl & _ & _ & Hcv). apply (covers_ok (nl_span n)); [|exact Hcv]. exact (proj1 (Ok (Data n) Hl)).
Qed.
Lemma comp_values a b c : composite ud ex np a b c -> cp_ok a /\ cp_ok b /\ cp_ok c.
Proof.
  intros ((u & Hu & <- & E) & _). pose proof (dec_values u _ _ Hu E) as F. inversion_clear F as [|? ? A F']. inversion_clear F' as [|? ? B _]. split; [exact A|]. split; [exact B|exact (proj1 (ud_has u Hu))].
Qed.
Lemma comp_nodup (m : list (N * N * N)) : NoDup m -> (forall a b c, In (a, b, c) m -> composite ud ex np a b c) -> NoDup (map snd m).
Proof.
  induction m as [|[[x y] z] m IH]; intros Hd Hq; cbn [map snd]; constructor; inversion_clear Hd as [|? ? M1 M2].
  - intros K. apply in_map_iff in K as ([[x' y'] z'] & Ec & K). cbn [snd] in Ec. subst z'. apply M1.
    assert (H1 := Hq x y z (or_introl eq_refl)). assert (H2 := Hq x' y' z (or_intror K)).
    destruct H1 as ((u & Hu & U1 & U2) & _), H2 as ((v & Hv & V1 & V2) & _). rewrite <- V1 in U1.
    pose proof (proj1 (proj2 Hn) u v Hu Hv U1) as ->. rewrite U2 in V2. injection V2 as <- <-. exact K.
  - apply IH; [exact M2|]. intros a' b' c' H. apply Hq. now right.
Qed.
Lemma norm_fit : norm_fits tbn.
Proof.
  destruct Gn as (sorted & Hp & Hss & E). pose proof Hn as (_ & Uq & Okx & Okn).
  destruct (write_ccc_table crlf ud ex np Hn) as [S1 I1]. destruct (canon_table crlf ud ex np Hn) as [S2 I2]. destruct (compat_table crlf ud ex np Hn) as [S3 I3].
  assert (Q := tcomp_in crlf ud ex np Hn tbn Gn). rewrite E in Q |- *.
  unfold norm_fits. cbn [gen_norm t_ccc t_canon t_compat t_comp t_excl t_nfc_no t_nfc_maybe t_nfkc_no t_nfkc_maybe t_nfd_no t_nfkd_no] in Q |- *.
  split. { apply (sorted_few fst); [exact S1|]. intros [c v] H. apply I1 in H as (u & Hu & <- & _). exact (proj1 (ud_has u Hu)). }
  split. { apply Forall_forall. intros [c v] H. apply I1 in H as (u & Hu & <- & <- & _). destruct (ud_has u Hu) as (A & B & _). cbn [fst snd]. split; [now apply cp_fits|lia]. }
  split. { split; [apply (sorted_few fst); [exact S2|]; intros [c v] H; apply I2 in H as (u & Hu & <- & _); exact (proj1 (ud_has u Hu))|].
           apply Forall_forall. intros [c l] H. apply I2 in H as (u & Hu & <- & Ed). cbn [fst snd]. split; [apply cp_fits; exact (proj1 (ud_has u Hu))|].
           split; [apply cps_fit; exact (dec_values u _ _ Hu Ed)|exact (Hlong u _ _ Hu Ed)]. }
  split. { split; [apply (sorted_few fst); [exact S3|]; intros [c v] H; apply I3 in H as (u & t & Hu & <- & _); exact (proj1 (ud_has u Hu))|].
           apply Forall_forall. intros [c l] H. apply I3 in H as (u & t & Hu & <- & Ed). cbn [fst snd]. split; [apply cp_fits; exact (proj1 (ud_has u Hu))|].
           split; [apply cps_fit; exact (dec_values u _ _ Hu Ed)|exact (Hlong u _ _ Hu Ed)]. }
  split. { unfold countable. rewrite <- (map_length snd). apply points_few.
           - assert (Nd : NoDup sorted) by (apply (Permutation_NoDup (Permutation_sym Hp)), compositions_nodup; exact Hn).
             apply (comp_nodup sorted Nd). intros a b c H. apply Q. exact H.
           - apply Forall_map, Forall_forall. intros [[a b] c] H. apply Q in H. exact (proj2 (proj2 (comp_values a b c H))). }
  split. { apply Forall_forall. intros [[a b] c] H. apply Q in H. destruct (comp_values a b c H) as (A & B & C). cbn [fst snd]. split; [now apply cp_fits|]. split; now apply cp_fits. }
  split. { destruct (excl_set crlf ex np Okx Okn) as [S I]. apply set_ok; [exact S|]. intros c H. apply I in H. destruct H as [(e & He & Hcv)|(n & Hl & _ & _ & Hcv)].
           - exact (covers_ok _ _ (Okx (Data e) He) Hcv). - exact (covers_ok _ _ (proj1 (Okn (Data n) Hl)) Hcv). }
  split; [apply (qc_ok np_nfc_no (lit "NFC_QC") (lit "N")); [exact sel_nfc_no|reflexivity|discriminate]|].
  split; [apply (qc_ok np_nfc_maybe (lit "NFC_QC") (lit "M")); [exact sel_nfc_maybe|reflexivity|discriminate]|].
  split; [apply (qc_ok np_nfkc_no (lit "NFKC_QC") (lit "N")); [exact sel_nfkc_no|reflexivity|discriminate]|].
  split; [apply (qc_ok np_nfkc_maybe (lit "NFKC_QC") (lit "M")); [exact sel_nfkc_maybe|reflexivity|discriminate]|].
  split; [apply (qc_ok np_nfd_no (lit "NFD_QC") (lit "N")); [exact sel_nfd_no|reflexivity|discriminate]|].
  apply (qc_ok np_nfkd_no (lit "NFKD_QC") (lit "N")); [exact sel_nfkd_no|reflexivity|discriminate].
Qed.
End Files.

Lemma header_tables crlf ud sc cf ex np text : case_files_ok ud sc cf -> norm_files_ok ud ex np -> printable_data ud cf -> header_for crlf ud sc cf ex np text ->
  exists tbc tbn, generated_case crlf ud sc cf tbc /\ generated_norm crlf ud ex np tbn /\ case_tables_in text tbc /\ norm_tables_in text tbn.
Proof.
  intros Hc Hn [Hl Hb] (sorted & Hp & Hs & ->).
  set (d := load_unicode_data (Spec_TableGen.file_text ud_text crlf ud)) in *. set (sp := load_special_casing d (Spec_TableGen.file_text sc_text crlf sc)).
  set (fold := load_case_folding (Spec_TableGen.file_text cf_text crlf cf)). set (p := load_nprops (load_exclusions (Spec_TableGen.file_text ex_text crlf ex)) (Spec_TableGen.file_text np_text crlf np)) in *.
  assert (Gc : generated_case crlf ud sc cf (gen_case d sp fold)) by reflexivity.
  assert (Gn : generated_norm crlf ud ex np (gen_norm d p sorted)) by (exists sorted; split; [exact Hp|]; split; [exact Hs|reflexivity]).
  exists (gen_case d sp fold), (gen_norm d p sorted). split; [exact Gc|]. split; [exact Gn|].
  apply C130_text_denotes_partial.
  - exact (case_fit crlf ud sc cf Hc _ Gc).
  - exact (norm_fit crlf ud sc cf ex np Hc Hn _ Gn Hl).
  - destruct (ccc_table crlf ud ex np Hn) as [_ I]. apply Forall_forall. intros [c v] H. apply I in H as (u & Hu & _ & E). unfold ccc_entry in E.
    destruct (ul_ccc u =? 0); [discriminate|]. injection E as <-. cbn [snd]. lia.
  - intros m Hm. cbn [In] in Hm. destruct Hm as [<-|[<-|[<-|[<-|[]]]]].
    + exact (proj2 (simple_ok crlf ud sc cf Hc _ Gc Upper) (Hb Upper)).
    + exact (proj2 (simple_ok crlf ud sc cf Hc _ Gc Lower) (Hb Lower)).
    + exact (proj2 (simple_ok crlf ud sc cf Hc _ Gc Title) (Hb Title)).
    + exact (proj2 (simple_ok crlf ud sc cf Hc _ Gc Fold) (Hb Fold)).
Qed.

(** C137.  The arrays of the header, read by a compiler, are tables with which every text is converted as UnicodeData.txt, SpecialCasing.txt and
    CaseFolding.txt say. *)
Theorem C137_case_conversion : forall crlf ud sc cf ex np text, case_files_ok ud sc cf -> norm_files_ok ud ex np -> printable_data ud cf -> ascii_agrees ud cf ->
  header_for crlf ud sc cf ex np text ->
  exists tb, case_tables_in text tb /\ forall k,
    (forall c s, simple_of tb k c = s <-> file_simple_map ud cf k c s) /\
    (forall c, exists m, full_of tb k c = Ok m /\ file_map ud sc cf k c (emit c m)) /\
    (forall t, exists rs, convert_of tb k t = Ok (concat rs) /\ Forall2 (file_map ud sc cf k) t rs).
Proof.
  intros crlf ud sc cf ex np text Hc Hn Hp Ha Ht. destruct (header_tables crlf ud sc cf ex np text Hc Hn Hp Ht) as (tbc & tbn & Gc & _ & Tc & _).
  exists tbc. split; [exact Tc|]. intros k. destruct (C73_case_tables crlf ud sc cf tbc Hc Ha Gc) as [_ K]. destruct (K k) as (A & B & C & _). auto.
Qed.
(** C137.  ... and with which texts are decomposed as section 3.11 of the Standard prescribes for the data in UnicodeData.txt, and quick-checked as
    DerivedNormalizationProps.txt says. *)
Theorem C137_decomposition : forall crlf ud sc cf ex np text, case_files_ok ud sc cf -> norm_files_ok ud ex np -> printable_data ud cf -> norm_data_ok ud ex np ->
  header_for crlf ud sc cf ex np text ->
  exists tb, norm_tables_in text tb /\ (forall form c v, cp_quick_check tb form c = v <-> qc_file np form c v) /\
    forall form, decomposing form -> forall ccc step, reads_ccc ud ccc -> reads_step ud (use_compat form) step ->
    forall s, (exists r, normalizes tb form s r) /\ forall r, normalizes tb form s r <-> standard_decomposed ccc step s r.
Proof.
  intros crlf ud sc cf ex np text Hc Hn Hp Hd Ht. destruct (header_tables crlf ud sc cf ex np text Hc Hn Hp Ht) as (tbc & tbn & _ & Gn & _ & Tn).
  exists tbn. split; [exact Tn|]. split; [exact (C71_quick_check crlf ud ex np tbn Hn Gn)|exact (C118_decomposed crlf ud ex np tbn Hn Hd Gn)].
Qed.
(** C137.  ... and with which two characters compose exactly to the primary composites of the files, and texts compose as C118 says. *)
Theorem C137_composition : forall crlf ud sc cf ex np text, case_files_ok ud sc cf -> norm_files_ok ud ex np -> printable_data ud cf -> norm_data_ok ud ex np ->
  exclusions_derived ud ex np -> composites_unique ud ex np -> composites_plain ud ex np -> no_11A7 ud -> header_for crlf ud sc cf ex np text ->
  exists tb, norm_tables_in text tb /\
    (forall a b c, is_hangul_l_jamo a = false -> is_hangul_syllable a = false -> c <> 0 -> (try_compose tb a b = c <-> composite ud ex np a b c)) /\
    forall formC, composing formC -> forall ccc step, reads_ccc ud ccc -> reads_step ud (use_compat formC) step ->
    forall s, ~ In 0x11A7 s -> exists t, standard_composed ccc step (file_primary ud ex np) s t /\
      (forall t', standard_composed ccc step (file_primary ud ex np) s t' -> t' = t) /\ normalizes tb formC s (behind ccc [] t) /\
      (normalizes tb formC s t <-> exists marks starters, t = marks ++ starters /\ Forall (fun x => ccc x <> 0) marks /\ Forall (fun x => ccc x = 0) starters).
Proof.
  intros crlf ud sc cf ex np text Hc Hn Hp Hd Hx Hu Hpl H7 Ht. destruct (header_tables crlf ud sc cf ex np text Hc Hn Hp Ht) as (tbc & tbn & _ & Gn & _ & Tn).
  exists tbn. split; [exact Tn|]. split; [exact (proj2 (proj2 (C72_unicode_data crlf ud ex np tbn Hn Gn)) Hu)|].
  exact (C118_composed_partial crlf ud ex np tbn Hn Hd Hx Hu Hpl H7 Gn).
Qed.
Print Assumptions C137_composition.

(** ** The hypotheses are satisfiable *)
From Verif Require Import TableGen_Demo.
Lemma header_exists crlf ud sc cf ex np : exists text, header_for crlf ud sc cf ex np text.
Proof. destruct (C118_builds crlf ud ex np) as (tb & sorted & Hp & Hs & _). eexists. exists sorted. split; [exact Hp|]. split; [exact Hs|reflexivity]. Qed.
Definition printableb (ud : list (fline udline)) (cf : list (fline cfline)) : bool :=
  forallb (fun u => match ul_dec u with Some (_, l) => (length l <=? 255)%nat | None => true end &&
                    (negb (ul_cp u =? 0x5C) || match ul_upper u, ul_lower u, ul_title u with None, None, None => true | _, _, _ => false end)) (datas ud) &&
  forallb (fun l => negb (cf_cp l =? 0x5C)) (datas cf).
Lemma printableb_ok ud cf : printableb ud cf = true -> printable_data ud cf.
Proof.
  intros H. apply andb_true_iff in H as [H1 H2]. rewrite forallb_forall in H1, H2. split.
  - intros u t l Hu E. apply datas_in in Hu. specialize (H1 u Hu). rewrite E in H1. apply andb_true_iff in H1 as [H1 _]. now apply Nat.leb_le.
  - intros k s H. destruct k; cbn [file_simple] in H.
    4: { destruct H as (l & Hl & E & _). apply datas_in in Hl. specialize (H2 l Hl). rewrite E in H2. discriminate H2. }
    all: destruct H as (u & Hu & E & Em); apply datas_in in Hu; specialize (H1 u Hu); apply andb_true_iff in H1 as [_ H1]; rewrite E, Em in H1; cbn [negb orb N.eqb Pos.eqb] in H1;
      try discriminate H1; destruct (ul_upper u); try discriminate H1; destruct (ul_lower u); discriminate H1.
Qed.
Example C137_case_hypotheses : case_files_ok udc_demo sc_demo cf_demo /\ norm_files_ok udc_demo [] [] /\ printable_data udc_demo cf_demo /\ ascii_agrees udc_demo cf_demo /\
  exists text, header_for true udc_demo sc_demo cf_demo [] [] text.
Proof.
  split; [exact case_demo_ok|]. split; [split; [exact (proj1 case_demo_ok)|]; split; [exact (proj1 (proj2 case_demo_ok))|]; split; intros l []|].
  split; [apply printableb_ok; vm_compute; reflexivity|]. split; [exact case_demo_ascii|apply header_exists].
Qed.
Example C137_norm_hypotheses : case_files_ok ud_demo sc_demo cf_demo /\ norm_files_ok ud_demo ex_demo np_link /\ printable_data ud_demo cf_demo /\ norm_data_ok ud_demo ex_demo np_link /\
  exclusions_derived ud_demo ex_demo np_link /\ composites_unique ud_demo ex_demo np_link /\ composites_plain ud_demo ex_demo np_link /\ no_11A7 ud_demo /\
  exists text, header_for true ud_demo sc_demo cf_demo ex_demo np_link text.
Proof.
  split. { destruct case_demo_ok as (_ & _ & H). split; [exact (proj1 link_ok)|]. split; [exact (proj1 (proj2 link_ok))|exact H]. }
  split; [exact link_ok|]. split; [apply printableb_ok; vm_compute; reflexivity|]. split; [exact link_data|]. split; [exact link_derived|]. split; [exact link_unique|].
  split; [exact link_plain|]. split; [exact link_11A7|apply header_exists].
Qed.
