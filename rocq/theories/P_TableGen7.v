(** Quick-check tables from DerivedNormalizationProps.txt. *)
From Coq Require Import Ascii String Permutation Sorted.
From Verif Require Import Base M_Tables M_Normalize M_TableGen Spec_Tables Spec_TableGen Spec_Normalize P_Tables P_TableGen P_TableGen2.
Open Scope N_scope.

Section Files.
Variables (crlf : bool) (ud : list (fline udline)) (ex : list (fline exline)) (np : list (fline npline)).
Hypothesis Hfiles : norm_files_ok ud ex np.
Variable tb : norm_tables.
Hypothesis Hgen : generated_norm crlf ud ex np tb.

Lemma qc_search proj p0 v0 (t : list N) : (forall p v cps m, proj (insert_props p v cps m) = if sel_of p0 v0 p v then insert_all cps (proj m) else proj m) ->
  (forall e, proj (mkNp e [] [] [] [] [] []) = []) -> v0 <> [] ->
  t = proj (load_nprops (load_exclusions (file_text ex_text crlf ex)) (file_text np_text crlf np)) ->
  forall c, binary_search t c = true <-> assigns np p0 (Some v0) c.
Proof.
  intros Hp Hi Hv -> c. destruct Hfiles as [_ [_ [_ Hn]]].
  destruct (qc_set proj p0 v0 crlf np (load_exclusions (file_text ex_text crlf ex)) Hp (Hi _) Hv Hn) as [A B].
  rewrite binary_search_exact by exact A. apply B.
Qed.
Lemma gen_qc form c : qc_file np form c (cp_quick_check tb form c).
Proof.
  destruct Hgen as [s [_ [_ E]]].
  pose proof (qc_search np_nfc_no (lit "NFC_QC") (lit "N") (t_nfc_no tb) sel_nfc_no ltac:(reflexivity) ltac:(discriminate) ltac:(rewrite E; reflexivity) c) as C1.
  pose proof (qc_search np_nfc_maybe (lit "NFC_QC") (lit "M") (t_nfc_maybe tb) sel_nfc_maybe ltac:(reflexivity) ltac:(discriminate) ltac:(rewrite E; reflexivity) c) as C2.
  pose proof (qc_search np_nfkc_no (lit "NFKC_QC") (lit "N") (t_nfkc_no tb) sel_nfkc_no ltac:(reflexivity) ltac:(discriminate) ltac:(rewrite E; reflexivity) c) as C3.
  pose proof (qc_search np_nfkc_maybe (lit "NFKC_QC") (lit "M") (t_nfkc_maybe tb) sel_nfkc_maybe ltac:(reflexivity) ltac:(discriminate) ltac:(rewrite E; reflexivity) c) as C4.
  pose proof (qc_search np_nfd_no (lit "NFD_QC") (lit "N") (t_nfd_no tb) sel_nfd_no ltac:(reflexivity) ltac:(discriminate) ltac:(rewrite E; reflexivity) c) as C5.
  pose proof (qc_search np_nfkd_no (lit "NFKD_QC") (lit "N") (t_nfkd_no tb) sel_nfkd_no ltac:(reflexivity) ltac:(discriminate) ltac:(rewrite E; reflexivity) c) as C6.
  unfold cp_quick_check, nfc_quick_check, nfd_quick_check, nfkc_quick_check, nfkd_quick_check, qc_file, qc_prop. destruct form.
  - destruct (binary_search (t_nfc_no tb) c); [apply C1; reflexivity|]. destruct (binary_search (t_nfc_maybe tb) c).
    + split; [rewrite <- C1; discriminate|split; [apply C2; reflexivity|auto]].
    + split; [rewrite <- C1; discriminate|]. rewrite <- C2. discriminate.
  - destruct (binary_search (t_nfd_no tb) c); cbn [negb]; [apply C5; reflexivity|]. split; [rewrite <- C5; discriminate|auto].
  - destruct (binary_search (t_nfkc_no tb) c); [apply C3; reflexivity|]. destruct (binary_search (t_nfkc_maybe tb) c).
    + split; [rewrite <- C3; discriminate|split; [apply C4; reflexivity|auto]].
    + split; [rewrite <- C3; discriminate|]. rewrite <- C4. discriminate.
  - destruct (binary_search (t_nfkd_no tb) c); cbn [negb]; [apply C6; reflexivity|]. split; [rewrite <- C6; discriminate|auto].
Qed.
End Files.
Lemma qc_file_fun np form c v v' : qc_file np form c v -> qc_file np form c v' -> v = v'.
Proof.
  destruct v, v'; cbn [qc_file]; intros H G; try reflexivity; exfalso; destruct form; intuition discriminate.
Qed.
