(** What NFC_QC=No and NFKC_QC=No mean (C118). *)
From Coq Require Import String.
From Verif Require Import Base M_TableGen M_Normalize Spec_Normalize Spec_TableGen Spec_LinkNorm.
Open Scope N_scope.

(** the code point is in no text of the form *)
Definition qc_no_derived (ud : list (fline udline)) (ex : list (fline exline)) (np : list (fline npline)) (form : nform) : Prop :=
  forall ccc step, reads_ccc ud ccc -> reads_step ud (use_compat form) step ->
  forall c, assigns np (qc_prop form) (Some (lit "N")) c -> forall s t, standard_composed ccc step (file_primary ud ex np) s t -> ~ In c t.
