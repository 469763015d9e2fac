(** Where the streaming normalizer may return output. *)
From Verif Require Import Base M_Tables M_Normalize Spec_Normalize.
Open Scope N_scope.

(** A code point of combining class 0 that, for a composing form, is not listed in the form's quick-check tables
    (neither No nor Maybe). *)
Definition flush_point (tb : norm_tables) (form : nform) (c : N) : Prop :=
  canonical_combining_class tb c = 0 /\
  (form = NFC -> binary_search (t_nfc_no tb) c = false /\ binary_search (t_nfc_maybe tb) c = false) /\
  (form = NFKC -> binary_search (t_nfkc_no tb) c = false /\ binary_search (t_nfkc_maybe tb) c = false).
