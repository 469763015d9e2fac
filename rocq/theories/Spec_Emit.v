(** What case_normalization_data.h has to say to the compiler: the arrays normalization.cpp and case_mapping.cpp search. *)
From Coq Require Import String.
From Verif Require Import Base M_TableGen M_Normalize M_Case Spec_Cpp.
Open Scope N_scope.

Definition struct_text (name : str) (bound : nat) (more : str) : str :=
  lit "struct " ++ name ++ lit " { char32_t source; char32_t targets[" ++ numeral bound ++ lit "]; uint8_t length; " ++ more ++ lit "};".
(** an array of source/target pairs; an array of { source, targets[bound], length } *)
Definition simple_in_file (file : str) (name : str) (l : list (N * N)) : Prop :=
  has_table file (Direct false) (lit "std::pair<char32_t, char32_t>") name (read_pair 32) l.
Definition mapping_in_file (file : str) (type name : str) (more : str) (extra bound : nat) (l : list (N * list N)) : Prop :=
  has_table file (Direct false) type name (read_mapping bound extra) l /\ contains_text file (struct_text type bound more).
Definition set_in_file (file : str) (name : str) (l : list N) : Prop := has_table file (Direct false) (lit "char32_t") name (unsigned 32) l.
Definition case_tables_in (file : str) (tb : case_tables) : Prop :=
  simple_in_file file (lit "simple_uppercase_table") (s_upper tb) /\ simple_in_file file (lit "simple_lowercase_table") (s_lower tb) /\
  simple_in_file file (lit "simple_titlecase_table") (s_title tb) /\ simple_in_file file (lit "simple_casefold_table") (s_fold tb) /\
  mapping_in_file file (lit "full_uppercase_entry") (lit "full_uppercase_table") [] 0 3 (f_upper tb) /\
  mapping_in_file file (lit "full_lowercase_entry") (lit "full_lowercase_table") [] 0 3 (f_lower tb) /\
  mapping_in_file file (lit "full_titlecase_entry") (lit "full_titlecase_table") [] 0 3 (f_title tb) /\
  mapping_in_file file (lit "full_casefold_entry") (lit "full_casefold_table") [] 0 3 (f_fold tb).
Definition norm_tables_in (file : str) (tb : norm_tables) : Prop :=
  has_table file (Direct false) (lit "std::pair<char32_t, uint8_t>") (lit "ccc_table") (read_pair 8) (t_ccc tb) /\
  (exists b, mapping_in_file file (lit "canonical_decomposition_entry") (lit "canonical_decomposition_table") [] 0 b (t_canon tb)) /\
  (exists b, mapping_in_file file (lit "compatibility_decomposition_entry") (lit "compatibility_decomposition_table")
               (lit "uint8_t decomp_type; ") 1 b (t_compat tb)) /\
  (has_table file (Direct false) (lit "composition_pair") (lit "composition_table") read_triple (t_comp tb) /\
   contains_text file (lit "struct composition_pair { char32_t first; char32_t second; char32_t composed; };")) /\
  set_in_file file (lit "composition_exclusions_table") (t_excl tb) /\
  set_in_file file (lit "nfc_qc_no_table") (t_nfc_no tb) /\ set_in_file file (lit "nfc_qc_maybe_table") (t_nfc_maybe tb) /\
  set_in_file file (lit "nfkc_qc_no_table") (t_nfkc_no tb) /\ set_in_file file (lit "nfkc_qc_maybe_table") (t_nfkc_maybe tb) /\
  set_in_file file (lit "nfd_qc_no_table") (t_nfd_no tb) /\ set_in_file file (lit "nfkd_qc_no_table") (t_nfkd_no tb).

(** Tables whose numbers fit the types of the arrays: 32-bit code points, at most three targets of a full case mapping, at most 255 of a
    decomposition, fewer than 2^64 entries. *)
Definition cp32 (n : N) : Prop := n < 2 ^ 32.
Definition countable {A} (l : list A) : Prop := N.of_nat (length l) < 2 ^ 64.
Definition pairs_fit (l : list (N * N)) : Prop := countable l /\ Forall (fun e => cp32 (fst e) /\ cp32 (snd e)) l.
Definition maps_fit (k : nat) (l : list (N * list N)) : Prop := countable l /\ Forall (fun e => cp32 (fst e) /\ Forall cp32 (snd e) /\ (length (snd e) <= k)%nat) l.
Definition case_fits (tb : case_tables) : Prop :=
  pairs_fit (s_upper tb) /\ pairs_fit (s_lower tb) /\ pairs_fit (s_title tb) /\ pairs_fit (s_fold tb) /\
  maps_fit 3 (f_upper tb) /\ maps_fit 3 (f_lower tb) /\ maps_fit 3 (f_title tb) /\ maps_fit 3 (f_fold tb).
Definition set_fits (l : list N) : Prop := countable l /\ Forall cp32 l.
Definition norm_fits (tb : norm_tables) : Prop :=
  countable (t_ccc tb) /\ Forall (fun e => cp32 (fst e) /\ snd e < 256) (t_ccc tb) /\
  maps_fit 255 (t_canon tb) /\ maps_fit 255 (t_compat tb) /\
  countable (t_comp tb) /\ Forall (fun e => cp32 (fst (fst e)) /\ cp32 (snd (fst e)) /\ cp32 (snd e)) (t_comp tb) /\
  set_fits (t_excl tb) /\ set_fits (t_nfc_no tb) /\ set_fits (t_nfc_maybe tb) /\ set_fits (t_nfkc_no tb) /\ set_fits (t_nfkc_maybe tb) /\
  set_fits (t_nfd_no tb) /\ set_fits (t_nfkd_no tb).
