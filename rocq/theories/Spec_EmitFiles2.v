(** case_normalization_data.h and the files it was generated from (C137). *)
From Coq Require Import String Permutation.
From Verif Require Import Base M_TableGen M_Normalize M_Case M_Emit Spec_TableGen Spec_Cpp Spec_Emit.
Open Scope N_scope.

(** [text] is a case_normalization_data.h the generator may print for the files; std::sort may leave the compositions in any sorted order *)
Definition header_for (crlf : bool) (ud : list (fline udline)) (sc : list (fline scline)) (cf : list (fline cfline)) (ex : list (fline exline)) (np : list (fline npline)) (text : str) : Prop :=
  let d := load_unicode_data (file_text ud_text crlf ud) in
  let p := load_nprops (load_exclusions (file_text ex_text crlf ex)) (file_text np_text crlf np) in
  exists sorted, Permutation sorted (compositions (d_dec d) (np_excl p)) /\ std_sorted sorted /\
    text = case_norm_text d (load_special_casing d (file_text sc_text crlf sc)) (load_case_folding (file_text cf_text crlf cf)) p sorted.
(** no decomposition of more than 255 code points, no simple case mapping of the backslash (see C130) *)
Definition printable_data (ud : list (fline udline)) (cf : list (fline cfline)) : Prop :=
  (forall u t l, has ud u -> ul_dec u = Some (t, l) -> (length l <= 255)%nat) /\ forall k s, ~ file_simple ud cf k 0x5C s.
