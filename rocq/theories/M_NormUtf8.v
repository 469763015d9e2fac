(** Model of the UTF-8 overloads of src/libunicode/normalization.cpp and of utf8_normalizer (normalization.cpp:600-644). *)
From Verif Require Import Base Spec_Utf M_Utf8 M_Convert M_Normalize.
Open Scope N_scope.

Section Tables.
Variable tb : norm_tables.
(** build configuration, selects the SIMD code of convert_to<char32_t> *)
Variable i : impl.

(** normalize(std::string_view), normalization.cpp:363-368 *)
Definition normalize8 (fuel : nat) (text : list N) (form : nform) : Res (list N) :=
  do u <- convert_to false i T32 T8 text ;
  do r <- normalize tb fuel u form ;
  convert_to false i T8 T32 r.
(** quick_check(std::string_view), normalization.cpp:422-426 *)
Definition quick_check8 (text : list N) (form : nform) : Res qc :=
  do u <- convert_to false i T32 T8 text ; Ok (quick_check tb u form).
(** is_normalized(std::string_view), normalization.cpp:441-445 *)
Definition is_normalized8 (fuel : nat) (text : list N) (form : nform) : Res bool :=
  do u <- convert_to false i T32 T8 text ; is_normalized tb fuel u form.
(** is_canonically_equivalent / is_compatibility_equivalent on std::string_view, normalization.cpp:456-459, 466-469 *)
Definition is_canonically_equivalent8 (fuel : nat) (a b : list N) : Res bool :=
  do x <- normalize8 fuel a NFD ; do y <- normalize8 fuel b NFD ; Ok (list_eqb x y).
Definition is_compatibility_equivalent8 (fuel : nat) (a b : list N) : Res bool :=
  do x <- normalize8 fuel a NFKD ; do y <- normalize8 fuel b NFKD ; Ok (list_eqb x y).

(** ** utf8_normalizer.  State: _utf8State and the pending text of _inner.  The returned views into _utf8Output are modelled
    by the returned bytes. *)
Record unorm := UN { u_dec : dstate; u_pending : list N }.
Definition unorm_init : unorm := UN dinit [].
(** the conversion of a segment, normalization.cpp:621-622 and 633-634 *)
Definition encode_segment (segment : list N) : Res (list N) :=
  match segment with [] => Ok [] | _ => convert_it T8 T32 segment end.
(** one round of the loop in feed, normalization.cpp:608-623: new state and the bytes appended to the output *)
Definition ufeed_byte (fuel : nat) (form : nform) (st : unorm) (b : N) : Res (list N * unorm) :=
  match from_utf8 (u_dec st) b with
  | (d, Incomplete) => Ok ([], UN d (u_pending st))
  | (d, Success cp) =>
      do (seg, p) <- nfeed tb fuel form (u_pending st) cp ; do o <- encode_segment seg ; Ok (o, UN d p)
  | (d, Invalid) =>
      do (seg, p) <- nfeed tb fuel form (u_pending st) 0xFFFD ; do o <- encode_segment seg ; Ok (o, UN d p)
  end.
(** feed, normalization.cpp:604-626 *)
Fixpoint ufeed (fuel : nat) (form : nform) (st : unorm) (bs : list N) : Res (list N * unorm) :=
  match bs with
  | [] => Ok ([], st)
  | b :: r => do (o, st1) <- ufeed_byte fuel form st b ;
              do (o', st2) <- ufeed fuel form st1 r ; Ok (o ++ o', st2)
  end.
(** flush, normalization.cpp:628-637 with normalizer::flush 582-588: the decoder state is not touched *)
Definition uflush (fuel : nat) (form : nform) (st : unorm) : Res (list N * unorm) :=
  do seg <- emit_pending tb fuel form (u_pending st) ; do o <- encode_segment seg ; Ok (o, UN (u_dec st) []).
(** reset, normalization.cpp:639-644 *)
Definition ureset (st : unorm) : unorm := UN dinit [].

(** A caller's history of calls: the outputs, in order. *)
Inductive uop := Feed (bs : list N) | Flush | Reset.
Fixpoint urun (fuel : nat) (form : nform) (st : unorm) (h : list uop) : Res (list (list N) * unorm) :=
  match h with
  | [] => Ok ([], st)
  | Feed bs :: h' => do (o, st1) <- ufeed fuel form st bs ; do (os, st2) <- urun fuel form st1 h' ; Ok (o :: os, st2)
  | Flush :: h' => do (o, st1) <- uflush fuel form st ; do (os, st2) <- urun fuel form st1 h' ; Ok (o :: os, st2)
  | Reset :: h' => do (os, st2) <- urun fuel form (ureset st) h' ; Ok ([] :: os, st2)
  end.
End Tables.
