(** Model of the convenience functions of src/libunicode/normalization.h: one form, UTF-32 and UTF-8 overloads. *)
From Verif Require Import Base M_Convert M_Normalize M_NormUtf8.
Open Scope N_scope.

Section Tables.
Variable tb : norm_tables.
(** to_nfc / to_nfd / to_nfkc / to_nfkd on std::u32string_view, normalization.h:98-120 *)
Definition to_nfc (fuel : nat) (text : list N) : Res (list N) := normalize tb fuel text NFC.
Definition to_nfd (fuel : nat) (text : list N) : Res (list N) := normalize tb fuel text NFD.
Definition to_nfkc (fuel : nat) (text : list N) : Res (list N) := normalize tb fuel text NFKC.
Definition to_nfkd (fuel : nat) (text : list N) : Res (list N) := normalize tb fuel text NFKD.
(** is_nfc / is_nfd / is_nfkc / is_nfkd on std::u32string_view, normalization.h:163-178 *)
Definition is_nfc (fuel : nat) (text : list N) : Res bool := is_normalized tb fuel text NFC.
Definition is_nfd (fuel : nat) (text : list N) : Res bool := is_normalized tb fuel text NFD.
Definition is_nfkc (fuel : nat) (text : list N) : Res bool := is_normalized tb fuel text NFKC.
Definition is_nfkd (fuel : nat) (text : list N) : Res bool := is_normalized tb fuel text NFKD.
(** build configuration, selects the SIMD code of convert_to<char32_t> *)
Variable i : impl.
(** to_nfc / to_nfd / to_nfkc / to_nfkd on std::string_view, normalization.h:122-144 *)
Definition to_nfc8 (fuel : nat) (text : list N) : Res (list N) := normalize8 tb i fuel text NFC.
Definition to_nfd8 (fuel : nat) (text : list N) : Res (list N) := normalize8 tb i fuel text NFD.
Definition to_nfkc8 (fuel : nat) (text : list N) : Res (list N) := normalize8 tb i fuel text NFKC.
Definition to_nfkd8 (fuel : nat) (text : list N) : Res (list N) := normalize8 tb i fuel text NFKD.
(** is_nfc / is_nfd / is_nfkc / is_nfkd on std::string_view, normalization.h:180-195 *)
Definition is_nfc8 (fuel : nat) (text : list N) : Res bool := is_normalized8 tb i fuel text NFC.
Definition is_nfd8 (fuel : nat) (text : list N) : Res bool := is_normalized8 tb i fuel text NFD.
Definition is_nfkc8 (fuel : nat) (text : list N) : Res bool := is_normalized8 tb i fuel text NFKC.
Definition is_nfkd8 (fuel : nat) (text : list N) : Res bool := is_normalized8 tb i fuel text NFKD.
End Tables.
