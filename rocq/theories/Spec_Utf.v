(** What UTF-8 and UTF-16 are, independent of the library's code.
    Source: The Unicode Standard, chapter 3.9 (definitions D76, D91, D92; tables 3-5, 3-6 and 3-7). *)
From Verif Require Import Base.
Open Scope N_scope.

(** D76: Unicode scalar value. *)
Definition scalar (c : N) : Prop := c < 0xD800 \/ (0xE000 <= c /\ c <= 0x10FFFF).
Definition scalarb (c : N) : bool := (c <? 0xD800) || ((0xE000 <=? c) && (c <=? 0x10FFFF)).

(** Table 3-6: the bytes of a code point. *)
Definition utf8 (c : N) : list N :=
  if c <? 0x80 then [c]
  else if c <? 0x800 then [0xC0 + c / 64; 0x80 + c mod 64]
  else if c <? 0x10000 then [0xE0 + c / 4096; 0x80 + c / 64 mod 64; 0x80 + c mod 64]
  else [0xF0 + c / 262144; 0x80 + c / 4096 mod 64; 0x80 + c / 64 mod 64; 0x80 + c mod 64].
Definition utf8_text (t : list N) : list N := flat_map utf8 t.

(** A byte string is well-formed UTF-8 iff it is the encoding of a scalar sequence. *)
Definition scalars (t : list N) : Prop := Forall scalar t.
Definition wellformed8 (bs : list N) : Prop := exists t, scalars t /\ bs = utf8_text t.

(** Table 3-7: well-formed UTF-8 byte sequences, row by row. *)
Definition rng (lo hi b : N) : Prop := lo <= b <= hi.
Definition table_3_7 (bs : list N) : Prop :=
  match bs with
  | [b1] => rng 0x00 0x7F b1
  | [b1; b2] => rng 0xC2 0xDF b1 /\ rng 0x80 0xBF b2
  | [b1; b2; b3] =>
      (b1 = 0xE0 /\ rng 0xA0 0xBF b2 /\ rng 0x80 0xBF b3)
      \/ (rng 0xE1 0xEC b1 /\ rng 0x80 0xBF b2 /\ rng 0x80 0xBF b3)
      \/ (b1 = 0xED /\ rng 0x80 0x9F b2 /\ rng 0x80 0xBF b3)
      \/ (rng 0xEE 0xEF b1 /\ rng 0x80 0xBF b2 /\ rng 0x80 0xBF b3)
  | [b1; b2; b3; b4] =>
      (b1 = 0xF0 /\ rng 0x90 0xBF b2 /\ rng 0x80 0xBF b3 /\ rng 0x80 0xBF b4)
      \/ (rng 0xF1 0xF3 b1 /\ rng 0x80 0xBF b2 /\ rng 0x80 0xBF b3 /\ rng 0x80 0xBF b4)
      \/ (b1 = 0xF4 /\ rng 0x80 0x8F b2 /\ rng 0x80 0xBF b3 /\ rng 0x80 0xBF b4)
  | _ => False
  end.

(** Table 3-5: the UTF-16 units of a scalar value. *)
Definition utf16 (c : N) : list N :=
  if c <? 0x10000 then [c] else [0xD800 + (c - 0x10000) / 1024; 0xDC00 + (c - 0x10000) mod 1024].
Definition utf16_text (t : list N) : list N := flat_map utf16 t.

(** Lexicographic comparison of number sequences (code point order / byte order). *)
Fixpoint lex (a b : list N) : comparison :=
  match a, b with
  | [], [] => Eq
  | [], _ :: _ => Lt
  | _ :: _, [] => Gt
  | x :: a', y :: b' => match x ?= y with Eq => lex a' b' | c => c end
  end.

(** Element types of text: char (UTF-8), char16_t, char32_t, wchar_t.  [TW true]: wchar_t of 2 bytes; [TW false]: of 4 bytes. *)
Inductive elem := T8 | T16 | T32 | TW (narrow : bool).

(** The elements of a scalar value in each encoding form (specification side). *)
Definition units (e : elem) (c : N) : list N :=
  match e with T8 => utf8 c | T16 | TW true => utf16 c | T32 | TW false => [c] end.
Definition text_units (e : elem) (t : list N) : list N := flat_map (units e) t.


(** The loose form from_utf8 accepts: a lead byte and the announced number of non-lead bytes. *)
Definition nonlead (b : N) : Prop := b < 0xC0 \/ 0xF8 <= b.
Definition fold6 (v : N) (bs : list N) : N := fold_left (fun a b => a * 64 + b mod 64) bs v.
Definition loose (seq : list N) (v : N) : Prop :=
  match seq with
  | [] => False
  | l :: conts =>
      (l < 0x80 /\ conts = [] /\ v = l)
      \/ (0xC0 <= l < 0xE0 /\ length conts = 1%nat /\ Forall nonlead conts /\ v = fold6 (l mod 32) conts)
      \/ (0xE0 <= l < 0xF0 /\ length conts = 2%nat /\ Forall nonlead conts /\ v = fold6 (l mod 16) conts)
      \/ (0xF0 <= l < 0xF8 /\ length conts = 3%nat /\ Forall nonlead conts /\ v = fold6 (l mod 8) conts)
  end.


(** Specification: printable ASCII and the longest prefix made of it. *)
Definition printable (b : N) : Prop := 0x20 <= b /\ b < 0x80.
Definition exact_prefix (text : list N) (limit n : nat) : Prop :=
  (n <= Nat.min (length text) limit)%nat /\ Forall printable (firstn n text) /\
  (n = Nat.min (length text) limit \/ exists b, nth_error text n = Some b /\ ~ printable b).


(** Sign bits of the lanes of a byte vector, lane 0 in bit 0. *)
Fixpoint movemask (v : list N) : N := match v with [] => 0 | b :: v' => (if 128 <=? b then 1 else 0) + 2 * movemask v' end.

