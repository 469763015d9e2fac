(** The iterator interface of grapheme_segmenter and word_segmenter. *)
From Verif Require Import Base M_Ucd M_Grapheme M_Word.

(** "for (; seg; ++seg) use( *seg)", with grapheme_segmenter.h:91 operator bool (= codepointsAvailable); the values used.
    The C++ loop has no bound; [fuel] does. *)
Fixpoint seg_while (u : ucd) (fuel : nat) (s : gseg) : Res (list (list N)) :=
  if seg_available s then
    match fuel with
    | O => NoFuel
    | S f => do l <- seg_while u f (seg_next u s); Ok (seg_value s :: l)
    end
  else Ok [].
(** The same with word_segmenter.h:102 operator bool. *)
Fixpoint wseg_while (u : ucd) (fuel : nat) (s : wseg) : Res (list (list N)) :=
  if wseg_available s then
    match fuel with
    | O => NoFuel
    | S f => do l <- wseg_while u f (wseg_next u s); Ok (wseg_value s :: l)
    end
  else Ok [].

(** grapheme_segmenter.h:93-96 operator==; [b] and [b'] are the addresses of the two texts (in code points). *)
Definition seg_equal (b : nat) (s : gseg) (b' : nat) (s' : gseg) : bool :=
  (negb (seg_available s) && negb (seg_available s'))
  || (((b + sg_left s =? b' + sg_left s') && (b + sg_right s =? b' + sg_right s'))%nat).
(** word_segmenter.h:107-110 operator== *)
Definition wseg_equal (b : nat) (s : wseg) (b' : nat) (s' : wseg) : bool :=
  (negb (wseg_available s) && negb (wseg_available s'))
  || (((b + ws_left s =? b' + ws_left s') && (b + ws_right s =? b' + ws_right s'))%nat).
(** grapheme_segmenter.h:68, word_segmenter.h:73: default construction, an empty text at the null pointer *)
Definition seg_default (u : ucd) : gseg := seg_make u [].
Definition wseg_default (u : ucd) : wseg := wseg_make u [].
(** "for (it = begin; it != grapheme_segmenter {}; ++it) use( *it)" on a text at address [b] *)
Fixpoint seg_until_end (u : ucd) (b : nat) (fuel : nat) (s : gseg) : Res (list (list N)) :=
  if seg_equal b s 0 (seg_default u) then Ok []
  else match fuel with
       | O => NoFuel
       | S f => do l <- seg_until_end u b f (seg_next u s); Ok (seg_value s :: l)
       end.
Fixpoint wseg_until_end (u : ucd) (b : nat) (fuel : nat) (s : wseg) : Res (list (list N)) :=
  if wseg_equal b s 0 (wseg_default u) then Ok []
  else match fuel with
       | O => NoFuel
       | S f => do l <- wseg_until_end u b f (wseg_next u s); Ok (wseg_value s :: l)
       end.
(** word_segmenter.h:104-105 empty and size *)
Definition wseg_size (s : wseg) : nat := ws_right s - ws_left s.
Definition wseg_empty (s : wseg) : bool := (wseg_size s =? 0)%nat.
(** [n] increments *)
Fixpoint seg_advance (u : ucd) (n : nat) (s : gseg) : gseg := match n with O => s | S k => seg_advance u k (seg_next u s) end.
Fixpoint wseg_advance (u : ucd) (n : nat) (s : wseg) : wseg := match n with O => s | S k => wseg_advance u k (wseg_next u s) end.
