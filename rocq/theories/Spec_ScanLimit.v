(** How much of a text fits into a line of limited width. *)
From Verif Require Import Base M_Ucd M_Width Spec_Width.
Open Scope Z_scope.

(** The piece [p] never becomes wider than [room] columns while it is read character by character. *)
Definition fits_in (u : ucd) (room : Z) (p : list N) : bool :=
  forallb (fun k => cluster_width u (firstn k p) <=? room) (seq 0 (S (length p))).
Definition starts_7bit (p : list N) : bool := match p with c :: _ => (c <? 0x80)%N | [] => false end.
(** The text is given in pieces; [n] of [max] columns are taken.  Pieces are taken while they fit, with two exceptions: a 7-bit
    character is taken without the characters attached to it when those do not fit or when the line is full with it, and a full line
    takes further pieces only directly behind a character that is not 7-bit ([hi]). *)
Fixpoint take (u : ucd) (max n : Z) (hi : bool) (ps : list (list N)) : Z * list N :=
  match ps with
  | [] => (n, [])
  | p :: ps' =>
      if starts_7bit p then
        if max <=? n then (n, [])
        else match p with
             | [] => (n, [])
             | [c] => let '(n', t) := take u max (n + 1) false ps' in (n', c :: t)
             | c :: _ => if (n + 1 <? max) && fits_in u (max - n) p
                         then let '(n', t) := take u max (n + cluster_width u p) true ps' in (n', p ++ t)
                         else (n + 1, [c])
             end
      else if (negb hi && (max <=? n)) || negb (fits_in u (max - n) p) then (n, [])
      else let '(n', t) := take u max (n + cluster_width u p) true ps' in (n', p ++ t)
  end.
