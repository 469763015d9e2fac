(** Model of src/libunicode/run_segmenter.h: basic_run_segmenter<Segmenter...>. *)
From Verif Require Import Base M_Script M_Emoji.

(** A segmenter is a state [S] with a [next] function, its consume(out position, out property): [None] is the result false.  The
    template's tuple of segmenters of different types is a list over one type [S] (a sum type, see [rseg_state] below), and the tuple of
    properties a list over one type [P].  std::get<Current>(segmenter_), lines 142, looks a segmenter up by its type, which selects the
    I-th one as the types in the pack are distinct (otherwise the program does not compile). *)
Record rseg (S P : Type) := mkRseg {
  r_size : nat;        (* size_ *)
  r_last : nat;        (* lastSplit_ *)
  r_cstart : nat;      (* candidate_.start *)
  r_cend : nat;        (* candidate_.end *)
  r_pos : list nat;    (* positions_ *)
  r_props : list P;    (* properties_ *)
  r_segs : list S      (* segmenter_ *) }.
Arguments mkRseg {S P}. Arguments r_size {S P}. Arguments r_last {S P}. Arguments r_cstart {S P}. Arguments r_cend {S P}.
Arguments r_pos {S P}. Arguments r_props {S P}. Arguments r_segs {S P}.

(** the constructor, run_segmenter.h:88-93, and the member initialisers at 170-174; [d] is a value-initialised property *)
Definition rseg_new {S P} (d : P) (size : nat) (segs : list S) : rseg S P :=
  mkRseg size 0 0 0 (repeat 0%nat (length segs)) (repeat d (length segs)) segs.

Section Consume.
Context {S P : Type} (next : S -> Res (option (nat * P) * S)).

(** the for loop of consumeUntilSplitPosition, run_segmenter.h:155-162 *)
Fixpoint until_loop (fuel : nat) (last : nat) (pos : nat) (prop : P) (s : S) : Res (nat * P * S) :=
  match fuel with
  | O => NoFuel
  | Datatypes.S f =>
      do (o, s') <- next s ;
      match o with
      | None => Ok (pos, prop, s')
      | Some (pos', prop') => if (last <? pos')%nat then Ok (pos', prop', s') else until_loop f last pos' prop' s'
      end
  end.
(** consumeUntilSplitPosition, run_segmenter.h:146-162 *)
Definition until_split (fuel : nat) (size last pos : nat) (prop : P) (s : S) : Res (nat * P * S) :=
  if (last <? pos)%nat then Ok (pos, prop, s)
  else if (size <=? pos)%nat then Ok (pos, prop, s)
  else until_loop fuel last pos prop s.
(** consumeAllUntilSplitPosition, run_segmenter.h:134-143; positions_ and properties_ have one element per segmenter *)
Fixpoint until_all (fuel : nat) (size last : nat) (poss : list nat) (props : list P) (segs : list S) : Res (list nat * list P * list S) :=
  match segs, poss, props with
  | [], _, _ => Ok ([], [], [])
  | s :: segs', p :: poss', q :: props' =>
      do (p', q', s') <- until_split fuel size last p q s ;
      do (ps, qs, ss) <- until_all fuel size last poss' props' segs' ;
      Ok (p' :: ps, q' :: qs, s' :: ss)
  | _, _, _ => UB
  end.
(** *std::min_element, run_segmenter.h:108-110; of an empty array it dereferences the end *)
Definition min_position (l : list nat) : Res nat := match l with [] => UB | a :: r => Ok (fold_left Nat.min r a) end.
(** consume, run_segmenter.h:101-118; the result is the range (start, end, properties) *)
Definition rseg_consume (fuel : nat) (st : rseg S P) : Res (option (nat * nat * list P) * rseg S P) :=
  if (r_size st <=? r_last st)%nat then Ok (None, st)
  else
    do (ps, qs, ss) <- until_all fuel (r_size st) (r_last st) (r_pos st) (r_props st) (r_segs st) ;
    do m <- min_position ps ;
    Ok (Some (r_cend st, m, qs), mkRseg (r_size st) m (r_cend st) m ps qs ss).
(** a user's loop *)
Fixpoint rseg_all (fuel : nat) (calls : nat) (st : rseg S P) : Res (list (nat * nat * list P)) :=
  match calls with
  | O => NoFuel
  | Datatypes.S n =>
      do (o, st') <- rseg_consume fuel st ;
      match o with None => Ok [] | Some r => do rs <- rseg_all fuel n st' ; Ok (r :: rs) end
  end.
End Consume.

(** run_segmenter = basic_run_segmenter<script_segmenter, emoji_segmenter>, run_segmenter.h:177 *)
Inductive rseg_state := RScript (s : sseg) | REmoji (e : eseg).
Inductive rseg_prop := PScript (s : N) | PEmoji (b : bool).
(** script_segmenter.h:56-65 and emoji_segmenter.cpp:117-155; [efuel] bounds the emoji segmenter's inner loop *)
Definition rs_next (tb : script_tables) (efuel : nat) (s : rseg_state) : Res (option (nat * rseg_prop) * rseg_state) :=
  match s with
  | RScript s => do (o, s') <- script_consume tb s ; Ok (match o with None => None | Some (sc, e) => Some (e, PScript sc) end, RScript s')
  | REmoji s => do (o, s') <- eseg_consume efuel s ; Ok (match o with None => None | Some (e, b) => Some (e, PEmoji b) end, REmoji s')
  end.
(** run_segmenter's constructor; [cat] is the EmojiSegmentationCategory of a code point *)
Definition run_segmenter (cat : N -> ecat) (t : list N) : Res (rseg rseg_state rseg_prop) :=
  do e <- eseg_new (map cat t) ;
  Ok (rseg_new (PScript 0%N) (length t) [RScript (sseg_new t); REmoji e]).
(** all runs of a text *)
Definition run_segments (tb : script_tables) (cat : N -> ecat) (efuel fuel calls : nat) (t : list N) : Res (list (nat * nat * list rseg_prop)) :=
  do r <- run_segmenter cat t ; rseg_all (rs_next tb efuel) fuel calls r.
