(** Model of src/libunicode/emoji_presentation_scanner.c (the generated scanner) and emoji_segmenter.{h,cpp}. *)
From Verif Require Import Base.
Require Import ZArith.
Open Scope Z_scope.

(** EmojiSegmentationCategory, emoji_segmenter.h:31-50 *)
Inductive ecat := EInvalid | EEmoji | ETextPres | EEmojiPres | EModBase | EModifier | EVSBase | ERegional | EKeycapBase
  | EKeycap | EBackslash | EZwj | EVs15 | EVs16 | ETagBase | ETagSeq | ETagTerm.
Definition ecode (c : ecat) : Z :=
  match c with
  | EInvalid => -1 | EEmoji => 0 | ETextPres => 1 | EEmojiPres => 2 | EModBase => 3 | EModifier => 4 | EVSBase => 5 | ERegional => 6
  | EKeycapBase => 7 | EKeycap => 8 | EBackslash => 9 | EZwj => 10 | EVs15 => 11 | EVs16 => 12 | ETagBase => 13 | ETagSeq => 14 | ETagTerm => 15
  end.

(** the tables, emoji_presentation_scanner.c:24-97, verbatim *)
Definition t_actions : list Z := [0; 1; 0; 1; 1; 1; 5; 1; 6; 1; 7; 1; 8; 1; 9; 1; 10; 1; 11; 2; 2; 3; 2; 2; 4].
Definition t_key_offsets : list Z := [0; 5; 7; 14; 18; 20; 21; 24; 29; 30; 34; 36].
Definition t_trans_keys : list Z :=
  [3; 7; 13; 0; 2; 14; 15; 2; 3; 6; 7; 13; 0; 1; 9; 10; 11; 12; 10; 12; 10; 4; 10; 12; 4; 9; 10; 11; 12; 6; 9; 10; 11; 12; 8; 10; 9; 10; 11; 12; 14; 0].
Definition t_single_lengths : list Z := [3; 2; 5; 4; 2; 1; 3; 5; 1; 4; 2; 5].
Definition t_range_lengths : list Z := [1; 0; 1; 0; 0; 0; 0; 0; 0; 0; 0; 0].
Definition t_index_offsets : list Z := [0; 5; 8; 15; 20; 23; 25; 29; 35; 37; 42; 45].
Definition t_indicies : list Z :=
  [2; 1; 1; 1; 0; 4; 5; 3; 7; 8; 10; 11; 12; 6; 9; 5; 13; 14; 15; 0; 13; 15; 16; 13; 16; 15; 13; 15; 16; 15; 5; 13;
   14; 15; 16; 5; 17; 5; 13; 14; 18; 17; 5; 13; 16; 5; 13; 14; 15; 4; 16; 0].
Definition t_trans_targs : list Z := [2; 4; 6; 2; 1; 2; 3; 3; 7; 2; 8; 9; 11; 0; 2; 5; 2; 2; 10].
Definition t_trans_actions : list Z := [17; 19; 19; 15; 0; 7; 22; 19; 19; 9; 0; 22; 19; 0; 5; 19; 11; 13; 19].
Definition t_eof_trans : list Z := [1; 4; 0; 1; 17; 17; 17; 17; 18; 18; 17; 17].
Definition e_start : Z := 2.

(** reading a table; outside of it is undefined *)
Definition at_z (l : list Z) (i : Z) : Res Z :=
  if i <? 0 then UB else match nth_error l (Z.to_nat i) with Some x => Ok x | None => UB end.

(** the binary search over single keys, emoji_presentation_scanner.c:154-174: [Some i] is _mid - _keys *)
Fixpoint search_single (fuel : nat) (keys lower upper c : Z) : Res (option Z) :=
  match fuel with
  | O => NoFuel
  | S f =>
      if upper <? lower then Ok None
      else
        let mid := lower + Z.shiftr (upper - lower) 1 in
        do k <- at_z t_trans_keys mid ;
        if c <? k then search_single f keys lower (mid - 1) c
        else if c >? k then search_single f keys (mid + 1) upper c
        else Ok (Some (mid - keys))
  end.
(** the binary search over key ranges, emoji_presentation_scanner.c:176-196 *)
Fixpoint search_range (fuel : nat) (keys lower upper c : Z) : Res (option Z) :=
  match fuel with
  | O => NoFuel
  | S f =>
      if upper <? lower then Ok None
      else
        let mid := lower + Z.land (Z.shiftr (upper - lower) 1) (Z.lnot 1) in
        do k0 <- at_z t_trans_keys mid ;
        if c <? k0 then search_range f keys lower (mid - 2) c
        else do k1 <- at_z t_trans_keys (mid + 1) ;
             if c >? k1 then search_range f keys (mid + 2) upper c
             else Ok (Some (Z.shiftr (mid - keys) 1))
  end.
(** from _resume to _match, emoji_presentation_scanner.c:150-199: the transition taken in state [cs] on [c] *)
Definition find_trans (cs c : Z) : Res Z :=
  do keys <- at_z t_key_offsets cs ;
  do trans <- at_z t_index_offsets cs ;
  do klen <- at_z t_single_lengths cs ;
  do r1 <- (if 0 <? klen then search_single 20 keys keys (keys + klen - 1) c else Ok None) ;
  match r1 with
  | Some i => at_z t_indicies (trans + i)
  | None =>
      let keys := keys + (if 0 <? klen then klen else 0) in
      let trans := trans + (if 0 <? klen then klen else 0) in
      do klen <- at_z t_range_lengths cs ;
      do r2 <- (if 0 <? klen then search_range 20 keys keys (keys + Z.shiftl klen 1 - 2) c else Ok None) ;
      match r2 with
      | Some i => at_z t_indicies (trans + i)
      | None => at_z t_indicies (trans + (if 0 <? klen then klen else 0))
      end
  end.

(** the numbers of the actions of transition [trans], in order (emoji_presentation_scanner.c:203-208) *)
Fixpoint read_actions (n : nat) (from : Z) : Res (list Z) :=
  match n with
  | O => Ok []
  | S n' => do a <- at_z t_actions from ; do r <- read_actions n' (from + 1) ; Ok (a :: r)
  end.
Definition trans_acts (trans : Z) : Res (list Z) :=
  do a <- at_z t_trans_actions trans ;
  if a =? 0 then Ok [] else do n <- at_z t_actions a ; read_actions (Z.to_nat n) (a + 1).

(** The scanner's variables te (number of code points from the start) and act.  ts is written but never read: not modelled. *)
Inductive outcome := Return (te : nat) (is_emoji : bool) | Go (te : nat) (act : Z).
(** one action, emoji_presentation_scanner.c:210-261; [p] is the number of code points before the current one *)
Definition do_action (a : Z) (p te : nat) (act : Z) : outcome :=
  match a with
  | 2 => Go (p + 1) act
  | 3 => Go te 2
  | 4 => Go te 3
  | 5 => Return (p + 1) false
  | 6 => Return (p + 1) true
  | 7 => Return (p + 1) false
  | 8 => Return p true
  | 9 => Return p false
  | 10 => Return te true
  | 11 => if act =? 2 then Return te true else if act =? 3 then Return te false else Go te act
  | _ => Go te act
  end.
Fixpoint do_actions (l : list Z) (p te : nat) (act : Z) : outcome :=
  match l with
  | [] => Go te act
  | a :: r => match do_action a p te act with Return n b => Return n b | Go te' act' => do_actions r p te' act' end
  end.

(** scan_emoji_presentation, emoji_presentation_scanner.c:107-296, from _resume on, for the categories of [p .. pe).  At the end of the
    text an eof transition that does not return would run past the end: [UB]. *)
Fixpoint scan_from (cs : Z) (p te : nat) (act : Z) (rest : list ecat) : Res (nat * bool) :=
  match rest with
  | [] =>
      do e <- at_z t_eof_trans cs ;
      if 0 <? e then
        do acts <- trans_acts (e - 1) ;
        match do_actions acts p te act with Return n b => Ok (n, b) | Go _ _ => UB end
      else Ok (p, false)
  | c :: r =>
      do trans <- find_trans cs (ecode c) ;
      do cs' <- at_z t_trans_targs trans ;
      do acts <- trans_acts trans ;
      match do_actions acts p te act with
      | Return n b => Ok (n, b)
      | Go te' act' => scan_from cs' (p + 1) te' act' r
      end
  end.
Definition scan_emoji (rest : list ecat) : Res (nat * bool) := scan_from e_start 0 0 0 rest.

(** emoji_segmenter, emoji_segmenter.h:60-72; the buffer is the list of the code points' categories *)
Record eseg := mkEseg { e_text : list ecat; e_begin : nat; e_end : nat; e_next : nat; e_emoji : bool; e_next_emoji : bool }.
(** consume_once, emoji_segmenter.cpp:157-163 *)
Definition consume_once (st : eseg) : Res (nat * eseg) :=
  do (n, b) <- scan_emoji (skipn (e_end st) (e_text st)) ;
  Ok ((e_end st + n)%nat, mkEseg (e_text st) (e_begin st) (e_end st) (e_next st) (e_emoji st) b).
(** the constructor, emoji_segmenter.cpp:111-115 *)
Definition eseg_new (text : list ecat) : Res eseg :=
  let st := mkEseg text 0 0 0 false false in
  match text with [] => Ok st | _ => do (_, st') <- consume_once st ; Ok st' end.
(** the do-while loop of consume, emoji_segmenter.cpp:137-148 *)
Fixpoint eseg_loop (fuel : nat) (st : eseg) : Res eseg :=
  match fuel with
  | O => NoFuel
  | S f =>
      do (o, st') <- consume_once st ;
      if negb (Bool.eqb (e_emoji st') (e_next_emoji st')) then
        Ok (mkEseg (e_text st') (e_begin st') (e_end st') o (e_emoji st') (e_next_emoji st'))
      else
        let st2 := mkEseg (e_text st') (e_begin st') o (e_next st') (e_emoji st') (e_next_emoji st') in
        if (o <? length (e_text st2))%nat then eseg_loop f st2 else Ok st2
  end.
(** consume, emoji_segmenter.cpp:117-155: the segment's end and whether it has emoji presentation *)
Definition eseg_consume (fuel : nat) (st : eseg) : Res (option (nat * bool) * eseg) :=
  let st1 := mkEseg (e_text st) (e_end st) (e_next st) (e_next st) (e_next_emoji st) (e_next_emoji st) in
  if (length (e_text st) <=? e_next st)%nat then Ok (None, st1)
  else
    do st2 <- eseg_loop fuel st1 ;
    Ok (Some (e_end st2, e_emoji st2), mkEseg (e_text st2) (e_begin st2) (e_end st2) (e_end st2) (e_emoji st2) (e_next_emoji st2)).
(** a user's loop over all segments *)
Fixpoint eseg_all (fuel : nat) (calls : nat) (st : eseg) : Res (list (nat * bool)) :=
  match calls with
  | O => NoFuel
  | S n =>
      do (o, st') <- eseg_consume fuel st ;
      match o with None => Ok [] | Some s => do r <- eseg_all fuel n st' ; Ok (s :: r) end
  end.
