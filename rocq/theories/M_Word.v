(** Model of src/libunicode/word_segmenter.cpp and word_segmenter.h. *)
From Verif Require Import Base M_Ucd.
Open Scope N_scope.

(** word_segmenter.cpp:24-57 class predicates *)
Definition is_AHLetter (w : wbc) : bool := wbc_beq w WALetter || wbc_beq w WHebrew.
Definition is_MidNumLetQ (w : wbc) : bool := wbc_beq w WMidNumLet || wbc_beq w WSingleQuote.
Definition is_MidLetterLike (w : wbc) : bool := wbc_beq w WMidLetter || is_MidNumLetQ w.
Definition is_MidNumLike (w : wbc) : bool := wbc_beq w WMidNum || is_MidNumLetQ w.
Definition is_transparent (w : wbc) : bool := wbc_beq w WExtend || wbc_beq w WFormat || wbc_beq w WZWJ.
Definition is_newline_class (w : wbc) : bool := wbc_beq w WNewline || wbc_beq w WCR || wbc_beq w WLF.

(** word_segmenter.h:24-45 struct word_segmenter_state *)
Record wstate := mkW { w_raw : wbc; w_prev : wbc; w_pp : wbc; w_ri : N; w_saw : bool }.
Definition wstate0 : wstate := mkW WOther WOther WOther 0 false.

(** word_segmenter.cpp:59-70 peek_next_non_transparent *)
Fixpoint peek (u : ucd) (rest : list N) : option wbc :=
  match rest with
  | [] => None
  | c :: r => if is_transparent (p_wb (u c)) then peek u r else Some (p_wb (u c))
  end.
Definition peek_is (u : ucd) (f : wbc -> bool) (rest : list N) : bool :=
  match peek u rest with Some w => f w | None => false end.

(** word_segmenter.cpp:72-80 update_effective *)
Definition update_effective (w : wbc) (st : wstate) : wstate :=
  mkW w w (w_prev st) (if wbc_beq w WRI then to_u8 (w_ri st + 1) else 0) false.

(** word_segmenter.cpp:84-104 word_process_init (saw_transparent is left as it was) *)
Definition word_init (u : ucd) (c : N) (st : wstate) : wstate :=
  let w := p_wb (u c) in
  if is_transparent w then mkW w WOther WOther 0 (w_saw st)
  else mkW w w WOther (if wbc_beq w WRI then 1 else 0) (w_saw st).

(** word_segmenter.cpp:106-294 word_process_breakable *)
Definition word_breakable (u : ucd) (c : N) (rest : list N) (st : wstate) : bool * wstate :=
  let B := p_wb (u c) in
  let up := update_effective B st in
  if wbc_beq (w_raw st) WCR && wbc_beq B WLF then (false, up)                           (* WB3 *)
  else if is_newline_class (w_raw st) then                                              (* WB3a *)
    (true, if is_transparent B then mkW B WOther WOther 0 (w_saw st) else up)
  else if is_newline_class B then (true, up)                                            (* WB3b *)
  else if wbc_beq (w_raw st) WZWJ && p_extpic (u c) then (false, up)                    (* WB3c *)
  else if is_transparent B then (false, mkW B (w_prev st) (w_pp st) (w_ri st) true)     (* WB4 *)
  else
    let A := w_prev st in
    if wbc_beq A WWSegSpace && wbc_beq B WWSegSpace && negb (w_saw st) then (false, up) (* WB3d *)
    else if is_AHLetter A && is_AHLetter B then (false, up)                             (* WB5 *)
    else if is_AHLetter A && is_MidLetterLike B && peek_is u is_AHLetter rest then (false, up)            (* WB6 *)
    else if is_MidLetterLike A && is_AHLetter B && is_AHLetter (w_pp st) then (false, up)                 (* WB7 *)
    else if wbc_beq A WHebrew && wbc_beq B WSingleQuote then (false, up)                                  (* WB7a *)
    else if wbc_beq A WHebrew && wbc_beq B WDoubleQuote && peek_is u (fun w => wbc_beq w WHebrew) rest then (false, up)  (* WB7b *)
    else if wbc_beq A WDoubleQuote && wbc_beq B WHebrew && wbc_beq (w_pp st) WHebrew then (false, up)     (* WB7c *)
    else if wbc_beq A WNumeric && wbc_beq B WNumeric then (false, up)                                     (* WB8 *)
    else if is_AHLetter A && wbc_beq B WNumeric then (false, up)                                          (* WB9 *)
    else if wbc_beq A WNumeric && is_AHLetter B then (false, up)                                          (* WB10 *)
    else if is_MidNumLike A && wbc_beq B WNumeric && wbc_beq (w_pp st) WNumeric then (false, up)          (* WB11 *)
    else if wbc_beq A WNumeric && is_MidNumLike B && peek_is u (fun w => wbc_beq w WNumeric) rest then (false, up)       (* WB12 *)
    else if wbc_beq A WKatakana && wbc_beq B WKatakana then (false, up)                                   (* WB13 *)
    else if wbc_beq B WExtendNumLet && (is_AHLetter A || wbc_beq A WNumeric || wbc_beq A WKatakana || wbc_beq A WExtendNumLet)
      then (false, up)                                                                                    (* WB13a *)
    else if wbc_beq A WExtendNumLet && (is_AHLetter B || wbc_beq B WNumeric || wbc_beq B WKatakana) then (false, up)     (* WB13b *)
    else if wbc_beq A WRI && wbc_beq B WRI && (w_ri st mod 2 =? 1) then (false, up)                       (* WB15/16 *)
    else (true, up).                                                                                      (* WB999 *)

(** word_segmenter.h:62-117 class word_segmenter, pointers as offsets *)
Record wseg := mkWSeg { ws_text : list N; ws_left : nat; ws_right : nat; ws_state : wstate }.
(** word_segmenter.h:83-90 the inner loop; [rest] is the text from right_ *)
Fixpoint extend_word (u : ucd) (st : wstate) (rest : list N) : nat * wstate :=
  match rest with
  | [] => (O, st)
  | c :: rest' =>
      let '(brk, st') := word_breakable u c rest' st in
      if brk then (O, st') else let '(n, st'') := extend_word u st' rest' in (S n, st'')
  end.
(** word_segmenter.h:75-93 operator++ *)
Definition wseg_next (u : ucd) (s : wseg) : wseg :=
  match skipn (ws_right s) (ws_text s) with
  | [] => mkWSeg (ws_text s) (ws_right s) (ws_right s) (ws_state s)
  | c :: rest =>
      let '(n, st') := extend_word u (word_init u c (ws_state s)) rest in
      mkWSeg (ws_text s) (ws_right s) (ws_right s + 1 + n) st'
  end.
(** word_segmenter.h:65-69 constructor *)
Definition wseg_make (u : ucd) (text : list N) : wseg := wseg_next u (mkWSeg text 0 0 wstate0).
(** word_segmenter.h:95-98 operator*, 100 codepointsAvailable *)
Definition wseg_value (s : wseg) : list N := firstn (ws_right s - ws_left s) (skipn (ws_left s) (ws_text s)).
Definition wseg_available (s : wseg) : bool := negb (Nat.eqb (ws_right s) (length (ws_text s))).
Fixpoint wseg_collect (u : ucd) (fuel : nat) (s : wseg) : Res (list (list N)) :=
  if wseg_available s then
    match fuel with
    | O => NoFuel
    | S f => do l <- wseg_collect u f (wseg_next u s); Ok (wseg_value s :: l)
    end
  else Ok [wseg_value s].
Definition word_segments (u : ucd) (text : list N) : Res (list (list N)) :=
  wseg_collect u (length text) (wseg_make u text).
