(** Model of src/libunicode/grapheme_segmenter.cpp and grapheme_segmenter.h. *)
From Verif Require Import Base M_Ucd.
Open Scope N_scope.

(** grapheme_segmenter.h:29-46 struct grapheme_segmenter_state *)
Record gstate := mkG { g_cp : N; g_props : props; g_ri : N; g_incb : N; g_ext : N }.
(** grapheme_segmenter.h:30-46 default member initialisers *)
Definition gstate0 (u : ucd) : gstate := mkG 0 (u 0) 0 0 0.

(** grapheme_segmenter.cpp:19-29 grapheme_process_init (overwrites every field) *)
Definition process_init (u : ucd) (cp : N) : gstate :=
  let pb := u cp in
  mkG cp pb (if gcb_beq (p_gcb pb) GRI then 1 else 0)
      (if incb_beq (p_incb pb) IConsonant then 1 else 0)
      (if p_extpic pb then 1 else 0).

(** grapheme_segmenter.cpp:70-81: the GB9c tracking update *)
Definition incb_update (i : incb) (prev : N) : N :=
  match i with
  | IConsonant => 1
  | ILinker => if 1 <=? prev then 2 else 0
  | IExtend => if 1 <=? prev then prev else 0
  | INone => 0
  end.

(** grapheme_segmenter.cpp:85-94: the GB11 tracking update *)
Definition ext_update (pb : props) (prev : N) : N :=
  if negb (prev =? 0) || p_extpic pb then
    if p_extpic pb then 1
    else if (gcb_beq (p_gcb pb) GExtend || gcb_beq (p_gcb pb) GZWJ) && (prev =? 1) then prev
    else 0
  else prev.

Definition is_ctl (g : gcb) : bool := gcb_beq g GControl || gcb_beq g GCR || gcb_beq g GLF.

(** grapheme_segmenter.cpp:31-154 grapheme_process_breakable: (result, new state) *)
Definition process_breakable (u : ucd) (b : N) (st : gstate) : bool * gstate :=
  let a := g_cp st in
  let A := p_gcb (g_props st) in
  let pb := u b in
  let B := p_gcb pb in
  let ri := if gcb_beq B GRI then g_ri st else 0 in                       (* 45-54 *)
  if gcb_beq A GCR && gcb_beq B GLF then                                  (* 57 GB3 *)
    (false, mkG b pb ri (g_incb st) (g_ext st))
  else if (a <? 128) && (b <? 128) then                                   (* 63 US-ASCII shortcut *)
    (true, mkG b pb ri 0 0)
  else
    let pi := g_incb st in
    let ni := incb_update (p_incb pb) pi in                               (* 72-87 *)
    let pe := g_ext st in
    let ne := ext_update pb pe in                                         (* 89-100 *)
    let st' := mkG b pb ri ni ne in
    if is_ctl A then (true, st')                                          (* 103 GB4 *)
    else if is_ctl B then (true, st')                                     (* 107 GB5 *)
    else if gcb_beq A GL && (gcb_beq B GL || gcb_beq B GV || gcb_beq B GLV || gcb_beq B GLVT) then (false, st')  (* GB6 *)
    else if (gcb_beq A GLV || gcb_beq A GV) && (gcb_beq B GV || gcb_beq B GT) then (false, st')                  (* GB7 *)
    else if (gcb_beq A GLVT || gcb_beq A GT) && gcb_beq B GT then (false, st')                                   (* GB8 *)
    else if gcb_beq B GExtend || gcb_beq B GZWJ then (false, st')         (* GB9 *)
    else if gcb_beq B GSpacingMark then (false, st')                      (* GB9a *)
    else if gcb_beq A GPrepend then (false, st')                          (* GB9b *)
    else if incb_beq (p_incb pb) IConsonant && (pi =? 2) then (false, st')(* GB9c *)
    else if gcb_beq A GZWJ && p_extpic pb && (pe =? 1) then (false, st')  (* GB11 *)
    else if gcb_beq A GRI && gcb_beq A B && (ri =? 1) then                (* GB12/13 *)
      (false, mkG b pb ((ri + 1) mod 2) ni ne)
    else (true, st').                                                     (* GB999 *)

(** grapheme_segmenter.h:57-103 class grapheme_segmenter; pointers are offsets into [sg_text]. *)
Record gseg := mkSeg { sg_text : list N; sg_left : nat; sg_right : nat; sg_state : gstate }.

(** grapheme_segmenter.h:78-79 the inner while loop; [rest] is the text from right_ on; returns how far right_ moves. *)
Fixpoint extend_cluster (u : ucd) (st : gstate) (rest : list N) : nat * gstate :=
  match rest with
  | [] => (O, st)                                                         (* right_ == end_ *)
  | c :: rest' =>
      let '(brk, st') := process_breakable u c st in
      if brk then (O, st') else let '(n, st'') := extend_cluster u st' rest' in (S n, st'')
  end.

(** grapheme_segmenter.h:70-82 operator++ *)
Definition seg_next (u : ucd) (s : gseg) : gseg :=
  match skipn (sg_right s) (sg_text s) with
  | [] => mkSeg (sg_text s) (sg_right s) (sg_right s) (sg_state s)
  | c :: rest =>
      let '(n, st') := extend_cluster u (process_init u c) rest in
      mkSeg (sg_text s) (sg_right s) (sg_right s + 1 + n) st'
  end.

(** grapheme_segmenter.h:60-64 constructor *)
Definition seg_make (u : ucd) (text : list N) : gseg := seg_next u (mkSeg text 0 0 (gstate0 u)).

(** grapheme_segmenter.h:84-87 operator* *)
Definition seg_value (s : gseg) : list N := firstn (sg_right s - sg_left s) (skipn (sg_left s) (sg_text s)).
(** grapheme_segmenter.h:89 codepointsAvailable *)
Definition seg_available (s : gseg) : bool := negb (Nat.eqb (sg_right s) (length (sg_text s))).

(** The documented way to enumerate (src/libunicode/capi.cpp:44-62): value; while (codepointsAvailable) { ++; value }.
    [fuel] bounds the number of increments. *)
Fixpoint seg_collect (u : ucd) (fuel : nat) (s : gseg) : Res (list (list N)) :=
  if seg_available s then
    match fuel with
    | O => NoFuel
    | S f => do l <- seg_collect u f (seg_next u s); Ok (seg_value s :: l)
    end
  else Ok [seg_value s].

Definition grapheme_clusters (u : ucd) (text : list N) : Res (list (list N)) :=
  seg_collect u (length text) (seg_make u text).

(** Driving the stateful API directly: grapheme_process_init once, then grapheme_process_breakable for every further
    code point, never re-initialising — as scan.cpp:81-244 does. *)
Fixpoint breaks_from (u : ucd) (st : gstate) (rest : list N) : list bool :=
  match rest with
  | [] => []
  | c :: rest' => let '(brk, st') := process_breakable u c st in brk :: breaks_from u st' rest'
  end.
Definition stateful_breaks (u : ucd) (text : list N) : list bool :=
  match text with [] => [] | c :: rest => breaks_from u (process_init u c) rest end.
