(** Model of src/libunicode/scan.cpp and scan.h.  Pointers are offsets (Z) from the start of the buffer handed to
    scan_text; a pointer before that buffer is a negative offset.  size_t counters are unbounded (Z); that they never
    become negative is proved (C28). *)
From Verif Require Import Base Spec_Utf M_Utf8 M_Convert M_AsciiScan M_Ucd M_Grapheme M_Width.
Open Scope Z_scope.

(** scan.cpp:44-47 is_control, 52-56 is_c1_control, 59-62 is_complex *)
Definition is_control (b : N) : bool := (b <? 0x20)%N.
Definition is_c1_control (b : N) : bool := ((0x80 <=? b) && (b <=? 0x9F))%N.
Definition is_complex (b : N) : bool := negb (N.land b 0x80 =? 0)%N.

(** scan.h:46-67 scan_state; [s_next = None] is the null pointer *)
Record sstate := SS { s_utf8 : dstate; s_hint : N; s_g : gstate; s_acc : acc; s_rep : Z; s_next : option Z }.
Definition sstate0 (u : ucd) : sstate := SS dinit 0 (gstate0 u) acc0 0 None.

(** scan.h:70-78 calls made on the grapheme_cluster_receiver, with the byte range of the string_view argument *)
Inductive event := EAscii (from to : Z) | ECluster (from to : Z) (columns : Z) | EInvalid.

(** scan.cpp:86-101 the local variables of scan_for_text_nonascii, and the scan state it works on *)
Record lp := LP { l_count : Z; l_bytes : Z; l_here : Z; l_cstart : Z; l_rend : Z;
                  l_utf8 : dstate; l_hint : N; l_g : gstate; l_acc : acc; l_rep : Z; l_ev : list event }.

(** scan.cpp:106-111 flushOpenCluster *)
Definition flush (l : lp) (e : Z) : lp :=
  LP (l_count l) (l_bytes l) (l_here l) e (l_rend l) (l_utf8 l) (l_hint l) (l_g l) (l_acc l) (l_rep l)
     (if l_cstart l <? e then l_ev l ++ [ECluster (l_cstart l) e (l_rep l)] else l_ev l).

(** scan.cpp:119-136 the branch for a control or ASCII byte at [input] *)
Definition stop_at_control (u : ucd) (l : lp) (input : Z) : lp :=
  let l := flush l input in
  let pend := negb (d_exp (l_utf8 l) =? 0)%N in
  LP (if pend then l_count l + 1 else l_count l) (l_bytes l) (l_here l) (l_cstart l) input
     (if pend then dinit else l_utf8 l) 0 (gstate0 u) acc0 0 (if pend then l_ev l ++ [EInvalid] else l_ev l).

(** scan.cpp:145-220 a decoded code point [c]; [input] is one behind its last byte.  Either the loop goes on, or it is
    left (break) with the given input pointer. *)
Definition on_codepoint (u : ucd) (max : Z) (c : N) (input : Z) (l : lp) : lp * option Z :=
  let cstart := input - l_bytes l in                                                            (* 149 *)
  let '(brk, g) := if (l_hint l =? 0)%N then (true, process_init u c)                           (* 153-160 *)
                   else process_breakable u c (l_g l) in
  let l := LP (l_count l) 0 (l_here l) (l_cstart l) (l_rend l) (l_utf8 l) c g (l_acc l) (l_rep l) (l_ev l) in
  if brk then
    let next := push u acc0 c in                                                                (* 165-167 *)
    let w := acc_width next in
    if max <? l_count l + w then (l, Some cstart)                                               (* 169-174 *)
    else
      let l := flush l cstart in                                                                (* 177-183 *)
      (LP (l_count l + w) 0 w (l_cstart l) input (l_utf8 l) (l_hint l) (l_g l) next w (l_ev l), None)
  else
    let acc := push u (l_acc l) c in                                                            (* 190-191 *)
    let upd := acc_width acc in
    if l_rep l <=? upd then
      let added := upd - l_rep l in
      if negb (added =? 0) && (max <? l_count l + added) then                                   (* 193-210 *)
        (LP (l_count l - l_here l) 0 (l_here l) (l_cstart l) (l_cstart l) (l_utf8 l) (l_hint l) (l_g l) acc0 0 (l_ev l),
         Some (l_cstart l))
      else (LP (l_count l + added) 0 (l_here l + added) (l_cstart l) input (l_utf8 l) (l_hint l) (l_g l) acc upd (l_ev l), None)
    else
      let removed := Z.min (l_rep l - upd) (l_here l) in                                        (* 211-216 *)
      (LP (l_count l - removed) 0 (l_here l - removed) (l_cstart l) input (l_utf8 l) (l_hint l) (l_g l) acc upd (l_ev l), None).

(** scan.cpp:221-234 an Invalid result *)
Definition on_invalid (u : ucd) (input : Z) (l : lp) : lp :=
  let l := flush l (input - l_bytes l) in
  LP (l_count l + 1) 0 0 (l_cstart l) (l_rend l) (DS (d_char (l_utf8 l)) 0 (d_cur (l_utf8 l))) 0 (gstate0 u) acc0 0 (l_ev l ++ [EInvalid]).

(** scan.cpp:113-235 the while loop; [rest] is the memory from [input] to [end] *)
Fixpoint na_loop (u : ucd) (max : Z) (rest : list N) (input : Z) (l : lp) : lp * Z :=
  match rest with
  | [] => (l, input)
  | b :: rest' =>
      if l_count l <=? max then
        if is_control b || negb (is_complex b) || ((d_exp (l_utf8 l) =? 0)%N && is_c1_control b)
        then (stop_at_control u l input, input)
        else
          let '(d, r) := from_utf8 (l_utf8 l) b in
          let l := LP (l_count l) (l_bytes l + 1) (l_here l) (l_cstart l) (l_rend l) d (l_hint l) (l_g l) (l_acc l) (l_rep l) (l_ev l) in
          match r with
          | Incomplete => na_loop u max rest' (input + 1) l
          | Success c => match on_codepoint u max c (input + 1) l with
                         | (l', None) => na_loop u max rest' (input + 1) l'
                         | (l', Some i) => (l', i)
                         end
          | Invalid => na_loop u max rest' (input + 1) (on_invalid u (input + 1) l)
          end
      else (l, input)
  end.

(** scan.cpp:81-244 scan_for_text_nonascii on the bytes [text] found at offset [start]: count, start, end *)
Definition nonascii (u : ucd) (st : sstate) (start : Z) (text : list N) (max : Z) (ev : list event)
  : (Z * Z * Z) * sstate * list event :=
  let rstart := if (d_exp (s_utf8 st) =? 0)%N then start else start - Z.of_N (d_cur (s_utf8 st)) in
  let '(l, input) := na_loop u max text start
                       (LP 0 0 0 start rstart (s_utf8 st) (s_hint st) (s_g st) (s_acc st) (s_rep st) ev) in
  let l := flush l input in
  ((l_count l, rstart, l_rend l), SS (l_utf8 l) (l_hint l) (l_g l) (l_acc l) (l_rep l) (Some input), l_ev l).

Record sresult := SR { r_count : Z; r_start : Z; r_end : Z }.

(** scan.cpp:287-340 the while loop of scan_text; [off] is text.data(), [complex] is nextState, [uchar]/[i] select the ASCII
    scanner (scan.cpp:65-79).  The C++ loop has no bound; [fuel] does. *)
Fixpoint scan_loop (u : ucd) (uchar : bool) (i : impl) (fuel : nat) (buf : list N) (max : Z) (st : sstate) (complex : bool) (off : Z)
  (r : sresult) (ev : list event) : Res (sresult * sstate * list event) :=
  if (r_count r <? max) && negb (match s_next st with Some n => n =? Z.of_nat (length buf) | None => false end) then
    match fuel with
    | O => NoFuel
    | S f =>
        let text := skipn (Z.to_nat off) buf in
        if complex then
          let '((c, s, e), st', ev') := nonascii u st off text (max - r_count r) ev in          (* 317-338 *)
          let consumed := e - s in
          let r' := SR (r_count r + c) (r_start r) e in
          if consumed =? 0 then Ok (r', st', ev')
          else scan_loop u uchar i f buf max st' false (off + consumed) r' ev'
        else
          do n <- scan_for_text_ascii false uchar i text (Z.to_nat (max - r_count r));          (* 291-316 *)
          match n with
          | O => Ok (r, st, ev)
          | S n' =>
              let last := nth n' text 0%N in
              let st' := SS (s_utf8 st) last (process_init u last) (push u acc0 last) 1
                            (match s_next st with Some p => Some (p + Z.of_nat n) | None => None end) in
              scan_loop u uchar i f buf max st' true (off + Z.of_nat n)
                        (SR (r_count r + Z.of_nat n) (r_start r) (r_end r + Z.of_nat n))
                        (ev ++ [EAscii off (off + Z.of_nat n)])
          end
    end
  else Ok (r, st, ev).

(** scan.cpp:251-346 scan_text with a receiver; 246-249 is the same with a receiver that ignores the calls.
    text.front() (line 288) of a range that starts before the buffer is an out-of-bounds read: [UB]. *)
Definition scan_text (u : ucd) (uchar : bool) (i : impl) (st : sstate) (buf : list N) (max : Z)
  : Res (sresult * sstate * list event) :=
  let st := SS (s_utf8 st) (s_hint st) (s_g st) (s_acc st) (s_rep st) (match s_next st with None => Some 0 | n => n end) in
  let '(r, st, ev) :=
    if (d_exp (s_utf8 st) =? 0)%N then (SR 0 0 0, st, [])
    else let '((c, s, e), st', ev') := nonascii u st 0 buf max [] in (SR c s e, st', ev') in
  let off := r_end r in
  if off =? Z.of_nat (length buf) then Ok (r, st, ev)
  else if (off <? 0) || (Z.of_nat (length buf) <? off) then UB
  else scan_loop u uchar i (S (length buf)) buf max st (is_complex (nth (Z.to_nat off) buf 0%N)) off r ev.
