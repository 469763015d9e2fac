(** Model of src/libunicode/utf8.h, src/libunicode/utf8.cpp and the UTF-8 parts of src/libunicode/convert.h. *)
From Verif Require Import Base.
Open Scope N_scope.

(** utf8.h:31-59 [to_utf8] of one code point.  The pointer [result] and the returned count become the list of bytes
    written. *)
Definition to_utf8_char (c : N) : list N :=
  if c <=? 0x7F then
    [to_u8 (N.land c 0x7F)]
  else if c <=? 0x07FF then
    [to_u8 (N.lor (N.land (N.shiftr c 6) 0x1F) 0xC0);
     to_u8 (N.lor (N.land (N.shiftr c 0) 0x3F) 0x80)]
  else if c <=? 0xFFFF then
    [to_u8 (N.lor (N.land (N.shiftr c 12) 0x0F) 0xE0);
     to_u8 (N.lor (N.land (N.shiftr c 6) 0x3F) 0x80);
     to_u8 (N.lor (N.land (N.shiftr c 0) 0x3F) 0x80)]
  else
    [to_u8 (N.lor (N.land (N.shiftr c 18) 0x07) 0xF0);
     to_u8 (N.lor (N.land (N.shiftr c 12) 0x3F) 0x80);
     to_u8 (N.lor (N.land (N.shiftr c 6) 0x3F) 0x80);
     to_u8 (N.lor (N.land (N.shiftr c 0) 0x3F) 0x80)].

(** utf8.h:62-74 [to_utf8] of a text and the overloads 76-89: append each character's bytes. *)
Fixpoint to_utf8 (t : list N) : list N :=
  match t with [] => [] | c :: t' => to_utf8_char c ++ to_utf8 t' end.

(** convert.h:33-62 [encoder<char>::operator()], writing through an output iterator; the bytes written. [char] is
    represented by its unsigned value. *)
Definition encoder_char (c : N) : list N :=
  if c <=? 0x7F then
    [to_u8 (N.land c 0x7F)]
  else if c <=? 0x07FF then
    [to_u8 (N.lor (N.land (N.shiftr c 6) 0x1F) 0xC0);
     to_u8 (N.lor (N.land (N.shiftr c 0) 0x3F) 0x80)]
  else if c <=? 0xFFFF then
    [to_u8 (N.lor (N.land (N.shiftr c 12) 0x0F) 0xE0);
     to_u8 (N.lor (N.land (N.shiftr c 6) 0x3F) 0x80);
     to_u8 (N.lor (N.land (N.shiftr c 0) 0x3F) 0x80)]
  else
    [to_u8 (N.lor (N.land (N.shiftr c 18) 0x07) 0xF0);
     to_u8 (N.lor (N.land (N.shiftr c 12) 0x3F) 0x80);
     to_u8 (N.lor (N.land (N.shiftr c 6) 0x3F) 0x80);
     to_u8 (N.lor (N.land (N.shiftr c 0) 0x3F) 0x80)].

(** utf8.h:91-96 [utf8_decoder_state] (also the members of decoder<char>, convert.h:66-68). *)
Record dstate := DS { d_char : N; d_exp : N; d_cur : N }.
Definition dinit : dstate := DS 0 0 0.

(** utf8.h:100-106 [ConvertResult]. *)
Inductive cres := Invalid | Incomplete | Success (v : N).

(** The tail of from_utf8, utf8.cpp:73-77. *)
Definition from_utf8_finish (st : dstate) : dstate * cres :=
  if d_cur st <? d_exp st then (st, Incomplete)
  else (DS (d_char st) 0 (d_cur st), Success (d_char st)).

(** utf8.cpp:21-52, the branch [!state.expectedLength], followed by the tail. *)
Definition from_utf8_lead (st : dstate) (v : N) : dstate * cres :=
  if N.land v 0x80 =? 0 then (DS (d_char st) (d_exp st) 1, Success v)
  else if N.land v 0xE0 =? 0xC0 then from_utf8_finish (DS (N.land v 0x1F) 2 1)
  else if N.land v 0xF0 =? 0xE0 then from_utf8_finish (DS (N.land v 0x0F) 3 1)
  else if N.land v 0xF8 =? 0xF0 then from_utf8_finish (DS (N.land v 0x07) 4 1)
  else (DS (d_char st) 0 1, Invalid).

(** utf8.cpp:54-56: the byte is a lead byte of a multi-byte sequence. *)
Definition is_lead (v : N) : bool :=
  (N.land v 0xE0 =? 0xC0) || (N.land v 0xF0 =? 0xE0) || (N.land v 0xF8 =? 0xF0).

(** utf8.cpp:19-78 [from_utf8(utf8_decoder_state&, uint8_t)].  The recursive call at line 63 has expectedLength = 0 and so
    enters the first branch; its result is discarded. *)
Definition from_utf8 (st : dstate) (v : N) : dstate * cres :=
  if d_exp st =? 0 then from_utf8_lead st v
  else if is_lead v then
    (fst (from_utf8_lead (DS (d_char st) 0 (d_cur st)) v), Invalid)
  else
    from_utf8_finish
      (DS (to_u32 (N.lor (to_u32 (N.shiftl (d_char st) 6)) (N.land v 0x3F))) (d_exp st) (to_u32 (d_cur st + 1))).

(** utf8.h:111-122 [from_utf8i]: Incomplete -> (unsigned)-1, Invalid -> (unsigned)-2. *)
Definition from_utf8i (st : dstate) (v : N) : dstate * N :=
  match from_utf8 st v with
  | (st', Incomplete) => (st', 0xFFFFFFFF)
  | (st', Invalid) => (st', 0xFFFFFFFE)
  | (st', Success c) => (st', c)
  end.

(** utf8.h:124-137 [from_utf8(bytes, size)].  [buf] is the memory from [bytes] to the end of the caller's
    object; reading behind it is [UB].  Returns the result, the value stored through [size], and the number of bytes read. *)
Fixpoint from_utf8_buf_loop (st : dstate) (buf : list N) (nread : nat) : Res (cres * N * nat) :=
  match buf with
  | [] => UB
  | b :: buf' =>
      match from_utf8 st b with
      | (st', Incomplete) => from_utf8_buf_loop st' buf' (S nread)
      | (st', r) => Ok (r, d_cur st', S nread)
      end
  end.
Definition from_utf8_buf (buf : list N) : Res (cres * N * nat) := from_utf8_buf_loop dinit buf 0.

(** A caller's loop around [from_utf8(state, byte)]: all results, in order. *)
Fixpoint from_utf8_run (st : dstate) (bs : list N) : dstate * list cres :=
  match bs with
  | [] => (st, [])
  | b :: bs' => let (st1, r) := from_utf8 st b in let (st2, rs) := from_utf8_run st1 bs' in (st2, r :: rs)
  end.

(** convert.h:70-112 [decoder<char>::operator()(uint8_t)].  std::nullopt stands for both invalid and incomplete. *)
Definition decoder_finish (st : dstate) : dstate * option N :=
  if d_cur st <? d_exp st then (st, None) else (DS (d_char st) 0 (d_cur st), Some (d_char st)).
Definition decoder_char (st : dstate) (b : N) : dstate * option N :=
  if d_exp st =? 0 then
    if N.land b 0x80 =? 0 then (DS (d_char st) (d_exp st) 1, Some b)
    else if N.land b 0xE0 =? 0xC0 then decoder_finish (DS (N.land b 0x1F) 2 1)
    else if N.land b 0xF0 =? 0xE0 then decoder_finish (DS (N.land b 0x0F) 3 1)
    else if N.land b 0xF8 =? 0xF0 then decoder_finish (DS (N.land b 0x07) 4 1)
    else (st, None)
  else
    decoder_finish
      (DS (to_u32 (N.lor (to_u32 (N.shiftl (d_char st) 6)) (N.land b 0x3F))) (d_exp st) (to_u32 (d_cur st + 1))).

(** The scalar loop of convert_simd_impl.h:125-131 (and any caller feeding decoder<char> byte-wise, e.g. the C stream API):
    final state and the code points produced. *)
Fixpoint decoder_run (st : dstate) (bs : list N) : dstate * list N :=
  match bs with
  | [] => (st, [])
  | b :: bs' =>
      let (st1, r) := decoder_char st b in
      let (st2, out) := decoder_run st1 bs' in
      (st2, match r with Some c => c :: out | None => out end)
  end.

(** capi.cpp:77-95 [u8u32_stream_convert_run]: returns 1 and stores the code point, or 0; a caller feeds a chunk byte by byte and
    collects what was stored.  The handle keeps the decoder between chunks. *)
Definition stream_convert_run (st : dstate) (b : N) : dstate * option N := decoder_char st b.
Fixpoint stream_chunk (st : dstate) (bs : list N) : dstate * list N :=
  match bs with
  | [] => (st, [])
  | b :: bs' =>
      match stream_convert_run st b with
      | (st1, Some c) => let (st2, out) := stream_chunk st1 bs' in (st2, c :: out)
      | (st1, None) => stream_chunk st1 bs'
      end
  end.
Fixpoint stream_chunks (st : dstate) (chunks : list (list N)) : dstate * list (list N) :=
  match chunks with
  | [] => (st, [])
  | ch :: chs => let (st1, o) := stream_chunk st ch in let (st2, os) := stream_chunks st1 chs in (st2, o :: os)
  end.
(** The same for a caller of from_utf8(state, byte). *)
Fixpoint from_utf8_chunks (st : dstate) (chunks : list (list N)) : dstate * list (list cres) :=
  match chunks with
  | [] => (st, [])
  | ch :: chs => let (st1, o) := from_utf8_run st ch in let (st2, os) := from_utf8_chunks st1 chs in (st2, o :: os)
  end.

(** code points reported by a run *)
Fixpoint successes (rs : list cres) : list N :=
  match rs with [] => [] | Success v :: rs' => v :: successes rs' | _ :: rs' => successes rs' end.
