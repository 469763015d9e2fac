(** Model of src/libunicode/convert.h (UTF-16, iterator decoders, convert_to), src/libunicode/convert_simd_impl.h and
    src/libunicode/convert.cpp, with the lane semantics of the intrinsics wrapped in src/libunicode/intrinsics.h. *)
From Verif Require Import Base Spec_Utf M_Utf8.
Open Scope N_scope.

(** ** UTF-16 *)
(** convert.h:199-229 [encoder<char16_t>]: the units written. *)
Definition encoder_char16 (c : N) : list N :=
  if c <? 0xD800 then [to_u16 c]
  else if c <? 0x10000 then
    if c <? 0xE000 then [] else [to_u16 c]
  else if c <? 0x110000 then
    [to_u16 (0xD7C0 + N.shiftr c 10); to_u16 (0xDC00 + N.land c 0x3FF)]
  else [].

(** [*input++] on an iterator whose remaining range is [l]: reading at the end is undefined. *)
Definition next_it (l : list N) : Res (N * list N) := match l with [] => UB | x :: l' => Ok (x, l') end.

(** convert.h:231-256 [decoder<char16_t>::operator()(InputIterator&)]; result and remaining range. *)
Definition decoder_char16 (l : list N) : Res (option N * list N) :=
  do (ch0, l1) <- next_it l ;
  if ch0 <? 0xD800 then Ok (Some ch0, l1)
  else if ch0 <? 0xDC00 then
    do (ch1, l2) <- next_it l1 ;
    if negb (N.shiftr ch1 10 =? 0x37) then Ok (None, l2)
    else Ok (Some (N.shiftl ch0 10 + ch1 - 0x35FDC00), l2)
  else if ch0 <? 0xE000 then Ok (None, l1)
  else Ok (Some ch0, l1).

(** [ch >> 6 != 2] *)
Definition not_cont (b : N) : bool := negb (N.shiftr b 6 =? 2).
(** static_cast<char32_t>(a - k) modulo 2^32, [a] already reduced *)
Definition sub_u32 (a k : N) : N := to_u32 (to_u32 a + 4294967296 - k).

(** convert.h:114-196 [decoder<char>::operator()(InputIterator&)].  C++20 shift semantics (the shifts of the 5- and 6-byte forms
    are taken modulo 2^32). *)
Definition decoder_char_it (l : list N) : Res (option N * list N) :=
  do (ch0, l0) <- next_it l ;
  if ch0 <? 0x80 then Ok (Some ch0, l0)
  else if ch0 <? 0xC0 then Ok (None, l0)
  else if ch0 <? 0xE0 then
    do (ch1, l1) <- next_it l0 ;
    if not_cont ch1 then Ok (None, l1) else
    Ok (Some (N.shiftl ch0 6 + ch1 - 0x3080), l1)
  else if ch0 <? 0xF0 then
    do (ch1, l1) <- next_it l0 ;
    if not_cont ch1 then Ok (None, l1) else
    do (ch2, l2) <- next_it l1 ;
    if not_cont ch2 then Ok (None, l2) else
    Ok (Some (N.shiftl ch0 12 + N.shiftl ch1 6 + ch2 - 0xE2080), l2)
  else if ch0 <? 0xF8 then
    do (ch1, l1) <- next_it l0 ;
    if not_cont ch1 then Ok (None, l1) else
    do (ch2, l2) <- next_it l1 ;
    if not_cont ch2 then Ok (None, l2) else
    do (ch3, l3) <- next_it l2 ;
    if not_cont ch3 then Ok (None, l3) else
    Ok (Some (N.shiftl ch0 18 + N.shiftl ch1 12 + N.shiftl ch2 6 + ch3 - 0x3C82080), l3)
  else if ch0 <? 0xFC then
    do (ch1, l1) <- next_it l0 ;
    if not_cont ch1 then Ok (None, l1) else
    do (ch2, l2) <- next_it l1 ;
    if not_cont ch2 then Ok (None, l2) else
    do (ch3, l3) <- next_it l2 ;
    if not_cont ch3 then Ok (None, l3) else
    do (ch4, l4) <- next_it l3 ;
    if not_cont ch4 then Ok (None, l4) else
    Ok (Some (sub_u32 (N.shiftl ch0 24 + N.shiftl ch1 18 + N.shiftl ch2 12 + N.shiftl ch3 6 + ch4) 0xFA082080), l4)
  else if ch0 <? 0xFE then
    do (ch1, l1) <- next_it l0 ;
    if not_cont ch1 then Ok (None, l1) else
    do (ch2, l2) <- next_it l1 ;
    if not_cont ch2 then Ok (None, l2) else
    do (ch3, l3) <- next_it l2 ;
    if not_cont ch3 then Ok (None, l3) else
    do (ch4, l4) <- next_it l3 ;
    if not_cont ch4 then Ok (None, l4) else
    do (ch5, l5) <- next_it l4 ;
    if not_cont ch5 then Ok (None, l5) else
    Ok (Some (sub_u32 (N.shiftl ch0 30 + N.shiftl ch1 24 + N.shiftl ch2 18 + N.shiftl ch3 12 + N.shiftl ch4 6 + ch5) 0x82082080), l5)
  else Ok (None, l0).

(** convert.h:257-278: the char32_t encoder and decoder. *)
Definition encoder_char32 (c : N) : list N := [c].
Definition decoder_char32 (l : list N) : Res (option N * list N) := do (c, l1) <- next_it l ; Ok (Some c, l1).

Definition elem_eqb (a b : elem) : bool :=
  match a, b with T8, T8 | T16, T16 | T32, T32 => true | TW x, TW y => Bool.eqb x y | _, _ => false end.
Definition encoder (t : elem) : N -> list N :=
  match t with T8 => encoder_char | T16 | TW true => encoder_char16 | T32 | TW false => encoder_char32 end.
Definition decoder_it (s : elem) : list N -> Res (option N * list N) :=
  match s with T8 => decoder_char_it | T16 | TW true => decoder_char16 | T32 | TW false => decoder_char32 end.

(** convert.h:332-351 [convert_to(string_view, OutputIterator)]: the elements written.  Each round reads at least one element, so
    the fuel [length l] is enough (proved). *)
Fixpoint convert_loop (read : list N -> Res (option N * list N)) (write : N -> list N) (fuel : nat) (l : list N) : Res (list N) :=
  match l with
  | [] => Ok []
  | _ :: _ =>
      match fuel with
      | O => NoFuel
      | S fuel' =>
          do (r, l') <- read l ;
          do out <- convert_loop read write fuel' l' ;
          Ok (match r with Some c => write c ++ out | None => out end)
      end
  end.
Definition convert_it (t s : elem) (input : list N) : Res (list N) :=
  if elem_eqb s t then Ok input
  else convert_loop (decoder_it s) (encoder t) (length input) input.

(** ** SIMD lanes *)
Inductive width := W128 | W256 | W512.
Definition lanes (w : width) : nat := match w with W128 => 16 | W256 => 32 | W512 => 64 end.
(** Build configuration and run-time selected width: plain scalar code, std::experimental::simd, x86 intrinsics, NEON. *)
Inductive impl := NoSimd | StdSimd (w : width) | X86 (w : width) | Neon.
Definition impl_lanes (i : impl) : nat := match i with NoSimd => 16 | StdSimd w | X86 w => lanes w | Neon => 16 end.

(** intrinsics.h:75,126,188: sign bits of all lanes are clear (movemask = 0); std::simd: no lane is negative as signed char. *)
Definition all_ascii (v : list N) : bool := forallb (fun b => N.land b 0x80 =? 0) v.
(** _mm*_cvtepu8_epi32/epi16, vmovl: the first [n] lanes, zero-extended. *)
Definition cvtepu8 (n : nat) (v : list N) : list N := firstn n v.
(** _mm_srli_si128 *)
Definition shift_right_bytes (n : nat) (v : list N) : list N := skipn n v ++ repeat 0 n.
(** 128-bit lane [i] of a wider vector (cast/extract intrinsics) *)
Definition extract128 (i : nat) (v : list N) : list N := firstn 16 (skipn (16 * i) v).
Definition extract256 (i : nat) (v : list N) : list N := firstn 32 (skipn (32 * i) v).

(** Store [v] at [off] of the output buffer; outside the buffer is undefined. *)
Definition store (out : list N) (off : nat) (v : list N) : Res (list N) :=
  if (off + length v <=? length out)%nat then Ok (firstn off out ++ v ++ skipn (off + length v) out) else UB.

(** convert_simd_impl.h:46-121: the stores of one all-ASCII batch, by implementation. *)
Definition widen32 (i : impl) (batch : list N) (out : list N) (dst : nat) : Res (list N) :=
  match i with
  | NoSimd => Ok out
  | StdSimd w => store out dst (firstn (lanes w) batch)
  | X86 W128 =>
      do o1 <- store out (dst + 0) (cvtepu8 4 batch) ;
      do o2 <- store o1 (dst + 4) (cvtepu8 4 (shift_right_bytes 4 batch)) ;
      do o3 <- store o2 (dst + 8) (cvtepu8 4 (shift_right_bytes 8 batch)) ;
      store o3 (dst + 12) (cvtepu8 4 (shift_right_bytes 12 batch))
  | X86 W256 =>
      let lo := extract128 0 batch in let hi := extract128 1 batch in
      do o1 <- store out (dst + 0) (cvtepu8 8 lo) ;
      do o2 <- store o1 (dst + 8) (cvtepu8 8 (shift_right_bytes 8 lo)) ;
      do o3 <- store o2 (dst + 16) (cvtepu8 8 hi) ;
      store o3 (dst + 24) (cvtepu8 8 (shift_right_bytes 8 hi))
  | X86 W512 =>
      do o1 <- store out (dst + 0) (cvtepu8 16 (extract128 0 batch)) ;
      do o2 <- store o1 (dst + 16) (cvtepu8 16 (extract128 1 batch)) ;
      do o3 <- store o2 (dst + 32) (cvtepu8 16 (extract128 2 batch)) ;
      store o3 (dst + 48) (cvtepu8 16 (extract128 3 batch))
  | Neon =>
      let lo8 := firstn 8 batch in let hi8 := skipn 8 batch in
      do o1 <- store out (dst + 0) (firstn 4 lo8) ;
      do o2 <- store o1 (dst + 4) (skipn 4 lo8) ;
      do o3 <- store o2 (dst + 8) (firstn 4 hi8) ;
      store o3 (dst + 12) (skipn 4 hi8)
  end.
(** convert_simd_impl.h:155-219: the same for UTF-16 output. *)
Definition widen16 (i : impl) (batch : list N) (out : list N) (dst : nat) : Res (list N) :=
  match i with
  | NoSimd => Ok out
  | StdSimd w => store out dst (firstn (lanes w) batch)
  | X86 W128 =>
      do o1 <- store out (dst + 0) (cvtepu8 8 batch) ;
      store o1 (dst + 8) (cvtepu8 8 (shift_right_bytes 8 batch))
  | X86 W256 =>
      do o1 <- store out (dst + 0) (cvtepu8 16 (extract128 0 batch)) ;
      store o1 (dst + 16) (cvtepu8 16 (extract128 1 batch))
  | X86 W512 =>
      do o1 <- store out (dst + 0) (cvtepu8 32 (extract256 0 batch)) ;
      store o1 (dst + 32) (cvtepu8 32 (extract256 1 batch))
  | Neon =>
      do o1 <- store out (dst + 0) (firstn 8 batch) ;
      store o1 (dst + 8) (skipn 8 batch)
  end.

(** The loop [while (src + simd_size <= src_end)], convert_simd_impl.h:47, 63, 105, 156, 170, 206.  [strict] makes forming the
    pointer [src + simd_size] beyond one-past-the-end undefined, as the C++ standard has it; with [strict = false] only
    out-of-range reads and writes are undefined.  Returns (src, dst, output buffer) as offsets. *)
Fixpoint simd_loop (strict : bool) (i : impl) (widen : list N -> list N -> nat -> Res (list N))
                   (fuel : nat) (input : list N) (src : nat) (out : list N) (dst : nat) : Res (nat * list N * nat) :=
  let w := impl_lanes i in
  if strict && (length input <? src + w)%nat then UB
  else if (src + w <=? length input)%nat then
    match fuel with
    | O => NoFuel
    | S fuel' =>
        let batch := firstn w (skipn src input) in
        if negb (all_ascii batch) then Ok (src, out, dst)
        else do out' <- widen batch out dst ;
             simd_loop strict i widen fuel' input (src + w)%nat out' (dst + w)%nat
    end
  else Ok (src, out, dst).

(** Scalar tails, convert_simd_impl.h:125-131 and 224-231. *)
Fixpoint tail32 (st : dstate) (bs : list N) (out : list N) (dst : nat) : Res (list N * nat) :=
  match bs with
  | [] => Ok (out, dst)
  | b :: bs' =>
      let (st', r) := decoder_char st b in
      match r with
      | Some c => do out' <- store out dst [c] ; tail32 st' bs' out' (dst + 1)%nat
      | None => tail32 st' bs' out dst
      end
  end.
Fixpoint tail16 (st : dstate) (bs : list N) (out : list N) (dst : nat) : Res (list N * nat) :=
  match bs with
  | [] => Ok (out, dst)
  | b :: bs' =>
      let (st', r) := decoder_char st b in
      match r with
      | Some c => do out' <- store out dst (encoder_char16 c) ;
                  tail16 st' bs' out' (dst + length (encoder_char16 c))%nat
      | None => tail16 st' bs' out dst
      end
  end.

(** convert_simd_impl.h:37-134 and 146-234, on an output buffer [out]; NoSimd has no SIMD loop. *)
Definition convert_utf8_to_utf32_simd (strict : bool) (i : impl) (input out : list N) : Res (list N * nat) :=
  do (src, out1, dst) <- match i with
                         | NoSimd => Ok (0%nat, out, 0%nat)
                         | _ => simd_loop strict i (widen32 i) (length input) input 0 out 0
                         end ;
  tail32 dinit (skipn src input) out1 dst.
Definition convert_utf8_to_utf16_simd (strict : bool) (i : impl) (input out : list N) : Res (list N * nat) :=
  do (src, out1, dst) <- match i with
                         | NoSimd => Ok (0%nat, out, 0%nat)
                         | _ => simd_loop strict i (widen16 i) (length input) input 0 out 0
                         end ;
  tail16 dinit (skipn src input) out1 dst.

(** convert.h:354-385 [convert_to(string_view)]; utf8.h:158-169 [from_utf8(string_view)] is the UTF-8 to UTF-32 case.  The output
    string is resized (zero-filled) to the input size, converted into, and cut at the returned count. *)
Definition convert_to (strict : bool) (i : impl) (t s : elem) (input : list N) : Res (list N) :=
  match s, t with
  | T8, T32 =>
      match input with
      | [] => Ok []
      | _ => do (out, n) <- convert_utf8_to_utf32_simd strict i input (repeat 0 (length input)) ; Ok (firstn n out)
      end
  | T8, T16 =>
      match input with
      | [] => Ok []
      | _ => do (out, n) <- convert_utf8_to_utf16_simd strict i input (repeat 0 (length input)) ; Ok (firstn n out)
      end
  | _, _ => convert_it t s input
  end.

(** convert.h:387-396 [convert_to(S input)], one element, always through the iterators. *)
Definition convert_to_one (t s : elem) (x : N) : Res (list N) := convert_it t s [x].

(** ** The NEON sign-bit collector, intrinsics.h:263-341 [movemask_epi8].  A vector of [k]-bit lanes is the list of its lanes, the
    first lane being the least significant; [pairs k] reinterprets as lanes of twice the width; [vsra k n] is vsraq_n: each lane
    plus the lane shifted right by n, modulo the lane width. *)
Fixpoint pairs (k : N) (v : list N) : list N :=
  match v with a :: b :: v' => (a + b * 2 ^ k) :: pairs k v' | _ => [] end.
Definition vsra (k n : N) (v : list N) : list N := map (fun x => (x + x / 2 ^ n) mod 2 ^ k) v.
Definition neon_movemask (v : list N) : N :=
  let high_bits := map (fun b => N.shiftr b 7) v in
  let paired16 := vsra 16 7 (pairs 8 high_bits) in
  let paired32 := vsra 32 14 (pairs 16 paired16) in
  let paired64 := vsra 64 28 (pairs 32 paired32) in
  N.lor (nth 0 paired64 0 mod 256) (N.shiftl (nth 1 paired64 0 mod 256) 8).
