(** Model of scan_for_text_ascii: src/libunicode/scan.cpp:65-79 and src/libunicode/scan_simd_impl.h:24-101. *)
From Verif Require Import Base M_Convert.
Open Scope N_scope.

(** A byte seen as signed char. *)
Definition schar (b : N) : Z := if (b <? 128)%N then Z.of_N b else (Z.of_N b - 256)%Z.

(** intrinsics.h:60,108,168,238 [less(batch, set1_epi8(0x20))]: lane-wise signed compare, one mask bit per lane (bit i = lane i). *)
Definition less20 (v : list N) : list bool := map (fun b => (schar b <? 32)%Z) v.

(** [and_vec(batch, 0x80..)] then lane equality with 0x80..: per byte (epi8) or per group of four bytes (epi32). *)
Definition hi_eq8 (v : list N) : list bool := map (fun b => N.land b 0x80 =? 0x80) v.
Fixpoint hi_eq32 (v : list N) : list bool :=
  match v with
  | a :: b :: c :: d :: v' =>
      let e := (N.land a 0x80 =? 0x80) && (N.land b 0x80 =? 0x80) && (N.land c 0x80 =? 0x80) && (N.land d 0x80 =? 0x80) in
      e :: e :: e :: e :: hi_eq32 v'
  | _ => []
  end.
(** Comparing a mask against the constant with the [k] low bits set. *)
Fixpoint mask_is_low (k : nat) (m : list bool) : bool :=
  match m with
  | [] => (k =? 0)%nat
  | b :: m' => match k with O => negb b && mask_is_low 0 m' | S k' => b && mask_is_low k' m' end
  end.
(** intrinsics.h:58,106,166,231 [equal]: movemask(cmpeq_epi32) == 0xFFFF for 128 and 256 bits and NEON, cmpeq_epi8_mask ==
    0xFFFFFFFF for 512 bits.  (For 256 and 512 bits the constant covers only half the lanes; see P_AsciiScan.) *)
Definition equal_hi (i : impl) (v : list N) : bool :=
  match i with
  | X86 W512 => mask_is_low 32 (hi_eq8 v)
  | _ => mask_is_low 16 (hi_eq32 v)
  end.
(** or_mask(mask, bool): the bool is promoted to 0 or 1, i.e. or-ed into bit 0. *)
Definition or_bit0 (m : list bool) (b : bool) : list bool := match m with [] => [] | x :: m' => (x || b) :: m' end.
(** trailing_zero_count / find_first_set of a non-zero mask; None for the zero mask. *)
Fixpoint first_set (m : list bool) : option nat :=
  match m with
  | [] => None
  | true :: _ => Some O
  | false :: m' => match first_set m' with Some n => Some (S n) | None => None end
  end.
(** Mask of one batch.  [uchar]: plain char is unsigned on the target (std::simd compares plain char). *)
Definition ctrl_or_complex (uchar : bool) (i : impl) (v : list N) : list bool :=
  match i with
  | StdSimd _ => map (fun b => ((if uchar then Z.of_N b else schar b) <? 32)%Z || (N.land b 0x80 =? 0x80)) v
  | _ => or_bit0 (less20 v) (equal_hi i v)
  end.
(** scan_simd_impl.h:46 advances by simd_size, line 88 by sizeof(simd_size) = sizeof(int) = 4. *)
Definition batch_step (i : impl) : nat := match i with StdSimd w => lanes w | _ => 4 end.

(** The loop [while (input < end - simd_size)].  Pointers are offsets from text.data(); [n] is the offset of [end].  The pointer
    [end - simd_size] lies before the buffer when n < simd_size: undefined in C++, and undefined here when [strict]; otherwise
    compared as an integer. *)
Fixpoint scan_ascii_simd (strict uchar : bool) (i : impl) (fuel : nat) (text : list N) (n src : nat) : Res nat :=
  let w := impl_lanes i in
  if strict && (n <? w)%nat then UB
  else if (src + w <? n)%nat then
    match fuel with
    | O => NoFuel
    | S fuel' =>
        let batch := firstn w (skipn src text) in
        if negb (length batch =? w)%nat then UB
        else match first_set (ctrl_or_complex uchar i batch) with
             | Some a => Ok (src + a)%nat
             | None => scan_ascii_simd strict uchar i fuel' text n (src + batch_step i)
             end
    end
  else Ok src.

(** scan_simd_impl.h:92-98: the scalar loop [while (input != end && is_ascii( *input))]. *)
Definition is_ascii (b : N) : bool := negb (b <? 0x20) && (N.land b 0x80 =? 0).
Fixpoint scan_ascii_scalar (fuel : nat) (text : list N) (n src : nat) : Res nat :=
  if (src =? n)%nat then Ok src
  else match nth_error text src with
       | None => UB
       | Some b => if is_ascii b then match fuel with O => NoFuel | S f => scan_ascii_scalar f text n (S src) end else Ok src
       end.

(** scan.cpp:65-79 and scan_simd_impl.h:24-101; [max] is maxColumnCount. *)
Definition scan_for_text_ascii (strict uchar : bool) (i : impl) (text : list N) (max : nat) : Res nat :=
  let n := Nat.min (length text) max in
  do src <- match i with NoSimd => Ok O | _ => scan_ascii_simd strict uchar i n text n 0 end ;
  scan_ascii_scalar n text n src.
