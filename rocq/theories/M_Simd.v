(** Model of /repo/src/libunicode/simd_detector.cpp and of the run-time dispatch in scan.cpp and convert.cpp (x86-64, GCC/Clang). *)
From Verif Require Import Base Spec_Utf M_Utf8 M_Convert M_AsciiScan Spec_Simd.
Open Scope N_scope.

(** simd_detector.cpp:45-50, 33-36: the XGETBV instruction with index 0; it faults without OSXSAVE. *)
Definition xgetbv (m : machine) : Res N := if xgetbv_available m then Ok (xcr0 m) else UB.

(** [(info & (1 << bit)) != 0] on an int32_t register value. *)
Definition bit_set (info bit : N) : bool := negb (N.land info (N.shiftl 1 bit) =? 0).

(** simd_detector.cpp:57-74 *)
Definition detect_os_avx (m : machine) : Res bool :=
  let ecx := cpuid m 1 0 ECX in
  let os_uses_xsave := bit_set ecx 27 in
  let cpu_avx := bit_set ecx 28 in
  if os_uses_xsave && cpu_avx then do mask <- xgetbv m ; Ok (N.land mask 0x6 =? 0x6)
  else Ok false.

(** simd_detector.cpp:76-82 *)
Definition detect_os_avx512 (m : machine) : Res bool :=
  do avx <- detect_os_avx m ;
  if negb avx then Ok false
  else do mask <- xgetbv m ; Ok (N.land mask 0xe6 =? 0xe6).

(** Conversion of a 32-bit register value to int (simd_detector.cpp:91). *)
Definition as_int (r : N) : Z := if r <? 2 ^ 31 then Z.of_N r else (Z.of_N r - 2 ^ 32)%Z.

(** simd_detector.cpp:84-174 (the commented-out lines have no effect) *)
Definition max_simd_size (m : machine) : Res N :=
  do avx <- detect_os_avx m ;
  if negb avx then Ok 128
  else
    let n_ids := as_int (cpuid m 0 0 EAX) in
    if (7 <=? n_ids)%Z then
      let ebx := cpuid m 7 0 EBX in
      let ecx := cpuid m 7 0 ECX in
      let hw_avx2 := bit_set ebx 5 in
      if negb hw_avx2 then Ok 128
      else
        let hw_avx512_f := bit_set ebx 16 in
        let hw_avx512_bw := bit_set ebx 30 in
        let hw_avx512_bitalg := bit_set ecx 12 in
        do os512 <- detect_os_avx512 m ;
        let use512 := os512 && hw_avx512_f && hw_avx512_bw && hw_avx512_bitalg in
        if negb use512 then Ok 256 else Ok 512
    else Ok 128.

(** The two build configurations with run-time dispatch, src/libunicode/CMakeLists.txt:223-227: LIBUNICODE_USE_STD_SIMD and
    LIBUNICODE_USE_INTRINSICS. *)
Inductive simd_config := Std | Intrinsics.
Definition impl_of (c : simd_config) (w : width) : impl := match c with Std => StdSimd w | Intrinsics => X86 w end.

(** src/libunicode/CMakeLists.txt:173-196: the extensions the compiler may use in each translation unit.  scan.cpp has no flag (x86-64
    baseline), convert.cpp has -msse4.1, scan256/convert256.cpp -mavx2, scan512/convert512.cpp -mavx512f -mavx512bw.  The flags of
    MSVC (/arch:AVX2, /arch:AVX512; none for convert.cpp) are not modelled.
    Under -mavx2 and -mavx512f every instruction that SSE4.1 would provide is emitted in its VEX form, which needs AVX only. *)
Definition unit_scan : list extension := [SSE2].
Definition unit_convert : list extension := [SSE2; SSE41].
Definition unit_256 : list extension := [SSE2; AVX; AVX2].
Definition unit_512 : list extension := [SSE2; AVX; AVX2; AVX512F; AVX512BW].
(** Running code of a translation unit compiled for extensions the machine lacks is undefined (illegal instruction). *)
Definition run_unit {A} (m : machine) (exts : list extension) (r : Res A) : Res A :=
  if forallb (supports m) exts then r else UB.

(** scan.cpp:65-79, scan256.cpp:7-10, scan512.cpp:7-10.  The function-local static holds the same value on every call. *)
Definition scan_for_text_ascii_dispatch (m : machine) (c : simd_config) (uchar : bool) (text : list N) (limit : nat) : Res nat :=
  run_unit m unit_scan (
    do simd_size <- max_simd_size m ;
    if simd_size =? 512 then run_unit m unit_512 (scan_for_text_ascii false uchar (impl_of c W512) text limit)
    else if simd_size =? 256 then run_unit m unit_256 (scan_for_text_ascii false uchar (impl_of c W256) text limit)
    else scan_for_text_ascii false uchar (impl_of c W128) text limit).

(** convert.cpp:12-22, convert256.cpp:7-10, convert512.cpp:7-10 *)
Definition convert_utf8_to_utf32_dispatch (m : machine) (c : simd_config) (input out : list N) : Res (list N * nat) :=
  run_unit m unit_convert (
    do simd_size <- max_simd_size m ;
    if simd_size =? 512 then run_unit m unit_512 (convert_utf8_to_utf32_simd false (impl_of c W512) input out)
    else if simd_size =? 256 then run_unit m unit_256 (convert_utf8_to_utf32_simd false (impl_of c W256) input out)
    else convert_utf8_to_utf32_simd false (impl_of c W128) input out).

(** convert.cpp:24-34, convert256.cpp:12-15, convert512.cpp:12-15 *)
Definition convert_utf8_to_utf16_dispatch (m : machine) (c : simd_config) (input out : list N) : Res (list N * nat) :=
  run_unit m unit_convert (
    do simd_size <- max_simd_size m ;
    if simd_size =? 512 then run_unit m unit_512 (convert_utf8_to_utf16_simd false (impl_of c W512) input out)
    else if simd_size =? 256 then run_unit m unit_256 (convert_utf8_to_utf16_simd false (impl_of c W256) input out)
    else convert_utf8_to_utf16_simd false (impl_of c W128) input out).

(** convert.h:354-385 [convert_to(string_view)] from UTF-8, with the conversion the machine selects (compare [convert_to]). *)
Definition convert_to_on (m : machine) (c : simd_config) (t : elem) (input : list N) : Res (list N) :=
  match t, input with
  | T32, [] | T16, [] => Ok []
  | T32, _ => do (out, n) <- convert_utf8_to_utf32_dispatch m c input (repeat 0 (length input)) ; Ok (firstn n out)
  | T16, _ => do (out, n) <- convert_utf8_to_utf16_dispatch m c input (repeat 0 (length input)) ; Ok (firstn n out)
  | _, _ => convert_it t T8 input
  end.
