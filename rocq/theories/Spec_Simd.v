(** The x86-64 machine as the Intel SDM describes it: what CPUID and XGETBV report, and which instruction-set extensions a program
    may execute.  This is the environment of /repo/src/libunicode/simd_detector.cpp, written from the SDM (vol. 2A CPUID; vol. 1
    13.1, 14.3, 15.2), not from the code. *)
From Verif Require Import Base.
Open Scope N_scope.

Inductive register := EAX | EBX | ECX | EDX.
(** [cpuid m leaf subleaf r]: register [r] after CPUID with EAX = [leaf], ECX = [subleaf].  Leaves above the highest basic leaf
    report unrelated data on real processors, so nothing is assumed about them.  [xcr0 m]: extended control register 0. *)
Record machine := { cpuid : N -> N -> register -> N; xcr0 : N }.

Definition max_leaf (m : machine) : N := cpuid m 0 0 EAX.
Definition osxsave (m : machine) : bool := N.testbit (cpuid m 1 0 ECX) 27.
Definition leaf7 (m : machine) (r : register) (bit : N) : bool := (7 <=? max_leaf m) && N.testbit (cpuid m 7 0 r) bit.

(** The operating system saves and restores the upper halves of the YMM registers (XCR0[2:1]), the mask registers and the ZMM
    registers (XCR0[7:5]). *)
Definition os_ymm (m : machine) : bool := osxsave m && N.testbit (xcr0 m) 1 && N.testbit (xcr0 m) 2.
Definition os_zmm (m : machine) : bool := os_ymm m && N.testbit (xcr0 m) 5 && N.testbit (xcr0 m) 6 && N.testbit (xcr0 m) 7.

Inductive extension := SSE2 | SSE41 | AVX | AVX2 | AVX512F | AVX512BW | AVX512BITALG.
(** A program may execute instructions of the extension. *)
Definition supports (m : machine) (e : extension) : bool :=
  match e with
  | SSE2 => true                                           (* part of the x86-64 baseline *)
  | SSE41 => N.testbit (cpuid m 1 0 ECX) 19
  | AVX => os_ymm m && N.testbit (cpuid m 1 0 ECX) 28
  | AVX2 => os_ymm m && N.testbit (cpuid m 1 0 ECX) 28 && leaf7 m EBX 5
  | AVX512F => os_zmm m && leaf7 m EBX 16
  | AVX512BW => os_zmm m && leaf7 m EBX 30
  | AVX512BITALG => os_zmm m && leaf7 m ECX 12
  end.
(** XGETBV itself is available (it raises #UD otherwise). *)
Definition xgetbv_available (m : machine) : bool := osxsave m.

(** Everything a program can learn about the extensions is in these registers; two machines agreeing here are alike. *)
Definition same_features (m m' : machine) : Prop :=
  max_leaf m = max_leaf m' /\ cpuid m 1 0 ECX = cpuid m' 1 0 ECX /\ (osxsave m = true -> xcr0 m = xcr0 m') /\
  (7 <= max_leaf m -> cpuid m 7 0 EBX = cpuid m' 7 0 EBX /\ cpuid m 7 0 ECX = cpuid m' 7 0 ECX).
