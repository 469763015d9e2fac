(** Model of the macros of /repo/src/libunicode/capi.h (lines 20-80, 218-220).  u32_char_t is uint_least32_t with 32 bits, int has
    32 bits (two's complement). *)
From Verif Require Import Base.
Open Scope N_scope.

(** The language the macro is used in: C, where 1 << 31 is undefined (C11 6.5.7p4), or C++20, where it is INT_MIN. *)
Inductive language := LangC | LangCxx20.

(** [1 << n] of type int, then converted to the 32-bit unsigned type of the other operand. *)
Definition shl_one (lang : language) (n : N) : Res N :=
  if n <? 31 then Ok (2 ^ n)
  else if n =? 31 then match lang with LangC => UB | LangCxx20 => Ok (2 ^ 31) end
  else UB.
(** [~] of an int, then converted to unsigned. *)
Definition complement (x : N) : N := 0xFFFFFFFF - x.

(** capi.h:51 u32_unused_bit_mask *)
Definition unused_bit_mask (c : N) : N := N.shiftr c 21.
(** capi.h:60 u32_unused_bit_capacity, sizeof(u32_char_t) = 4 *)
Definition unused_bit_capacity : N := 8 * 4 - 21.
(** capi.h:65 u32_unused_bit_get *)
Definition unused_bit_get (lang : language) (c index : N) : Res bool :=
  do m <- shl_one lang (index + 21) ; Ok (negb (N.land c m =? 0)).
(** capi.h:70 u32_unused_bit_on *)
Definition unused_bit_on (lang : language) (c index : N) : Res N :=
  do m <- shl_one lang (index + 21) ; Ok (N.lor c m).
(** capi.h:75 u32_unused_bit_off *)
Definition unused_bit_off (lang : language) (c index : N) : Res N :=
  do m <- shl_one lang (index + 21) ; Ok (N.land c (complement m)).
(** capi.h:80 u32_unused_bit_cleared with U32_CODEPOINT_MASK (capi.h:27) *)
Definition unused_bit_cleared (c : N) : N := N.land c 0x1FFFFF.

(** A client's sequence of u32_unused_bit_on / u32_unused_bit_off assignments to one u32_char_t. *)
Fixpoint bit_history (lang : language) (c : N) (ops : list (bool * N)) : Res N :=
  match ops with
  | [] => Ok c
  | (b, i) :: ops' =>
      do c' <- (if b then unused_bit_on lang c i else unused_bit_off lang c i) ; bit_history lang c' ops'
  end.

(** ** Preprocessor tokens *)
Inductive token := LPar | RPar | Lt | Gt | Le | OrOr | AndAnd | Num (n : N) | Ident (name : N).

(** capi.h:40-41: the replacement list of u32_is_valid_codepoint with its parameter replaced by the tokens [arg]. *)
Definition is_valid_codepoint_macro (arg : list token) : list token :=
  [LPar; LPar] ++ arg ++ [RPar; Lt; Num 0xD800; OrOr; LPar; LPar] ++ arg ++ [RPar; Gt; Num 0xDFFF; AndAnd; LPar] ++ arg ++
  [RPar; Le; Num 0x10FFFF; RPar].

(** Header lines that matter for linkage: [OpenExternC] is [extern "C" {] (capi.h:21-22), [CloseBrace] the matching brace (line
    219), [Declares] the declarations between them; conditional lines are kept when [defined(__cplusplus)] is as stated. *)
Inductive header_line := IfNotCplusplus (l : header_line) | OpenExternC | CloseBrace | Declares (function : N).
Fixpoint keep_line (cplusplus : bool) (l : header_line) : list header_line :=
  match l with IfNotCplusplus l' => if cplusplus then [] else keep_line cplusplus l' | _ => [l] end.
Definition preprocess (cplusplus : bool) (h : list header_line) : list header_line := flat_map (keep_line cplusplus) h.
(** capi.h:20-220; each function declaration is named by its line in the header. *)
Definition capi_header : list header_line :=
  [IfNotCplusplus OpenExternC] ++ map Declares [94; 95; 137; 144; 166; 177; 193; 199; 216] ++ [IfNotCplusplus CloseBrace].
