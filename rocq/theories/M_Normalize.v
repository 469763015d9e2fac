(** Model of src/libunicode/normalization.cpp (UTF-32 part and streaming normalizer). *)
From Verif Require Import Base M_Tables.
Open Scope N_scope.

(** The generated tables of case_normalization_data.h (tablegen/case_norm_generator.cpp:88-300).  A decomposition entry
    { source, targets[maxLen], length } is represented by the list of its first [length] targets, which is the span
    find_decomposition returns. *)
Record norm_tables := {
  t_ccc : list (N * N);                  (* ccc_table *)
  t_canon : list (N * list N);           (* canonical_decomposition_table *)
  t_compat : list (N * list N);          (* compatibility_decomposition_table (without decomp_type) *)
  t_comp : list (N * N * N);             (* composition_table *)
  t_excl : list N;                       (* composition_exclusions_table *)
  t_nfc_no : list N; t_nfc_maybe : list N; t_nfkc_no : list N; t_nfkc_maybe : list N;
  t_nfd_no : list N; t_nfkd_no : list N  (* quick-check sets *)
}.

(** Hangul constants, normalization.cpp:30-38 *)
Definition SBase : N := 0xAC00.
Definition LBase : N := 0x1100.
Definition VBase : N := 0x1161.
Definition TBase : N := 0x11A7.
Definition LCount : N := 19.
Definition VCount : N := 21.
Definition TCount : N := 28.
Definition NCount : N := 588.
Definition SCount : N := 11172.

(** normalization.cpp:475-493 *)
Definition is_hangul_syllable (cp : N) : bool := (SBase <=? cp) && (cp <? SBase + SCount).
Definition is_hangul_l_jamo (cp : N) : bool := (LBase <=? cp) && (cp <? LBase + LCount).
Definition is_hangul_v_jamo (cp : N) : bool := (VBase <=? cp) && (cp <? VBase + VCount).
Definition is_hangul_t_jamo (cp : N) : bool := (TBase <? cp) && (cp <? TBase + TCount).

(** hangul_decompose, normalization.cpp:495-515: the code points written to output[0..count). *)
Definition hangul_decompose (s : N) : list N :=
  if negb (is_hangul_syllable s) then [] else
  let sIndex := s - SBase in
  let lIndex := sIndex / NCount in
  let vIndex := (sIndex mod NCount) / TCount in
  let tIndex := sIndex mod TCount in
  if 0 <? tIndex then [LBase + lIndex; VBase + vIndex; TBase + tIndex] else [LBase + lIndex; VBase + vIndex].

(** hangul_compose, normalization.cpp:517-534 *)
Definition hangul_compose (l v t : N) : N :=
  if negb (is_hangul_l_jamo l) || negb (is_hangul_v_jamo v) then 0 else
  let lvIndex := (l - LBase) * NCount + (v - VBase) * TCount in
  if t =? 0 then SBase + lvIndex else
  if negb (is_hangul_t_jamo t) then 0 else SBase + lvIndex + (t - TBase).

Section Tables.
Variable tb : norm_tables.

(** lookup_ccc, normalization.cpp:53-64; canonical_combining_class, 252-255 *)
Definition canonical_combining_class (cp : N) : N :=
  match find_entry fst (t_ccc tb) cp with Some e => snd e | None => 0 end.

(** find_decomposition, normalization.cpp:66-79 *)
Definition find_decomposition (tbl : list (N * list N)) (cp : N) : list N :=
  match find_entry fst tbl cp with Some e => snd e | None => [] end.

(** canonical_decomposition, normalization.cpp:257-269 *)
Definition canonical_decomposition (cp : N) : list N :=
  if is_hangul_syllable cp then hangul_decompose cp else find_decomposition (t_canon tb) cp.

(** compatibility_decomposition, normalization.cpp:271-280 *)
Definition compatibility_decomposition (cp : N) : list N :=
  match canonical_decomposition cp with
  | [] => find_decomposition (t_compat tb) cp
  | r => r
  end.

(** is_composition_exclusion, normalization.cpp:293-296 *)
Definition is_composition_exclusion (cp : N) : bool := binary_search (t_excl tb) cp.

(** try_compose, normalization.cpp:92-132 *)
Definition try_compose (first second : N) : N :=
  if is_hangul_l_jamo first then
    if is_hangul_v_jamo second
    then SBase + ((first - LBase) * VCount + (second - VBase)) * TCount
    else comp_search (t_comp tb) first second
  else if is_hangul_syllable first then
    if ((first - SBase) mod TCount =? 0) && ((TBase <=? second) && (second <? TBase + TCount))
    then first + (second - TBase)
    else comp_search (t_comp tb) first second
  else comp_search (t_comp tb) first second.

(** decompose_recursive, normalization.cpp:134-157.  The C++ recursion is unbounded; [fuel] bounds its depth. *)
Fixpoint decompose_recursive (fuel : nat) (compat : bool) (cp : N) : Res (list N) :=
  match fuel with
  | O => NoFuel
  | S f =>
      if is_hangul_syllable cp then Ok (hangul_decompose cp)
      else
        let d := find_decomposition (t_canon tb) cp in
        let d := match d with [] => if compat then find_decomposition (t_compat tb) cp else [] | _ => d end in
        match d with
        | [] => Ok [cp]
        | _ => (fix go (l : list N) : Res (list N) :=
                  match l with
                  | [] => Ok []
                  | c :: r => do x <- decompose_recursive f compat c ; do y <- go r ; Ok (x ++ y)
                  end) d
        end
  end.

(** canonical_order, normalization.cpp:160-182.  The inner while loop moves text[i] left by adjacent swaps; it is
    modelled on the reversed prefix text[i-1], text[i-2], ...  [bubble x rp]: insert x into the reversed prefix. *)
Fixpoint bubble (x : N) (rp : list N) : list N :=
  match rp with
  | [] => [x]                                              (* j == 0 *)
  | p :: r =>
      if (canonical_combining_class p =? 0) || (canonical_combining_class p <=? canonical_combining_class x)
      then x :: rp                                         (* break *)
      else p :: bubble x r                                 (* swap(text[j-1], text[j]); --j *)
  end.
Definition order_step (rp : list N) (x : N) : list N :=
  if canonical_combining_class x =? 0 then x :: rp else bubble x rp.
(** The outer loop starts at i = 1; for i = 0 the step only pushes text[0], which is the same. *)
Definition canonical_order (text : list N) : list N := rev (fold_left order_step text []).

(** compose, normalization.cpp:185-244.  Main loop: [result] reversed, [starter], [last_ccc]. *)
Fixpoint compose_loop (text : list N) (rresult : list N) (starter last_ccc : N) : list N :=
  match text with
  | [] => rev (starter :: rresult)
  | cp :: rest =>
      let ccc := canonical_combining_class cp in
      let composed := if (last_ccc <? ccc) || (last_ccc =? 0) then try_compose starter cp else 0 in
      if negb (composed =? 0) && negb (is_composition_exclusion composed)
      then compose_loop rest rresult composed last_ccc
      else if ccc =? 0 then compose_loop rest (starter :: rresult) cp 0
      else compose_loop rest (cp :: rresult) starter ccc
  end.
Fixpoint compose_lead (text : list N) (rresult : list N) : list N :=
  match text with
  | [] => rev rresult
  | cp :: rest =>
      if negb (canonical_combining_class cp =? 0) then compose_lead rest (cp :: rresult)
      else compose_loop rest rresult cp 0
  end.
Definition compose (decomposed : list N) : list N := compose_lead decomposed [].

(** Normalization_Form, normalization.h *)
Inductive nform := NFC | NFD | NFKC | NFKD.
Definition use_compat (f : nform) : bool := match f with NFKC | NFKD => true | _ => false end.
Definition composes (f : nform) : bool := match f with NFC | NFKC => true | _ => false end.

(** the loop of normalization.cpp:350-351 *)
Fixpoint decompose_all (fuel : nat) (compat : bool) (text : list N) : Res (list N) :=
  match text with
  | [] => Ok []
  | c :: r => do x <- decompose_recursive fuel compat c ; do y <- decompose_all fuel compat r ; Ok (x ++ y)
  end.

(** normalize(u32string_view), normalization.cpp:339-361 *)
Definition normalize (fuel : nat) (text : list N) (form : nform) : Res (list N) :=
  match text with
  | [] => Ok []
  | _ =>
    do d <- decompose_all fuel (use_compat form) text ;
    let o := canonical_order d in
    Ok (if composes form then compose o else o)
  end.

(** Quick-check properties, normalization.cpp:307-335 *)
Inductive qc := Yes | No | Maybe.
Definition nfc_quick_check (cp : N) : qc :=
  if binary_search (t_nfc_no tb) cp then No else if binary_search (t_nfc_maybe tb) cp then Maybe else Yes.
Definition nfd_quick_check (cp : N) : bool := negb (binary_search (t_nfd_no tb) cp).
Definition nfkc_quick_check (cp : N) : qc :=
  if binary_search (t_nfkc_no tb) cp then No else if binary_search (t_nfkc_maybe tb) cp then Maybe else Yes.
Definition nfkd_quick_check (cp : N) : bool := negb (binary_search (t_nfkd_no tb) cp).

(** The value the switch of quick_check (normalization.cpp:389-417) uses for one code point. *)
Definition cp_quick_check (form : nform) (cp : N) : qc :=
  match form with
  | NFC => nfc_quick_check cp
  | NFD => if nfd_quick_check cp then Yes else No
  | NFKC => nfkc_quick_check cp
  | NFKD => if nfkd_quick_check cp then Yes else No
  end.

(** quick_check, normalization.cpp:374-420 *)
Fixpoint quick_check_loop (form : nform) (text : list N) (result : qc) (last_ccc : N) : qc :=
  match text with
  | [] => result
  | cp :: rest =>
      let ccc := canonical_combining_class cp in
      if negb (ccc =? 0) && (ccc <? last_ccc) then No
      else match cp_quick_check form cp with
           | No => No
           | Maybe => quick_check_loop form rest Maybe ccc
           | Yes => quick_check_loop form rest result ccc
           end
  end.
Definition quick_check (text : list N) (form : nform) : qc := quick_check_loop form text Yes 0.

Fixpoint list_eqb (a b : list N) : bool :=
  match a, b with
  | [], [] => true
  | x :: a', y :: b' => (x =? y) && list_eqb a' b'
  | _, _ => false
  end.

(** is_normalized, normalization.cpp:428-439 *)
Definition is_normalized (fuel : nat) (text : list N) (form : nform) : Res bool :=
  match quick_check text form with
  | Yes => Ok true
  | No => Ok false
  | Maybe => do n <- normalize fuel text form ; Ok (list_eqb n text)
  end.

(** is_canonically_equivalent / is_compatibility_equivalent, normalization.cpp:451-469 *)
Definition is_canonically_equivalent (fuel : nat) (a b : list N) : Res bool :=
  do x <- normalize fuel a NFD ; do y <- normalize fuel b NFD ; Ok (list_eqb x y).
Definition is_compatibility_equivalent (fuel : nat) (a b : list N) : Res bool :=
  do x <- normalize fuel a NFKD ; do y <- normalize fuel b NFKD ; Ok (list_eqb x y).

(** normalizer, normalization.cpp:540-594.  State: _pending (the returned view into _output is the returned list). *)
Definition is_boundary (form : nform) (cp : N) : bool :=
  if negb (canonical_combining_class cp =? 0) then false
  else match form with
       | NFD | NFKD => true
       | NFC => match nfc_quick_check cp with Yes => true | _ => false end
       | NFKC => match nfkc_quick_check cp with Yes => true | _ => false end
       end.
Definition emit_pending (fuel : nat) (form : nform) (pending : list N) : Res (list N) :=
  match pending with [] => Ok [] | _ => normalize fuel pending form end.
(** feed: returns (output, new pending) *)
Definition nfeed (fuel : nat) (form : nform) (pending : list N) (cp : N) : Res (list N * list N) :=
  match pending with
  | [] => Ok ([], [cp])
  | _ => if is_boundary form cp then do o <- emit_pending fuel form pending ; Ok (o, [cp])
         else Ok ([], pending ++ [cp])
  end.
(** feed() every code point of [text], then flush(); the outputs concatenated. *)
Fixpoint nfeed_all (fuel : nat) (form : nform) (pending text : list N) : Res (list N * list N) :=
  match text with
  | [] => Ok ([], pending)
  | cp :: r => do (o, p) <- nfeed fuel form pending cp ;
               do (o', p') <- nfeed_all fuel form p r ; Ok (o ++ o', p')
  end.
Definition stream_normalize (fuel : nat) (form : nform) (text : list N) : Res (list N) :=
  do (o, p) <- nfeed_all fuel form [] text ; do f <- emit_pending fuel form p ; Ok (o ++ f).

End Tables.
