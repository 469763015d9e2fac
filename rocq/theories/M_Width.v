(** Model of src/libunicode/width.cpp and width.h. *)
From Verif Require Import Base Spec_Utf M_Utf8 M_Convert M_Ucd M_Grapheme.
Open Scope Z_scope.

(** width.cpp:26-29 width(char32_t) *)
Definition cp_width (u : ucd) (c : N) : Z := Z.of_N (p_width (u c)).

(** width.cpp:33-38 joinsEmojiSequence *)
Definition joins_emoji (u : ucd) (c : N) : bool := p_extpic (u c) || gcb_beq (p_gcb (u c)) GRI.

(** width.h:46-60 the fields of grapheme_cluster_width_accumulator *)
Record acc := mkA {
  a_last : N;       (* _lastMeasured *)
  a_lastw : Z;      (* _lastMeasuredWidth *)
  a_open : bool;    (* _lastMeasuredIsOpen *)
  a_total : Z;      (* _total *)
  a_cur : Z;        (* _current *)
  a_vir : bool;     (* _previousWasVirama *)
  a_skip : bool;    (* _skipNext *)
  a_ri : N          (* _regionalIndicators *)
}.
(** width.h:46-60 default member initialisers; also reset() (width.h:43) *)
Definition acc0 : acc := mkA 0 0 false 0 0 false false 0.

(** width.cpp:41-149 push *)
Definition push (u : ucd) (s : acc) (c : N) : acc :=
  let p := u c in
  let isri := gcb_beq (p_gcb p) GRI in
  let riBefore := a_ri s in
  let ri := if isri then to_u32 (a_ri s + 1) else 0%N in                                     (* 51-53 *)
  if a_skip s then                                                                           (* 57-61 *)
    mkA (a_last s) (a_lastw s) (a_open s) (a_total s) (a_cur s) (a_vir s) false ri
  else if (c =? 0x200D)%N then                                                               (* 63-74 *)
    if negb (a_vir s) then mkA (a_last s) 0 (a_open s) (a_total s) (a_cur s) (a_vir s) true ri
    else mkA (a_last s) (a_lastw s) (a_open s) (a_total s) (a_cur s) (a_vir s) (a_skip s) ri
  else if (c =? 0xFE0F)%N && a_open s then                                                   (* 79-89 *)
    mkA (a_last s) (a_lastw s) false (a_total s)
        (if p_varbase (u (a_last s)) && (p_width (u (a_last s)) =? 1)%N then 2 else a_cur s) (a_vir s) (a_skip s) ri
  else if (c =? 0xFE0E)%N && a_open s then                                                   (* 99-104 *)
    mkA (a_last s) (a_lastw s) (a_open s)
        (if p_varbase (u (a_last s)) && (a_lastw s =? 2) then a_total s - 1 else a_total s) (a_cur s) (a_vir s) (a_skip s) ri
  else if isri && (riBefore mod 2 =? 1)%N then                                               (* 107-111 *)
    mkA c (a_lastw s) (a_open s) (a_total s) (a_cur s) (a_vir s) (a_skip s) ri
  else if ((0x1F3FB <=? c) && (c <=? 0x1F3FF))%N && joins_emoji u (a_last s) then            (* 116-117 *)
    mkA (a_last s) (a_lastw s) (a_open s) (a_total s) (a_cur s) (a_vir s) (a_skip s) ri
  else
    let w := cp_width u c in
    if negb (w =? 0) then                                                                    (* 119-137 *)
      if a_vir s then mkA c w true (a_total s) 2 false (a_skip s) ri
      else if negb (a_cur s =? 0) then mkA c w true (a_total s + a_cur s) w false (a_skip s) ri
      else mkA c w true (a_total s) w false (a_skip s) ri
    else if p_virama p then                                                                  (* 138-139 *)
      mkA (a_last s) (a_lastw s) (a_open s) (a_total s) (a_cur s) true (a_skip s) ri
    else if p_mc p && a_open s then                                                          (* 140-146 *)
      mkA (a_last s) (a_lastw s) false (a_total s) 2 false (a_skip s) ri
    else                                                                                     (* 147-148 *)
      mkA (a_last s) (a_lastw s) (a_open s) (a_total s) (a_cur s) false (a_skip s) ri.

(** width.cpp:151-155 width() *)
Definition acc_width (s : acc) : Z := let t := a_total s + a_cur s in if 0 <? t then t else 0.

Definition pushes (u : ucd) (s : acc) (cl : list N) : acc := fold_left (push u) cl s.

(** width.cpp:157-169 grapheme_cluster_width(u32string_view) *)
Definition cluster_width (u : ucd) (cl : list N) : Z :=
  match cl with
  | [] => 0
  | [c] => cp_width u c
  | _ => acc_width (pushes u acc0 cl)
  end.

(** the summing loops of width.cpp:178-185 and capi.cpp:55-60: *segmenter, then ++ while codepointsAvailable.
    [acc_add] is the addition of the accumulator's type. *)
Fixpoint sum_clusters (u : ucd) (add : Z -> Z -> Z) (w : list N -> Res Z) (fuel : nat) (s : gseg) (total : Z) : Res Z :=
  do x <- w (seg_value s);
  let total' := add total x in
  if seg_available s then
    match fuel with O => NoFuel | S f => sum_clusters u add w f (seg_next u s) total' end
  else Ok total'.

(** width.cpp:171-186 grapheme_cluster_width(string_view): unsigned sum *)
Definition utf8_width (i : impl) (u : ucd) (bytes : list N) : Res Z :=
  do t <- convert_to false i T32 T8 bytes;
  match t with
  | [] => Ok 0
  | _ => sum_clusters u (fun a b => (a + b) mod 2 ^ 32) (fun cl => Ok (cluster_width u cl)) (length t) (seg_make u t) 0
  end.
