(** Model of src/libunicode/capi.cpp. *)
From Verif Require Import Base Spec_Utf M_Utf8 M_Convert M_Ucd M_Grapheme M_Width.
Open Scope Z_scope.

(** capi.cpp:30-34 the counting loop; [count] is an int (unbounded here: a text needs 2^31 clusters to overflow it) *)
Fixpoint count_loop (u : ucd) (fuel : nat) (s : gseg) (count : Z) : Res Z :=
  if seg_available s then
    match fuel with O => NoFuel | S f => count_loop u f (seg_next u s) (count + 1) end
  else Ok count.
(** capi.cpp:23-36 u32_gc_count *)
Definition u32_gc_count (u : ucd) (t : list N) : Res Z :=
  match t with [] => Ok 0 | _ => count_loop u (length t) (seg_make u t) 1 end.
(** capi.cpp:38-42 u8_gc_count *)
Definition u8_gc_count (i : impl) (u : ucd) (bytes : list N) : Res Z :=
  do t <- convert_to false i T32 T8 bytes; u32_gc_count u t.

(** GC_WIDTH_MODE_NON_MODIFIABLE / GC_WIDTH_MODE_MODIFIABLE (capi.h) *)
Inductive wmode := NonModifiable | Modifiable.
(** capi.cpp:49-54 processCluster; cluster.front() of an empty view is undefined behaviour *)
Definition process_cluster (u : ucd) (m : wmode) (cl : list N) : Res Z :=
  match m with
  | NonModifiable => match cl with [] => UB | c :: _ => Ok (cp_width u c) end
  | Modifiable => Ok (cluster_width u cl)
  end.
(** capi.cpp:44-62 u32_gc_width *)
Definition u32_gc_width (u : ucd) (t : list N) (m : wmode) : Res Z :=
  sum_clusters u Z.add (process_cluster u m) (length t) (seg_make u t) 0.
(** capi.cpp:64-68 u8_gc_width *)
Definition u8_gc_width (i : impl) (u : ucd) (bytes : list N) (m : wmode) : Res Z :=
  do t <- convert_to false i T32 T8 bytes; u32_gc_width u t m.

(** capi.cpp:70-75 u32_grapheme_unbreakable *)
Definition u32_grapheme_unbreakable (u : ucd) (a b : N) : bool := negb (fst (process_breakable u b (process_init u a))).

(** capi.cpp:103-124 u32u8_convert.  [dest] is the destination buffer, whose length is the [dlen] the caller passed;
    [off] is dest's progress, so dlen - off is what is left.  A write outside [dest] would be [UB] (store). *)
Fixpoint u32u8_loop (src : list N) (dest : list N) (off : nat) (dlen : nat) (nwritten : Z) : Res (Z * list N) :=
  match src with
  | [] => Ok (nwritten, dest)
  | c :: src' =>
      let buf := encoder_char c in
      let n := length buf in
      if negb (Nat.ltb n dlen) then Ok (-1, dest)
      else do dest' <- store dest off buf;
           u32u8_loop src' dest' (off + n) (dlen - n) (nwritten + Z.of_nat n)
  end.
Definition u32u8_convert (src dest : list N) : Res (Z * list N) := u32u8_loop src dest 0 (length dest) 0.
