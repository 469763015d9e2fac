(** Model of src/libunicode/utf8_grapheme_segmenter.h.  A pointer into the text is the suffix of the text that starts
    there; [_end] is the empty suffix, so "p != _end" is "the suffix is not empty". *)
From Verif Require Import Base Spec_Utf M_Utf8 M_Ucd M_Grapheme.
Open Scope N_scope.

(** utf8_grapheme_segmenter.h:64-73 iterator fields ([_start], [_end] and the unread [_result] are dropped) *)
Record u8it := mkI { i_cstart : list N; i_ncstart : list N; i_next : list N; i_dec : dstate; i_nextcp : N;
                     i_cluster : list N; i_seg : gstate }.

(** utf8_grapheme_segmenter.h:118-133 the while loop of consumeCodepoint: rest of the text, decoder, next code point *)
Fixpoint read_codepoint (st : dstate) (bs : list N) : list N * dstate * N :=
  match bs with
  | [] => ([], st, 0)                                             (* lines 134-136 *)
  | b :: bs' =>
      match from_utf8 st b with
      | (st', Success v) => (bs', st', v)
      | (st', Invalid) => (bs', st', 0xFFFD)
      | (st', Incomplete) => read_codepoint st' bs'
      end
  end.
(** utf8_grapheme_segmenter.h:114-137 consumeCodepoint: returns the previous look-ahead *)
Definition consume_codepoint (i : u8it) : N * u8it :=
  let '(rest, st, v) := read_codepoint (i_dec i) (i_next i) in
  (i_nextcp i, mkI (i_cstart i) (i_next i) rest st v (i_cluster i) (i_seg i)).

(** utf8_grapheme_segmenter.h:151-153 the while loop of consumeGraphemeCluster *)
Fixpoint consume_more (u : ucd) (fuel : nat) (i : u8it) : Res u8it :=
  match i_ncstart i with
  | [] => Ok i
  | _ :: _ =>
      let '(brk, sg) := process_breakable u (i_nextcp i) (i_seg i) in
      let i := mkI (i_cstart i) (i_ncstart i) (i_next i) (i_dec i) (i_nextcp i) (i_cluster i) sg in
      if brk then Ok i
      else match fuel with
           | O => NoFuel
           | S f =>
               let '(c, i) := consume_codepoint i in
               consume_more u f (mkI (i_cstart i) (i_ncstart i) (i_next i) (i_dec i) (i_nextcp i) (i_cluster i ++ [c]) (i_seg i))
           end
  end.
(** utf8_grapheme_segmenter.h:139-154 consumeGraphemeCluster, which is also operator++ (156-160) *)
Definition consume_cluster (u : ucd) (fuel : nat) (i : u8it) : Res u8it :=
  let i := mkI (i_ncstart i) (i_ncstart i) (i_next i) (i_dec i) (i_nextcp i) [] (i_seg i) in
  match i_ncstart i with
  | [] => Ok i
  | _ :: _ =>
      let '(c, i) := consume_codepoint i in
      consume_more u fuel (mkI (i_cstart i) (i_ncstart i) (i_next i) (i_dec i) (i_nextcp i) [c] (process_init u c))
  end.
(** utf8_grapheme_segmenter.h:94-102 constructor *)
Definition u8it_make (u : ucd) (fuel : nat) (text : list N) : Res u8it :=
  let i := mkI text text text dinit 0 [] (gstate0 u) in
  match text with
  | [] => Ok i
  | _ :: _ => consume_cluster u fuel (snd (consume_codepoint i))
  end.
(** for (auto cluster: utf8_grapheme_segmenter(text)): begin() (84-87), != end() (89-92, 169-177), operator*, operator++.
    end() is the iterator whose _clusterStart is the end of the text. *)
Fixpoint u8it_loop (u : ucd) (fuel : nat) (cfuel : nat) (i : u8it) : Res (list (list N)) :=
  match i_cstart i with
  | [] => Ok []
  | _ :: _ => match fuel with
              | O => NoFuel
              | S f => do i' <- consume_cluster u cfuel i; do l <- u8it_loop u f cfuel i'; Ok (i_cluster i :: l)
              end
  end.
Definition u8_grapheme_clusters (u : ucd) (text : list N) : Res (list (list N)) :=
  do i <- u8it_make u (length text) text; u8it_loop u (length text) (length text) i.
