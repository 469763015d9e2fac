(** Model of src/libunicode/multistage_table_generator.h and multistage_table_view.h.  Asserts are compiled out (NDEBUG).
    An input element is a pair (value, object representation): operator== and the map look at the value, memcmp at the bytes. *)
From Verif Require Import Base.
Open Scope N_scope.

Section Table.
Variable T : Type.
(** operator== of T, with which std::unordered_map finds its keys (the hasher is assumed consistent with it) *)
Variable eqb : T -> T -> bool.
(** hashBlock, multistage_table_generator.h:125-137: any function of the block's bytes *)
Variable hash : list N -> N.
(** BlockSize; W1, W2: number of values of Stage1ElementType and Stage2ElementType (2^8 and 2^16 in the library) *)
Variables (BS : nat) (W1 W2 : N).

Definition cell := (T * list N)%type.
(** the bytes of the block that starts at [start] *)
Definition block_bytes (input : list cell) (start : nat) : list N := flat_map snd (firstn BS (skipn start input)).

(** the members written while generating: stage1[0..blocks done), stage2, stage3, _blockHashMap, _stage3Map *)
Record gen := mkGen { g1 : list N; g2 : list N; g3 : list T; g_blocks : N -> list nat; g_values : T -> option N }.
Definition gen0 : gen := mkGen [] [] [] (fun _ => []) (fun _ => None).

(** find_same_block and is_same_block, multistage_table_generator.h:139-158: the first block with the same bytes among those
    with the same hash (as block number), else this block is registered *)
Definition same_block (input : list cell) (a b : nat) : bool :=
  if list_eq_dec N.eq_dec (block_bytes input a) (block_bytes input b) then true else false.
Definition find_same_block (input : list cell) (g : gen) (start : nat) : option nat * gen :=
  let h := hash (block_bytes input start) in
  match find (fun other => same_block input other start) (g_blocks g h) with
  | Some other => (Some (Nat.div other BS), g)
  | None => (None, mkGen (g1 g) (g2 g) (g3 g) (fun k => if k =? h then g_blocks g h ++ [start] else g_blocks g k) (g_values g))
  end.
(** get_or_create_stage3_index, multistage_table_generator.h:160-171 *)
Definition stage3_index (g : gen) (v : T) : N * gen :=
  match g_values g v with
  | Some k => (k, g)
  | None =>
      let k := N.of_nat (length (g3 g)) mod W2 in
      (k, mkGen (g1 g) (g2 g) (g3 g ++ [v]) (g_blocks g) (fun x => if eqb x v then Some k else g_values g x))
  end.
(** the loop of multistage_table_generator.h:117-118 over the cells of the block *)
Fixpoint fill_block (g : gen) (cells : list cell) : gen :=
  match cells with
  | [] => g
  | c :: r => let '(k, g') := stage3_index g (fst c) in
              fill_block (mkGen (g1 g') (g2 g' ++ [k]) (g3 g') (g_blocks g') (g_values g')) r
  end.
(** get_or_create_index_to_stage2_block, multistage_table_generator.h:108-123, and the assignment to stage1 at line 82.
    stage1[other] of a block not yet processed would be the value-initialised 0; [UB] here (proved not to happen). *)
Definition add_block (input : list cell) (g : gen) (start : nat) : Res gen :=
  match find_same_block input g start with
  | (Some other, g') =>
      match nth_error (g1 g') other with
      | Some k => Ok (mkGen (g1 g' ++ [k]) (g2 g') (g3 g') (g_blocks g') (g_values g'))
      | None => UB
      end
  | (None, g') =>
      let k := (N.of_nat (Nat.div (length (g2 g')) BS)) mod W1 in
      let g'' := fill_block g' (firstn BS (skipn start input)) in
      Ok (mkGen (g1 g'' ++ [k]) (g2 g'') (g3 g'') (g_blocks g'') (g_values g''))
  end.
(** generate, multistage_table_generator.h:77-83.  [n] is the number of remaining blocks.  For an input shorter than a block
    the bound _inputSize - BlockSize wraps around. *)
Fixpoint add_blocks (input : list cell) (g : gen) (start : nat) (n : nat) : Res gen :=
  match n with
  | O => Ok g
  | S n' => do g' <- add_block input g start ; add_blocks input g' (start + BS) n'
  end.
Definition generate (input : list cell) : Res gen :=
  if (length input <? BS)%nat then UB else add_blocks input gen0 0 (Nat.div (length input) BS).

(** multistage_table_view::unsafe_get and get, multistage_table_view.h:43-55; reading outside a stage is undefined *)
Definition at_n {A} (l : list A) (k : N) : Res A := match nth_error l (N.to_nat k) with Some x => Ok x | None => UB end.
Definition unsafe_get (g : gen) (index : N) : Res T :=
  do block_number <- at_n (g1 g) (index / N.of_nat BS) ;
  let block_start := block_number * N.of_nat BS in
  let element_offset := index mod N.of_nat BS in
  do property_index <- at_n (g2 g) (block_start + element_offset) ;
  at_n (g3 g) property_index.
Definition get (max_value : N) (g : gen) (index : N) : Res T := unsafe_get g (if index <=? max_value then index else 0).

(** verify, multistage_table_generator.h:85-106: true if no exception is thrown.  The loops visit the same elements several times
    (every blockStart up to _inputSize - BlockSize is divided by BlockSize); modelled as one pass over the blocks' elements. *)
Fixpoint verify_from (g : gen) (cells : list cell) (index : N) : Res bool :=
  match cells with
  | [] => Ok true
  | c :: r => do v <- unsafe_get g index ; if eqb (fst c) v then verify_from g r (index + 1) else Ok false
  end.
Definition verify (g : gen) (input : list cell) : Res bool := verify_from g input 0.
End Table.
Arguments g1 {T}. Arguments g2 {T}. Arguments g3 {T}. Arguments unsafe_get {T}. Arguments get {T}.
