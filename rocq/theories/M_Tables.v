(** Model of the table searches: std::lower_bound / std::binary_search as libstdc++ implements them, the hand-written
    composition-pair search of normalization.cpp, and contains()/search() of ucd_private.h. *)
From Verif Require Import Base.
Open Scope nat_scope.

(** std::lower_bound(first, last, val, comp) (libstdc++ bits/stl_algobase.h, __lower_bound): a loop over
    [first, first+len) that halves [len].  [lt e] is comp(e, val).  Reading outside the array is [UB]. *)
Fixpoint lower_bound_loop {A} (fuel : nat) (lt : A -> bool) (tbl : list A) (first len : nat) : Res nat :=
  match len, fuel with
  | O, _ => Ok first
  | S _, O => NoFuel
  | S _, S f =>
      let half := Nat.div2 len in
      match nth_error tbl (first + half) with
      | None => UB
      | Some e => if lt e then lower_bound_loop f lt tbl (first + half + 1) (len - half - 1)
                  else lower_bound_loop f lt tbl first half
      end
  end.
Definition lower_bound {A} (lt : A -> bool) (tbl : list A) : Res nat :=
  lower_bound_loop (length tbl) lt tbl 0 (length tbl).

(** The lookup pattern of case_mapping.cpp:33-39,46-58 and normalization.cpp:56-64,72-79,85-90:
    lower_bound on the key, then "it != table.end() && it->key == codepoint".
    (lower_bound never fails, theorem C51_lower_bound_safe, so the last case is dead.) *)
Definition find_entry {A} (key : A -> N) (tbl : list A) (cp : N) : option A :=
  match lower_bound (fun e => (key e <? cp)%N) tbl with
  | Ok k => match nth_error tbl k with
            | Some e => if (key e =? cp)%N then Some e else None
            | None => None
            end
  | _ => None
  end.

(** std::binary_search(table.begin(), table.end(), codepoint) (normalization.cpp:47-51, contains_codepoint):
    lower_bound, then "it != end && !(codepoint < *it)". *)
Definition binary_search (tbl : list N) (cp : N) : bool :=
  match lower_bound (fun e => (e <? cp)%N) tbl with
  | Ok k => match nth_error tbl k with Some e => negb (cp <? e)%N | None => false end
  | _ => false
  end.

(** The composition pair search, normalization.cpp:113-129.  [it], [en] are the iterators as indices. *)
Fixpoint comp_loop (fuel : nat) (tbl : list (N * N * N)) (first second : N) (it en : nat) : Res N :=
  if it =? en then Ok 0%N else
  match fuel with
  | O => NoFuel
  | S f =>
      let mid := it + (en - it) / 2 in
      match nth_error tbl mid with
      | None => UB
      | Some (a, b, c) =>
          if ((a <? first) || ((a =? first) && (b <? second)))%N then comp_loop f tbl first second (mid + 1) en
          else if ((first <? a) || ((a =? first) && (second <? b)))%N then comp_loop f tbl first second it mid
          else Ok c
      end
  end.
Definition comp_search (tbl : list (N * N * N)) (first second : N) : N :=
  match comp_loop (S (length tbl)) tbl first second 0 (length tbl) with Ok c => c | _ => 0%N end.

(** contains(), ucd_private.h:28-50.  [size_t] arithmetic: "ranges.size() - 1" wraps to 2^64-1 for an empty array,
    after which the first index is out of range; the model keeps the wrapped value as [size_max]. *)
Definition size_max : N := 2 ^ 64 - 1.
(** ranges[i] for a size_t index *)
Definition at_index {A} (l : list A) (i : N) : option A :=
  if (i <? N.of_nat (length l))%N then nth_error l (N.to_nat i) else None.
Fixpoint contains_loop (fuel : nat) (ranges : list (N * N)) (cp : N) (a b : N) : Res bool :=
  if (a <? b)%N then
    match fuel with
    | O => NoFuel
    | S f =>
        let i := (((b + a) mod 2 ^ 64) / 2)%N in
        match at_index ranges i with
        | None => UB
        | Some (lo, hi) =>
            if (hi <? cp)%N then contains_loop f ranges cp (i + 1) b
            else if (cp <? lo)%N then if (i =? 0)%N then Ok false else contains_loop f ranges cp a (i - 1)
            else Ok true
        end
    end
  else if (a =? b)%N then
    match at_index ranges a with
    | None => UB
    | Some (lo, hi) => Ok ((lo <=? cp)%N && (cp <=? hi)%N)
    end
  else Ok false.
Definition size_minus_1 (n : nat) : N := match n with O => size_max | S k => N.of_nat k end.
Definition contains (ranges : list (N * N)) (cp : N) : Res bool :=
  contains_loop (S (length ranges)) ranges cp 0 (size_minus_1 (length ranges)).

(** search(), ucd_private.h:58-88. *)
Fixpoint search_loop {T} (fuel : nat) (ranges : list (N * N * T)) (cp : N) (a b : N) : Res (option T) :=
  if (a <? b)%N then
    match fuel with
    | O => NoFuel
    | S f =>
        let i := (a + (b - a) / 2)%N in
        match at_index ranges i with
        | None => UB
        | Some (lo, hi, p) =>
            if (hi <? cp)%N then if (i =? b)%N then Ok None else search_loop f ranges cp (i + 1) b
            else if (cp <? lo)%N then if (i =? 0)%N then Ok None else search_loop f ranges cp a (i - 1)
            else Ok (Some p)
        end
    end
  else if (a =? b)%N then
    match at_index ranges a with
    | None => UB
    | Some (lo, hi, p) => Ok (if (lo <=? cp)%N && (cp <=? hi)%N then Some p else None)
    end
  else Ok None.
Definition search {T} (ranges : list (N * N * T)) (cp : N) : Res (option T) :=
  search_loop (S (length ranges)) ranges cp 0 (size_minus_1 (length ranges)).
