(** Model of src/libunicode/support.h (fs_array) and src/libunicode/script_segmenter.{h,cpp}. *)
From Verif Require Import Base.
Open Scope N_scope.

(** ---- fs_array<T, N>, support.h:63-128.  values_ is the std::array<T, N>, size_ the number of elements in use. *)
Record fs_array (A : Type) := mkFs { fs_values : list A; fs_size : nat }.
Arguments mkFs {A}. Arguments fs_values {A}. Arguments fs_size {A}.
(** the array after values_[i] = v; assigning outside of the array is undefined *)
Fixpoint set_nth {A} (l : list A) (i : nat) (v : A) : Res (list A) :=
  match l, i with
  | [], _ => UB
  | _ :: r, O => Ok (v :: r)
  | x :: r, S i' => do r' <- set_nth r i' v ; Ok (x :: r')
  end.
(** the constructor, support.h:72 (value-initialised elements [z]) *)
Definition fs_empty {A} (z : A) (N : nat) : fs_array A := mkFs (repeat z N) 0.
(** clear, support.h:74-79: the destructors of trivially destructible elements do nothing *)
Definition fs_clear {A} (a : fs_array A) : fs_array A := mkFs (fs_values a) 0.
(** push_back, support.h:85-91 *)
Definition fs_push {A} (N : nat) (a : fs_array A) (v : A) : Res (bool * fs_array A) :=
  if (fs_size a =? N)%nat then Ok (false, a)
  else do vs <- set_nth (fs_values a) (fs_size a) v ; Ok (true, mkFs vs (S (fs_size a))).
(** resize, support.h:93-97 *)
Definition fs_resize {A} (N : nat) (a : fs_array A) (n : nat) : fs_array A :=
  if (n <? N)%nat then mkFs (fs_values a) n else a.
(** what a user sees: begin() .. end() *)
Definition fs_content {A} (a : fs_array A) : list A := firstn (fs_size a) (fs_values a).
(** operator[], support.h:100 *)
Definition fs_get {A} (a : fs_array A) (i : nat) : Res A :=
  match nth_error (fs_values a) i with Some v => Ok v | None => UB end.

(** ---- scripts ----
    Script values are numbers; the three that isPreferred singles out are 0, 1, 2 here (the generated enum's numbering does not matter). *)
Definition sc_invalid : N := 0.
Definition sc_common : N := 1.
Definition sc_inherited : N := 2.
(** isPreferred, script_segmenter.cpp:26-35 *)
Definition is_preferred (s : N) : bool := negb ((s =? sc_invalid) || (s =? sc_common) || (s =? sc_inherited)).

(** script(cp) and script_extensions(cp): generated tables, arbitrary here *)
Record script_tables := mkScripts { script_of : N -> N; extensions_of : N -> option (list N) }.

(** ScriptSet = fs_array<Script, 32>, script_segmenter.h:68, as the list of its elements (justified by C61): *)
Definition push (l : list N) (v : N) : list N := if (length l =? 32)%nat then l else l ++ [v].
Definition memb (s : N) (l : list N) : bool := existsb (N.eqb s) l.

(** std::swap( *i, *begin) for the first i with *i = s, script_segmenter.cpp:140-141 *)
Fixpoint replace_first (s v : N) (l : list N) : list N :=
  match l with [] => [] | x :: r => if s =? x then v :: r else x :: replace_first s v r end.
Definition swap_front (s : N) (l : list N) : list N :=
  match l with [] => [] | x :: r => if s =? x then l else s :: replace_first s x r end.

(** getScriptsFor, script_segmenter.cpp:125-146 *)
Definition scripts_for (tb : script_tables) (c : N) : list N :=
  let sc := script_of tb c in
  let set := match extensions_of tb c with Some l => fold_left push l [] | None => push [] sc end in
  if memb sc set then swap_front sc set else push set sc.

(** the loop of script_segmenter.cpp:105-114: [n] elements are left from read position [r]; [w] is the write position *)
Fixpoint intersect (arr : list N) (r w n : nat) (next : list N) : Res (list N * nat) :=
  match n with
  | O => Ok (arr, w)
  | S n' =>
      match nth_error arr r with
      | None => UB
      | Some sc =>
          if memb sc next then do arr' <- set_nth arr w sc ; intersect arr' (S r) (S w) n' next
          else intersect arr (S r) w n' next
      end
  end.

(** mergeSets, script_segmenter.cpp:63-123: the answer, the new current set and commonPreferredScript_ *)
Definition merge_sets (next cur : list N) (pref : N) : Res (bool * list N * N) :=
  match next, cur with
  | [], _ | _, [] => Ok (false, cur, pref)
  | n0 :: ntail, priority :: ctail =>
      if negb (is_preferred n0) then
        let pref' := if (length next =? 2)%nat && negb (is_preferred priority) && (pref =? sc_common)
                     then nth 1 next 0 else pref in
        Ok (true, cur, pref')
      else if negb (is_preferred priority) then Ok (true, next, pref)
      else if (length ctail =? 0)%nat then Ok (memb priority next, cur, pref)
      else
        let has1 := memb priority next in
        let '(prio, nrest, has) := if has1 then (priority, next, true) else (n0, ntail, memb n0 ctail) in
        do (arr, w) <- (if has : bool then do a <- set_nth cur 0 prio ; Ok (a, 1%nat) else Ok (cur, 0%nat)) ;
        do (arr', w') <- (if (length nrest =? 0)%nat then Ok (arr, w) else intersect arr 1 w (length ctail) nrest) ;
        if (w' =? 0)%nat then Ok (false, arr', pref)
        else Ok (true, if (w' <? 32)%nat then firstn w' arr' else arr', pref)
  end.

(** script_segmenter: data_ + offset_ is the rest of the text *)
Record sseg := mkSseg { ss_rest : list N; ss_offset : nat; ss_set : list N; ss_pref : N }.
(** the constructors, script_segmenter.h:36-44 *)
Definition sseg_new (text : list N) : sseg := mkSseg text 0 [sc_common] sc_common.
(** resolveScript, script_segmenter.h:95-99: at(0) of an empty set would read an unused element, [UB] here *)
Definition resolve_script (set : list N) (pref : N) : Res N :=
  match set with [] => UB | s :: _ => Ok (if s =? sc_common then pref else s) end.

(** the loop of consume, script_segmenter.cpp:43-60 *)
Fixpoint consume_loop (tb : script_tables) (rest : list N) (off : nat) (set : list N) (pref : N) : Res ((N * nat) * sseg) :=
  match rest with
  | [] => do s <- resolve_script set pref ; Ok ((s, off), mkSseg [] off [] pref)
  | c :: r =>
      let next := scripts_for tb c in
      do (b, set', pref') <- merge_sets next set pref ;
      if b : bool then consume_loop tb r (S off) set' pref'
      else do s <- resolve_script set' pref' ; Ok ((s, off), mkSseg rest off next pref')
  end.
(** consume, script_segmenter.cpp:38-61 *)
Definition script_consume (tb : script_tables) (st : sseg) : Res (option (N * nat) * sseg) :=
  match ss_rest st with
  | [] => Ok (None, st)
  | _ => do (r, st') <- consume_loop tb (ss_rest st) (ss_offset st) (ss_set st) (ss_pref st) ; Ok (Some r, st')
  end.
(** a user's loop: consume() until it returns nullopt; [n] bounds the number of calls *)
Fixpoint script_runs (tb : script_tables) (n : nat) (st : sseg) : Res (list (N * nat)) :=
  match n with
  | O => NoFuel
  | S n' =>
      do (o, st') <- script_consume tb st ;
      match o with None => Ok [] | Some r => do rs <- script_runs tb n' st' ; Ok (r :: rs) end
  end.
