(** How a C++ compiler reads the tables in the generated sources: as much of the C++20 standard as they need.  Independent of the model. *)
From Coq Require Import String.
From Verif Require Import Base M_TableGen.
Open Scope N_scope.

(** ** [lex.phases] 2: a backslash immediately before a line feed is deleted together with it *)
Fixpoint splice (s : str) : str :=
  match s with
  | [] => []
  | c :: r => match r with
              | [] => [c]
              | d :: r' => if (c =? 92) && (d =? 10) then splice r' else c :: splice r
              end
  end.

(** ** [lex.phases] 3: comments and tokens.  Identifiers, keywords and numbers are "words"; string literals without escapes; every other
    printing character is a token of its own ("::" is two). *)
Inductive tok := TWord (w : str) | TStr (s : str) | TPunct (c : N).
Inductive lstate := LStart | LWord (w : str) | LStr (s : str) | LSlash | LLine | LBlock | LStar.
Definition word_char (c : N) : bool :=
  ((48 <=? c) && (c <=? 57)) || ((65 <=? c) && (c <=? 90)) || ((97 <=? c) && (c <=? 122)) || (c =? 95).
Definition blank (c : N) : bool := (c =? 32) || (c =? 9) || (c =? 10).
(** a character where a token may begin *)
Definition lex_start (c : N) : option (lstate * list tok) :=
  if blank c then Some (LStart, [])
  else if word_char c then Some (LWord [c], [])
  else if c =? 34 then Some (LStr [], [])
  else if c =? 47 then Some (LSlash, [])
  else if (33 <=? c) && (c <=? 126) then Some (LStart, [TPunct c])
  else None.
Definition after (ts : list tok) (o : option (lstate * list tok)) : option (lstate * list tok) :=
  match o with Some (st, l) => Some (st, ts ++ l) | None => None end.
Definition lex_step (st : lstate) (c : N) : option (lstate * list tok) :=
  match st with
  | LStart => lex_start c
  | LWord w => if word_char c then Some (LWord (w ++ [c]), []) else after [TWord w] (lex_start c)
  | LStr s => if c =? 34 then Some (LStart, [TStr s]) else if (c =? 10) || (c =? 92) then None else Some (LStr (s ++ [c]), [])
  | LSlash => if c =? 47 then Some (LLine, []) else if c =? 42 then Some (LBlock, []) else after [TPunct 47] (lex_start c)
  | LLine => if c =? 10 then Some (LStart, []) else Some (LLine, [])
  | LBlock => if c =? 42 then Some (LStar, []) else Some (LBlock, [])
  | LStar => if c =? 47 then Some (LStart, []) else if c =? 42 then Some (LStar, []) else Some (LBlock, [])
  end.
Fixpoint lex_run (st : lstate) (s : str) : option (lstate * list tok) :=
  match s with
  | [] => Some (st, [])
  | c :: r => match lex_step st c with
              | Some (st', ts) => after ts (lex_run st' r)
              | None => None
              end
  end.
(** the tokens of a source text; [None]: the text does not lex *)
Definition lex (s : str) : option (list tok) :=
  match lex_run LStart (splice s) with
  | Some (LStart, ts) | Some (LLine, ts) => Some ts
  | Some (LWord w, ts) => Some (ts ++ [TWord w])
  | Some (LSlash, ts) => Some (ts ++ [TPunct 47])
  | _ => None
  end.

(** ** Integer literals [lex.icon] (without suffixes and digit separators) *)
Definition digit_val (c : N) : option N :=
  if (48 <=? c) && (c <=? 57) then Some (c - 48)
  else if (65 <=? c) && (c <=? 70) then Some (c - 55)
  else if (97 <=? c) && (c <=? 102) then Some (c - 87)
  else None.
Fixpoint digits_val (base acc : N) (s : str) : option N :=
  match s with
  | [] => Some acc
  | c :: r => match digit_val c with
              | Some d => if d <? base then digits_val base (acc * base + d) r else None
              | None => None
              end
  end.
Definition int_literal (w : str) : option N :=
  match w with
  | [] => None
  | [c] => digits_val 10 0 [c]
  | a :: b :: r =>
      if a =? 48 then
        if (b =? 120) || (b =? 88) then match r with [] => None | _ => digits_val 16 0 r end
        else if (b =? 98) || (b =? 66) then match r with [] => None | _ => digits_val 2 0 r end
        else digits_val 8 0 (b :: r)
      else digits_val 10 0 w
  end.
(** a decimal numeral as one writes it *)
Fixpoint dec_digits (fuel : nat) (n : N) : str := match fuel with O => [] | S f => if n <? 10 then [48 + n] else dec_digits f (n / 10) ++ [48 + n mod 10] end.
Definition numeral (n : nat) : str := dec_digits 20 (N.of_nat n).

(** ** Braced initializers [dcl.init.list]: an expression, or an optional type name and a list of initializers; a comma may end the list.
    Inside template angle brackets commas do not separate. *)
Inductive init := IExpr (ts : list tok) | IList (head : list tok) (l : list init).
Inductive cursor := CNone | CToks (ts : list tok) (angles : nat) | CDone (i : init).
Definition pstate := (list (list tok * list init) * cursor)%type.
Definition push_elem (stack : list (list tok * list init)) (i : init) : option (list (list tok * list init)) :=
  match stack with (h, l) :: r => Some ((h, l ++ [i]) :: r) | [] => None end.
Definition close_list (stack : list (list tok * list init)) : option pstate :=
  match stack with (h, l) :: r => Some (r, CDone (IList h l)) | [] => None end.
Definition add_tok (ts : list tok) (k : nat) (t : tok) : cursor :=
  CToks (ts ++ [t]) (match t with TPunct c => if c =? 60 then S k else if c =? 62 then pred k else k | _ => k end).
Definition parse_step (st : pstate) (t : tok) : option pstate :=
  let '(stack, cur) := st in
  match t with
  | TPunct 123 =>
      match cur with
      | CNone => Some (([], []) :: stack, CNone)
      | CToks ts O => Some ((ts, []) :: stack, CNone)
      | _ => None
      end
  | TPunct 125 =>
      match cur with
      | CNone => close_list stack
      | CToks ts O => match push_elem stack (IExpr ts) with Some s => close_list s | None => None end
      | CToks _ (S _) => None
      | CDone i => match push_elem stack i with Some s => close_list s | None => None end
      end
  | TPunct 44 =>
      match cur with
      | CNone => None
      | CToks ts O => option_map (fun s => (s, CNone)) (push_elem stack (IExpr ts))
      | CToks ts (S k) => Some (stack, add_tok ts (S k) t)
      | CDone i => option_map (fun s => (s, CNone)) (push_elem stack i)
      end
  | _ =>
      match cur with
      | CNone => Some (stack, add_tok [] 0 t)
      | CToks ts k => Some (stack, add_tok ts k t)
      | CDone _ => None
      end
  end.
Fixpoint parse_run (st : pstate) (ts : list tok) : option pstate :=
  match ts with [] => Some st | t :: r => match parse_step st t with Some st' => parse_run st' r | None => None end end.
Definition parse_init (ts : list tok) : option init :=
  match parse_run ([], CNone) ts with Some ([], CDone i) => Some i | _ => None end.
(** the elements of a std::array initialized by [i]: the braces of the inner array may be left out *)
Definition elements (i : init) : option (list init) :=
  match i with IList [] [IList [] l] => Some l | IList [] l => Some l | _ => None end.

(** ** [file] defines an array [name] of [type] with exactly the elements [vals], and as many as it declares.
    Two forms: "std::array<type, n> name {...};" and "name = std::array<type, n>{...};" (const may stand before the name). *)
Inductive form := Direct (const : bool) | Assigned.
Definition array_decl (f : form) (type name : str) (n : nat) : str :=
  match f with
  | Direct c => lit "std::array<" ++ type ++ lit ", " ++ numeral n ++ lit "> " ++ (if c then lit "const " else []) ++ name
  | Assigned => name ++ lit " = std::array<" ++ type ++ lit ", " ++ numeral n ++ lit ">"
  end.
Definition defines_array (file : str) (f : form) (type name : str) (vals : list init) : Prop :=
  exists pre decl body post i,
    lex file = Some (pre ++ decl ++ body ++ TPunct 59 :: post) /\ lex (array_decl f type name (length vals)) = Some decl /\
    parse_init body = Some i /\ elements i = Some vals.
(** [file] contains the declarations [text], up to white space and comments *)
Definition contains_text (file text : str) : Prop :=
  exists pre ts post, lex file = Some (pre ++ ts ++ post) /\ lex text = Some ts.

(** ** The values of initializers.  [bits]: the width of the unsigned type; a value outside it is a narrowing error. *)
Definition unsigned (bits : N) (i : init) : option N :=
  match i with
  | IExpr [TWord w] => match int_literal w with Some n => if n <? 2 ^ bits then Some n else None | None => None end
  | _ => None
  end.
Fixpoint all_some {A B} (f : A -> option B) (l : list A) : option (list B) :=
  match l with
  | [] => Some []
  | x :: r => match f x, all_some f r with Some y, Some ys => Some (y :: ys) | _, _ => None end
  end.
(** "::unicode::Script::Latin" and the like: the last name of a qualified one *)
Definition enumerator (i : init) : option str := match i with IExpr ts => match rev ts with TWord w :: _ => Some w | _ => None end | _ => None end.
Definition string_view (i : init) : option str :=
  match i with IExpr [TStr s; TWord w] => if str_eqb w (lit "sv") then Some s else None | _ => None end.
(** the arrays of a file whose elements are read by [f] as [l] *)
Definition has_table {A} (file : str) (fm : form) (type name : str) (f : init -> option A) (l : list A) : Prop :=
  exists vals, defines_array file fm type name vals /\ all_some f vals = Some l.
(** std::pair<char32_t, uintN_t> *)
Definition read_pair (bits : N) (i : init) : option (N * N) :=
  match i with IList _ [a; b] => match unsigned 32 a, unsigned bits b with Some x, Some y => Some (x, y) | _, _ => None end | _ => None end.
(** { char32_t source; char32_t targets[m]; uint8_t length; and [extra] more uint8_t }: source and the first [length] targets *)
Definition read_mapping (m extra : nat) (i : init) : option (N * list N) :=
  match i with
  | IList [] (a :: IList [] ts :: n :: more) =>
      match unsigned 32 a, all_some (unsigned 32) ts, unsigned 8 n, all_some (unsigned 8) more with
      | Some s, Some t, Some k, Some e =>
          if (length t =? m)%nat && (k <=? N.of_nat m) && (length e =? extra)%nat then Some (s, firstn (N.to_nat k) t) else None
      | _, _, _, _ => None
      end
  | _ => None
  end.
Definition read_triple (i : init) : option (N * N * N) :=
  match i with
  | IList [] [a; b; c] => match unsigned 32 a, unsigned 32 b, unsigned 32 c with Some x, Some y, Some z => Some (x, y, z) | _, _, _ => None end
  | _ => None
  end.
