(** Vocabulary for the properties of the command line tools (C101-C112). *)
From Coq Require Import Ascii String.
From Verif Require Import Base Spec_Utf M_TableGen.
Open Scope N_scope.

(** ** Numbers *)
(** [c] is a hexadecimal digit, of either case, of value [d] *)
Definition hex_digit (c d : N) : Prop := (d < 10 /\ c = 48 + d) \/ (10 <= d < 16 /\ (c = 55 + d \/ c = 87 + d)).
(** [s] is a number in hexadecimal of value [v] *)
Inductive hex_text : str -> N -> Prop :=
| hex_one : forall c d, hex_digit c d -> hex_text [c] d
| hex_more : forall s v c d, hex_text s v -> hex_digit c d -> hex_text (s ++ [c]) (16 * v + d).
(** [s] is [n] in decimal, without leading zeros *)
Inductive dec_text : str -> nat -> Prop :=
| dec_one : forall d, d < 10 -> dec_text [48 + d] (N.to_nat d)
| dec_more : forall s n d, dec_text s n -> n <> O -> d < 10 -> dec_text (s ++ [48 + d]) (10 * n + N.to_nat d).

(** ** Escapes *)
Definition printable_ascii (b : N) : Prop := 32 <= b <= 126.
(** the byte in two columns: lower-case hexadecimal, padded with a space *)
Definition hex_char (d : N) : N := nth (N.to_nat d) (lit "0123456789abcdef") 0.
Definition byte_hex (b : N) : str := if b <? 16 then [32; hex_char b] else [hex_char (b / 16); hex_char (b mod 16)].
(** everything but printable ASCII and the quote is escaped *)
Definition shows_escaped (b : N) : str := if (32 <=? b) && (b <=? 126) && negb (b =? 34) then [b] else lit "\x" ++ byte_hex b.
(** C0 control codes are escaped, and where char is signed every byte above 127 *)
Definition shows_controls (sc : bool) (b : N) : str := if (b <? 32) || (sc && (128 <=? b)) then lit "\x" ++ byte_hex b else [b].
(** how a text is shown with and without -e *)
Definition shows (e sc : bool) (text : str) : str := if e then flat_map shows_escaped text else flat_map (shows_controls sc) text.
(** std::isprint is only defined for the values of an unsigned char and EOF: C libraries that accept any char ([tolerant]), platforms where
    char is unsigned, and 7-bit text avoid it *)
Definition isprint_defined (tolerant sc : bool) (text : str) : Prop := tolerant = true \/ sc = false \/ Forall (fun b => b < 128) text.

(** ** Options: the arguments [args] have the option -e or not ([e]) and give the texts [texts] *)
Inductive opts : list str -> bool -> list str -> Prop :=
| opts_end : opts [] false []
| opts_text : forall a r, (forall b, a <> 45 :: b) -> opts (a :: r) false (a :: r)
| opts_dashes : forall r, opts (lit "--" :: r) false r
| opts_e : forall r e t, opts r e t -> opts (lit "-e" :: r) true t.

(** ** One line of the runs command: the run covers positions a..b-1, [p] and [q] its script and presentation *)
Definition run_shown (e sc : bool) (pre post : str) (text : str) (a b : nat) (p q : str) (l : str) : Prop :=
  exists x y z, dec_text x a /\ dec_text y (b - 1) /\ dec_text z (b - a) /\
    l = x ++ lit "-" ++ y ++ lit " (" ++ z ++ lit "): " ++ p ++ lit " " ++ q ++ [10; 34] ++ pre ++ shows e sc text ++ post ++ [34; 10; 10].

(** ** Replacing *)
(** [what] occurs in [text] at position [k] *)
Definition occurs_at (what text : str) (k : nat) : Prop := exists post, skipn k text = what ++ post.
(** every occurrence, from the left and without overlaps, is replaced *)
Inductive replaced (what with_ : str) : str -> str -> Prop :=
| rep_none : forall text, (forall k, ~ occurs_at what text k) -> replaced what with_ text text
| rep_one : forall pre post r, (forall k, (k < length pre)%nat -> ~ occurs_at what (pre ++ what ++ post) k) ->
    replaced what with_ post r -> replaced what with_ (pre ++ what ++ post) (pre ++ with_ ++ r).
(** the same, but directly behind a replaced occurrence ([again]) an occurrence is overlooked *)
Inductive replaced_but (what with_ : str) : bool -> str -> str -> Prop :=
| repb_none : forall again text, (forall k, (again = true -> k <> O) -> ~ occurs_at what text k) -> replaced_but what with_ again text text
| repb_one : forall again pre post r, (again = true -> pre <> []) ->
    (forall k, (again = true -> k <> O) -> (k < length pre)%nat -> ~ occurs_at what (pre ++ what ++ post) k) ->
    replaced_but what with_ true post r -> replaced_but what with_ again (pre ++ what ++ post) (pre ++ with_ ++ r).
(** [what] directly followed by itself *)
Definition doubled (what text : str) : Prop := exists k, occurs_at (what ++ what) text k.

(** ** uc-inspect codepoints: byte offset and code point, one record per code point of the text from byte offset [k] *)
Fixpoint offsets_from (k : nat) (t : list N) : list (nat * N) :=
  match t with [] => [] | c :: r => (k, c) :: offsets_from (k + length (utf8 c)) r end.
(** uc-inspect scripts: consecutive ranges, each with its positions and code points listed *)
Fixpoint ranges_from (t : list N) (from : nat) (rs : list (nat * nat * N * list (nat * N))) : Prop :=
  match rs with
  | [] => from = length t
  | (a, b, _, cps) :: r => a = from /\ (a < b)%nat /\ map fst cps = seq a (b - a) /\
      (forall k c, In (k, c) cps -> nth_error t k = Some c) /\ ranges_from t b r
  end.

(** the bytes in C-like notation *)
Definition inspect_escape (b : N) : str :=
  if b =? 92 then lit "\\" else if b =? 27 then lit "\033" else if b =? 9 then lit "\t" else if b =? 13 then lit "\r"
  else if b =? 10 then lit "\n" else if b =? 34 then [92; 34]
  else if (32 <=? b) && (b <=? 126) then [b]
  else lit "\x" ++ map (fun d => nth (N.to_nat d) (lit "0123456789ABCDEF") 0) [b / 16; b mod 16].
