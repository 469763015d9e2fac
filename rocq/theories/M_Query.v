(** Model of the command line tools: src/tools/unicode-query.cpp, and of src/tools/uc-inspect.cpp replaceAll (62-79), escape (81-116) and
    codepoints (126-182).
    Text is a list of byte values.  [sc] says whether plain char is signed (it is on x86, it is not on ARM Linux).  Property values arrive as
    the strings their stream output operators print.  Reading files and the terminal check are parameters. *)
From Coq Require Import Ascii String.
From Verif Require Import Base Spec_Utf M_Utf8 M_Convert M_Ucd M_Grapheme M_Utf8Grapheme M_Script M_Emoji M_Run M_TableGen.
Open Scope N_scope.

(** ** Numbers as std::ostream prints them *)
Definition hexd (d : N) : N := if d <? 10 then 48 + d else 87 + d.
(** the digits of [n] in base [b] (at most [fuel] of them) *)
Fixpoint num (fuel : nat) (b n : N) : str :=
  match fuel with O => [] | S f => if n <? b then [hexd n] else num f b (n / b) ++ [hexd (n mod b)] end.
(** << std::hex << uint32_t; << size_t *)
Definition out_hex (n : N) : str := num 8 16 n.
Definition out_dec (n : nat) : str := num 20 10 (N.of_nat n).
(** << setw(2) << std::hex << v for one byte: the fill character is a space *)
Definition out_hex2 (v : N) : str := if v <? 16 then [32; hexd v] else [hexd (v / 16); hexd (v mod 16)].

(** the value of a plain char in a comparison with an int *)
Definition char_val (sc : bool) (b : N) : Z := if sc && (128 <=? b) then (Z.of_N b - 256)%Z else Z.of_N b.

(** unicode-query.cpp:42-53 escapeControlCodes *)
Definition escape_control (sc : bool) (text : str) : str :=
  flat_map (fun b => if (char_val sc b <? 0x20)%Z then lit "\x" ++ out_hex2 b else [b]) text.

(** std::isprint in the "C" locale.  Outside 0..255 and EOF the C standard leaves it undefined; [tolerant] is a C library (glibc, musl)
    that answers false for negative chars. *)
Definition isprint (tolerant sc : bool) (b : N) : Res bool :=
  let v := char_val sc b in
  if (v <? -1)%Z && negb tolerant then UB else Ok ((0x20 <=? v) && (v <=? 0x7E))%Z.

(** unicode-query.cpp:55-66 escaped *)
Fixpoint escaped (tolerant sc : bool) (text : str) : Res str :=
  match text with
  | [] => Ok []
  | b :: r =>
      do p <- isprint tolerant sc b;
      do o <- escaped tolerant sc r;
      Ok ((if p && negb (b =? 34) then [b] else lit "\x" ++ out_hex2 b) ++ o)
  end.
(** unicode-query.cpp:68-71 quotedAndEscaped *)
Definition quoted_and_escaped (tolerant sc : bool) (text : str) : Res str := do e <- escaped tolerant sc text; Ok ([34] ++ e ++ [34]).

(** ** Parsing code points *)
Definition hex_value (c : N) : option N :=
  if (48 <=? c) && (c <=? 57) then Some (c - 48)
  else if (65 <=? c) && (c <=? 70) then Some (c - 55)
  else if (97 <=? c) && (c <=? 102) then Some (c - 87) else None.
(** std::from_chars(first, last, uint32_t&, 16): reads the longest run of hexadecimal digits; the value stored, if one was (none was without
    digits, or when the value does not fit: then the variable keeps its old value although ptr is behind the digits), and the rest from ptr *)
Fixpoint take_hex (s : str) (acc : N) : N * str :=
  match s with
  | [] => (acc, [])
  | c :: r => match hex_value c with Some d => take_hex r (acc * 16 + d) | None => (acc, s) end
  end.
Definition from_chars16 (s : str) : option N * str :=
  match s with
  | [] => (None, [])
  | c :: _ => match hex_value c with
              | None => (None, s)
              | Some _ => let '(v, r) := take_hex s 0 in (if v <? 4294967296 then Some v else None, r)
              end
  end.
(** text.size() >= 3 && text[0] == 'U' && text[1] == '+': the text behind the prefix *)
Definition strip_u (s : str) : option str :=
  match s with a :: b :: c :: r => if (a =? 85) && (b =? 43) then Some (c :: r) else None | _ => None end.
(** unicode-query.cpp:99-109 parseChar *)
Definition parse_char (s : str) : option N :=
  let s := match strip_u s with Some r => r | None => s end in
  let '(v, rest) := from_chars16 s in
  match rest with [] => Some (match v with Some x => x | None => 0 end) | _ => None end.
(** unicode-query.cpp:111-128 parseChars *)
Definition parse_chars (i : impl) (s : str) : Res (list N) :=
  match strip_u s with
  | Some r => Ok (match parse_char r with Some c => [c] | None => [] end)
  | None => convert_to false i T32 T8 s
  end.

(** unicode-query.cpp:130-139 prettyAge: [None] is the failed assertion (not with NDEBUG) or the exception of at(0) *)
Definition pretty_age (ndebug : bool) (s : str) : option str :=
  match s with
  | [] => None
  | c :: r => if (c =? 86) || ndebug then Some (map (fun x => if x =? 95 then 46 else x) r) else None
  end.

(** ** The properties command *)
(** what the library answers for a code point, as printed *)
Record cpinfo := CI { ci_name : str; ci_age : str; ci_plane : str; ci_block : str; ci_script : str; ci_gc : str; ci_eaw : str;
                      ci_width : N; ci_esc : str; ci_emoji : bool; ci_gcb : str }.
(** exit status and the texts written to std::cout and std::cerr, or abnormal termination *)
Inductive outcome := Exited (code : N) (out err : str) | Aborted.
Definition nl : str := [10].
(** unicode-query.cpp:141-162 showCodepointProperties(char32_t) *)
Definition show_codepoint (tolerant sc ndebug : bool) (info : N -> cpinfo) (c : N) : Res (option str) :=
  let p := info c in
  match pretty_age ndebug (ci_age p) with
  | None => Ok None
  | Some age =>
      do u8 <- convert_to_one T8 T32 c;
      do q <- quoted_and_escaped tolerant sc u8;
      Ok (Some (lit "Name                        : " ++ ci_name p ++ nl ++
                lit "Unicode Version             : " ++ age ++ nl ++
                lit "Codepoint                   : U+" ++ out_hex c ++ nl ++
                lit "UTF-8                       : " ++ q ++ nl ++
                (if str_eqb (ci_gc p) (lit "Control") then [] else lit "Display                     : " ++ u8 ++ nl) ++
                lit "Plane                       : " ++ ci_plane p ++ nl ++
                lit "Block                       : " ++ ci_block p ++ nl ++
                lit "Script                      : " ++ ci_script p ++ nl ++
                lit "General Category            : " ++ ci_gc p ++ nl ++
                lit "East Asian Width            : " ++ ci_eaw p ++ nl ++
                lit "Character width             : " ++ out_hex (ci_width p) ++ nl ++
                lit "Emoji Segmentation Category : " ++ ci_esc p ++ nl ++
                lit "Emoji Presentation          : " ++ (if ci_emoji p then lit "emoji" else lit "text") ++ nl ++
                lit "Grapheme Cluster Break      : " ++ ci_gcb p ++ nl ++ nl))
  end.
Fixpoint show_codepoints (tolerant sc ndebug : bool) (info : N -> cpinfo) (cs : list N) : Res (option str) :=
  match cs with
  | [] => Ok (Some [])
  | c :: r => do a <- show_codepoint tolerant sc ndebug info c;
              match a with
              | None => Ok None
              | Some a => do b <- show_codepoints tolerant sc ndebug info r; Ok (match b with Some b => Some (a ++ b) | None => None end)
              end
  end.
(** unicode-query.cpp:164-179 showCodepointProperties(argc, argv) *)
Fixpoint show_args (tolerant sc ndebug : bool) (i : impl) (info : N -> cpinfo) (args : list str) (out err : str) : Res outcome :=
  match args with
  | [] => Ok (Exited 0 out err)
  | a :: r =>
      do cs <- parse_chars i a;
      match cs with
      | [] => show_args tolerant sc ndebug i info r out (err ++ lit "Failed to parse codepoint " ++ a ++ nl)
      | _ => do o <- show_codepoints tolerant sc ndebug info cs;
             match o with None => Ok Aborted | Some o => show_args tolerant sc ndebug i info r (out ++ o) err end
      end
  end.

(** ** The gc and runs commands *)
(** unicode-query.cpp:73-79 printUsage *)
Definition usage : str :=
  lit "unicode-query [properties] U+XXXX [...]" ++ nl ++
  lit "              gc [-e] [--] ""Text string""" ++ nl ++
  lit "              runs [-e] [--] ""Text string""" ++ nl.
(** unicode-query.cpp:185-201 and 247-263: the option loop; [None] prints the usage *)
Fixpoint options (args : list str) (e : bool) : option (bool * list str) :=
  match args with
  | [] => Some (e, [])
  | a :: r => if str_eqb a (lit "-e") then options r true
              else if str_eqb a (lit "--") then Some (e, r)
              else match a with 45 :: _ => None | _ => Some (e, args) end
  end.
(** the text of a cluster or run, unicode-query.cpp:209-211 and 232-233 *)
Definition shown (tolerant sc e : bool) (t32 : list N) : Res str :=
  do t8 <- convert_it T8 T32 t32; if (e : bool) then escaped tolerant sc t8 else Ok (escape_control sc t8).
Fixpoint gc_lines (tolerant sc e : bool) (cls : list (list N)) : Res str :=
  match cls with
  | [] => Ok []
  | c :: r => do a <- shown tolerant sc e c; do b <- gc_lines tolerant sc e r; Ok (a ++ nl ++ b)
  end.
(** unicode-query.cpp:202-213 *)
Fixpoint gc_texts (u : ucd) (tolerant sc e : bool) (texts : list str) : Res str :=
  match texts with
  | [] => Ok []
  | t :: r => do cls <- u8_grapheme_clusters u t; do a <- gc_lines tolerant sc e cls; do b <- gc_texts u tolerant sc e r; Ok (a ++ b)
  end.
(** unicode-query.cpp:183-216 showGraphemeClusters *)
Definition show_gc (u : ucd) (tolerant sc : bool) (args : list str) : Res outcome :=
  match options args false with
  | None => Ok (Exited 1 usage [])
  | Some (e, texts) => do o <- gc_texts u tolerant sc e texts; Ok (Exited 0 o [])
  end.

(** [sname] prints a Script; a PresentationStyle prints as Text or Emoji *)
Definition prop_text (sname : N -> str) (p : rseg_prop) : str :=
  match p with PScript s => sname s | PEmoji true => lit "Emoji" | PEmoji false => lit "Text" end.
(** get<Script>(run.properties), get<PresentationStyle>(run.properties): by type, here by position *)
Definition run_line (tolerant sc e tty : bool) (sname : N -> str) (t : list N) (r : nat * nat * list rseg_prop) : Res str :=
  let '(a, b, props) := r in
  let nth p := match nth_error props p with Some q => prop_text sname q | None => [] end in
  do x <- shown tolerant sc e (firstn (b - a) (skipn a t));
  Ok (out_dec a ++ lit "-" ++ out_dec (b - 1) ++ lit " (" ++ out_dec (b - a) ++ lit "): " ++ nth 0%nat ++ lit " " ++ nth 1%nat ++ nl ++
      [34] ++ (if (tty : bool) then 27 :: lit "[32m" else []) ++ x ++ (if tty then 27 :: lit "[m" else []) ++ [34] ++ nl ++ nl).
Fixpoint run_lines (tolerant sc e tty : bool) (sname : N -> str) (t : list N) (rs : list (nat * nat * list rseg_prop)) : Res str :=
  match rs with
  | [] => Ok []
  | r :: q => do a <- run_line tolerant sc e tty sname t r; do b <- run_lines tolerant sc e tty sname t q; Ok (a ++ b)
  end.
(** unicode-query.cpp:220-242 showRuns(istream&, bool) *)
Definition show_runs1 (tb : script_tables) (cat : N -> ecat) (i : impl) (tolerant sc e tty : bool) (sname : N -> str) (text : str) : Res str :=
  do t <- convert_to false i T32 T8 text;
  do rs <- run_segments tb cat (S (length t)) 1 (S (length t)) t;
  run_lines tolerant sc e tty sname t rs.
Fixpoint runs_texts (tb : script_tables) (cat : N -> ecat) (i : impl) (tolerant sc e tty : bool) (sname : N -> str) (texts : list str) : Res str :=
  match texts with
  | [] => Ok []
  | t :: r => do a <- show_runs1 tb cat i tolerant sc e tty sname t; do b <- runs_texts tb cat i tolerant sc e tty sname r; Ok (a ++ b)
  end.
(** unicode-query.cpp:244-272 showRuns(argc, argv) *)
Definition show_runs (tb : script_tables) (cat : N -> ecat) (i : impl) (tolerant sc tty : bool) (sname : N -> str) (args : list str) : Res outcome :=
  match options args false with
  | None => Ok (Exited 1 usage [])
  | Some (e, texts) => do o <- runs_texts tb cat i tolerant sc e tty sname texts; Ok (Exited 0 o [])
  end.

(** unicode-query.cpp:283-307 main; [args] are argv[1..] *)
Definition query_main (u : ucd) (tb : script_tables) (cat : N -> ecat) (i : impl) (tolerant sc ndebug tty : bool) (sname : N -> str)
    (info : N -> cpinfo) (args : list str) : Res outcome :=
  match args with
  | [] => Ok (Exited 1 usage [])
  | a :: r =>
      if str_eqb a (lit "help") then Ok (Exited 0 usage [])
      else if str_eqb a (lit "runs") then show_runs tb cat i tolerant sc tty sname r
      else if str_eqb a (lit "gc") then show_gc u tolerant sc r
      else show_args tolerant sc ndebug i info (if str_eqb a (lit "properties") then r else args) [] []
  end.

(** ** uc-inspect *)
(** string_view::find(what, pos); [None] is npos *)
Fixpoint prefixb (p s : str) : bool := match p, s with [], _ => true | x :: p', y :: s' => (x =? y) && prefixb p' s' | _, _ => false end.
Fixpoint find_at (what text : str) (pos : nat) : option nat :=
  match text with
  | [] => match what with [] => Some pos | _ => None end
  | _ :: r => if prefixb what text then Some pos else find_at what r (S pos)
  end.
Definition find_from (what text : str) (pos : nat) : option nat :=
  if (length text <? pos)%nat then None else find_at what (skipn pos text) pos.
(** uc-inspect.cpp:63-79 replaceAll: the loop; substr(a) with a > size() throws *)
Fixpoint replace_loop (fuel : nat) (what with_ text : str) (a : nat) (b : option nat) (s : str) : Res str :=
  match b with
  | None => if (length text <? a)%nat then UB else Ok (s ++ skipn a text)
  | Some b =>
      match fuel with
      | O => NoFuel
      | S f => if (length text <? a)%nat then UB
               else let a' := (b + length what)%nat in
                    replace_loop f what with_ text a' (find_from what text (a' + 1)) (s ++ firstn (b - a) (skipn a text) ++ with_)
      end
  end.
Definition replace_all (what with_ text : str) : Res str := replace_loop (S (length text)) what with_ text 0 (find_from what text 0) [].

(** uc-inspect.cpp:81-98 escape(uint8_t): {:02X} is two upper-case hexadecimal digits; std::isprint(static_cast<char>(ch)) *)
Definition hexu (d : N) : N := if d <? 10 then 48 + d else 55 + d.
Definition escape_byte (tolerant sc : bool) (b : N) : Res str :=
  if b =? 92 then Ok [92; 92]
  else if b =? 27 then Ok (lit "\033")
  else if b =? 9 then Ok (lit "\t")
  else if b =? 13 then Ok (lit "\r")
  else if b =? 10 then Ok (lit "\n")
  else if b =? 34 then Ok [92; 34]
  else do p <- isprint tolerant sc b; Ok (if (p : bool) then [b] else lit "\x" ++ [hexu (b / 16); hexu (b mod 16)]).
(** uc-inspect.cpp:100-113 escape(begin, end), escape(string) *)
Fixpoint escape_str (tolerant sc : bool) (s : str) : Res str :=
  match s with [] => Ok [] | b :: r => do a <- escape_byte tolerant sc b; do o <- escape_str tolerant sc r; Ok (a ++ o) end.

(** uc-inspect.cpp:126-182 codepoints: one line per decoded code point; of the line, its offset, the code point, the breakable mark and the
    escaped UTF-8 text are modelled.  unicode::width is never negative, so every code point has its line.  int offsets are unbounded. *)
Fixpoint inspect_loop (u : ucd) (tolerant sc : bool) (bytes : str) (last total : nat) (d : dstate) (lastwc : N) (g : gstate)
  : Res (list (nat * N * bool * str)) :=
  match bytes with
  | [] => Ok []
  | b :: r =>
      let total := S total in
      match from_utf8 d b with
      | (d', Success wc) =>
          let '(brk, g') := if lastwc =? 0 then (true, process_init u wc) else process_breakable u wc g in
          do s <- escape_str tolerant sc (to_utf8 [wc]);
          do rest <- inspect_loop u tolerant sc r total total d' wc g';
          Ok ((last, wc, brk, s) :: rest)
      | (d', Invalid) => inspect_loop u tolerant sc r total total d' lastwc g
      | (d', Incomplete) => inspect_loop u tolerant sc r last total d' lastwc g
      end
  end.
Definition inspect_codepoints (u : ucd) (tolerant sc : bool) (bytes : str) : Res (list (nat * N * bool * str)) :=
  inspect_loop u tolerant sc bytes 0 0 dinit 0 (gstate0 u).

(** uc-inspect.cpp:235-256 runs: the lines printed, the text with ESC replaced *)
Fixpoint inspect_run_lines (sname : N -> str) (t : list N) (rs : list (nat * nat * list rseg_prop)) : Res str :=
  match rs with
  | [] => Ok []
  | (a, b, props) :: q =>
      let nth p := match nth_error props p with Some q => prop_text sname q | None => [] end in
      do t8 <- convert_it T8 T32 (firstn (b - a) (skipn a t));
      do x <- replace_all [27] (lit "\033") t8;
      do o <- inspect_run_lines sname t q;
      Ok (out_dec a ++ lit "-" ++ out_dec (b - 1) ++ lit " (" ++ out_dec (b - a) ++ lit "): " ++ nth 0%nat ++ lit " " ++ nth 1%nat ++ nl ++
          [34] ++ (27 :: lit "[32m") ++ x ++ (27 :: lit "[m") ++ [34] ++ nl ++ nl ++ o)
  end.
Definition inspect_runs (tb : script_tables) (cat : N -> ecat) (i : impl) (sname : N -> str) (bytes : str) : Res str :=
  do t <- convert_to false i T32 T8 bytes;
  do rs <- run_segments tb cat (S (length t)) 1 (S (length t)) t;
  inspect_run_lines sname t rs.

(** uc-inspect.cpp:204-233 scripts: of the output, the ranges with their script and the index and code point of the lines below each *)
Fixpoint index_from (k : nat) (t : list N) : list (nat * N) := match t with [] => [] | c :: r => (k, c) :: index_from (S k) r end.
Fixpoint inspect_script_lines (t : list N) (front : nat) (rs : list (N * nat)) : list (nat * nat * N * list (nat * N)) :=
  match rs with
  | [] => []
  | (s, e) :: q => (front, e, s, index_from front (firstn (e - front) (skipn front t))) :: inspect_script_lines t e q
  end.
Definition inspect_scripts (tb : script_tables) (i : impl) (bytes : str) : Res (list (nat * nat * N * list (nat * N))) :=
  do t <- convert_to false i T32 T8 bytes;
  do rs <- script_runs tb (S (length t)) (sseg_new t);
  Ok (inspect_script_lines t 0 rs).

(** uc-inspect.cpp:258-311 Cmd, parseArgs and run: the command and the file read ([None] is std::cin); [args] are argv[1..] *)
Inductive icmd := ICodepoints | IRuns | IScripts.
Definition icmd_of (a : str) : icmd :=
  if str_eqb a (lit "codepoints") then ICodepoints else if str_eqb a (lit "cp") then ICodepoints
  else if str_eqb a (lit "runs") then IRuns else if str_eqb a (lit "scripts") then IScripts else ICodepoints.
Definition inspect_args (args : list str) : icmd * option str :=
  match args with [a; f] => (icmd_of a, Some f) | _ => (ICodepoints, None) end.
