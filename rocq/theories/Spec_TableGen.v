(** The text format of the Unicode Character Database files read by the table generator, as functions from structured lines to text. *)
From Coq Require Import Ascii String Permutation Sorted.
From Verif Require Import Base M_TableGen M_Normalize M_Case Spec_Case.
Open Scope N_scope.

(** ** Numbers and separators *)
(** the digits of [n] in base [b], most significant first, without leading zeros (at most [fuel] of them) *)
Fixpoint digits (fuel : nat) (b n : N) : list N :=
  match fuel with O => [] | S f => if n <? b then [n] else digits f b (n / b) ++ [n mod b] end.
Definition hex_char (d : N) : N := if d <? 10 then 48 + d else 55 + d.
(** a code point: upper-case hexadecimal, at least four digits *)
Definition hexs (n : N) : str := let ds := digits 8 16 n in map hex_char (repeat 0 (4 - length ds) ++ ds).
(** a decimal number *)
Definition decs (n : N) : str := map (fun d => 48 + d) (digits 10 10 n).
Fixpoint join (sep : str) (l : list str) : str :=
  match l with [] => [] | [x] => x | x :: r => x ++ sep ++ join sep r end.
Definition spaces (k : nat) : str := repeat ch_space k.
Definition cps_text (l : list N) : str := join (spaces 1) (map hexs l).
Definition opt_text (o : option N) : str := match o with Some n => hexs n | None => [] end.
(** "0041" or "0041..005A" *)
Inductive span := One (c : N) | Span (first last : N).
Definition span_text (r : span) : str := match r with One c => hexs c | Span a b => hexs a ++ lit ".." ++ hexs b end.
Definition covers (r : span) (c : N) : Prop := match r with One x => c = x | Span a b => a <= c <= b end.
Definition span_ok (r : span) : Prop := match r with One c => c <= 0x10FFFF | Span a b => a <= b /\ b <= 0x10FFFF end.

(** no byte of [s] is [c] *)
Definition without (c : N) (s : str) : Prop := ~ In c s.
(** blank or tab, carriage return, line feed *)
Definition white (c : N) : Prop := c = 32 \/ c = 9 \/ c = 13 \/ c = 10.
Definition no_white (s : str) : Prop := Forall (fun c => ~ white c) s.
(** [s] neither begins nor ends with white space *)
Definition clean (s : str) : Prop :=
  (forall c r, s = c :: r -> ~ white c) /\ (forall c r, s = r ++ [c] -> ~ white c).

(** ** A file: data lines, comment lines and blank lines, ended by LF or CR LF *)
Inductive fline (A : Type) := Data (a : A) | Comment (s : str) | Blank (s : str).
Arguments Data {A} a. Arguments Comment {A} s. Arguments Blank {A} s.
Definition line_text {A} (render : A -> str) (l : fline A) : str :=
  match l with Data a => render a | Comment s => ch_hash :: s | Blank s => s end.
Definition file_text {A} (render : A -> str) (crlf : bool) (f : list (fline A)) : list str :=
  map (fun l => line_text render l ++ if crlf then [ch_cr] else []) f.
Definition lines_ok {A} (ok : A -> Prop) (f : list (fline A)) : Prop :=
  forall l, In l f -> match l with Data a => ok a | Comment _ => True | Blank s => Forall white s end.
(** [a] is one of the data lines of the file *)
Definition has {A} (f : list (fline A)) (a : A) : Prop := In (Data a) f.

(** ** UnicodeData.txt: fifteen fields *)
Record udline := mkUl {
  ul_cp : N; ul_name : str; ul_category : str; ul_ccc : N; ul_bidi : str;
  ul_dec : option (option str * list N);     (* optional <tag>, then the targets *)
  ul_f6 : str; ul_f7 : str; ul_f8 : str; ul_f9 : str; ul_f10 : str; ul_f11 : str;
  ul_upper : option N; ul_lower : option N; ul_title : option N }.
Definition dec_text (d : option (option str * list N)) : str :=
  match d with
  | None => []
  | Some (None, l) => cps_text l
  | Some (Some tag, l) => lit "<" ++ tag ++ lit "> " ++ cps_text l
  end.
Definition ud_text (u : udline) : str :=
  join (lit ";") [hexs (ul_cp u); ul_name u; ul_category u; decs (ul_ccc u); ul_bidi u; dec_text (ul_dec u);
                  ul_f6 u; ul_f7 u; ul_f8 u; ul_f9 u; ul_f10 u; ul_f11 u; opt_text (ul_upper u); opt_text (ul_lower u); opt_text (ul_title u)].
Definition cp_ok (c : N) : Prop := c <= 0x10FFFF.
Definition opt_ok (o : option N) : Prop := match o with Some c => cp_ok c | None => True end.
Definition ud_ok (u : udline) : Prop :=
  cp_ok (ul_cp u) /\ ul_ccc u <= 254 /\
  Forall (without ch_semi) [ul_name u; ul_category u; ul_bidi u; ul_f6 u; ul_f7 u; ul_f8 u; ul_f9 u; ul_f10 u; ul_f11 u] /\
  match ul_dec u with
  | None => True
  | Some (tag, l) => l <> [] /\ Forall cp_ok l /\
      match tag with Some t => without ch_semi t /\ without ch_gt t /\ t <> lit "canonical" | None => True end
  end /\ opt_ok (ul_upper u) /\ opt_ok (ul_lower u) /\ opt_ok (ul_title u).
(** one line per code point *)
Definition ud_unique (f : list (fline udline)) : Prop := forall u v, has f u -> has f v -> ul_cp u = ul_cp v -> u = v.

(** ** CompositionExclusions.txt: "0958    #  DEVANAGARI LETTER QA" *)
Record exline := mkEx { ex_span : span; ex_gap : nat; ex_comment : option str }.
Definition comment_text (o : option str) : str := match o with Some s => ch_hash :: s | None => [] end.
Definition ex_text (e : exline) : str := span_text (ex_span e) ++ spaces (ex_gap e) ++ comment_text (ex_comment e).
Definition ex_ok (e : exline) : Prop := span_ok (ex_span e).

(** ** DerivedNormalizationProps.txt: "0340..0341    ; NFC_QC; N # Mn   [2] ..." *)
Record npline := mkNl { nl_span : span; nl_gap : nat; nl_prop : str; nl_value : option str; nl_gap' : nat; nl_comment : option str }.
Definition np_text (n : npline) : str :=
  span_text (nl_span n) ++ spaces (nl_gap n) ++ lit "; " ++ nl_prop n ++
  match nl_value n with Some v => lit "; " ++ v | None => [] end ++ spaces (nl_gap' n) ++ comment_text (nl_comment n).
Definition np_ok (n : npline) : Prop :=
  span_ok (nl_span n) /\ nl_prop n <> [] /\ no_white (nl_prop n) /\ without ch_semi (nl_prop n) /\ without ch_hash (nl_prop n) /\
  match nl_value n with Some v => clean v /\ without ch_semi v /\ without ch_hash v | None => True end.
(** the file assigns [value] (or nothing, for a binary property) of property [prop] to [c] *)
Definition assigns (f : list (fline npline)) (prop : str) (value : option str) (c : N) : Prop :=
  exists n, has f n /\ nl_prop n = prop /\ nl_value n = value /\ covers (nl_span n) c.

(** ** CaseFolding.txt: "0041; C; 0061; # LATIN CAPITAL LETTER A" *)
Inductive fstatus := FC | FS | FF | FT.
Record cfline := mkCf { cf_cp : N; cf_status : fstatus; cf_map : list N; cf_comment : str }.
Definition status_text (s : fstatus) : str := match s with FC => lit "C" | FS => lit "S" | FF => lit "F" | FT => lit "T" end.
Definition cf_text (c : cfline) : str :=
  hexs (cf_cp c) ++ lit "; " ++ status_text (cf_status c) ++ lit "; " ++ cps_text (cf_map c) ++ lit "; # " ++ cf_comment c.
(** statuses C, S and T have one target, F two or three *)
Definition cf_ok (c : cfline) : Prop :=
  cp_ok (cf_cp c) /\ Forall cp_ok (cf_map c) /\
  match cf_status c with FF => (2 <= length (cf_map c) <= 3)%nat | _ => length (cf_map c) = 1%nat end.
(** statuses used by simple and by full case folding *)
Definition simple_status (s : fstatus) : Prop := s = FC \/ s = FS.
Definition full_status (s : fstatus) : Prop := s = FC \/ s = FF.
Definition cf_unique (f : list (fline cfline)) : Prop := forall a b, has f a -> has f b -> cf_cp a = cf_cp b ->
  (simple_status (cf_status a) /\ simple_status (cf_status b)) \/ (full_status (cf_status a) /\ full_status (cf_status b)) -> a = b.

(** ** SpecialCasing.txt: "00DF; 00DF; 0053 0073; 0053 0053; # LATIN SMALL LETTER SHARP S" *)
Record scline := mkSc { sc_cp : N; sc_lower : list N; sc_title : list N; sc_upper : list N; sc_condition : option str; sc_comment : str }.
Definition sc_text (s : scline) : str :=
  hexs (sc_cp s) ++ lit "; " ++ cps_text (sc_lower s) ++ lit "; " ++ cps_text (sc_title s) ++ lit "; " ++ cps_text (sc_upper s) ++ lit "; " ++
  match sc_condition s with Some c => c ++ lit "; " | None => [] end ++ lit "# " ++ sc_comment s.
Definition sc_ok (s : scline) : Prop :=
  cp_ok (sc_cp s) /\ Forall cp_ok (sc_lower s ++ sc_title s ++ sc_upper s) /\
  (length (sc_lower s) <= 3 /\ length (sc_title s) <= 3 /\ length (sc_upper s) <= 3)%nat /\
  match sc_condition s with Some c => without ch_semi c /\ without ch_hash c
                          | None => sc_lower s <> [] /\ sc_title s <> [] /\ sc_upper s <> [] end.
Definition sc_unique (f : list (fline scline)) : Prop := forall a b, has f a -> has f b ->
  sc_condition a = None -> sc_condition b = None -> sc_cp a = sc_cp b -> a = b.

(** ** Generated tables *)
(** what std::sort leaves: in order for the comparison [comp_less] *)
Definition std_sorted (l : list (N * N * N)) : Prop := StronglySorted (fun x y => comp_less y x = false) l.
(** [tb] are tables generated from the three files (ud, ex, np) of normalization data *)
Definition generated_norm (crlf : bool) (ud : list (fline udline)) (ex : list (fline exline)) (np : list (fline npline)) (tb : norm_tables) : Prop :=
  let d := load_unicode_data (file_text ud_text crlf ud) in
  let p := load_nprops (load_exclusions (file_text ex_text crlf ex)) (file_text np_text crlf np) in
  exists sorted, Permutation sorted (compositions (d_dec d) (np_excl p)) /\ std_sorted sorted /\ tb = gen_norm d p sorted.
(** well-formed files *)
Definition norm_files_ok (ud : list (fline udline)) (ex : list (fline exline)) (np : list (fline npline)) : Prop :=
  lines_ok ud_ok ud /\ ud_unique ud /\ lines_ok ex_ok ex /\ lines_ok np_ok np.
Definition FCE : str := lit "Full_Composition_Exclusion".
(** excluded by CompositionExclusions.txt *)
Definition listed (ex : list (fline exline)) (c : N) : Prop := exists e, has ex e /\ covers (ex_span e) c.
(** a Full_Composition_Exclusion line without trailing comment covers [c] *)
Definition bare_exclusion (np : list (fline npline)) (c : N) : Prop :=
  exists n, has np n /\ nl_prop n = FCE /\ (nl_value n <> None \/ nl_comment n = None) /\ covers (nl_span n) c.
(** [u] is a primary composite <a, b>: a two-element canonical decomposition that the loaded exclusions do not rule out *)
Definition composite (ud : list (fline udline)) (ex : list (fline exline)) (np : list (fline npline)) (a b c : N) : Prop :=
  (exists u, has ud u /\ ul_cp u = c /\ ul_dec u = Some (None, [a; b])) /\ ~ listed ex c /\ ~ bare_exclusion np c.
(** no two primary composites share a decomposition *)
Definition composites_unique ud ex np : Prop := forall a b c c', composite ud ex np a b c -> composite ud ex np a b c' -> c = c'.
(** the same file without the comments of Full_Composition_Exclusion lines *)
Definition uncomment (l : fline npline) : fline npline :=
  match l with
  | Data n => Data (if str_eqb (nl_prop n) FCE then mkNl (nl_span n) (nl_gap n) (nl_prop n) (nl_value n) (nl_gap' n) None else n)
  | _ => l
  end.

(** [tb] are case tables generated from UnicodeData.txt, SpecialCasing.txt and CaseFolding.txt *)
Definition generated_case (crlf : bool) (ud : list (fline udline)) (sc : list (fline scline)) (cf : list (fline cfline)) (tb : case_tables) : Prop :=
  let d := load_unicode_data (file_text ud_text crlf ud) in
  tb = gen_case d (load_special_casing d (file_text sc_text crlf sc)) (load_case_folding (file_text cf_text crlf cf)).
Definition case_files_ok (ud : list (fline udline)) (sc : list (fline scline)) (cf : list (fline cfline)) : Prop :=
  lines_ok ud_ok ud /\ ud_unique ud /\ lines_ok sc_ok sc /\ sc_unique sc /\ lines_ok cf_ok cf /\ cf_unique cf.
(** the simple mapping the files give to [c], if any *)
Definition file_simple (ud : list (fline udline)) (cf : list (fline cfline)) (k : ckind) (c s : N) : Prop :=
  match k with
  | Fold => exists l, has cf l /\ cf_cp l = c /\ simple_status (cf_status l) /\ cf_map l = [s]
  | Upper => exists u, has ud u /\ ul_cp u = c /\ ul_upper u = Some s
  | Lower => exists u, has ud u /\ ul_cp u = c /\ ul_lower u = Some s
  | Title => exists u, has ud u /\ ul_cp u = c /\ ul_title u = Some s
  end.
(** the full mapping the files give to [c], if any: unconditional SpecialCasing.txt lines, statuses C and F of CaseFolding.txt *)
Definition file_special (sc : list (fline scline)) (cf : list (fline cfline)) (k : ckind) (c : N) (m : list N) : Prop :=
  match k with
  | Fold => exists l, has cf l /\ cf_cp l = c /\ full_status (cf_status l) /\ cf_map l = m
  | Upper => exists s, has sc s /\ sc_cp s = c /\ sc_condition s = None /\ sc_upper s = m
  | Lower => exists s, has sc s /\ sc_cp s = c /\ sc_condition s = None /\ sc_lower s = m
  | Title => exists s, has sc s /\ sc_cp s = c /\ sc_condition s = None /\ sc_title s = m
  end.
(** the mapping of one character: full, else simple, else itself *)
Definition file_simple_map ud cf k c s : Prop := file_simple ud cf k c s \/ ((forall s', ~ file_simple ud cf k c s') /\ s = c).
Definition file_map ud sc cf k c m : Prop :=
  file_special sc cf k c m \/ ((forall m', ~ file_special sc cf k c m') /\ exists s, file_simple_map ud cf k c s /\ m = [s]).
(** the files agree with ASCII case conversion: a-z map to A-Z and back *)
Definition ascii_agrees ud cf : Prop := forall k c, ascii_changes k c -> file_simple ud cf k c (ascii_swap k c).

(** ** Conditions on the data itself, all true of the UCD *)
Definition starter (ud : list (fline udline)) (c : N) : Prop := forall u, has ud u -> ul_cp u = c -> ul_ccc u = 0.
Definition norm_data_ok (ud : list (fline udline)) (ex : list (fline exline)) (np : list (fline npline)) : Prop :=
  (forall u, has ud u -> is_hangul_syllable (ul_cp u) = true -> ul_dec u = None /\ ul_ccc u = 0) /\
  (forall u, has ud u -> is_hangul_l_jamo (ul_cp u) = true \/ is_hangul_v_jamo (ul_cp u) = true \/ is_hangul_t_jamo (ul_cp u) = true -> ul_dec u = None) /\
  (exists rank : N -> nat, forall u t l x, has ud u -> ul_dec u = Some (t, l) -> In x l -> (rank x < rank (ul_cp u))%nat) /\
  (forall a b c, composite ud ex np a b c -> starter ud a -> starter ud c).
(** Full_Composition_Exclusion: listed exclusions, singletons and decompositions beginning with a non-starter (UAX #15) *)
Definition exclusions_derived (ud : list (fline udline)) (ex : list (fline exline)) (np : list (fline npline)) : Prop :=
  forall n c, has np n -> nl_prop n = FCE -> covers (nl_span n) c -> listed ex c \/
    (is_hangul_syllable c = false /\ forall u a b, has ud u -> ul_cp u = c -> ul_dec u = Some (None, [a; b]) -> ~ starter ud a).

(** ** Quick checks *)
Definition qc_prop (form : nform) : str :=
  match form with NFC => lit "NFC_QC" | NFD => lit "NFD_QC" | NFKC => lit "NFKC_QC" | NFKD => lit "NFKD_QC" end.
(** the quick-check value DerivedNormalizationProps.txt gives [c]; Yes is the default, and only the composed forms have Maybe *)
Definition qc_file (np : list (fline npline)) (form : nform) (c : N) (v : qc) : Prop :=
  match v with
  | No => assigns np (qc_prop form) (Some (lit "N")) c
  | Maybe => ~ assigns np (qc_prop form) (Some (lit "N")) c /\ assigns np (qc_prop form) (Some (lit "M")) c /\ (form = NFC \/ form = NFKC)
  | Yes => ~ assigns np (qc_prop form) (Some (lit "N")) c /\ (assigns np (qc_prop form) (Some (lit "M")) c -> form = NFD \/ form = NFKD)
  end.

(** ** The common format "0041..005A    ; Latin # L&  [26] LATIN CAPITAL LETTER A.." *)
Record stline := mkSt { st_span : span; st_gap : nat; st_gap1 : nat; st_prop : str; st_gap2 : nat; st_comment : option str }.
Definition st_text (l : stline) : str :=
  span_text (st_span l) ++ spaces (st_gap l) ++ lit ";" ++ spaces (st_gap1 l) ++ st_prop l ++ spaces (st_gap2 l) ++ comment_text (st_comment l).
Definition st_ok (l : stline) : Prop := span_ok (st_span l) /\ clean (st_prop l) /\ without ch_hash (st_prop l) /\
  (forall q, st_comment l = Some q -> without ch_cr q).
Definition span_first (r : span) : N := match r with One c => c | Span a _ => a end.
Definition span_last (r : span) : N := match r with One c => c | Span _ b => b end.

(** ** DerivedName.txt: "0041          ; LATIN CAPITAL LETTER A"; in "3400..4DBF    ; CJK UNIFIED IDEOGRAPH-*" the final * stands for
    the code point *)
Definition ch_star : N := 42.
Definition derived_name (pattern : str) (c : N) : str :=
  match rev pattern with x :: r => if x =? ch_star then rev r ++ hexs c else pattern | [] => pattern end.
(** no two lines of the file share a code point *)
Definition st_disjoint (f : list (fline stline)) : Prop :=
  forall a b c, has f a -> has f b -> covers (st_span a) c -> covers (st_span b) c -> a = b.
(** Hangul stays algorithmic: no composite is U+0000 or decomposes into conjoining jamos, and no syllable is excluded *)
Definition composites_plain (ud : list (fline udline)) (ex : list (fline exline)) (np : list (fline npline)) : Prop :=
  (forall a b c, composite ud ex np a b c -> c <> 0 /\ (is_hangul_l_jamo a = true -> is_hangul_v_jamo b = false) /\
     (is_hangul_syllable a = true -> is_hangul_t_jamo b = false)) /\
  (forall c, is_hangul_syllable c = true -> ~ listed ex c /\ ~ bare_exclusion np c).
