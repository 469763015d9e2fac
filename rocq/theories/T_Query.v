(** Property theorems: the command line tools (C101-C112). *)
From Coq Require Import Ascii String.
From Verif Require Import Base Spec_Utf M_Utf8 M_Convert M_Ucd M_Grapheme M_Utf8Grapheme M_Script M_Emoji M_Run M_TableGen M_Query
  Spec_Query Spec_Grapheme Spec_Script Spec_Run Ucd_Demo P_Utf8 P_Convert P_Grapheme P_Query P_Query2 P_Query3 T_Utf8Grapheme T_Grapheme T_Script T_Run.
Open Scope N_scope.

(** C101.  "U+" followed by a code point in hexadecimal means that code point, everything else behind "U+" is an error. *)
Definition C101_statement : Prop := forall i s, s <> [] -> Forall byte s ->
  (forall c, hex_text s c -> c <= 0x10FFFF -> parse_chars i (lit "U+" ++ s) = Ok [c]) /\
  ((forall c, hex_text s c -> 0x10FFFF < c) -> parse_chars i (lit "U+" ++ s) = Ok []).
Theorem C101_parse_refuted : ~ C101_statement.
Proof.
  intros H. destruct (H NoSimd (lit "U+41") ltac:(discriminate) ltac:(vm_compute; repeat constructor)) as [_ A].
  assert (E : parse_chars NoSimd (lit "U+" ++ lit "U+41") = Ok [0x41]) by (vm_compute; reflexivity).
  rewrite A in E; [discriminate|]. intros c X. apply (hval_spec (lit "U+41") c ltac:(discriminate)) in X. vm_compute in X. discriminate.
Qed.
Print Assumptions C101_parse_refuted.
(** What the tool does, for every text behind "U+": numbers below 2^32 are taken as they are, larger ones become U+0000, a second "U+" is
    ignored, everything else is an error. *)
Theorem C101_parse_exact_partial : forall i s, s <> [] ->
  (forall v, hex_text s v -> v < 2 ^ 32 -> parse_chars i (lit "U+" ++ s) = Ok [v]) /\
  (forall v, hex_text s v -> 2 ^ 32 <= v -> parse_chars i (lit "U+" ++ s) = Ok [0]) /\
  ((forall v, ~ hex_text s v) ->
     (forall s', s = lit "U+" ++ s' -> s' <> [] ->
        (forall v, hex_text s' v -> v < 2 ^ 32 -> parse_chars i (lit "U+" ++ s) = Ok [v]) /\
        (forall v, hex_text s' v -> 2 ^ 32 <= v -> parse_chars i (lit "U+" ++ s) = Ok [0]) /\
        ((forall v, ~ hex_text s' v) -> parse_chars i (lit "U+" ++ s) = Ok [])) /\
     ((forall s', s' <> [] -> s <> lit "U+" ++ s') -> parse_chars i (lit "U+" ++ s) = Ok [])).
Proof.
  intros i s NE. change (2 ^ 32) with 4294967296.
  split; [intros v H L; rewrite (parse_u_hex i s v H); destruct (N.ltb_spec v 4294967296); [reflexivity|lia]|].
  split; [intros v H L; rewrite (parse_u_hex i s v H); destruct (N.ltb_spec v 4294967296); [lia|reflexivity]|].
  intros NH. split.
  - intros s' E NE'. assert (SU : strip_u s = Some s') by (apply strip_u_some; auto). rewrite (parse_u i s NE), SU. unfold plain_char.
    split; [intros v H L; apply (hval_spec s' v NE') in H; rewrite H; destruct (N.ltb_spec v 4294967296); [reflexivity|lia]|].
    split; [intros v H L; apply (hval_spec s' v NE') in H; rewrite H; destruct (N.ltb_spec v 4294967296); [lia|reflexivity]|].
    intros NH'. now rewrite (hval_none s' NE' NH').
  - intros NU. rewrite (parse_u i s NE). destruct (strip_u s) as [r|] eqn:SU; [apply strip_u_some in SU; destruct SU as [-> NR]; exfalso; exact (NU r NR eq_refl)|].
    unfold plain_char. now rewrite (hval_none s NE NH).
Qed.
Print Assumptions C101_parse_exact_partial.
(** The code point as the properties command prints it reads back as that code point. *)
Theorem C101_roundtrip_partial : forall i c, c < 2 ^ 32 -> hex_text (out_hex c) c /\ parse_chars i (lit "U+" ++ out_hex c) = Ok [c].
Proof.
  intros i c H. change (2 ^ 32) with 4294967296 in H. pose proof (out_hex_text c H) as T. split; [exact T|].
  rewrite (parse_u_hex i _ _ T). destruct (N.ltb_spec c 4294967296); [reflexivity|lia].
Qed.
Print Assumptions C101_roundtrip_partial.
Example C101_examples : parse_chars NoSimd (lit "U+1f600") = Ok [0x1F600] /\ parse_chars NoSimd (lit "U+1F600") = Ok [0x1F600] /\
  parse_chars NoSimd (lit "U+100000000") = Ok [0] /\ parse_chars NoSimd (lit "U+110000") = Ok [0x110000] /\
  parse_chars NoSimd (lit "U+12x") = Ok [] /\ parse_chars NoSimd (lit "U+U+41") = Ok [0x41] /\ parse_chars NoSimd (lit "U+") = Ok [85; 43] /\ out_hex 0x1F600 = lit "1f600".
Proof. vm_compute. auto 12. Qed.
Example C101_hex : hex_text (lit "1fA") 0x1FA.
Proof. apply (hval_spec (lit "1fA") 0x1FA ltac:(discriminate)). vm_compute. reflexivity. Qed.

(** C102.  The escaped notation of a text (option -e, and the UTF-8 line of the properties command) determines the text. *)
Definition C102_statement : Prop := forall tolerant sc t1 t2 o, Forall byte t1 -> Forall byte t2 ->
  escaped tolerant sc t1 = Ok o -> escaped tolerant sc t2 = Ok o -> t1 = t2.
Theorem C102_reversible_refuted : ~ C102_statement.
Proof.
  intros H. specialize (H true true [0xC3] (lit "\xc3") (lit "\xc3") ltac:(vm_compute; repeat constructor) ltac:(vm_compute; repeat constructor)).
  specialize (H ltac:(vm_compute; reflexivity) ltac:(vm_compute; reflexivity)). discriminate.
Qed.
Print Assumptions C102_reversible_refuted.
(** It does for texts without backslashes. *)
Theorem C102_reversible_partial : forall tolerant sc t1 t2 o, Forall byte t1 -> Forall byte t2 ->
  isprint_defined tolerant sc t1 -> isprint_defined tolerant sc t2 -> ~ In 92 t1 -> ~ In 92 t2 ->
  escaped tolerant sc t1 = Ok o -> escaped tolerant sc t2 = Ok o -> t1 = t2.
Proof.
  intros tolerant sc t1 t2 o B1 B2 D1 D2 N1 N2 E1 E2. rewrite escaped_spec in E1, E2 by assumption. injection E1 as E1. injection E2 as E2.
  apply escaped_inj; auto. congruence.
Qed.
Print Assumptions C102_reversible_partial.
(** The notation is printable ASCII without quotes, so it can stand between quotes on one line; byte by byte it is what the specification says. *)
Theorem C102_printable_partial : forall tolerant sc t, Forall byte t -> isprint_defined tolerant sc t ->
  exists o, escaped tolerant sc t = Ok o /\ quoted_and_escaped tolerant sc t = Ok ([34] ++ o ++ [34]) /\ o = flat_map shows_escaped t /\
    Forall (fun c => printable_ascii c /\ c <> 34) o.
Proof.
  intros tolerant sc t B D. exists (flat_map shows_escaped t). unfold quoted_and_escaped. rewrite escaped_spec by assumption.
  split; [reflexivity|]. split; [reflexivity|]. split; [reflexivity|]. now apply escaped_print.
Qed.
Print Assumptions C102_printable_partial.
(** Where char is signed and the C library does not tolerate negative chars, any byte 80..FE is undefined behaviour. *)
Theorem C102_isprint_ub_partial : forall t, Exists (fun b => 128 <= b < 255) t -> escaped false true t = UB.
Proof. exact escaped_ub. Qed.
Print Assumptions C102_isprint_ub_partial.
Example C102_examples : escaped true true [0x61; 34; 10; 0xC3; 0xA9] = Ok (lit "a\x22\x a\xc3\xa9").
Proof. vm_compute. reflexivity. Qed.

(** C103.  unicode-query gc prints every grapheme cluster of the text on a line of its own, verbatim except for control codes. *)
Definition gc_command u tb cat i tolerant sc ndebug tty sname info (t : str) : Res outcome :=
  query_main u tb cat i tolerant sc ndebug tty sname info [lit "gc"; lit "--"; t].
Definition C103_statement : Prop := forall u tb cat i tolerant sc ndebug tty sname info t cl, scalars t -> t <> [] -> Forall (fun c => 32 <= c) t ->
  grapheme_clusters u t = Ok cl ->
  gc_command u tb cat i tolerant sc ndebug tty sname info (utf8_text t) = Ok (Exited 0 (flat_map (fun c => utf8_text c ++ [10]) cl) []).
Definition no_info : cpinfo := CI [] (lit "V1_1") [] [] [] [] [] 1 [] false [].
Theorem C103_verbatim_refuted : ~ C103_statement.
Proof.
  intros H. specialize (H demo sdemo (fun _ => EInvalid) NoSimd true true false false (fun _ => []) (fun _ => no_info) [0xE9] [[0xE9]]).
  specialize (H ltac:(constructor; [unfold scalar; lia|constructor]) ltac:(discriminate) ltac:(constructor; [lia|constructor]) ltac:(vm_compute; reflexivity)).
  vm_compute in H. discriminate.
Qed.
Print Assumptions C103_verbatim_refuted.
(** What is printed, for every well-formed text, table and C library: one line per cluster; with -e everything but printable ASCII is
    escaped, without it the control codes and, where char is signed, every byte of a non-ASCII character. *)
Theorem C103_lines_partial : forall u tb cat i tolerant sc ndebug tty sname info (e : bool) t, scalars t -> t <> [] ->
  (e = true -> isprint_defined tolerant sc (utf8_text t)) ->
  exists cl, grapheme_clusters u t = Ok cl /\
  query_main u tb cat i tolerant sc ndebug tty sname info (lit "gc" :: (if e then [lit "-e"] else []) ++ [lit "--"; utf8_text t]) =
    Ok (Exited 0 (flat_map (fun c => shows e sc (utf8_text c) ++ [10]) cl) []).
Proof.
  intros u tb cat i tolerant sc ndebug tty sname info e t Hs Hne D. destruct (gc_clusters u t Hs Hne) as (cl & G & U8 & C). exists cl. split; [exact G|].
  unfold query_main. change (str_eqb (lit "gc") (lit "help")) with false. change (str_eqb (lit "gc") (lit "runs")) with false. change (str_eqb (lit "gc") (lit "gc")) with true.
  cbn iota. unfold show_gc.
  assert (O : options ((if e then [lit "-e"] else []) ++ [lit "--"; utf8_text t]) false = Some (e, [utf8_text t])) by (destruct e; reflexivity).
  rewrite O. cbn [gc_texts]. rewrite U8. cbn [bindR]. rewrite gc_lines_spec; [|apply scalars_concat; now rewrite C|now rewrite C]. cbn [bindR]. now rewrite app_nil_r.
Qed.
Print Assumptions C103_lines_partial.
(** So the output is verbatim without -e where char is unsigned, and for 7-bit text. *)
Theorem C103_verbatim_partial : forall u tb cat i tolerant sc ndebug tty sname info t, scalars t -> t <> [] -> Forall (fun c => 32 <= c) t ->
  sc = false \/ Forall (fun c => c < 128) t ->
  exists cl, grapheme_clusters u t = Ok cl /\
  gc_command u tb cat i tolerant sc ndebug tty sname info (utf8_text t) = Ok (Exited 0 (flat_map (fun c => utf8_text c ++ [10]) cl) []).
Proof.
  intros u tb cat i tolerant sc ndebug tty sname info t Hs Hne Hl V.
  destruct (C103_lines_partial u tb cat i tolerant sc ndebug tty sname info false t Hs Hne ltac:(discriminate)) as (cl & G & Q).
  exists cl. split; [exact G|]. unfold gc_command. cbn [app] in Q. etransitivity; [exact Q|]. f_equal. f_equal.
  assert (B : forall x, In x (utf8_text t) -> shows_controls sc x = [x]).
  { intros x I. unfold utf8_text in I. apply in_flat_map in I. destruct I as (c & Ic & I). unfold scalars in Hs. rewrite Forall_forall in Hs, Hl. specialize (Hs c Ic). specialize (Hl c Ic).
    assert (Lx : 32 <= x).
    { unfold utf8 in I. destruct (c <? 0x80); [destruct I as [<-|[]]; exact Hl|]. destruct (c <? 0x800); [|destruct (c <? 0x10000)]; cbn [In] in I; lia. }
    unfold shows_controls. destruct (N.ltb_spec x 32); [lia|]. cbn [orb]. destruct V as [->|V]; [reflexivity|].
    rewrite Forall_forall in V. specialize (V c Ic). unfold utf8 in I. destruct (N.ltb_spec c 0x80); [|lia]. destruct I as [<-|[]].
    destruct (N.leb_spec 128 c); [lia|]. now rewrite andb_false_r. }
  destruct (gc_clusters u t Hs Hne) as (cl' & G' & _ & C). rewrite G in G'. injection G' as <-. clear - B C. subst t.
  induction cl as [|c cl IH]; [reflexivity|]. cbn [flat_map concat] in *. rewrite utf8_text_app in B. f_equal; [|apply IH; intros; apply B, in_app_iff; auto].
  f_equal. cbn [shows]. assert (B' : forall x, In x (utf8_text c) -> shows_controls sc x = [x]) by (intros; apply B, in_app_iff; auto). clear - B'.
  induction (utf8_text c) as [|x l IH]; [reflexivity|]. cbn [flat_map]. rewrite B' by now left. cbn [app]. f_equal. apply IH. intros; apply B'. now right.
Qed.
Print Assumptions C103_verbatim_partial.
(** Nothing in a cluster can break its line: without the line ends the output has no C0 control code. *)
Theorem C103_one_line_each : forall e sc t, Forall byte t -> Forall (fun b => 32 <= b) (shows e sc t).
Proof. intros e sc t B. apply Forall_forall. intros c I. eapply shows_low; eauto. Qed.
Print Assumptions C103_one_line_each.
Example C103_examples : gc_command demo sdemo (fun _ => EInvalid) NoSimd true true false false (fun _ => []) (fun _ => no_info) (utf8_text [0x61; 0xE9])
    = Ok (Exited 0 (lit "a" ++ [10] ++ lit "\xc3\xa9" ++ [10]) []) /\
  gc_command demo sdemo (fun _ => EInvalid) NoSimd true false false false (fun _ => []) (fun _ => no_info) (utf8_text [0x61; 0xE9]) = Ok (Exited 0 [0x61; 10; 0xC3; 0xA9; 10] []).
Proof. vm_compute. auto. Qed.

(** C104.  The options of gc and runs: "-e" any number of times, then optionally "--"; behind "--", or from the first argument that does not
    start with a dash, everything is text.  Any other command line prints the usage and fails. *)
Theorem C104_options : forall u tb cat i tolerant sc ndebug tty sname info cmd args, cmd = lit "gc" \/ cmd = lit "runs" ->
  (forall e texts, opts args e texts ->
     query_main u tb cat i tolerant sc ndebug tty sname info (cmd :: args) =
     query_main u tb cat i tolerant sc ndebug tty sname info (cmd :: (if e then [lit "-e"; lit "--"] else [lit "--"]) ++ texts) /\
     (forall out err code, query_main u tb cat i tolerant sc ndebug tty sname info (cmd :: args) = Ok (Exited code out err) -> code = 0)) /\
  ((forall e texts, ~ opts args e texts) -> query_main u tb cat i tolerant sc ndebug tty sname info (cmd :: args) = Ok (Exited 1 usage [])).
Proof.
  intros u tb cat i tolerant sc ndebug tty sname info cmd args HC.
  assert (OD : forall (e : bool) texts, options ((if e then [lit "-e"; lit "--"] else [lit "--"]) ++ texts) false = Some (e, texts)) by (intros [] texts; reflexivity).
  destruct HC as [->| ->].
  - assert (Q : forall a, query_main u tb cat i tolerant sc ndebug tty sname info (lit "gc" :: a) = show_gc u tolerant sc a) by reflexivity.
    split.
    + intros e texts O. apply options_some in O. rewrite !Q. unfold show_gc. rewrite O, OD. split; [reflexivity|].
      intros out err code. destruct (gc_texts _ _ _ _ _); cbn [bindR]; [|discriminate|discriminate]. intros [= <- _ _]. reflexivity.
    + intros NO. apply options_none in NO. rewrite Q. unfold show_gc. rewrite NO. reflexivity.
  - assert (Q : forall a, query_main u tb cat i tolerant sc ndebug tty sname info (lit "runs" :: a) = show_runs tb cat i tolerant sc tty sname a) by reflexivity.
    split.
    + intros e texts O. apply options_some in O. rewrite !Q. unfold show_runs. rewrite O, OD. split; [reflexivity|].
      intros out err code. destruct (runs_texts _ _ _ _ _ _ _ _ _); cbn [bindR]; [|discriminate|discriminate]. intros [= <- _ _]. reflexivity.
    + intros NO. apply options_none in NO. rewrite Q. unfold show_runs. rewrite NO. reflexivity.
Qed.
Print Assumptions C104_options.
(** Without arguments the tool fails with its usage, "help" prints it and succeeds, "properties" may be left out where the first argument is
    none of the command words. *)
Theorem C104_commands : forall u tb cat i tolerant sc ndebug tty sname info,
  query_main u tb cat i tolerant sc ndebug tty sname info [] = Ok (Exited 1 usage []) /\
  (forall args, query_main u tb cat i tolerant sc ndebug tty sname info (lit "help" :: args) = Ok (Exited 0 usage [])) /\
  (forall a args, ~ In a [lit "help"; lit "runs"; lit "gc"; lit "properties"] ->
     query_main u tb cat i tolerant sc ndebug tty sname info (a :: args) =
     query_main u tb cat i tolerant sc ndebug tty sname info (lit "properties" :: a :: args)).
Proof.
  intros. split; [reflexivity|]. split; [reflexivity|]. intros a args NI. unfold query_main.
  destruct (str_eqb_spec a (lit "help")); [exfalso; apply NI; cbn [In]; auto|]. destruct (str_eqb_spec a (lit "runs")); [exfalso; apply NI; cbn [In]; auto|].
  destruct (str_eqb_spec a (lit "gc")); [exfalso; apply NI; cbn [In]; auto|]. destruct (str_eqb_spec a (lit "properties")); [exfalso; apply NI; cbn [In]; auto|].
  reflexivity.
Qed.
Print Assumptions C104_commands.
Example C104_opts_examples : opts [lit "-e"; lit "--"; lit "-x"] true [lit "-x"] /\ opts [lit "a"; lit "-e"] false [lit "a"; lit "-e"] /\ (forall e t, ~ opts [lit "-x"] e t).
Proof.
  split; [apply opts_e with (e := false); apply opts_dashes|]. split; [apply opts_text; discriminate|].
  intros e t O. apply opts_inv in O. destruct O as [(e1 & X & _)|[(X & _)|(X & _)]]; [discriminate|discriminate|exact (X _ eq_refl)].
Qed.

(** C105.  The properties command shows the properties of every code point it is asked for. *)
Definition C105_statement : Prop := forall u tb cat i sc ndebug tty sname info args, Forall (Forall byte) args ->
  (forall c, ci_age (info c) = lit "Unassigned" \/ exists v, ci_age (info c) = lit "V" ++ v) ->
  exists out err, query_main u tb cat i true sc ndebug tty sname info (lit "properties" :: args) = Ok (Exited 0 out err).
Definition unassigned_info : cpinfo := CI [] (lit "Unassigned") [] [] [] [] [] 1 [] false [].
Theorem C105_properties_refuted : ~ C105_statement.
Proof.
  intros H. destruct (H demo sdemo (fun _ => EInvalid) NoSimd true false false (fun _ => []) (fun _ => unassigned_info) [lit "U+378"]) as (out & err & E);
  [vm_compute; repeat constructor|left; reflexivity|]. vm_compute in E. discriminate.
Qed.
Print Assumptions C105_properties_refuted.
(** It dies exactly when, assertions being compiled in, a code point among the arguments has an age that is not a version; otherwise it succeeds. *)
Theorem C105_properties_exact_partial : forall u tb cat i sc tty sname info args, Forall (Forall byte) args ->
  (forall c, ci_age (info c) = lit "Unassigned" \/ exists v, ci_age (info c) = lit "V" ++ v) -> forall ndebug,
  let asked c := exists a cs, In a args /\ parse_chars i a = Ok cs /\ In c cs in
  let r := query_main u tb cat i true sc ndebug tty sname info (lit "properties" :: args) in
  (ndebug = false /\ (exists c, asked c /\ ci_age (info c) = lit "Unassigned") -> r = Ok Aborted) /\
  (ndebug = true \/ (forall c, asked c -> ci_age (info c) <> lit "Unassigned") -> exists out err, r = Ok (Exited 0 out err)).
Proof.
  intros u tb cat i sc tty sname info args B HA ndebug asked r.
  assert (ER : r = show_args true sc ndebug i info args [] []) by reflexivity. rewrite ER.
  assert (PA : forall c, pretty_age ndebug (ci_age (info c)) = None <-> ndebug = false /\ ci_age (info c) = lit "Unassigned").
  { intros c. destruct (HA c) as [E|(v & E)]; rewrite E.
    - change (lit "Unassigned") with (85 :: lit "nassigned"). unfold pretty_age. change (85 =? 86) with false. destruct ndebug; cbn [orb]; split; try discriminate; auto. intros [? _]. discriminate.
    - change (lit "V" ++ v) with (86 :: v). unfold pretty_age. change (86 =? 86) with true. cbn [orb]. split; [discriminate|]. intros [_ X]. discriminate X. }
  destruct (show_args_spec sc ndebug i info args B [] []) as [(o & E & H)|(E & a & cs & c & I & P & IC & A)].
  - split.
    + intros (ND & c & (a & cs & I & P & IC) & U). exfalso. apply (H a cs c I P IC). apply PA. auto.
    + intros _. rewrite E. eauto.
  - split; [intros _; exact E|]. apply PA in A. destruct A as [ND A]. intros [X|X]; [congruence|]. exfalso. apply (X c); [exists a, cs; auto|exact A].
Qed.
Print Assumptions C105_properties_exact_partial.
(** The version shown is the age with dots for underscores, without the V. *)
Theorem C105_version_partial : forall ndebug v, pretty_age ndebug (lit "V" ++ v) = Some (map (fun x => if x =? 95 then 46 else x) v).
Proof. reflexivity. Qed.
Print Assumptions C105_version_partial.
Example C105_examples : pretty_age false (lit "V15_1") = Some (lit "15.1") /\ pretty_age true (lit "Unassigned") = Some (lit "nassigned").
Proof. vm_compute. auto. Qed.
Example C105_example : exists o, query_main demo sdemo (fun _ => EInvalid) NoSimd true true false false (fun _ => []) (fun _ => no_info) [lit "U+e9"]
  = Ok (Exited 0 o []) /\ firstn 32 o = lit "Name                        : " ++ [10] ++ lit "U".
Proof. eexists. split; [vm_compute; reflexivity|]. vm_compute. reflexivity. Qed.

(** C106.  unicode-query runs prints the runs of the text in order, each with its positions, length, script, presentation and text; together
    they are the text. *)
Theorem C106_runs : forall u tb cat i tolerant sc ndebug tty sname info (e : bool) t, scalars t -> N.of_nat (length t) < 2 ^ 64 ->
  (e = true -> isprint_defined tolerant sc (utf8_text t)) ->
  exists scripts em emojis runs lines,
    script_runs tb (S (length t)) (sseg_new t) = Ok scripts /\ eseg_new (map cat t) = Ok em /\ eseg_all (S (length t)) (S (length t)) em = Ok emojis /\
    common_refinement (length t) [map (fun r => (snd r, PScript (fst r))) scripts; map (fun r => (fst r, PEmoji (snd r))) emojis] runs /\
    query_main u tb cat i tolerant sc ndebug tty sname info (lit "runs" :: (if e then [lit "-e"] else []) ++ [lit "--"; utf8_text t]) =
      Ok (Exited 0 (concat lines) []) /\
    Forall2 (fun r l => let '(a, b, ps) := r in exists s m, ps = [PScript s; PEmoji m] /\
      run_shown e sc (if tty then 27 :: lit "[32m" else []) (if tty then 27 :: lit "[m" else []) (utf8_text (firstn (b - a) (skipn a t))) a b
        (sname s) (if m then lit "Emoji" else lit "Text") l) runs lines /\
    concat (map (fun r => firstn (snd (fst r) - fst (fst r)) (skipn (fst (fst r)) t)) runs) = t.
Proof.
  intros u tb cat i tolerant sc ndebug tty sname info e t Hs Hn D.
  destruct (C58_run_segmenter tb cat t (S (length t)) 1 (S (length t))) as (scripts & em & emojis & runs & E1 & E2 & E3 & E4 & R); try lia.
  pose proof (refinement_props _ _ _ _ R) as RP. pose proof R as (C & _ & _).
  destruct (run_lines_spec tolerant sc e tty sname t runs Hs Hn D RP) as (lines & EL & FL).
  { intros a b ps I. apply (contiguous_lt _ _ _ C) in I. lia. }
  exists scripts, em, emojis, runs, lines. split; [exact E1|]. split; [exact E2|]. split; [exact E3|]. split; [exact R|]. split; [|split].
  - assert (Q : query_main u tb cat i tolerant sc ndebug tty sname info (lit "runs" :: (if e then [lit "-e"] else []) ++ [lit "--"; utf8_text t]) =
      show_runs tb cat i tolerant sc tty sname ((if e then [lit "-e"] else []) ++ [lit "--"; utf8_text t])) by reflexivity.
    rewrite Q. unfold show_runs.
    assert (O : options ((if e then [lit "-e"] else []) ++ [lit "--"; utf8_text t]) false = Some (e, [utf8_text t])) by (destruct e; reflexivity).
    rewrite O. cbn [runs_texts]. unfold show_runs1. pose proof (convert_to_units i T32 T8 t Hs) as CU. rewrite text_units_8, text_units_32 in CU. rewrite CU. cbn [bindR].
    rewrite E4. cbn [bindR]. rewrite EL. cbn [bindR]. now rewrite app_nil_r.
  - exact FL.
  - rewrite (contiguous_text t runs 0 C). reflexivity.
Qed.
Print Assumptions C106_runs.
Example C106_example : query_main demo sdemo (fun c => if c =? 0x1F600 then EEmojiPres else EInvalid) NoSimd true true false false (fun s => out_dec (N.to_nat s)) (fun _ => no_info)
  [lit "runs"; utf8_text [0x61; 0x62; 0x1F600]] = Ok (Exited 0 (lit "0-1 (2): 10 Text" ++ [10; 34] ++ lit "ab" ++ [34; 10; 10] ++
    lit "2-2 (1): 10 Emoji" ++ [10; 34] ++ lit "\xf0\x9f\x98\x80" ++ [34; 10; 10]) []).
Proof. vm_compute. reflexivity. Qed.

(** C107.  uc-inspect replaces every occurrence; so its runs command writes no escape character of the inspected text. *)
Definition C107_statement : Prop := forall what with_ text, what <> [] -> exists r, replace_all what with_ text = Ok r /\ replaced what with_ text r.
Theorem C107_replace_refuted : ~ C107_statement.
Proof.
  intros H. destruct (H [27] (lit "\033") [27; 27] ltac:(discriminate)) as (r & E & R). apply replaced_no in R; [|vm_compute; intuition discriminate].
  assert (E2 : replace_all [27] (lit "\033") [27; 27] = Ok (lit "\033" ++ [27])) by (vm_compute; reflexivity). rewrite E in E2. injection E2 as ->.
  apply R. vm_compute. auto 6.
Qed.
Print Assumptions C107_replace_refuted.
(** It never throws; every occurrence is replaced except one that follows a replaced one directly; so all are where none is doubled. *)
Theorem C107_replace_exact_partial : forall what with_ text, what <> [] ->
  exists r, replace_all what with_ text = Ok r /\ replaced_but what with_ false text r /\ (~ doubled what text -> replaced what with_ text r).
Proof.
  intros what with_ text NE. destruct (replace_all_spec what with_ text NE) as (r & E & R). exists r. split; [exact E|]. split; [exact R|].
  intros ND. eapply replaced_but_all; eauto. discriminate.
Qed.
Print Assumptions C107_replace_exact_partial.
Theorem C107_total : forall what with_ text, exists r, replace_all what with_ text = Ok r.
Proof. exact replace_all_total. Qed.
Print Assumptions C107_total.
(** Texts without two adjacent escape characters come out without escape characters. *)
Theorem C107_no_escape_partial : forall text, (forall l r, text <> l ++ 27 :: 27 :: r) -> exists r, replace_all [27] (lit "\033") text = Ok r /\ ~ In 27 r.
Proof.
  intros text H. destruct (C107_replace_exact_partial [27] (lit "\033") text ltac:(discriminate)) as (r & E & _ & R). exists r. split; [exact E|].
  apply (replaced_no 27 (lit "\033") text r); [|vm_compute; intuition discriminate]. apply R. intros (k & post & E2). apply (H (firstn k text) post).
  rewrite <- (firstn_skipn k text) at 1. rewrite E2. reflexivity.
Qed.
Print Assumptions C107_no_escape_partial.
Example C107_examples : replace_all [27] (lit "\033") [0x61; 27; 0x5B; 27] = Ok (lit "a\033[\033") /\ replace_all (lit "ab") (lit "X") (lit "cabab") = Ok (lit "cXab").
Proof. vm_compute. auto. Qed.

(** C108.  uc-inspect codepoints prints one line per code point of a well-formed text, in order, with its byte offset and its UTF-8 form, and
    marks as breakable exactly the code points that start a grapheme cluster. *)
Definition C108_statement : Prop := forall u, ucd_grapheme_ok u -> forall tolerant sc c t cl, scalars (c :: t) -> ~ In 0 (c :: t) ->
  isprint_defined tolerant sc (utf8_text (c :: t)) -> grapheme_clusters u (c :: t) = Ok cl ->
  exists rs, inspect_codepoints u tolerant sc (utf8_text (c :: t)) = Ok rs /\ map (fun r => fst (fst r)) rs = offsets_from 0 (c :: t) /\
    forall k r, nth_error rs k = Some r -> (snd (fst r) = true <-> k = O \/ cut_at cl k).
Theorem C108_codepoints_refuted : ~ C108_statement.
Proof.
  intros H. destruct (H demo demo_ok true true 0x61 [0x1F1E9; 0x1F1EA] [[0x61]; [0x1F1E9; 0x1F1EA]]) as (rs & E & _ & M).
  - unfold scalars, scalar. constructor; [lia|]. constructor; [lia|]. constructor; [lia|constructor].
  - cbn [In]. lia.
  - left. reflexivity.
  - vm_compute. reflexivity.
  - assert (E2 : exists o s, nth_error rs 2 = Some (o, 0x1F1EA, true, s)).
    { assert (X : inspect_codepoints demo true true (utf8_text [0x61; 0x1F1E9; 0x1F1EA]) = Ok rs) by exact E. vm_compute in X. injection X as <-. eexists _, _. reflexivity. }
    destruct E2 as (o & s & E2). apply M in E2. cbn [fst snd] in E2. destruct E2 as [E2 _]. destruct (E2 eq_refl) as [X|X]; [discriminate|].
    rewrite !cut_at_cons in X. cbn [length] in X. lia.
Qed.
Print Assumptions C108_codepoints_refuted.
(** Every well-formed text, NUL included: the lines, the offsets and the UTF-8 forms. *)
Theorem C108_lines_partial : forall u tolerant sc t, scalars t -> isprint_defined tolerant sc (utf8_text t) ->
  exists rs, inspect_codepoints u tolerant sc (utf8_text t) = Ok rs /\ map (fun r => fst (fst r)) rs = offsets_from 0 t /\
    map snd rs = map (fun c => flat_map inspect_escape (utf8 c)) t.
Proof.
  intros u tolerant sc t Hs D. eexists. split; [apply inspect_text; assumption|].
  destruct (zip4_spec (offsets_from 0 t) (marks u 0 (gstate0 u) t) (fun c => flat_map inspect_escape (utf8 c))) as (A & _ & B); [now rewrite offsets_length, marks_length|].
  split; [exact A|]. rewrite B, <- (map_map snd (fun c => flat_map inspect_escape (utf8 c))), offsets_cps. reflexivity.
Qed.
Print Assumptions C108_lines_partial.
(** The marks, exactly, for texts without NUL: cluster starts, and also between adjacent regional indicators that are not the first two code points. *)
Theorem C108_marks_exact_partial : forall u, ucd_grapheme_ok u -> forall tolerant sc c t cl, scalars (c :: t) -> ~ In 0 (c :: t) ->
  isprint_defined tolerant sc (utf8_text (c :: t)) -> grapheme_clusters u (c :: t) = Ok cl ->
  exists rs, inspect_codepoints u tolerant sc (utf8_text (c :: t)) = Ok rs /\
    forall k r, nth_error rs k = Some r -> (snd (fst r) = true <-> k = O \/ cut_at cl k \/
      exists l a b q, c :: t = l ++ a :: b :: q /\ S (length l) = k /\ l <> [] /\ p_gcb (u a) = GRI /\ p_gcb (u b) = GRI).
Proof.
  intros u OK tolerant sc c t cl Hs N0 D G. eexists. split; [apply inspect_text; assumption|].
  destruct (zip4_spec (offsets_from 0 (c :: t)) (marks u 0 (gstate0 u) (c :: t)) (fun c => flat_map inspect_escape (utf8 c))) as (_ & A & _); [now rewrite offsets_length, marks_length|].
  intros k r E. apply (map_nth_error (fun r => snd (fst r))) in E. rewrite A, (marks_text u c t N0) in E. destruct k as [|k].
  - cbn in E. injection E as <-. tauto.
  - cbn [nth_error] in E. assert (Lk : (k < length t)%nat).
    { assert (L : length (stateful_breaks u (c :: t)) = length t) by (pose proof (marks_length u (c :: t) 0 (gstate0 u)) as ML; rewrite (marks_text u c t N0) in ML; cbn [length] in ML; injection ML as ML; exact ML).
      rewrite <- L. apply nth_error_Some. congruence. }
    pose proof (C21_stateful_exact_partial u OK c t cl G k Lk) as X. rewrite E in X.
    split.
    + intros B. rewrite B in X. destruct (proj1 X eq_refl) as [Y|(l & a & b & q & E1 & E2 & E3 & E4 & E5)]; [auto|]. right. right. exists l, a, b, q. rewrite E2.
      split; [exact E1|]. split; [reflexivity|]. split; [intros ->; cbn in E2; lia|auto].
    + intros [Y|[Y|(l & a & b & q & E1 & E2 & E3 & E4 & E5)]]; [discriminate|assert (Z : Some (snd (fst r)) = Some true) by (apply X; auto); now injection Z|].
      assert (Z : Some (snd (fst r)) = Some true); [|now injection Z]. apply X. right. exists l, a, b, q. split; [exact E1|]. injection E2 as E2. split; [exact E2|].
      split; [|auto]. intros ->. destruct l; [congruence|discriminate].
Qed.
Print Assumptions C108_marks_exact_partial.
Example C108_example : inspect_codepoints demo true true (utf8_text [0x61; 0x301; 0x1F600]) =
  Ok [(0%nat, 0x61, true, lit "a"); (1%nat, 0x301, false, lit "\xCC\x81"); (3%nat, 0x1F600, true, lit "\xF0\x9F\x98\x80")].
Proof. vm_compute. reflexivity. Qed.

(** C109.  The escaped notation of uc-inspect is printable and determines the bytes. *)
Theorem C109_inspect_escape : forall tolerant sc, tolerant = true \/ sc = false -> forall t, Forall byte t ->
  exists o, escape_str tolerant sc t = Ok o /\ Forall printable_ascii o /\
    forall t', Forall byte t' -> escape_str tolerant sc t' = Ok o -> t' = t.
Proof.
  intros tolerant sc D t B. assert (DD : forall x, isprint_defined tolerant sc x) by (intros x; unfold isprint_defined; tauto).
  exists (flat_map inspect_escape t). rewrite escape_str_spec by auto. split; [reflexivity|]. split; [now apply inspect_print|].
  intros t' B' E. rewrite escape_str_spec in E by auto. injection E as E. now apply inspect_inj.
Qed.
Print Assumptions C109_inspect_escape.
Example C109_example : escape_str true true [0x5C; 0x78; 27; 0xFF; 34] = Ok (lit "\\x\033\xFF\" ++ [34]).
Proof. vm_compute. reflexivity. Qed.

(** C110.  uc-inspect runs the command it was given on the file it was given. *)
Definition C110_statement : Prop := forall word cmd rest,
  In (word, cmd) [(lit "codepoints", ICodepoints); (lit "cp", ICodepoints); (lit "runs", IRuns); (lit "scripts", IScripts)] ->
  fst (inspect_args (word :: rest)) = cmd.
Theorem C110_inspect_command_refuted : ~ C110_statement.
Proof.
  intros H. specialize (H (lit "runs") IRuns [] ltac:(cbn [In]; auto)). discriminate H.
Qed.
Print Assumptions C110_inspect_command_refuted.
(** With a command word and exactly one file it does. *)
Theorem C110_inspect_command_partial : forall f,
  inspect_args [lit "codepoints"; f] = (ICodepoints, Some f) /\ inspect_args [lit "cp"; f] = (ICodepoints, Some f) /\
  inspect_args [lit "runs"; f] = (IRuns, Some f) /\ inspect_args [lit "scripts"; f] = (IScripts, Some f) /\
  (forall a, ~ In a [lit "runs"; lit "scripts"] -> inspect_args [a; f] = (ICodepoints, Some f)) /\
  (forall args, length args <> 2%nat -> inspect_args args = (ICodepoints, None)).
Proof.
  intros f. split; [reflexivity|]. split; [reflexivity|]. split; [reflexivity|]. split; [reflexivity|]. split.
  - intros a NI. unfold inspect_args, icmd_of. destruct (str_eqb_spec a (lit "codepoints")); [reflexivity|]. destruct (str_eqb_spec a (lit "cp")); [reflexivity|].
    destruct (str_eqb_spec a (lit "runs")); [exfalso; apply NI; cbn [In]; auto|]. destruct (str_eqb_spec a (lit "scripts")); [exfalso; apply NI; cbn [In]; auto|]. reflexivity.
  - intros [|a [|b [|c args]]] L; cbn in L; try lia; reflexivity.
Qed.
Print Assumptions C110_inspect_command_partial.

(** C111.  A code point argument the properties command cannot parse shows in the exit status. *)
Definition C111_statement : Prop := forall u tb cat i sc ndebug tty sname info args a, Forall (Forall byte) args -> In a args -> parse_chars i a = Ok [] ->
  forall code out err, query_main u tb cat i true sc ndebug tty sname info (lit "properties" :: args) = Ok (Exited code out err) -> code <> 0.
Theorem C111_exit_status_refuted : ~ C111_statement.
Proof.
  intros H. assert (E : query_main demo sdemo (fun _ => EInvalid) NoSimd true true false false (fun _ => []) (fun _ => no_info) [lit "properties"; lit "U+xyz"] =
    Ok (Exited 0 [] (lit "Failed to parse codepoint U+xyz" ++ [10]))) by (vm_compute; reflexivity).
  apply (H demo sdemo (fun _ => EInvalid) NoSimd true false false (fun _ => []) (fun _ => no_info) [lit "U+xyz"] (lit "U+xyz")) in E;
  [now apply E|vm_compute; repeat constructor|now left|vm_compute; reflexivity].
Qed.
Print Assumptions C111_exit_status_refuted.
(** But it is reported on the error stream: one line for each such argument, in order, and nothing else. *)
Theorem C111_reported_partial : forall u tb cat i sc ndebug tty sname info args code out err, Forall (Forall byte) args ->
  query_main u tb cat i true sc ndebug tty sname info (lit "properties" :: args) = Ok (Exited code out err) ->
  code = 0 /\ exists failing, err = flat_map (fun a => lit "Failed to parse codepoint " ++ a ++ [10]) failing /\
    failing = filter (fun a => match parse_chars i a with Ok [] => true | _ => false end) args.
Proof.
  intros u tb cat i sc ndebug tty sname info args code out err B E. assert (Q : query_main u tb cat i true sc ndebug tty sname info (lit "properties" :: args) = show_args true sc ndebug i info args [] []) by reflexivity.
  rewrite Q in E. destruct (show_args_spec sc ndebug i info args B [] []) as [(o & E2 & _)|(E2 & _)]; rewrite E2 in E; [|discriminate].
  injection E as <- _ <-. split; [reflexivity|]. eexists. split; [|reflexivity]. cbn [app]. clear. induction args as [|a args IH]; [reflexivity|].
  cbn [messages filter]. rewrite IH. destruct (parse_chars i a) as [[|c cs]| |]; cbn [flat_map]; reflexivity.
Qed.
Print Assumptions C111_reported_partial.

(** C112.  uc-inspect scripts lists the script runs of a well-formed text as consecutive ranges, each with its code points and their positions. *)
Theorem C112_scripts : forall tb i t, scalars t -> exists rs out,
  script_runs tb (S (length t)) (sseg_new t) = Ok rs /\ inspect_scripts tb i (utf8_text t) = Ok out /\
  ranges_from t 0 out /\ map (fun r => (snd (fst r), snd (fst (fst r)))) out = rs.
Proof.
  intros tb i t Hs. destruct (C54_partition tb t (S (length t)) ltac:(lia)) as (rs & E & F). exists rs.
  unfold inspect_scripts. pose proof (convert_to_units i T32 T8 t Hs) as CU. rewrite text_units_8, text_units_32 in CU. rewrite CU. cbn [bindR]. rewrite E. cbn [bindR].
  eexists. split; [reflexivity|]. split; [reflexivity|]. now apply script_lines_spec.
Qed.
Print Assumptions C112_scripts.
Example C112_example : inspect_scripts sdemo NoSimd (utf8_text [0x61; 0x627; 0x61]) = Ok [(0, 1, 10%N, [(0, 0x61%N)]); (1, 2, 11%N, [(1, 0x627%N)]); (2, 3, 10%N, [(2, 0x61%N)])]%nat.
Proof. vm_compute. reflexivity. Qed.
