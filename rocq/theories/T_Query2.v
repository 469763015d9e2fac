(** Property theorem C105, continued: the whole output of the properties command. *)
From Coq Require Import Ascii String.
From Verif Require Import Base Spec_Utf M_Utf8 M_Convert P_Utf8 P_Convert M_Ucd M_Grapheme M_Script M_Emoji M_TableGen P_TableGen Spec_Query M_Query P_Query P_Query2 Spec_QueryProps Ucd_Demo T_Script T_Query.
Open Scope N_scope.

Lemma num_lower f n : n < 16 ^ N.of_nat (S f) -> lower_hex (num (S f) 16 n) n.
Proof.
  revert n. induction f as [|f IH]; intros n H.
  - change (16 ^ N.of_nat 1) with 16 in H. cbn. destruct (N.ltb_spec n 16); [|lia]. rewrite hexd_char by assumption. now constructor.
  - remember (S f) as f' eqn:Ef. cbn [num]. destruct (N.ltb_spec n 16); [rewrite hexd_char by assumption; now constructor|].
    rewrite (N.div_mod n 16) at 3 by lia. pose proof (N.mod_lt n 16 ltac:(lia)) as M. rewrite hexd_char by exact M. apply lhex_more; [| |exact M].
    + subst f'. apply IH. apply N.div_lt_upper_bound; [lia|]. replace (N.of_nat (S (S f))) with (N.succ (N.of_nat (S f))) in H by lia.
      rewrite N.pow_succ_r' in H. exact H.
    + intros Z. apply N.div_small_iff in Z; lia.
Qed.
Lemma out_hex_lower c : c < 2 ^ 32 -> lower_hex (out_hex c) c.
Proof. intros H. apply num_lower. exact H. Qed.

Lemma show_codepoint_record tolerant sc ndebug info c v : scalar c -> ci_age (info c) = lit "V" ++ v -> ci_width (info c) < 2 ^ 32 ->
  isprint_defined tolerant sc (utf8 c) ->
  exists o, show_codepoint tolerant sc ndebug info c = Ok (Some o) /\ shows_record (info c) v c o.
Proof.
  intros Hc Ha Hw Hp. unfold show_codepoint. rewrite Ha. cbn [pretty_age lit app].
  assert (E : convert_to_one T8 T32 c = Ok (utf8 c)).
  { unfold convert_to_one. pose proof (convert_it_units T32 T8 [c] (Forall_cons _ Hc (Forall_nil _))) as E. change (text_units T32 [c]) with [c] in E. change (text_units T8 [c]) with (utf8 c ++ []) in E. rewrite app_nil_r in E. exact E. }
  rewrite E. cbn [bindR]. unfold quoted_and_escaped. rewrite escaped_spec by (try exact Hp; pose proof (utf8_text_bytes [c] (Forall_cons _ Hc (Forall_nil _))) as B; cbn in B; rewrite app_nil_r in B; exact B).
  cbn [bindR]. eexists. split; [reflexivity|]. exists (out_hex c), (out_hex (ci_width (info c))).
  split; [apply out_hex_lower|split; [apply out_hex_lower, Hw|]].
  - unfold scalar in Hc. change (2 ^ 32) with 4294967296. lia.
  - assert (G : str_eqb (ci_gc (info c)) (lit "Control") = if list_eq_dec N.eq_dec (ci_gc (info c)) (lit "Control") then true else false).
    { destruct (list_eq_dec N.eq_dec (ci_gc (info c)) (lit "Control")) as [X|X]; [rewrite X; apply str_eqb_refl|].
      destruct (str_eqb _ _) eqn:Y; [|reflexivity]. apply str_eqb_eq in Y. contradiction. }
    rewrite G. unfold line, nl, dots. destruct (list_eq_dec N.eq_dec (ci_gc (info c)) (lit "Control")); cbn -[N.eqb out_hex flat_map utf8]; rewrite <- ?app_assoc; reflexivity.
Qed.

(** C105. For arguments that all name assigned scalar values the output is the records of all the code points, argument by argument. *)
Theorem C105_records_partial : forall u tb cat i tolerant sc ndebug tty sname info args (asked : list (list N)) (version : N -> str),
  Forall2 (fun a cs => parse_chars i a = Ok cs /\ cs <> []) args asked ->
  Forall (Forall (fun c => scalar c /\ ci_age (info c) = lit "V" ++ version c /\ ci_width (info c) < 2 ^ 32 /\ isprint_defined tolerant sc (utf8 c))) asked ->
  exists records, Forall2 (fun c o => shows_record (info c) (version c) c o) (List.concat asked) records /\
    query_main u tb cat i tolerant sc ndebug tty sname info (lit "properties" :: args) = Ok (Exited 0 (List.concat records) []).
Proof.
  intros u tb cat i tolerant sc ndebug tty sname info args asked version HP HA.
  assert (R : forall cs, Forall (fun c => scalar c /\ ci_age (info c) = lit "V" ++ version c /\ ci_width (info c) < 2 ^ 32 /\ isprint_defined tolerant sc (utf8 c)) cs ->
    exists records, Forall2 (fun c o => shows_record (info c) (version c) c o) cs records /\
      show_codepoints tolerant sc ndebug info cs = Ok (Some (List.concat records))).
  { induction 1 as [|c cs (Hs & Hv & Hw & Hp) _ (rs & H1 & H2)]; [exists []; split; [constructor|reflexivity]|].
    destruct (show_codepoint_record tolerant sc ndebug info c (version c) Hs Hv Hw Hp) as (o & Eo & Ho).
    exists (o :: rs). split; [constructor; assumption|]. cbn [show_codepoints]. rewrite Eo. cbn [bindR]. rewrite H2. reflexivity. }
  assert (A : forall out, exists records, Forall2 (fun c o => shows_record (info c) (version c) c o) (List.concat asked) records /\
    show_args tolerant sc ndebug i info args out [] = Ok (Exited 0 (out ++ List.concat records) [])).
  { induction HP as [|a cs args asked (E & NE) _ IH]; intros out; [exists []; split; [constructor|cbn; rewrite app_nil_r; reflexivity]|].
    pose proof (Forall_inv HA) as H1. pose proof (Forall_inv_tail HA) as H2. destruct (R cs H1) as (rs & F1 & E1).
    destruct (IH H2 (out ++ List.concat rs)) as (rs' & F2 & E2). exists (rs ++ rs'). split; [cbn [List.concat]; apply Forall2_app; assumption|].
    cbn [show_args]. rewrite E. cbn [bindR]. destruct cs; [contradiction|]. rewrite E1. cbn [bindR]. rewrite E2, concat_app, app_assoc. reflexivity. }
  destruct (A []) as (rs & F & E). exists rs. split; [exact F|exact E].
Qed.
Print Assumptions C105_records_partial.
(** A line break is not displayed, a letter is. *)
Example C105_record_cases :
  let shown c := match query_main demo sdemo (fun _ => EInvalid) NoSimd true true false false (fun _ => [])
      (fun c => CI [] (lit "V1_1") [] [] [] (if c =? 10 then lit "Control" else lit "Lowercase_Letter") [] 1 [] false []) [lit "properties"; c] with
    | Ok (Exited 0 o []) => o | _ => [] end in
  firstn 31 (skipn 136 (shown (lit "U+a"))) = line (lit "Plane") [] /\ firstn 32 (skipn 134 (shown (lit "e"))) = line (lit "Display") [101].
Proof. vm_compute. split; reflexivity. Qed.
