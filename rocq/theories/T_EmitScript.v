(** C141: from the database files, through the printed text of ucd.cpp, to script runs. *)
From Coq Require Import String Permutation Lia.
From Verif Require Import Base M_TableGen M_PropGen M_UcdApi M_Tables M_EmitUcd M_Script M_LinkScript Spec_Tables Spec_TableGen Spec_PropGen Spec_UcdApi Spec_Script Spec_LinkScript Spec_Cpp Spec_EmitUcd Spec_EmitFiles Spec_EmitScript
  P_TableGen P_TableGen2 P_PropGen P_UcdApi P_UcdApi2 P_UcdApi5 P_EmitFiles T_Tables T_UcdApi T_UcdApi2 T_LinkScript T_EmitUcd T_EmitFiles.

Open Scope N_scope.

Lemma search_loop_map {T V} (f : T -> V) (l : list (N * N * T)) c : forall fuel a b,
  search_loop fuel (map (fun r => (fst r, f (snd r))) l) c a b =
  match search_loop fuel l c a b with Ok r => Ok (option_map f r) | UB => UB | NoFuel => NoFuel end.
Proof.
  assert (A : forall i, at_index (map (fun r => (fst r, f (snd r))) l) i = option_map (fun r => (fst r, f (snd r))) (at_index l i)).
  { intros i. unfold at_index. rewrite map_length. destruct (_ <? _); [|reflexivity]. rewrite nth_error_map. reflexivity. }
  assert (L : forall a, match at_index (map (fun r => (fst r, f (snd r))) l) a with None => UB | Some (lo, hi, p) => Ok (if (lo <=? c) && (c <=? hi) then Some p else None) end =
    match (match at_index l a with None => UB | Some (lo, hi, p) => Ok (if (lo <=? c) && (c <=? hi) then Some p else None) end) with Ok r => Ok (option_map f r) | UB => UB | NoFuel => NoFuel end).
  { intros a. rewrite A. destruct (at_index l a) as [[[lo hi] p]|]; cbn [option_map fst snd]; [|reflexivity]. destruct ((lo <=? c) && (c <=? hi)); reflexivity. }
  induction fuel as [|n IH]; intros a b; cbn [search_loop].
  - destruct (a <? b); [reflexivity|]. destruct (a =? b); [apply L|reflexivity].
  - destruct (a <? b); [|destruct (a =? b); [apply L|reflexivity]].
    cbv zeta. rewrite A. destruct (at_index l (a + (b - a) / 2)) as [[[lo hi] p]|]; cbn [option_map fst snd]; [|reflexivity].
    destruct (hi <? c); [destruct (_ =? b); [reflexivity|apply IH]|]. destruct (c <? lo); [destruct (_ =? 0); [reflexivity|apply IH]|reflexivity].
Qed.
Lemma search_map {T V} (f : T -> V) (l : list (N * N * T)) c :
  search (map (fun r => (fst r, f (snd r))) l) c = match search l c with Ok r => Ok (option_map f r) | UB => UB | NoFuel => NoFuel end.
Proof. unfold search. rewrite map_length. apply search_loop_map. Qed.
Lemma search_in {T} (l : list (N * N * T)) c p : search l c = Ok (Some p) -> In p (map snd l).
Proof.
  unfold search. generalize (S (length l)) 0 (size_minus_1 (length l)).
  assert (A : forall i lo hi q, at_index l i = Some (lo, hi, q) -> In q (map snd l)).
  { intros i lo hi q H. unfold at_index in H. destruct (_ <? _); [|discriminate]. apply nth_error_In in H. exact (in_map snd _ _ H). }
  assert (L : forall a, match at_index l a with None => UB | Some (lo, hi, q) => Ok (if (lo <=? c) && (c <=? hi) then Some q else None) end = Ok (Some p) -> In p (map snd l)).
  { intros a. destruct (at_index l a) as [[[lo hi] q]|] eqn:E; [|discriminate]. destruct ((lo <=? c) && (c <=? hi)); [|discriminate]. intros H. injection H as <-. exact (A _ _ _ _ E). }
  induction n as [|n IH]; intros a b; cbn [search_loop].
  - destruct (a <? b); [discriminate|]. destruct (a =? b); [apply L|discriminate].
  - destruct (a <? b); [|destruct (a =? b); [apply L|discriminate]].
    cbv zeta. destruct (at_index l (a + (b - a) / 2)) as [[[lo hi] q]|] eqn:E; [|discriminate].
    destruct (hi <? c); [destruct (_ =? b); [discriminate|apply IH]|]. destruct (c <? lo); [destruct (_ =? 0); [discriminate|apply IH]|].
    intros H. injection H as <-. exact (A _ _ _ _ E).
Qed.

Section Printed.
Context (crlf : bool) (F : ucd_files) (A : api_files) (u : ucd_src) (num : str -> N) (Hok : files_ok F) (HA : api_files_ok F A) (Hn : names_ok F A) (Hs : sizes_ok F A)
  (Hl : loaded_api crlf F A u) (Hc : comments_ok u).
Definition the_files : script_files := mkSF (f_scripts F) (ap_sce A) (f_pva F).
Lemma the_files_ok : script_files_ok the_files.
Proof.
  destruct HA as (_ & _ & _ & (Sep & Ne) & _ & _ & (H1 & H2 & H3 & H4) & _). split; [exact (value_lines F Hok (f_scripts F) (or_introl eq_refl))|].
  split; [exact Sep|]. split; [exact Ne|]. split; [exact (proj1 Hok)|]. auto.
Qed.
Lemma printed_tables : exists cpp tb, ucd_cpp_text u = Some cpp /\ script_library num cpp tb /\ compiled_scripts the_files num tb.
Proof.
  destruct (C136_ucd_cpp_answers crlf F A u Hok HA Hn Hs Hl Hc) as (cpp & E & An).
  destruct (smap_get (lit "Script") (u_pva u)) as [al|] eqn:Hal; [|unfold ucd_cpp_text in E; rewrite Hal in E; discriminate].
  pose proof (C131_text_denotes_partial u al cpp Hal E (files_fit crlf F A u Hok HA Hn Hs Hl Hc)) as (_ & _ & _ & _ & (TS & XS) & (T & TA & X) & _).
  unfold api_of in TS, T, TA. cbn [Spec_EmitUcd.a_scripts Spec_EmitUcd.a_sces a_sce_arrays] in TS, T, TA.
  set (sces := map fst (u_sces u)) in *. set (arrays := sce_arrays al sces) in *.
  assert (Eext : api_script_extensions (u_pva u) sces = Some (search (map (fun r : sce_range => (fst r, match smap_get (sce_key (snd r)) arrays with Some a => a | None => [] end)) sces))) by (unfold api_script_extensions; rewrite Hal; reflexivity).
  pose proof Hl as (Ep & _ & _ & _ & S & _ & _ & Sx & _). pose proof the_files_ok as (H1 & H2 & H3 & H4 & H5 & H6 & H7 & H8).
  exists cpp, (linked_scripts num (map fst (u_scripts u)) (search (map (fun r : sce_range => (fst r, match smap_get (sce_key (snd r)) arrays with Some a => a | None => [] end)) sces))).
  split; [exact E|]. split.
  - assert (Ek : map (fun r : sce_range => (fst r, sce_key (snd r))) sces = map (fun r => (fst (fst r), sce_key (snd (fst r)))) (u_sces u)) by (unfold sces; rewrite map_map; reflexivity).
    rewrite <- Ek in T. exists (map fst (u_scripts u)), (map (fun r : sce_range => (fst r, sce_key (snd r))) sces). split; [exact TS|]. split; [exact XS|]. split; [exact T|]. split; [exact X|].
    intros c. split.
    + destruct (C83_script crlf (f_scripts F) _ c H1 H2 H3 S) as (v & Ev & _). exists v. split; [exact Ev|]. cbn [linked_scripts script_of]. now rewrite Ev.
    + rewrite Ep in Eext. destruct (C90_script_extensions crlf (f_pre F) (f_pva F) (ap_sce A) sces H4 H5 H6 H7 H8 Sx) as (g & Eg & G). rewrite Eext in Eg. injection Eg as <-.
      destruct (G c) as (r & Er & _). cbn [linked_scripts extensions_of]. rewrite Er.
      pose proof (search_map (fun ws => match smap_get (sce_key ws) arrays with Some a => a | None => [] end) sces c) as M1. pose proof (search_map sce_key sces c) as M2.
      assert (Er1 := eq_trans (eq_sym M1) Er). clear Er M1.
      destruct (search sces c) as [q| |] eqn:Eq; [|discriminate|discriminate]. injection Er1 as <-. eexists. split; [exact M2|]. destruct q as [ws|]; cbn [option_map]; [|reflexivity].
      apply search_in, in_map_iff in Eq as (r & <- & Hr).
      assert (Hwo : Forall (fun r : sce_range => Forall (without 95) (snd r)) sces).
      { rewrite load_sce_data in Sx by exact H5. destruct Sx as [P _]. apply Forall_forall. intros x Hx. apply (Permutation_in _ (Permutation_sym P)), in_map_iff in Hx as (l & <- & H). apply data_in in H.
        cbn [snd]. destruct (H5 _ H) as [ws K]. rewrite (sce_tokens _ _ K). eapply Permutation_Forall; [symmetry; apply ssort_perm|]. destruct K as (_ & _ & _ & K). eapply Forall_impl; [|exact K]. cbn beta. tauto. }
      pose proof (sce_arrays_get al sces r Hwo Hr) as Gt. change (sce_arrays al sces) with arrays in Gt. exists (sce_names al (snd r)). split; [exact (TA _ _ (get_in _ _ _ Gt))|]. now rewrite Gt.
  - exists crlf, (f_pre F). exists (map fst (u_scripts u)), sces. eexists. split; [exact S|]. split; [exact Sx|]. split; [rewrite Ep in Eext; exact Eext|reflexivity].
Qed.
End Printed.

(** C141.  The generator prints an ucd.cpp with which the segmenter sees exactly the scripts of the files ... *)
Theorem C141_printed_scripts : forall crlf F A u num, files_ok F -> api_files_ok F A -> names_ok F A -> sizes_ok F A -> loaded_api crlf F A u -> comments_ok u ->
  let files := mkSF (f_scripts F) (ap_sce A) (f_pva F) in script_facts files -> numbering num -> numbered num ->
  exists cpp tb, ucd_cpp_text u = Some cpp /\ script_library num cpp tb /\
    forall c n, (script_of tb c = num n <-> file_script files c n) /\ (used_with tb c (num n) <-> file_used_with files c n).
Proof.
  intros crlf F A u num Hok HA Hn Hs Hl Hc files Hf Hi Hu.
  destruct (printed_tables crlf F A u num Hok HA Hn Hs Hl Hc) as (cpp & tb & E & L & C). exists cpp, tb. split; [exact E|]. split; [exact L|]. intros c n.
  destruct (C119_library_reads_files files num tb (the_files_ok F A Hok HA) C Hf Hi Hu c n) as (H1 & H2 & _). split; [exact H1|exact H2].
Qed.
Print Assumptions C141_printed_scripts.
(** ... and the runs of every text partition it, none can be extended, and a run has a script its code points share by the files if they share
    any of its kind (C55: the code may name another one otherwise). *)
Theorem C141_printed_runs_partial : forall crlf F A u num, files_ok F -> api_files_ok F A -> names_ok F A -> sizes_ok F A -> loaded_api crlf F A u -> comments_ok u ->
  let files := mkSF (f_scripts F) (ap_sce A) (f_pva F) in script_facts files -> numbering num -> numbered num ->
  exists cpp tb, ucd_cpp_text u = Some cpp /\ script_library num cpp tb /\
    forall t calls, (length t < calls)%nat -> exists rs, script_runs tb calls (sseg_new t) = Ok rs /\ ends_at (length t) 0 (map snd rs) /\
    forall a b n, is_run rs a b (num n) ->
      ((b < length t)%nat -> ~ exists m, file_shared files t a (S b) m) /\
      (file_shared files t a b n <-> exists x, file_shared files t a b x /\ (real_script n -> real_script x)) /\
      ((forall c m, In c t -> file_has_real files c -> file_used_with files c m -> real_script m) -> file_shared files t a b n).
Proof.
  intros crlf F A u num Hok HA Hn Hs Hl Hc files Hf Hi Hu.
  destruct (printed_tables crlf F A u num Hok HA Hn Hs Hl Hc) as (cpp & tb & E & L & C). exists cpp, tb. split; [exact E|]. split; [exact L|]. intros t calls Ht.
  pose proof (the_files_ok F A Hok HA) as Fk. destruct (C119_script_runs_partial files num tb Fk C Hf Hi Hu t calls Ht) as (rs & Er & P & K). exists rs. split; [exact Er|]. split; [exact P|].
  intros a b n R. split; [exact (proj1 (K a b _ R))|]. split; [exact (C119_exact_partial files num tb Fk C Hf Hi Hu t calls rs Er a b n R)|]. intros Hp.
  destruct (C119_plain_partial files num tb Fk C Hf Hi Hu t calls rs Hp Er a b _ R) as ((m & Em & Sm) & _). apply Hi in Em. now subst m.
Qed.
Print Assumptions C141_printed_runs_partial.

(** The hypotheses are met by a small database. *)
From Verif Require Import TableGen_Demo PropGen_Demo UcdApi_Demo Enums_Demo LinkScript_Demo.
Example C141_hypotheses : files_ok F3_demo /\ api_files_ok F3_demo A_demo /\ names_ok F3_demo A_demo /\ sizes_ok F3_demo A_demo /\ loaded_api true F3_demo A_demo u_demo /\ comments_ok u_demo /\
  script_facts (mkSF (f_scripts F3_demo) (ap_sce A_demo) (f_pva F3_demo)) /\ (exists num, numbering num /\ numbered num) /\
  exists ws c, lists (ap_sce A_demo) c ws /\ (2 <= length ws)%nat.
Proof.
  destruct C136_hypotheses as (H1 & H2 & H3 & H4 & H5 & H6). repeat (split; [assumption|]). split; [apply sf_okb_ok; vm_compute; reflexivity|]. split; [exact C119_numbering|].
  exists [lit "Beng"; lit "Deva"; lit "Gran"; lit "Knda"], 0x1CD0. split; [|repeat constructor].
  exists (mkSt (One 0x1CD0) 10 1 (lit "Beng Deva Gran Knda") 1 (Some (lit " Mn       VEDIC TONE KARSHANA"))). assert (K : True) by exact I.
  split; [vm_compute; tauto|]. split; [vm_compute; reflexivity|]. apply sce_lineb_ok. vm_compute. reflexivity.
Qed.
