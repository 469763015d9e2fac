(** C143: from the database files, through the printed text of both table files, to runs of one script and one presentation. *)
From Coq Require Import String Lia.
From Verif Require Import Base M_Ucd M_Emoji M_Run M_Script M_LinkScript M_TableGen M_PropGen M_UcdApi M_Multistage M_Link M_Emit M_EmitUcd M_EmitMs Spec_TableGen Spec_PropGen Spec_UcdApi Spec_Multistage Spec_Link Spec_LinkScript Spec_Script
  Spec_Emoji Spec_Run Spec_Cpp Spec_Emit Spec_EmitUcd Spec_EmitMs Spec_EmitGet Spec_EmitLib Spec_EmitFiles Spec_EmitScript T_Emoji T_Run T_Script T_PropGen T_Link T_LinkScript T_EmitGet T_EmitFiles T_EmitLib T_EmitScript.
Open Scope N_scope.

(** C143. *)
Theorem C143_printed_runs : forall crlf F A us d members hash parts n1 n2 names num, files_ok F -> api_files_ok F A -> names_ok F A -> sizes_ok F A -> loaded_api crlf F A us -> comments_ok us ->
  parsed crlf F d -> age_members (find_pva (pd_pva d) "Age") = Some members -> few_values 65536 (rec_cells members d) -> few_blocks 256 256 (rec_cells members d) -> value_names_ok F ->
  parts <> [] -> Forall Spec_EmitUcd.identifier parts -> n1 <> [] -> n2 <> [] ->
  let files := mkSF (f_scripts F) (ap_sce A) (f_pva F) in script_facts files -> numbering num -> numbered num ->
  exists g header impl names_file cpp u e tb, generate crec crec_eqb hash 256 256 65536 (rec_cells members d) = Ok g /\
    ms_files (qualified parts) (mkMs (g1 g) (g2 g) (map (print_rec members d) (g3 g)) n1 n2 names) = Some (header, impl, names_file) /\
    ucd_cpp_text us = Some cpp /\ library_of impl u e /\ describes_ecat F e /\
    script_library num cpp tb /\ (forall c n, used_with tb c (num n) <-> file_used_with files c n) /\
    forall t efuel fuel calls, (length t < efuel)%nat -> (1 <= fuel)%nat -> (length t < calls)%nat ->
    exists scripts ts runs, script_runs tb calls (sseg_new t) = Ok scripts /\ Spec_Emoji.tokens (map e t) ts /\
      run_segments tb e efuel fuel calls t = Ok runs /\
      common_refinement (length t) [map (fun r => (snd r, PScript (fst r))) scripts; map (fun r => (fst r, PEmoji (snd r))) (groups 0 ts)] runs /\
      forall a b n, is_run scripts a b (num n) ->
        ((b < length t)%nat -> ~ exists m, file_shared files t a (S b) m) /\
        (file_shared files t a b n <-> exists x, file_shared files t a b x /\ (real_script n -> real_script x)).
Proof.
  intros crlf F A us d members hash parts n1 n2 names num Hok HA Hn Hs Hl Hc Hp Em Hv Hb Hnv H1 H2 H3 H4 files Hf Hi Hu.
  destruct (library_gives crlf F d members hash parts n1 n2 names Hok Hp Em Hv Hb Hnv H1 H2 H3 H4) as (g & header & impl & names_file & u & e & Eg & Ef & Lb & _ & De & _).
  destruct (printed_tables crlf F A us num Hok HA Hn Hs Hl Hc) as (cpp & tb & E & L & C). pose proof (the_files_ok F A Hok HA) as Fk.
  exists g, header, impl, names_file, cpp, u, e, tb. repeat (split; [assumption|]). split; [intros c n; exact (proj1 (proj2 (C119_library_reads_files files num tb Fk C Hf Hi Hu c n)))|].
  intros t efuel fuel calls Le Lf Lc.
  destruct (C58_run_segmenter tb e t efuel fuel calls Le Lf Lc) as (scripts & e0 & emojis & runs & E1 & E2 & E3 & E4 & R).
  destruct (C57_segments (map e t)) as (st & ts & E5 & T & X). rewrite E5 in E2. injection E2 as <-. rewrite (X efuel calls) in E3 by (now rewrite map_length).
  injection E3 as <-. exists scripts, ts, runs. split; [exact E1|]. split; [exact T|]. split; [exact E4|]. split; [exact R|]. intros a b n Hr.
  destruct (C119_script_runs_partial files num tb Fk C Hf Hi Hu t calls Lc) as (rs & Er & _ & K). rewrite E1 in Er. injection Er as <-.
  split; [exact (proj1 (K a b _ Hr))|exact (C119_exact_partial files num tb Fk C Hf Hi Hu t calls scripts E1 a b n Hr)].
Qed.
Print Assumptions C143_printed_runs.

(** The hypotheses are met by the small database of C142. *)
From Verif Require Import LinkScript_Demo T_EmitCase.
Example C143_hypotheses : files_ok F4_demo /\ api_files_ok F4_demo A4_demo /\ names_ok F4_demo A4_demo /\ sizes_ok F4_demo A4_demo /\ loaded_api true F4_demo A4_demo u_demo4 /\ comments_ok u_demo4 /\
  parsed true F4_demo d4_demo /\ age_members (find_pva (pd_pva d4_demo) "Age") = Some members4 /\ few_values 65536 (rec_cells members4 d4_demo) /\ few_blocks 256 256 (rec_cells members4 d4_demo) /\
  value_names_ok F4_demo /\ script_facts (mkSF (f_scripts F4_demo) (ap_sce A4_demo) (f_pva F4_demo)) /\ exists num, numbering num /\ numbered num.
Proof.
  destruct C142_hypotheses as (K1 & K2 & K3 & K4 & K5 & K6 & K7 & K8 & K9 & K10 & K11 & _). repeat (split; [assumption|]). split; [apply sf_okb_ok; vm_compute; reflexivity|exact C119_numbering].
Qed.
