(** unicode_tablegen as a program: missing inputs, exit status, interrupted runs, reuse of the generated files. *)
From Coq Require Import String Ascii.
From Verif Require Import Base Spec_TgMain M_TgMain P_TgMain.
Open Scope string_scope.

(** C120.  A missing input file: failure, nothing written, and the first missing file is named if nothing else is wrong. *)
Theorem C120_missing_input : forall p g dev argc dir fs d, (3 <= argc)%nat -> (exists f, In f needed /\ fs f = None) ->
  exists msg, tablegen_main p g dev argc dir fs d = (ExitFailure, msg, d) /\ msg <> [].
Proof.
  intros p g dev argc dir fs d Ha (f & Hf & E). unfold tablegen_main. destruct (Nat.ltb_spec argc 3); [lia|].
  destruct (parse_missing p dir fs parse_order []) as (w & ->); [exists f; split; [apply needed_order; exact Hf|exact E]|]. eexists. split; [reflexivity|discriminate].
Qed.
Theorem C120_names_it : forall p g dev argc dir fs d l f r, (3 <= argc)%nat -> (forall c, before p c = None) -> (forall c, after p c = None) ->
  parse_order = (l ++ f :: r)%list -> Forall (fun x => fs x <> None) l -> fs f = None ->
  tablegen_main p g dev argc dir fs d = (ExitFailure, (lits "unicode_tablegen: Failed to open file: " ++ dir ++ lits "/" ++ lits f ++ newline)%list, d).
Proof.
  intros p g dev argc dir fs d l f r Ha Hb Hc E Hl Hf. unfold tablegen_main. destruct (Nat.ltb_spec argc 3); [lia|].
  rewrite (parse_first p dir fs Hb Hc _ l f r [] E Hl Hf). rewrite <- !app_assoc. reflexivity.
Qed.
(** A failure leaves the output untouched, unless it is the exception inside the ucd.h/ucd.cpp generator. *)
Theorem C120_failure_untouched : forall p g dev argc dir fs d msg d', (forall c, api_fails g c = None) ->
  tablegen_main p g dev argc dir fs d = (ExitFailure, msg, d') -> d' = d.
Proof.
  intros p g dev argc dir fs d msg d' Hg H. unfold tablegen_main in H. destruct (Nat.ltb argc 3); [apply (f_equal snd) in H; cbn in H; auto|].
  destruct (parse_all p dir fs parse_order []) as [w|c]; [apply (f_equal snd) in H; cbn in H; auto|]. rewrite Hg in H. discriminate.
Qed.
Print Assumptions C120_failure_untouched.
Print Assumptions C120_missing_input.
Print Assumptions C120_names_it.
Definition quiet : parser := Parser (fun _ => None) (fun _ => None).
Definition one_letter : generator := Generator (fun _ _ => [65%N]) (fun _ => None).
Definition all_but (g : string) : string -> option infile := fun f => if f =? g then None else Some (In_file [] true).
Example C120_demo : snd (fst (tablegen_main quiet one_letter (fun _ => Some 10%nat) 3 (lits "ucd") (all_but "Scripts.txt") (fun _ => None))) =
    (lits "unicode_tablegen: Failed to open file: ucd/Scripts.txt" ++ newline)%list /\ In "Scripts.txt" needed /\
  fst (fst (tablegen_main quiet one_letter (fun _ => Some 10%nat) 3 (lits "ucd") (all_but "") (fun _ => None))) = ExitSuccess.
Proof. vm_compute. split; [reflexivity|]. split; [tauto|reflexivity]. Qed.

(** C121.  "Exit status 0 means that all nine files hold the complete tables, computed from the complete input" is false:
    errors of the output streams are not looked at, and a read error counts as the end of the file. *)
Definition read_by (fs : string -> option infile) : list (list (list N)) :=
  map (fun f => match fs f with Some i => delivered i | None => [] end) parse_order.
Definition C121_written : Prop := forall p g dev argc dir fs d msg d', tablegen_main p g dev argc dir fs d = (ExitSuccess, msg, d') ->
  forall f, In f nine -> d' f = Some (gtext g (read_by fs) f).
Definition C121_read : Prop := forall p g dev argc dir fs d msg d', tablegen_main p g dev argc dir fs d = (ExitSuccess, msg, d') ->
  forall f, In f needed -> exists i, fs f = Some i /\ whole i = true.
Theorem C121_written_refuted : ~ C121_written.
Proof.
  intros H. specialize (H quiet one_letter (fun _ => None) 3%nat [] (all_but "") (fun _ => None) _ _ eq_refl "ucd.h" ltac:(cbn; tauto)). discriminate.
Qed.
Theorem C121_disk_full_refuted : ~ C121_written.
Proof.
  intros H. specialize (H quiet one_letter (fun f => Some (if f =? "ucd.cpp" then 0%nat else 10%nat)) 3%nat [] (all_but "") (fun _ => None) _ _ eq_refl "ucd.cpp" ltac:(cbn; tauto)).
  vm_compute in H. discriminate.
Qed.
Theorem C121_read_refuted : ~ C121_read.
Proof.
  intros H. destruct (H quiet one_letter (fun _ => None) 3%nat [] (fun _ => Some (In_file [] false)) (fun _ => None) _ _ eq_refl "Blocks.txt" ltac:(cbn; tauto)) as (i & E & W).
  injection E as <-. discriminate.
Qed.
(** What status 0 does mean, and what is then on the disk. *)
Theorem C121_exact_partial : forall p g dev argc dir fs d msg d', tablegen_main p g dev argc dir fs d = (ExitSuccess, msg, d') ->
  (3 <= argc)%nat /\ (forall f, In f needed -> fs f <> None) /\
  forall f, d' f = if in_dec string_dec f nine then match dev f with None => d f | Some n => Some (firstn n (gtext g (read_by fs) f)) end else d f.
Proof.
  intros p g dev argc dir fs d msg d' H. unfold tablegen_main in H. destruct (Nat.ltb_spec argc 3) as [|Ha]; [discriminate|].
  destruct (parse_all p dir fs parse_order []) as [w|c] eqn:E; [discriminate|]. destruct (api_fails g c) as [[[w n1] n2]|]; [discriminate|].
  apply (f_equal snd) in H. cbn [snd] in H. rewrite <- write_files_app, nine_stages in H. destruct (parse_ok _ _ _ _ _ _ E) as [F1 F2].
  split; [exact Ha|]. split; [intros f Hf; apply F1, needed_order, Hf|]. intros f. rewrite <- H, F2. apply write_files_spec. exact nine_nodup.
Qed.
(** Complete when every output file can be opened and there is room for it. *)
Theorem C121_complete_partial : forall p g dev argc dir fs d msg d', tablegen_main p g dev argc dir fs d = (ExitSuccess, msg, d') ->
  (forall f, In f nine -> exists n, dev f = Some n /\ (List.length (gtext g (read_by fs) f) <= n)%nat) ->
  forall f, In f nine -> d' f = Some (gtext g (read_by fs) f).
Proof.
  intros p g dev argc dir fs d msg d' H HD f Hf. destruct (C121_exact_partial _ _ _ _ _ _ _ _ _ H) as (_ & _ & E). rewrite E. destruct (in_dec string_dec f nine); [|contradiction].
  destruct (HD f Hf) as (n & -> & L). rewrite firstn_all2 by exact L. reflexivity.
Qed.
(** And 0 is returned whenever the arguments, inputs and their contents are in order. *)
Theorem C121_success_partial : forall g dev argc dir fs d, (3 <= argc)%nat -> (forall f, In f needed -> fs f <> None) -> (forall c, api_fails g c = None) ->
  exists d', tablegen_main quiet g dev argc dir fs d = (ExitSuccess, [], d').
Proof.
  intros g dev argc dir fs d Ha Hf Hg. unfold tablegen_main. destruct (Nat.ltb_spec argc 3); [lia|].
  destruct (parse_quiet quiet dir fs (fun _ => eq_refl) (fun _ => eq_refl) parse_order []) as (c & ->); [intros f K; apply Hf, needed_order, K|]. rewrite Hg. eauto.
Qed.
Print Assumptions C121_written_refuted.
Print Assumptions C121_disk_full_refuted.
Print Assumptions C121_read_refuted.
Print Assumptions C121_exact_partial.
Print Assumptions C121_complete_partial.
Print Assumptions C121_success_partial.

(** C122.  The generated files are reused exactly if all nine exist and none is older than a source of the generator. *)
Theorem C122_reuse : forall srcs d, has_pregenerated (map Some srcs) d = true <->
  forall f, In f nine -> exists c t, d f = Some (c, t) /\ forall s, In s srcs -> (s <= t)%N.
Proof. exact pregenerated_spec. Qed.
Print Assumptions C122_reuse.
Example C122_demo : has_pregenerated [Some 3; Some 5]%N (fun _ => Some ([], 5%N)) = true /\ has_pregenerated [Some 3; Some 6]%N (fun _ => Some ([], 5%N)) = false.
Proof. split; reflexivity. Qed.

(** C123.  "After a run that was cut off at any point, the next configuration generates the files again" is false: as soon
    as the last file has been created all nine exist and are new, whatever they contain. *)
Definition C123_statement : Prop := forall txt srcs d t0, has_pregenerated (map Some srcs) d = false -> (forall s, In s srcs -> (s <= t0)%N) ->
  forall l done todo, generator_run txt (map fst l) -> Forall (fun a => (t0 <= snd a)%N) l -> l = (done ++ todo)%list ->
  ~ complete txt (acts d done) -> has_pregenerated (map Some srcs) (acts d done) = false.
Definition letter : string -> text := fun _ => [65%N].
Definition stage_acts (fs : list string) : list action := (map Create fs ++ map (fun f => Put f [65%N]) fs)%list.
Lemma letter_run : generator_run letter (concat (map stage_acts stages)).
Proof.
  exists (map stage_acts stages). split; [|reflexivity]. unfold stages, stage_enums. cbn [app map].
  repeat (constructor; [eexists; split; [reflexivity|]; split; [intros a Ha; apply in_map_iff in Ha; destruct Ha as (f & <- & Hf); eauto|]; intros f Hf; cbn in Hf; repeat (destruct Hf as [<-|Hf]; [reflexivity|]); destruct Hf|]).
  constructor.
Qed.
Theorem C123_interrupted_refuted : ~ C123_statement.
Proof.
  intros H. set (l := map (fun a => (a, 7%N)) (concat (map stage_acts stages))).
  specialize (H letter [] (fun _ => None) 7%N eq_refl ltac:(intros s []) l (firstn 15 l) (skipn 15 l)).
  assert (E : map fst l = concat (map stage_acts stages)) by (unfold l; rewrite map_map; apply map_id).
  rewrite E in H. specialize (H letter_run). assert (F : Forall (fun a : action * N => (7 <= snd a)%N) l).
  { apply Forall_forall. intros a Ha. unfold l in Ha. apply in_map_iff in Ha. destruct Ha as (x & <- & _). cbn. lia. }
  specialize (H F (eq_sym (firstn_skipn 15 l))).
  assert (NC : ~ complete letter (acts (fun _ => None) (firstn 15 l))).
  { intros C. destruct (C "codepoint_properties_names.cpp" ltac:(cbn; tauto)) as (t & K). vm_compute in K. discriminate. }
  specialize (H NC). vm_compute in H. discriminate.
Qed.
(** Exactly: the files are taken for current as soon as every file that was missing or out of date has been created. *)
Theorem C123_exact_partial : forall txt srcs d t0, (forall s, In s srcs -> (s <= t0)%N) ->
  forall l done todo, generator_run txt (map fst l) -> Forall (fun a => (t0 <= snd a)%N) l -> l = (done ++ todo)%list ->
  (has_pregenerated (map Some srcs) (acts d done) = true <->
   forall f, In f nine -> In (Create f) (map fst done) \/ exists c t, d f = Some (c, t) /\ forall s, In s srcs -> (s <= t)%N).
Proof.
  intros txt srcs d t0 Ht l done todo R Hl E. rewrite pregenerated_spec. split; intros H f Hf; specialize (H f Hf);
    destruct (prefix_state txt t0 d f l done todo (generator_shape _ _ _ R Hf) Hl E) as [(K1 & K2)|(K1 & c & t & q & K2 & K3 & _)].
  - right. rewrite K2 in H. exact H.
  - left. exact K1.
  - rewrite K2. destruct H as [H|H]; [contradiction|exact H].
  - exists c, t. split; [exact K2|]. intros s Hs. specialize (Ht s Hs). lia.
Qed.
(** In particular a run cut off before the last file is created is repeated, if that file was missing. *)
Theorem C123_before_last_partial : forall txt srcs d t0, (forall s, In s srcs -> (s <= t0)%N) -> d "codepoint_properties_names.cpp" = None ->
  forall l done todo, generator_run txt (map fst l) -> Forall (fun a => (t0 <= snd a)%N) l -> l = (done ++ todo)%list ->
  ~ In (Create "codepoint_properties_names.cpp") (map fst done) -> has_pregenerated (map Some srcs) (acts d done) = false.
Proof.
  intros txt srcs d t0 Ht Hd l done todo R Hl E Hn. destruct (has_pregenerated (map Some srcs) (acts d done)) eqn:P; [|reflexivity].
  rewrite (C123_exact_partial txt srcs d t0 Ht l done todo R Hl E) in P. destruct (P "codepoint_properties_names.cpp" ltac:(cbn; tauto)) as [K|(c & t & K & _)]; [contradiction|congruence].
Qed.
(** At any point each file is untouched or holds a beginning of its text; after a complete run all nine are complete and reused. *)
Theorem C123_states_partial : forall txt d t0 l done todo, generator_run txt (map fst l) -> Forall (fun a => (t0 <= snd a)%N) l -> l = (done ++ todo)%list ->
  forall f, In f nine -> acts d done f = d f \/ exists c t rest, acts d done f = Some (c, t) /\ txt f = (c ++ rest)%list.
Proof.
  intros txt d t0 l done todo R Hl E f Hf. destruct (prefix_state txt t0 d f l done todo (generator_shape _ _ _ R Hf) Hl E) as [(K1 & K2)|(K1 & c & t & q & K2 & K3 & K4 & _)]; [left; exact K2|right; exists c, t, q; auto].
Qed.
Theorem C123_finished_partial : forall txt srcs d t0 l, (forall s, In s srcs -> (s <= t0)%N) -> generator_run txt (map fst l) -> Forall (fun a => (t0 <= snd a)%N) l ->
  complete txt (acts d l) /\ has_pregenerated (map Some srcs) (acts d l) = true.
Proof.
  intros txt srcs d t0 l Ht R Hl. assert (C : forall f, In f nine -> exists t, acts d l f = Some (txt f, t) /\ (t0 <= t)%N).
  { intros f Hf. pose proof (generator_shape _ _ _ R Hf) as Sh. destruct (prefix_state txt t0 d f l l [] Sh Hl (eq_sym (app_nil_r l))) as [(K1 & K2)|(K1 & c & t & q & K2 & K3 & K4 & K5)].
    - exfalso. destruct Sh as (a & b & E & _). apply K1. rewrite E. apply in_or_app. right. left. reflexivity.
    - rewrite (K5 eq_refl), app_nil_r in K4. subst c. eauto. }
  split; [intros f Hf; destruct (C f Hf) as (t & K & _); eauto|]. apply pregenerated_spec. intros f Hf. destruct (C f Hf) as (t & K1 & K2). exists (txt f), t. split; [exact K1|].
  intros s Hs. specialize (Ht s Hs). lia.
Qed.
Print Assumptions C123_interrupted_refuted.
Print Assumptions C123_exact_partial.
Print Assumptions C123_before_last_partial.
Print Assumptions C123_states_partial.
Print Assumptions C123_finished_partial.
