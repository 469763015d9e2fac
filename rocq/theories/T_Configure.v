(** C126, C127: configuring and building again and again. *)
From Coq Require Import String.
From Verif Require Import Base Spec_TgMain Spec_Configure M_TgMain M_Configure P_TgMain.
Open Scope string_scope.

Definition new_tree (sources : list N) (db : string -> files) : tree := Tree (fun _ => None) sources db (fun _ => empty_cache).

(** C126.  "After cmake and a build the tables come from the database of the version that was asked for" (asked for last in that build
    directory, 17.0.0 if never; no directory given by hand) is false: the tables of the first version stay. *)
Definition C126_statement : Prop := forall src gen sources db h b o now,
  let calls := calls_in b (h ++ [Make b o now]) in
  (forall c, In c calls -> o_dir c = None /\ o_base c = None) ->
  let after := history src gen (new_tree sources db) (h ++ [Make b o now]) in
  complete (gen (t_db after (src ++ "/_ucd/ucd-" ++ or_else (last_given o_version calls) "17.0.0"))) (t_files after).
(** It stays false for a build before which all generated files are deleted: the directory, too, is remembered from the first call. *)
Definition C126_clean_statement : Prop := forall src gen sources db h b o now,
  let calls := calls_in b (h ++ [Make b o now]) in
  (forall c, In c calls -> o_dir c = None /\ o_base c = None) ->
  let after := history src gen (new_tree sources db) (h ++ map Delete nine ++ [Make b o now]) in
  complete (gen (t_db after (src ++ "/_ucd/ucd-" ++ or_else (last_given o_version calls) "17.0.0"))) (t_files after).
Definition ask (v : string) : options := Opts (Some v) None None.
Definition two_dbs : string -> files := fun d f => if d =? "/s/_ucd/ucd-16.0.0" then Some [16%N] else Some [17%N].
Definition echo (db : files) (_ : string) : list N := match db "UnicodeData.txt" with Some t => t | None => [] end.
Theorem C126_version_refuted : ~ C126_statement.
Proof.
  intros H. specialize (H "/s" echo [1%N] two_dbs [Make 0 (ask "16.0.0") 5%N] 0%nat (ask "17.0.0") 9%N). cbv zeta in H.
  destruct (H ltac:(cbn; intros c [<-|[<-|[]]]; auto) "ucd.h" ltac:(cbn; tauto)) as (t & K). vm_compute in K. discriminate.
Qed.
Theorem C126_clean_refuted : ~ C126_clean_statement.
Proof.
  intros H. specialize (H "/s" echo [1%N] two_dbs [Make 0 (ask "16.0.0") 5%N] 0%nat (ask "17.0.0") 9%N). cbv zeta in H.
  destruct (H ltac:(cbn; intros c [<-|[<-|[]]]; auto) "ucd.h" ltac:(cbn; tauto)) as (t & K). vm_compute in K. discriminate.
Qed.

(** what is cached after the calls *)
Definition cached (src : string) (c : cache) (l : list options) : cache := fold_left (fun c o => configure src o c) l c.
Lemma last_app : forall f l o, last_given f (l ++ [o])%list = match f o with Some x => Some x | None => last_given f l end.
Proof.
  induction l as [|a l IH]; intros o; cbn [last_given app]; [destruct (f o); reflexivity|]. rewrite IH. destruct (f o); reflexivity.
Qed.
Lemma cached_dir : forall src l o, c_dir (cached src empty_cache (l ++ [o])) = Some (dir_of src (l ++ [o])).
Proof.
  intros src l. unfold cached. induction l as [|a l IH] using rev_ind; intros o.
  - unfold dir_of. cbn. destruct (o_dir o), (o_base o), (o_version o); reflexivity.
  - rewrite fold_left_app. cbn [fold_left]. specialize (IH a). set (c := fold_left _ (l ++ [a])%list empty_cache) in *. unfold configure. cbn [c_dir]. rewrite IH.
    unfold dir_of. rewrite (last_app o_dir (l ++ [a])%list o).
    destruct (o_dir o) as [d|]; [reflexivity|]. cbn [given set_cache]. destruct (last_given o_dir (l ++ [a])%list); [reflexivity|].
    f_equal. destruct l; reflexivity.
Qed.
Lemma history_app : forall src gen t h1 h2, history src gen t (h1 ++ h2) = history src gen (history src gen t h1) h2.
Proof. intros. apply fold_left_app. Qed.
Lemma calls_app : forall b h1 h2, calls_in b (h1 ++ h2) = (calls_in b h1 ++ calls_in b h2)%list.
Proof. induction h1 as [|[] h1 IH]; intros h2; cbn; rewrite ?IH; try reflexivity. destruct (Nat.eqb b0 b); reflexivity. Qed.
Lemma caches : forall src gen sources db h b, t_caches (history src gen (new_tree sources db) h) b = cached src empty_cache (calls_in b h).
Proof.
  intros src gen sources db h b. induction h as [|e h IH] using rev_ind; [reflexivity|]. rewrite history_app, calls_app. unfold cached in *. rewrite fold_left_app, <- IH.
  destruct e as [b' o t|ts|f|d x]; cbn; try reflexivity. rewrite (Nat.eqb_sym b b'). destruct (Nat.eqb_spec b' b) as [E|E]; [subst b'; reflexivity|reflexivity].
Qed.
Lemma in_generated : forall f, existsb (String.eqb f) generated_files = true <-> In f nine.
Proof.
  intros f. rewrite existsb_exists. split.
  - intros (x & Hx & E). apply String.eqb_eq in E. subst x. revert Hx. cbn. tauto.
  - intros Hf. exists f. split; [revert Hf; cbn; tauto|apply String.eqb_refl].
Qed.

(** Exactly: up to date files are kept, whatever the options say; otherwise all nine are written, from the directory that was named last or,
    if none was ever named, the one of the version asked for in the first call in that build directory. *)
Theorem C126_exact_partial : forall src gen sources db h b o now,
  let before := history src gen (new_tree sources db) h in
  let after := history src gen (new_tree sources db) (h ++ [Make b o now]) in
  (up_to_date (t_sources before) (t_files before) -> forall f, t_files after f = t_files before f) /\
  (~ up_to_date (t_sources before) (t_files before) ->
   complete (gen (t_db after (dir_of src (calls_in b (h ++ [Make b o now]))))) (t_files after) /\
   forall f, ~ In f nine -> t_files after f = t_files before f).
Proof.
  intros src gen sources db h b o now before after. unfold after. rewrite history_app. fold before. cbn [history fold_left happens]. unfold make. cbn [t_files t_db t_sources].
  unfold needs_tablegen. cbn [negb andb]. split; intros U.
  - apply pregenerated_spec in U. rewrite U. reflexivity.
  - assert (P : has_pregenerated (map Some (t_sources before)) (t_files before) = false)
      by (destruct (has_pregenerated (map Some (t_sources before)) (t_files before)) eqn:P; [exfalso; apply U; exact (proj1 (pregenerated_spec _ _) P)|reflexivity]).
    rewrite P. cbn [negb]. split.
    + assert (D : set_cache (c_dir (configure src o (t_caches before b))) "" = dir_of src (calls_in b (h ++ [Make b o now]))).
      { unfold before. rewrite caches. rewrite calls_app. cbn [calls_in]. rewrite Nat.eqb_refl. pose proof (cached_dir src (calls_in b h) o) as K. unfold cached in K.
        rewrite fold_left_app in K. cbn [fold_left] in K. fold (cached src empty_cache (calls_in b h)) in K. rewrite K. reflexivity. }
      rewrite D. intros f Hf. exists now. rewrite (proj2 (in_generated f) Hf). reflexivity.
    + intros f Hf. destruct (existsb (String.eqb f) generated_files) eqn:E; [exfalso; apply Hf, in_generated, E|reflexivity].
Qed.
(** So the version asked for is the one used when nothing is up to date and every call in the build directory asked for the same. *)
Theorem C126_same_version_partial : forall src gen sources db h b o now v,
  let calls := calls_in b (h ++ [Make b o now]) in
  (forall c, In c calls -> o_dir c = None /\ o_base c = None /\ o_version c = Some v) ->
  let before := history src gen (new_tree sources db) h in
  let after := history src gen (new_tree sources db) (h ++ [Make b o now]) in
  ~ up_to_date (t_sources before) (t_files before) -> complete (gen (t_db after (src ++ "/_ucd/ucd-" ++ v))) (t_files after).
Proof.
  intros src gen sources db h b o now v calls Hc before after U.
  destruct (proj2 (C126_exact_partial src gen sources db h b o now) U) as [K _]. fold after in K.
  replace (dir_of src (calls_in b (h ++ [Make b o now]))) with (src ++ "/_ucd/ucd-" ++ v)%string in K; [exact K|].
  fold calls. unfold dir_of. assert (N0 : last_given o_dir calls = None).
  { clear - Hc. induction calls as [|a l IH]; [reflexivity|]. cbn. rewrite IH by (intros c K; apply Hc; right; exact K). apply Hc. left. reflexivity. }
  rewrite N0. assert (Ne : exists c l, calls = (c :: l)%list).
  { destruct calls as [|c l] eqn:E; [|eauto]. unfold calls in E. rewrite calls_app in E. cbn in E. rewrite Nat.eqb_refl in E. destruct (calls_in b h); discriminate. }
  destruct Ne as (c & l & E). rewrite E in *. cbn [hd]. destruct (Hc c (or_introl eq_refl)) as (_ & -> & ->). cbn [or_else].
  clear. induction src as [|x s IH]; [reflexivity|]. cbn. f_equal. exact IH.
Qed.
(** After every history: if all nine files are there, they were generated together, from the directory named by the calls up to the [Make] in
    question, and have been reused ever since. *)
Theorem C126_uniform_partial : forall src gen sources db h,
  (forall f, In f nine -> t_files (history src gen (new_tree sources db) h) f <> None) ->
  exists h1 b o now h2, h = (h1 ++ Make b o now :: h2)%list /\
    complete (gen (t_db (history src gen (new_tree sources db) h1) (dir_of src (calls_in b (h1 ++ [Make b o now]))))) (t_files (history src gen (new_tree sources db) h)).
Proof.
  intros src gen sources db h. induction h as [|e h IH] using rev_ind; intros A; [exfalso; apply (A "ucd.h"); [cbn; tauto|reflexivity]|].
  rewrite history_app in *. cbn [history fold_left] in *. set (t := history src gen (new_tree sources db) h) in *.
  assert (Keep : (forall f, In f nine -> t_files (happens src gen t e) f = t_files t f) -> exists h1 b o now h2, (h ++ [e] = h1 ++ Make b o now :: h2)%list /\
    complete (gen (t_db (history src gen (new_tree sources db) h1) (dir_of src (calls_in b (h1 ++ [Make b o now]))))) (t_files (happens src gen t e))).
  { intros S0. destruct IH as (h1 & b & o & now & h2 & E & C); [intros f Hf; rewrite <- (S0 f Hf); exact (A f Hf)|].
    exists h1, b, o, now, (h2 ++ [e])%list. split; [rewrite E, <- app_assoc; reflexivity|]. intros f Hf. destruct (C f Hf) as (x & K). exists x. rewrite (S0 f Hf). exact K. }
  destruct e as [b o now|ts|f|d x].
  - destruct (has_pregenerated (map Some (t_sources t)) (t_files t)) eqn:P.
    + apply Keep. intros f _. cbn. unfold make, needs_tablegen. cbn [negb andb t_files]. rewrite P. reflexivity.
    + destruct (proj2 (C126_exact_partial src gen sources db h b o now)) as [C _].
      { intros U. apply pregenerated_spec in U. fold t in U. congruence. }
      exists h, b, o, now, []. split; [reflexivity|]. rewrite history_app in C. fold t in C. exact C.
  - apply Keep. reflexivity.
  - apply Keep. intros g Hg. cbn. destruct (String.eqb_spec g f) as [E|E]; [|reflexivity]. exfalso. apply (A g Hg). cbn. subst g. rewrite String.eqb_refl. reflexivity.
  - apply Keep. reflexivity.
Qed.
Print Assumptions C126_version_refuted.
Print Assumptions C126_clean_refuted.
Print Assumptions C126_exact_partial.
Print Assumptions C126_same_version_partial.
Print Assumptions C126_uniform_partial.
Example C126_demo : let t := history "/s" echo (new_tree [1%N] two_dbs) [Make 0 (ask "16.0.0") 5%N; Edit [7%N]; Make 1 (ask "17.0.0") 9%N] in
  t_files t "ucd.h" = Some ([17%N], 9%N) /\ ~ up_to_date [7%N] (t_files (history "/s" echo (new_tree [1%N] two_dbs) [Make 0 (ask "16.0.0") 5%N])).
Proof.
  split; [vm_compute; reflexivity|]. intros U. destruct (U "ucd.h" ltac:(cbn; tauto)) as (c & t & K & L). vm_compute in K. injection K as _ <-. specialize (L 7%N ltac:(cbn; tauto)). lia.
Qed.

(** C127.  "A configuration that gets past fetching the database has the published one" is false after a run that was cut off while
    unpacking: the directory is there and is taken as it is. *)
Definition holds (fs : list (string * list N)) (d : files) : Prop := forall f, d f = option_map snd (find (fun e => fst e =? f) fs).
Definition C127_statement : Prop := forall sum_ok contents published, (forall z, sum_ok z = true <-> z = published) -> snd (contents published) = true ->
  forall w ps, attempts sum_ok contents nothing_fetched w (ps ++ [true]) -> exists d, unpacked w = Some d /\ holds (fst (contents published)) d.
(** It stays false if no run is cut off while unpacking: an archive whose sum was wrong stops the run, but stays, and the next run unpacks it. *)
Definition C127_sum_statement : Prop := forall sum_ok contents published, (forall z, sum_ok z = true <-> z = published) -> (forall z, snd (contents z) = true) ->
  forall w b p, attempt sum_ok contents nothing_fetched (Fetched (Some b) None) false -> attempt sum_ok contents (Fetched (Some b) None) w p -> p = true ->
  exists d, unpacked w = Some d /\ holds (fst (contents published)) d.
Definition one_file (z : list N) : list (string * list N) * bool := ([("UnicodeData.txt", z)], true).
Definition is_good (z : list N) : bool := match z with [1%N; 2%N] => true | _ => false end.
Lemma is_good_iff : forall z, is_good z = true <-> z = [1%N; 2%N].
Proof.
  intros z. split; [|intros ->; reflexivity]. unfold is_good. destruct z as [|a [|b [|c r]]]; try discriminate; destruct a as [|[]]; try discriminate; destruct b as [|[|[]|]]; try discriminate; reflexivity.
Qed.
Lemma one_unpacking : forall z, unpacking (fst (one_file z)) [Create "UnicodeData.txt"; Put "UnicodeData.txt" z].
Proof. intros z f. unfold unpack, no_files, one_file. cbn [fold_left unpack1 fst snd find]. rewrite (String.eqb_sym "UnicodeData.txt" f). destruct (f =? "UnicodeData.txt"); reflexivity. Qed.
Theorem C127_interrupted_refuted : ~ C127_statement.
Proof.
  intros H. specialize (H is_good one_file [1%N; 2%N] is_good_iff eq_refl (Fetched (Some [1%N; 2%N]) (Some (unpack [Create "UnicodeData.txt"]))) [false]).
  destruct H as (d & E & K).
  - eapply Next_attempt; [eapply (Unpacked_download _ _ [1%N; 2%N] _ [Create "UnicodeData.txt"] [Put "UnicodeData.txt" [1%N; 2%N]] false); [reflexivity|apply one_unpacking|reflexivity|discriminate]|].
    eapply Next_attempt; [apply Skipped|apply No_attempt].
  - injection E as <-. specialize (K "UnicodeData.txt"). vm_compute in K. discriminate.
Qed.
Theorem C127_sum_refuted : ~ C127_sum_statement.
Proof.
  intros H. specialize (H is_good one_file [1%N; 2%N] is_good_iff (fun _ => eq_refl) (Fetched (Some [1%N]) (Some (unpack [Create "UnicodeData.txt"; Put "UnicodeData.txt" [1%N]]))) [1%N] true).
  destruct H as (d & E & K); [apply Download_stopped| |reflexivity|].
  - eapply (Unpacked_archive _ _ [1%N] _ _ []); [apply one_unpacking|rewrite app_nil_r; reflexivity|auto].
  - injection E as <-. specialize (K "UnicodeData.txt"). vm_compute in K. discriminate.
Qed.
(** A directory, once there, is never touched again and always accepted. *)
Theorem C127_forever_partial : forall sum_ok contents z d w ps, attempts sum_ok contents (Fetched z (Some d)) w ps ->
  w = Fetched z (Some d) /\ attempt sum_ok contents w w true.
Proof.
  intros sum_ok contents z d w ps A. remember (Fetched z (Some d)) as w0 eqn:E. induction A as [w|w w1 w2 p ps A As IH]; subst; [split; [reflexivity|apply Skipped]|].
  assert (w1 = Fetched z (Some d)) by (inversion A; subst; reflexivity). subst w1. exact (IH eq_refl).
Qed.
(** Exactly: what a configuration accepts is what the first run that began to unpack left behind: a beginning of the unpacking of the archive
    present before it or, if there was none, of a download with the right sum. *)
Theorem C127_exact_partial : forall sum_ok contents w ps d, attempts sum_ok contents nothing_fetched w ps -> unpacked w = Some d ->
  exists ps1 p ps2 z l done todo, ps = (ps1 ++ p :: ps2)%list /\ archive w = Some z /\
    (attempts sum_ok contents nothing_fetched (Fetched (Some z) None) ps1 \/
     (sum_ok z = true /\ attempts sum_ok contents nothing_fetched nothing_fetched ps1)) /\
    unpacking (fst (contents z)) l /\ l = (done ++ todo)%list /\ d = unpack done /\ (p = true -> todo = [] /\ snd (contents z) = true).
Proof.
  intros sum_ok contents w ps d A.
  assert (G : forall w0, attempts sum_ok contents w0 w ps -> unpacked w0 = None -> unpacked w = Some d ->
    exists ps1 p ps2 z l done todo, ps = (ps1 ++ p :: ps2)%list /\ archive w = Some z /\
      (attempts sum_ok contents w0 (Fetched (Some z) None) ps1 \/ (sum_ok z = true /\ attempts sum_ok contents w0 nothing_fetched ps1)) /\
      unpacking (fst (contents z)) l /\ l = (done ++ todo)%list /\ d = unpack done /\ (p = true -> todo = [] /\ snd (contents z) = true)).
  { clear A. intros w0 A. induction A as [w|w w1 w2 p ps A As IH]; intros N0 D; [congruence|].
    destruct (unpacked w1) as [d1|] eqn:U1.
    - destruct w1 as [z1 u1]. cbn in U1. subst u1. destruct (C127_forever_partial _ _ _ _ _ _ As) as [-> _]. cbn in D. injection D as ->.
      inversion A as [| |b|z l done todo p0 S1 S2 S3 S4|z l done todo p0 S2 S3 S4]; subst; cbn in N0; try discriminate.
      + exists [], p, ps, z, (done ++ todo)%list, done, todo. split; [reflexivity|]. split; [reflexivity|]. split; [right; split; [exact S1|apply No_attempt]|auto].
      + exists [], p, ps, z, (done ++ todo)%list, done, todo. split; [reflexivity|]. split; [reflexivity|]. split; [left; apply No_attempt|auto].
    - destruct (IH eq_refl D) as (ps1 & p1 & ps2 & z & l & done & todo & E & Z & B & R). exists (p :: ps1), p1, ps2, z, l, done, todo. split; [rewrite E; reflexivity|]. split; [exact Z|].
      split; [|exact R]. destruct B as [B|(S1 & B)]; [left; eapply Next_attempt; eassumption|right; split; [exact S1|eapply Next_attempt; eassumption]]. }
  intros D. exact (G nothing_fetched A eq_refl D).
Qed.
(** If the archive on the disk is the published one and the run that unpacked it got past fetching, every later configuration has the
    published database. *)
Theorem C127_good_partial : forall sum_ok contents z w w' ps, attempt sum_ok contents (Fetched (Some z) None) w true -> attempts sum_ok contents w w' ps ->
  exists d, unpacked w' = Some d /\ holds (fst (contents z)) d.
Proof.
  intros sum_ok contents z w w' ps A As. inversion A as [| |b|z0 l done todo p0 S1 S2 S3 S4|z0 l done todo p0 S2 S3 S4]; subst.
  destruct (C127_forever_partial _ _ _ _ _ _ As) as [-> _]. exists (unpack done). split; [reflexivity|]. destruct (S4 eq_refl) as [-> _]. rewrite app_nil_r in S2. exact S2.
Qed.
(** The same for a first configuration that downloads and gets past fetching. *)
Theorem C127_first_partial : forall sum_ok contents published w w' ps, (forall z, sum_ok z = true <-> z = published) ->
  attempt sum_ok contents nothing_fetched w true -> attempts sum_ok contents w w' ps -> exists d, unpacked w' = Some d /\ holds (fst (contents published)) d.
Proof.
  intros sum_ok contents published w w' ps Hs A As. inversion A as [| |b|z0 l done todo p0 S1 S2 S3 S4|z0 l done todo p0 S2 S3 S4]; subst.
  destruct (C127_forever_partial _ _ _ _ _ _ As) as [-> _]. exists (unpack done). split; [reflexivity|]. destruct (S4 eq_refl) as [-> _]. rewrite app_nil_r in S2. apply Hs in S1. subst z0. exact S2.
Qed.
Print Assumptions C127_interrupted_refuted.
Print Assumptions C127_sum_refuted.
Print Assumptions C127_forever_partial.
Print Assumptions C127_exact_partial.
Print Assumptions C127_good_partial.
Print Assumptions C127_first_partial.
Example C127_demo : attempt is_good one_file nothing_fetched (Fetched (Some [1%N; 2%N]) (Some (unpack [Create "UnicodeData.txt"; Put "UnicodeData.txt" [1%N; 2%N]]))) true.
Proof. eapply (Unpacked_download _ _ [1%N; 2%N] _ _ [] true); [reflexivity|apply one_unpacking|rewrite app_nil_r; reflexivity|auto]. Qed.
