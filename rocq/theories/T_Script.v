(** Theorems about fs_array and the script segmenter: C54, C55, C61, C69. *)
From Verif Require Import Base M_Script Spec_Script P_Script.
Require Import Lia.
Open Scope N_scope.

(** C61.  Whatever was done to an fs_array before, its storage keeps its N elements, at most N are in use, and push_back stores the
    element exactly if there is room and says so. *)
Lemma fs_inv {A} (z : A) (N : nat) (os : list (fs_op A)) : forall a, length (fs_values a) = N -> (fs_size a <= N)%nat ->
  exists a', fs_run N a os = Ok a' /\ length (fs_values a') = N /\ (fs_size a' <= N)%nat.
Proof.
  induction os as [|o os IH]; intros a L HS; cbn [fs_run]; [exists a; auto|].
  assert (Q : exists a', fs_step N a o = Ok a' /\ length (fs_values a') = N /\ (fs_size a' <= N)%nat).
  { destruct o as [v|n|]; cbn [fs_step].
    - unfold fs_push. destruct (Nat.eqb_spec (fs_size a) N); cbn [bindR]; [exists a; auto|].
      destruct (set_nth_ok (fs_values a) (fs_size a) v ltac:(lia)) as (l & E & Ll & _). rewrite E. cbn [bindR].
      eexists. split; [reflexivity|]. cbn. split; lia.
    - unfold fs_resize. eexists. split; [reflexivity|]. destruct (Nat.ltb_spec n N); cbn; auto. split; auto. lia.
    - eexists. split; [reflexivity|]. cbn. split; auto. lia. }
  destruct Q as (a' & E & L' & S'). rewrite E. cbn [bindR]. now apply IH.
Qed.
Theorem C61_capacity : forall (A : Type) (z : A) (N : nat) (history : list (fs_op A)),
  exists a, fs_run N (fs_empty z N) history = Ok a /\
    length (fs_values a) = N /\ length (fs_content a) = fs_size a /\ (fs_size a <= N)%nat /\
    forall v, exists a', fs_push N a v = Ok ((fs_size a <? N)%nat, a') /\
      fs_content a' = (if (fs_size a <? N)%nat then fs_content a ++ [v] else fs_content a).
Proof.
  intros A z N os. destruct (fs_inv z N os (fs_empty z N)) as (a & E & L & HS). { cbn. apply repeat_length. } { cbn. lia. }
  exists a. split; [exact E|]. split; [exact L|]. split; [unfold fs_content; rewrite firstn_length; lia|]. split; [exact HS|].
  intros v. unfold fs_push. destruct (Nat.eqb_spec (fs_size a) N) as [Eq|Ne].
  - exists a. destruct (Nat.ltb_spec (fs_size a) N); [lia|auto].
  - destruct (set_nth_ok (fs_values a) (fs_size a) v ltac:(lia)) as (l & El & Ll & F). rewrite El. cbn [bindR].
    eexists. destruct (Nat.ltb_spec (fs_size a) N); [|lia]. split; [reflexivity|]. unfold fs_content. cbn [fs_values fs_size]. rewrite F.
    rewrite firstn_app, firstn_length, firstn_firstn. replace (Nat.min (S (fs_size a)) (fs_size a)) with (fs_size a) by lia.
    replace (S (fs_size a) - Nat.min (fs_size a) (length (fs_values a)))%nat with 1%nat by lia. reflexivity.
Qed.
Print Assumptions C61_capacity.
Example C61_demo : exists a, fs_run 2 (fs_empty 0 2) [OpPush 7; OpPush 8; OpPush 9; OpClear; OpPush 5] = Ok a /\ fs_content a = [5].
Proof. eexists. split; vm_compute; reflexivity. Qed.

(** C69.  resize(n) makes the array n elements long, for every n up to its capacity. *)
Definition C69_statement : Prop := forall (A : Type) (z : A) N history a n,
  fs_run N (fs_empty z N) history = Ok a -> (n <= N)%nat -> fs_size (fs_resize N a n) = n.
Theorem C69_resize_refuted : ~ C69_statement.
Proof. intros S. specialize (S N 0 2%nat [OpPush 7] _ 2%nat eq_refl ltac:(lia)). vm_compute in S. discriminate. Qed.
Print Assumptions C69_resize_refuted.
(** C69 (what holds): every n below the capacity; the kept elements are unchanged; shrinking always works as expected. *)
Theorem C69_resize_partial : forall (A : Type) (z : A) N history a n,
  fs_run N (fs_empty z N) history = Ok a ->
  ((n < N)%nat -> fs_size (fs_resize N a n) = n) /\
  ((n <= fs_size a)%nat -> fs_size (fs_resize N a n) = n /\ fs_content (fs_resize N a n) = firstn n (fs_content a)).
Proof.
  intros A z N os a n E. destruct (fs_inv z N os (fs_empty z N)) as (a' & E' & L & HS). { cbn. apply repeat_length. } { cbn. lia. }
  rewrite E in E'. injection E' as <-. unfold fs_resize. split; intros H.
  - destruct (Nat.ltb_spec n N); [reflexivity|lia].
  - destruct (Nat.ltb_spec n N).
    + split; [reflexivity|]. unfold fs_content. cbn. rewrite firstn_firstn. f_equal. lia.
    + assert (n = fs_size a) by lia. split; auto. unfold fs_content. rewrite firstn_firstn. f_equal. lia.
Qed.
Print Assumptions C69_resize_partial.

(** C54.  For every text and every table, consume() never does anything undefined, reports strictly increasing offsets that end at the
    size of the text, and then nothing more. *)
Theorem C54_partition : forall (tb : script_tables) (t : list N) (calls : nat), (length t < calls)%nat ->
  exists rs, script_runs tb calls (sseg_new t) = Ok rs /\ ends_at (length t) 0 (map snd rs).
Proof.
  intros tb t n H. destruct (runs_total tb n (sseg_new t)) as (rs & E & F); [exact H|apply starts_new|]. exists rs. split; [exact E|exact F].
Qed.
Print Assumptions C54_partition.

(** the exact Script and Script_Extensions values of a few code points (script numbers: 10 Latin, 11 Arabic, 12 Hiragana, 13 Katakana,
    14 Han, 15 Bopomofo, 16 Hangul, 17 Yi, 18 Nko, 19 Hanifi_Rohingya, 20 Syriac, 21 Thaana, 22 Yezidi) *)
Definition sdemo : script_tables := mkScripts
  (fun c => if c =? 0x61 then 10 else if c =? 0x62 then 10 else if c =? 0x627 then 11 else if c =? 0x3042 then 12 else if c =? 0x30A2 then 13 else
            if c =? 0x4E00 then 14 else sc_common)
  (fun c => if c =? 0x3001 then Some [15; 16; 14; 12; 13; 17] else if c =? 0x60C then Some [11; 18; 19; 20; 21; 22]
            else if c =? 0x30FC then Some [12; 13] else None).
Lemma sdemo_data : script_data sdemo.
Proof.
  intros c l. cbn. destruct (c =? 0x3001); [|destruct (c =? 0x60C); [|destruct (c =? 0x30FC); [|discriminate]]];
    intros [= <-]; (split; [cbn; lia|]); intros s H; cbn in H; unfold real, sc_invalid, sc_common, sc_inherited;
    repeat (destruct H as [<-|H]; [lia|]); destruct H.
Qed.
Example C54_demo : script_runs sdemo 8 (sseg_new [0x20; 0x3042; 0x30FC; 0x3001; 0x61; 0x62; 0x627]) = Ok [(12, 4%nat); (10, 6%nat); (11, 7%nat)].
Proof. vm_compute. reflexivity. Qed.

(** C55.  The script of a run is shared by all code points of the run that have one, and a run ends only if no script fits the next
    code point too. *)
Definition C55_statement : Prop := forall tb t calls rs, script_data tb -> script_runs tb calls (sseg_new t) = Ok rs ->
  forall a b s, is_run rs a b s -> shared tb t a b s /\ ((b < length t)%nat -> ~ exists x, shared tb t a (S b) x).
(** C55 (refuted).  IDEOGRAPHIC COMMA, ARABIC COMMA and 'a' become one Latin run: Common, which each comma also lists, survives the
    intersection and is then replaced. *)
Theorem C55_sound_refuted : ~ C55_statement.
Proof.
  intros S.
  assert (E : script_runs sdemo 4 (sseg_new [0x3001; 0x60C; 0x61]) = Ok [(10, 3%nat)]) by (vm_compute; reflexivity).
  destruct (S sdemo _ _ _ sdemo_data E 0%nat 3%nat 10 (run_here _ _ _ _)) as [H _].
  assert (Hr : has_real sdemo 0x3001). { exists 14. split; [unfold real, sc_invalid, sc_common, sc_inherited; lia|]. right. eexists. split; [reflexivity|]. cbn. tauto. }
  destruct (H 0%nat 0x3001 ltac:(lia) eq_refl Hr) as [H1|(l & E1 & H1)].
  - vm_compute in H1. discriminate.
  - injection E1 as <-. cbn in H1. repeat (destruct H1 as [H1|H1]; [discriminate|]). destruct H1.
Qed.
Print Assumptions C55_sound_refuted.

Lemma run_good tb t calls rs a b s : script_data tb -> script_runs tb calls (sseg_new t) = Ok rs -> is_run rs a b s -> good tb t a b s.
Proof. intros D E R. exact (runs_good tb D calls (sseg_new t) true [] rs E eq_refl eq_refl eq_refl a b s R). Qed.

(** C55 (maximality holds always): a run ends before the end of the text only where no script at all is shared by the code points of
    the run and the next one. *)
Theorem C55_maximal_partial : forall tb t calls rs, script_data tb -> script_runs tb calls (sseg_new t) = Ok rs ->
  forall a b s, is_run rs a b s -> (b < length t)%nat -> ~ exists x, shared tb t a (S b) x.
Proof.
  intros tb t calls rs D E a b s R Hb (x & Hx). destruct (run_good _ _ _ _ _ _ _ D E R) as ((Hab & _) & cur & HJ & Hs & Hm).
  destruct (Hm Hb) as (c & Hc & Hno). apply Hno. exists x. intros d Hd Rd. apply in_app_or in Hd as [Hd|[<-|[]]].
  - apply slice_In in Hd as (i & Hi & Hn). apply (Hx i d ltac:(lia) Hn Rd).
  - apply (Hx b c ltac:(lia) Hc Rd).
Qed.
Print Assumptions C55_maximal_partial.

(** C55 (soundness where possible): whenever the code points of a run share some real script, the reported script is a real one that they
    all share.  If none of them has a real script, Common is reported. *)
Theorem C55_sound_partial : forall tb t calls rs, script_data tb -> script_runs tb calls (sseg_new t) = Ok rs ->
  forall a b s, is_run rs a b s ->
    ((exists i c, (a <= i < b)%nat /\ nth_error t i = Some c /\ has_real tb c) ->
     (exists x, real x /\ shared tb t a b x) -> real s /\ shared tb t a b s) /\
    ((forall i c, (a <= i < b)%nat -> nth_error t i = Some c -> ~ has_real tb c) -> s = sc_common).
Proof.
  intros tb t calls rs D E a b s R. destruct (run_good _ _ _ _ _ _ _ D E R) as (Hab & cur & HJ & Hs & Hm).
  destruct cur as [|h tl]; [discriminate|]. injection Hs as ->. split.
  - intros (i & c & Hi & Hn & Rc) (x & Rx & Hx). rewrite shared_common in *.
    assert (Hc : In c (slice t a b)) by (apply slice_In; eauto).
    destruct HJ as [Nr _|p1 p2 Ep Ex Hcur Ho Hd]; [exfalso; now apply (Nr c)|]. rewrite Ep, common_app in Hx.
    assert (N1 : no_real tb p1). { destruct Hd as [N1|[N1 _]]; auto. exfalso. now apply (N1 x Rx). }
    assert (Hin : In x (s :: tl)) by now apply Hcur.
    destruct (ordered_head _ _ Ho Hin Rx) as (h' & t' & Eh & Rh). injection Eh as <- <-. split; auto. rewrite Ep, common_app. split.
    + now apply common_no. + apply Hcur. now left.
  - intros Hn. destruct HJ as [_ Ec|p1 p2 Ep (c & Hc & Rc) _ _ _]; [congruence|]. exfalso.
    assert (Hi : In c (slice t a b)) by (rewrite Ep; apply in_or_app; auto). apply slice_In in Hi as (i & Hi & Hni). now apply (Hn i c Hi Hni).
Qed.
Print Assumptions C55_sound_partial.

(** C55 (full, for texts in which no code point lists a real script beside Common, Inherited or Invalid). *)
Theorem C55_plain_partial : forall tb t calls rs, script_data tb -> script_runs tb calls (sseg_new t) = Ok rs ->
  (forall c s, In c t -> has_real tb c -> used_with tb c s -> real s) ->
  forall a b s, is_run rs a b s -> shared tb t a b s /\ ((b < length t)%nat -> ~ exists x, shared tb t a (S b) x).
Proof.
  intros tb t calls rs D E PL a b s R. split; [|now apply (C55_maximal_partial tb t calls rs D E a b s)].
  destruct (run_good _ _ _ _ _ _ _ D E R) as (Hab & cur & HJ & Hs & Hm). destruct cur as [|h tl]; [discriminate|]. injection Hs as ->.
  rewrite shared_common. destruct HJ as [Nr _|p1 p2 Ep Ex Hcur Ho Hd]; [now apply common_no|]. rewrite Ep, common_app. split; [|apply Hcur; now left].
  destruct Hd as [N1|[_ (c & h & Hc & Rc & Uc & Nh)]]; [now apply common_no|]. exfalso. apply Nh. apply (PL c h); auto.
  assert (In c (slice t a b)) as Hi by (rewrite Ep; apply in_or_app; auto). apply slice_In in Hi as (i & _ & Hn). now apply nth_error_In in Hn.
Qed.
Print Assumptions C55_plain_partial.

(** C55 (exactly when a run is sound): the reported script is shared by the run's code points if and only if they share any script of
    its kind, a real one where a real one is reported. *)
Theorem C55_exact_partial : forall tb t calls rs, script_data tb -> script_runs tb calls (sseg_new t) = Ok rs ->
  forall a b s, is_run rs a b s -> (shared tb t a b s <-> exists x, shared tb t a b x /\ (real s -> real x)).
Proof.
  intros tb t calls rs D E a b s R. split; [intros H; exists s; auto|]. intros (x & Hx & Hk).
  assert (Rd : forall y, real y \/ ~ real y).
  { intros y. unfold real. destruct (N.eq_dec y sc_invalid), (N.eq_dec y sc_common), (N.eq_dec y sc_inherited); tauto. }
  destruct (Rd x) as [Rx|Nx].
  - intros i c Hi Hn Rc. apply (proj1 (C55_sound_partial tb t calls rs D E a b s R)) with (i := i); eauto.
  - assert (Ns : ~ real s) by tauto. destruct (run_good _ _ _ _ _ _ _ D E R) as (_ & cur & HJ & Hs & _).
    destruct cur as [|h tl]; [discriminate|]. injection Hs as ->. rewrite shared_common in *.
    destruct HJ as [Nr _|p1 p2 Ep (c & Hc & Rc) Hcur _ _]; [now apply common_no|].
    assert (U : forall y, ~ real y -> used_with tb c y -> y = script_of tb c).
    { intros y Ny [->|(l & El & Hl)]; [reflexivity|]. destruct Ny. apply (proj2 (D c l El)), Hl. }
    assert (s = x); [|subst; exact Hx]. rewrite (U s Ns), (U x Nx); [reflexivity| |].
    + apply Hx; [rewrite Ep; apply in_or_app; auto|exact Rc].
    + apply (proj1 (Hcur s) (or_introl eq_refl)); assumption.
Qed.
Print Assumptions C55_exact_partial.
Example C55_demo : has_real sdemo 0x30FC /\ used_with sdemo 0x30FC 12 /\ used_with sdemo 0x3001 12 /\ ~ has_real sdemo 0x20 /\
  is_run [(12, 4%nat); (10, 6%nat); (11, 7%nat)] 4 6 10.
Proof.
  assert (U : used_with sdemo 0x30FC 12) by (right; eexists; split; [reflexivity|cbn; auto]).
  split; [exists 12; split; [unfold real, sc_invalid, sc_common, sc_inherited; lia|exact U]|]. split; [exact U|]. split; [right; eexists; split; [reflexivity|cbn; tauto]|].
  split; [|apply run_later, run_here]. intros (s & (_ & H & _) & [->|(l & Hl & _)]); [apply H; reflexivity|discriminate].
Qed.
Example C55_plain_demo : forall c s, In c [0x3042; 0x20; 0x61; 0x627] -> has_real sdemo c -> used_with sdemo c s -> real s.
Proof.
  intros c s Hc (x & (_ & Rx & _) & Ux) Us.
  destruct Hc as [<-|[<-|[<-|[<-|[]]]]]; destruct Us as [->|(l & Hl & _)]; try discriminate Hl;
    try (split; [|split]; intros H; vm_compute in H; discriminate H).
  exfalso. destruct Ux as [->|(l & Hl & _)]; [apply Rx; reflexivity|discriminate].
Qed.
