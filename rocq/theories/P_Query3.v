(** Proofs about the command line tools: runs, uc-inspect. *)
From Coq Require Import Ascii String.
From Verif Require Import Base Spec_Utf M_Utf8 M_Convert M_Ucd M_Grapheme M_Utf8Grapheme M_Script M_Emoji M_Run M_TableGen M_Query Spec_Query
  Spec_Grapheme Spec_Script Spec_Run P_Utf8 P_Convert P_Grapheme P_Utf8Grapheme P_Query P_Query2.
Open Scope N_scope.

(** ** runs *)
Lemma scalars_sub t a k : scalars t -> scalars (firstn k (skipn a t)).
Proof.
  intros H. rewrite <- (firstn_skipn a t) in H. apply Forall_app in H. destruct H as [_ H].
  rewrite <- (firstn_skipn k (skipn a t)) in H. apply Forall_app in H. tauto.
Qed.
Lemma utf8_sub t a k x : In x (utf8_text (firstn k (skipn a t))) -> In x (utf8_text t).
Proof.
  intros H. rewrite <- (firstn_skipn a t), utf8_text_app. apply in_app_iff. right.
  rewrite <- (firstn_skipn k (skipn a t)), utf8_text_app. apply in_app_iff. now left.
Qed.
Definition run_props (ps : list rseg_prop) : Prop := exists s m, ps = [PScript s; PEmoji m].
Definition run_ok (n : nat) (r : nat * nat * list rseg_prop) : Prop := (snd (fst r) <= n)%nat /\ run_props (snd r).
Lemma contiguous_le {P} n (runs : list (nat * nat * list P)) : forall from, contiguous n from runs ->
  (from <= n)%nat /\ forall a b ps, In (a, b, ps) runs -> (b <= n)%nat.
Proof.
  induction runs as [|[[a b] ps] runs IH]; intros from; cbn [contiguous].
  - intros ->. split; [lia|intros ? ? ? []].
  - intros (-> & L & C). apply IH in C. destruct C as [C1 C2]. split; [lia|]. intros a' b' ps' [[= <- <- <-]|I]; [exact C1|eauto].
Qed.
Lemma segment_prop {A} (f : A -> rseg_prop) (g : A -> nat) l : forall from a b p,
  segment_of from (map (fun r => (g r, f r)) l) a b p -> exists r, p = f r.
Proof.
  induction l as [|r l IH]; intros from a b p; cbn [map segment_of]; [tauto|]. intros [(_ & _ & ->)|H]; [eauto|eapply IH; exact H].
Qed.
Lemma refinement_props n (scripts : list (N * nat)) (emojis : list (nat * bool)) runs :
  common_refinement n [map (fun r => (snd r, PScript (fst r))) scripts; map (fun r => (fst r, PEmoji (snd r))) emojis] runs ->
  Forall (run_ok n) runs.
Proof.
  intros (C & _ & P). apply Forall_forall. intros [[a b] ps] I. split; cbn [fst snd].
  - apply contiguous_le in C. destruct C as [_ C]. eauto.
  - specialize (P a b ps I). inversion P as [|x p xs ps' (a1 & b1 & S1 & _) P']; subst.
    inversion P' as [|x2 p2 xs2 ps2 (a2 & b2 & S2 & _) P2]; subst. inversion P2; subst.
    apply segment_prop in S1, S2. destruct S1 as (r1 & ->), S2 as (r2 & ->). exists (fst r1), (snd r2). reflexivity.
Qed.
Definition mode_text (m : bool) : str := if m then lit "Emoji" else lit "Text".
Definition tty_pre (tty : bool) : str := if tty then 27 :: lit "[32m" else [].
Definition tty_post (tty : bool) : str := if tty then 27 :: lit "[m" else [].
Definition line_of (e sc tty : bool) (sname : N -> str) (t : list N) (r : nat * nat * list rseg_prop) (l : str) : Prop :=
  let '(a, b, ps) := r in exists s m, ps = [PScript s; PEmoji m] /\
    run_shown e sc (tty_pre tty) (tty_post tty) (utf8_text (firstn (b - a) (skipn a t))) a b (sname s) (mode_text m) l.
Lemma run_lines_spec tolerant sc e tty sname t rs : scalars t -> N.of_nat (length t) < 2 ^ 64 ->
  (e = true -> isprint_defined tolerant sc (utf8_text t)) -> Forall (run_ok (length t)) rs ->
  (forall a b ps, In (a, b, ps) rs -> (a <= b)%nat) ->
  exists lines, run_lines tolerant sc e tty sname t rs = Ok (concat lines) /\ Forall2 (line_of e sc tty sname t) rs lines.
Proof.
  intros Hs Hn D H. induction H as [|[[a b] ps] rs (Hb & s & m & Ep) H IH]; intros L; cbn [run_lines].
  - exists []. split; [reflexivity|constructor].
  - cbn [fst snd] in Hb, Ep. subst ps. destruct IH as (lines & E & F); [intros; eapply L; right; eassumption|].
    assert (Lab : (a <= b)%nat) by (eapply L; left; reflexivity).
    unfold run_line. rewrite shown_spec; [|now apply scalars_sub|intros Et; eapply defined_incl; [|exact (D Et)]; intros x; apply utf8_sub].
    cbn [bindR]. rewrite E. cbn [bindR].
    eexists (_ :: lines). split; [cbn [concat]; reflexivity|]. constructor; [|exact F].
    exists s, m. split; [reflexivity|]. exists (out_dec a), (out_dec (b - 1)), (out_dec (b - a)).
    split; [apply out_dec_text; lia|]. split; [apply out_dec_text; lia|]. split; [apply out_dec_text; lia|].
    unfold tty_pre, tty_post, mode_text, nl. cbn [nth_error prop_text]. destruct tty; destruct m; reflexivity.
Qed.
Lemma contiguous_lt {P} n (runs : list (nat * nat * list P)) : forall from, contiguous n from runs -> forall a b ps, In (a, b, ps) runs -> (a < b)%nat.
Proof.
  induction runs as [|[[a b] ps] runs IH]; intros from; cbn [contiguous]; [intros _ ? ? ? []|].
  intros (-> & L & C) a' b' ps' [[= <- <- <-]|I]; [exact L|eapply IH; eassumption].
Qed.
Lemma contiguous_text {P} (t : list N) (runs : list (nat * nat * list P)) : forall from, contiguous (length t) from runs ->
  concat (map (fun r => firstn (snd (fst r) - fst (fst r)) (skipn (fst (fst r)) t)) runs) = skipn from t.
Proof.
  induction runs as [|[[a b] ps] runs IH]; intros from; cbn [contiguous map concat fst snd].
  - intros ->. now rewrite skipn_all.
  - intros (-> & L & C). rewrite (IH _ C). rewrite <- (firstn_skipn (b - from) (skipn from t)) at 2. rewrite skipn_skipn.
    replace (from + (b - from))%nat with b by lia. reflexivity.
Qed.

(** ** uc-inspect runs *)
Definition esc_marks : str := lit "[32m".
Lemma firstn_adj {A} (x y : A) (t : list A) a k : forall l r, firstn k (skipn a t) = l ++ x :: y :: r -> exists l' r', t = l' ++ x :: y :: r'.
Proof.
  intros l r E. exists (firstn a t ++ l), (r ++ skipn k (skipn a t)).
  rewrite <- (firstn_skipn a t) at 1. rewrite <- (firstn_skipn k (skipn a t)) at 1. rewrite E. now rewrite <- !app_assoc.
Qed.

(** ** uc-inspect escape *)
Definition upper (d : N) : N := nth (N.to_nat d) (lit "0123456789ABCDEF") 0.
Lemma hexu_upper d : d < 16 -> hexu d = upper d.
Proof. intros H. apply N.eqb_eq. revert d H. apply (sweep (fun d => hexu d =? upper d) 16). vm_compute. reflexivity. Qed.
Lemma escape_byte_spec tolerant sc b : byte b -> tolerant = true \/ sc = false \/ b < 128 -> escape_byte tolerant sc b = Ok (inspect_escape b).
Proof.
  intros Hb D. unfold escape_byte, inspect_escape.
  destruct (b =? 92); [reflexivity|]. destruct (b =? 27); [reflexivity|]. destruct (b =? 9); [reflexivity|]. destruct (b =? 13); [reflexivity|].
  destruct (b =? 10); [reflexivity|]. destruct (b =? 34); [reflexivity|]. rewrite (isprint_ok _ _ _ Hb D). cbn [bindR].
  destruct ((32 <=? b) && (b <=? 126)); [reflexivity|]. cbn [map]. unfold byte in Hb. rewrite !hexu_upper by (try apply N.mod_lt; try apply N.div_lt_upper_bound; lia). reflexivity.
Qed.
Lemma escape_str_spec tolerant sc text : Forall byte text -> isprint_defined tolerant sc text -> escape_str tolerant sc text = Ok (flat_map inspect_escape text).
Proof.
  intros H D. induction H as [|b text Hb H IH]; [reflexivity|]. cbn [escape_str].
  assert (DB : tolerant = true \/ sc = false \/ b < 128) by (destruct D as [?|[?|D]]; [auto|auto|right; right; now inversion D]).
  assert (DT : isprint_defined tolerant sc text) by (destruct D as [?|[?|D]]; [left|right; left|right; right]; auto; now inversion D).
  rewrite (escape_byte_spec _ _ _ Hb DB). cbn [bindR]. rewrite (IH DT). reflexivity.
Qed.
(** the escapes are a prefix code *)
Fixpoint is_prefix (a b : str) : bool := match a, b with [], _ => true | x :: a', y :: b' => (x =? y) && is_prefix a' b' | _, _ => false end.
Lemma prefix_or (a b x y : str) : a ++ x = b ++ y -> is_prefix a b = true \/ is_prefix b a = true.
Proof.
  revert b. induction a as [|p a IH]; intros b E; [now left|]. destruct b as [|q b]; [now right|]. cbn [app] in E. injection E as -> E.
  cbn. rewrite N.eqb_refl. cbn [andb]. now apply IH.
Qed.
Lemma inspect_prefix_free a b : byte a -> byte b -> is_prefix (inspect_escape a) (inspect_escape b) = true -> a = b.
Proof.
  unfold byte. intros Ha Hb. assert (A : forall a, a < 256 -> (fun a => forallb (fun b => implb (is_prefix (inspect_escape a) (inspect_escape b)) (a =? b)) (below 256)) a = true) by (apply sweep256; vm_compute; reflexivity).
  specialize (A a Ha). cbv beta in A. rewrite forallb_forall in A. specialize (A b (below_in 256 b Hb)). intros P. rewrite P in A. now apply N.eqb_eq.
Qed.
Lemma inspect_escape_ne b : byte b -> inspect_escape b <> [].
Proof.
  unfold byte. intros Hb E. assert (A : forall a, a < 256 -> (fun a => match inspect_escape a with [] => false | _ => true end) a = true) by (apply sweep256; vm_compute; reflexivity).
  specialize (A b Hb). cbv beta in A. rewrite E in A. discriminate.
Qed.
Lemma inspect_inj t1 : forall t2, Forall byte t1 -> Forall byte t2 -> flat_map inspect_escape t1 = flat_map inspect_escape t2 -> t1 = t2.
Proof.
  induction t1 as [|a t1 IH]; intros [|b t2] H1 H2 E; cbn [flat_map] in E.
  - reflexivity.
  - symmetry in E. apply app_eq_nil in E. destruct E as [E _]. inversion H2; subst. now apply inspect_escape_ne in E.
  - apply app_eq_nil in E. destruct E as [E _]. inversion H1; subst. now apply inspect_escape_ne in E.
  - inversion H1; inversion H2; subst. assert (a = b) as ->.
    { destruct (prefix_or _ _ _ _ E) as [P|P]; apply inspect_prefix_free in P; auto. }
    f_equal. apply IH; auto. now apply app_inv_head in E.
Qed.
Lemma inspect_print t : Forall byte t -> Forall printable_ascii (flat_map inspect_escape t).
Proof.
  assert (A : forall a, a < 256 -> (fun a => forallb (fun c => (32 <=? c) && (c <=? 126)) (inspect_escape a)) a = true) by (apply sweep256; vm_compute; reflexivity).
  induction 1 as [|b t Hb H IH]; [constructor|]. cbn [flat_map]. apply Forall_app. split; [|exact IH].
  specialize (A b Hb). cbv beta in A. apply Forall_forall. intros c I. rewrite forallb_forall in A. specialize (A c I). unfold printable_ascii. lia.
Qed.

(** ** uc-inspect codepoints *)
Fixpoint ins_res (u : ucd) (tolerant sc : bool) (rs : list cres) (last total : nat) (lastwc : N) (g : gstate) : Res (list (nat * N * bool * str)) :=
  match rs with
  | [] => Ok []
  | Success wc :: r =>
      let total := S total in
      let '(brk, g') := if lastwc =? 0 then (true, process_init u wc) else process_breakable u wc g in
      do s <- escape_str tolerant sc (to_utf8 [wc]);
      do rest <- ins_res u tolerant sc r total total wc g';
      Ok ((last, wc, brk, s) :: rest)
  | Invalid :: r => ins_res u tolerant sc r (S total) (S total) lastwc g
  | Incomplete :: r => ins_res u tolerant sc r last (S total) lastwc g
  end.
Lemma inspect_loop_res u tolerant sc bytes : forall last total d lastwc g,
  inspect_loop u tolerant sc bytes last total d lastwc g = ins_res u tolerant sc (snd (from_utf8_run d bytes)) last total lastwc g.
Proof.
  induction bytes as [|b bytes IH]; intros last total d lastwc g; [reflexivity|]. cbn [inspect_loop from_utf8_run].
  destruct (from_utf8 d b) as [d' [| |wc]]; destruct (from_utf8_run d' bytes) as [st rs] eqn:E; cbn [snd ins_res]; try (rewrite IH, E; reflexivity).
  destruct (if lastwc =? 0 then _ else _) as [brk g']. destruct (escape_str tolerant sc (to_utf8 [wc])); cbn [bindR]; try reflexivity. rewrite IH, E. reflexivity.
Qed.
Lemma ins_incomplete u tolerant sc k r : forall last total lastwc g,
  ins_res u tolerant sc (repeat Incomplete k ++ r) last total lastwc g = ins_res u tolerant sc r last (total + k) lastwc g.
Proof.
  induction k as [|k IH]; intros last total lastwc g; cbn [repeat app ins_res]; [now rewrite Nat.add_0_r|]. rewrite IH. f_equal. lia.
Qed.
(** the breakable marks *)
Fixpoint marks (u : ucd) (lastwc : N) (g : gstate) (t : list N) : list bool :=
  match t with
  | [] => []
  | c :: r => let '(brk, g') := if lastwc =? 0 then (true, process_init u c) else process_breakable u c g in brk :: marks u c g' r
  end.
Fixpoint zip4 (offs : list (nat * N)) (ms : list bool) (f : N -> str) : list (nat * N * bool * str) :=
  match offs, ms with (k, c) :: o, m :: s => (k, c, m, f c) :: zip4 o s f | _, _ => [] end.
Lemma ins_text u tolerant sc t : scalars t -> isprint_defined tolerant sc (utf8_text t) -> forall k lastwc g,
  ins_res u tolerant sc (flat_map char_results t) k k lastwc g =
  Ok (zip4 (offsets_from k t) (marks u lastwc g t) (fun c => flat_map inspect_escape (utf8 c))).
Proof.
  induction 1 as [|c t Hc H IH]; intros D k lastwc g; [reflexivity|]. cbn [flat_map offsets_from marks].
  unfold char_results at 1. rewrite <- app_assoc, ins_incomplete. cbn [app ins_res].
  assert (LU : (1 <= length (utf8 c))%nat) by (pose proof (utf8_nonempty c); destruct (utf8 c); [congruence|cbn; lia]).
  replace (S (k + (length (utf8 c) - 1))) with (k + length (utf8 c))%nat by lia.
  destruct (if lastwc =? 0 then _ else _) as [brk g'].
  cbn [utf8_text flat_map] in D.
  assert (EU : to_utf8 [c] = utf8 c) by (rewrite to_utf8_spec by (constructor; [exact Hc|constructor]); cbn; apply app_nil_r).
  assert (BU : Forall byte (utf8 c)).
  { pose proof (utf8_text_bytes [c] (Forall_cons _ Hc (Forall_nil _))) as B. cbn in B. now rewrite app_nil_r in B. }
  rewrite EU, escape_str_spec; [|exact BU|eapply defined_incl; [|exact D]; intros; apply in_app_iff; auto]. cbn [bindR].
  rewrite IH by (eapply defined_incl; [|exact D]; intros; apply in_app_iff; auto). reflexivity.
Qed.
Lemma inspect_text u tolerant sc t : scalars t -> isprint_defined tolerant sc (utf8_text t) ->
  inspect_codepoints u tolerant sc (utf8_text t) =
  Ok (zip4 (offsets_from 0 t) (marks u 0 (gstate0 u) t) (fun c => flat_map inspect_escape (utf8 c))).
Proof.
  intros H D. unfold inspect_codepoints. rewrite inspect_loop_res. destruct (from_utf8_run_text dinit t eq_refl H) as (st' & E & _). rewrite E. cbn [snd].
  now apply ins_text.
Qed.
Lemma marks_length u t : forall lastwc g, length (marks u lastwc g t) = length t.
Proof. induction t as [|c t IH]; intros; cbn [marks]; [reflexivity|]. destruct (if lastwc =? 0 then _ else _). cbn. now rewrite IH. Qed.
Lemma offsets_length t : forall k, length (offsets_from k t) = length t.
Proof. induction t as [|c t IH]; intros; cbn; [reflexivity|]. now rewrite IH. Qed.
Lemma zip4_spec offs : forall ms f, length offs = length ms ->
  map (fun r => fst (fst r)) (zip4 offs ms f) = offs /\ map (fun r => snd (fst r)) (zip4 offs ms f) = ms /\ map snd (zip4 offs ms f) = map (fun o => f (snd o)) offs.
Proof.
  induction offs as [|[k c] offs IH]; intros [|m ms] f L; cbn in L; try discriminate; [now auto|]. cbn [zip4 map fst snd]. destruct (IH ms f) as (A & B & C); [lia|].
  rewrite A, B, C. auto.
Qed.
Lemma offsets_cps t : forall k, map snd (offsets_from k t) = t.
Proof. induction t as [|c t IH]; intros k; cbn; [reflexivity|]. now rewrite IH. Qed.
(** without NUL the marks are those of the stateful API *)
Lemma marks_breaks u t : ~ In 0 t -> forall c g, c <> 0 -> marks u c g t = breaks_from u g t.
Proof.
  induction t as [|x t IH]; intros N0 c g Hc; [reflexivity|]. cbn [marks breaks_from]. destruct (N.eqb_spec c 0); [congruence|].
  destruct (process_breakable u x g) as [brk g']. f_equal. cbn [In] in N0. apply IH; [tauto|]. intros ->. tauto.
Qed.
Lemma marks_text u c t : ~ In 0 (c :: t) -> marks u 0 (gstate0 u) (c :: t) = true :: stateful_breaks u (c :: t).
Proof.
  intros N0. cbn [marks stateful_breaks]. change (0 =? 0) with true. cbn iota beta. f_equal. cbn [In] in N0. apply marks_breaks; [tauto|]. intros ->. tauto.
Qed.
(** a NUL starts over *)
Lemma marks_app u t1 t2 : forall lastwc g, exists g', marks u lastwc g (t1 ++ t2) = marks u lastwc g t1 ++ marks u (last t1 lastwc) g' t2.
Proof.
  induction t1 as [|c t1 IH]; intros lastwc g; [now exists g|]. cbn [app marks]. destruct (if lastwc =? 0 then _ else _) as [brk g1].
  destruct (IH c g1) as (g' & E). exists g'. rewrite E. cbn [app]. f_equal. f_equal. f_equal. destruct t1; [reflexivity|]. cbn [last].
  clear. revert n. induction t1 as [|y t1 IH]; intros n; [reflexivity|]. apply IH.
Qed.
Lemma marks_nul u t : forall g g', marks u 0 g t = marks u 0 g' t.
Proof. intros g g'. destruct t as [|c t]; reflexivity. Qed.

(** ** uc-inspect scripts *)
Lemma index_from_fst k t : map fst (index_from k t) = seq k (length t).
Proof. revert k. induction t as [|c t IH]; intros k; cbn; [reflexivity|]. now rewrite IH. Qed.
Lemma index_from_nth k t j c : In (j, c) (index_from k t) -> exists i, j = (k + i)%nat /\ nth_error t i = Some c.
Proof.
  revert k. induction t as [|x t IH]; intros k; cbn [index_from In]; [tauto|]. intros [[= <- <-]|I].
  - exists O. split; [lia|reflexivity].
  - apply IH in I. destruct I as (i & -> & E). exists (S i). split; [lia|exact E].
Qed.
Lemma nth_firstn {A} (t : list A) : forall k i x, nth_error (firstn k t) i = Some x -> nth_error t i = Some x.
Proof. induction t as [|y t IH]; intros [|k] [|i] x; cbn; try discriminate; auto. apply IH. Qed.
Lemma nth_skipn {A} (t : list A) : forall a i, nth_error (skipn a t) i = nth_error t (a + i).
Proof. induction t as [|y t IH]; intros [|a] i; cbn; try reflexivity; [destruct i; reflexivity|apply IH]. Qed.
Lemma ends_le n from es : ends_at n from es -> (from <= n)%nat.
Proof. induction 1; lia. Qed.
Lemma script_lines_spec t rs : forall from, ends_at (length t) from (map snd rs) -> ranges_from t from (inspect_script_lines t from rs) /\
  map (fun r => (snd (fst r), snd (fst (fst r)))) (inspect_script_lines t from rs) = rs.
Proof.
  induction rs as [|[s e] rs IH]; intros from; cbn [map snd inspect_script_lines ranges_from]; intros H.
  - inversion H; subst. split; reflexivity.
  - inversion H as [|f e' es L H']; subst. destruct (IH e H') as [R M]. pose proof (ends_le _ _ _ H'). split.
    + split; [reflexivity|]. split; [exact L|]. split; [|split; [|exact R]].
      * rewrite index_from_fst. f_equal. rewrite firstn_length, skipn_length. lia.
      * intros k c I. apply index_from_nth in I. destruct I as (i & -> & E). apply nth_firstn in E. now rewrite nth_skipn in E.
    + cbn [fst snd]. f_equal. exact M.
Qed.
