(** C125: ill-formed input is contained. *)
From Verif Require Import Base Spec_Utf M_Utf8 M_Convert M_AsciiScan M_Ucd M_Grapheme M_Width M_Scan Spec_Grapheme Spec_Width Spec_Scan Spec_ScanJunk Ucd_Demo
  P_Utf8 P_Scan P_Scan2 P_Scan3 P_Scan4 P_Scan5 P_Scan6 P_ScanJunk P_ScanJunk2 T_Grapheme T_Width T_Scan.
Open Scope Z_scope.

Lemma size_bytes rest : forall t0, flaws rest -> (size t0 rest <= length (bytes_of t0 rest))%nat.
Proof.
  assert (T : forall t, (length t <= length (utf8_text t))%nat).
  { induction t as [|c t IH]; [auto|]. cbn [utf8_text flat_map length]. rewrite app_length. destruct (utf8 c) eqn:E; [destruct (utf8_nonempty c E)|]. cbn [length]. fold (utf8_text t). lia. }
  induction rest as [|[j t] rest IH]; intros t0 H; cbn [size bytes_of]; rewrite ?app_nil_r; specialize (T t0).
  - lia.
  - destruct H as [Hj H]. specialize (IH t H). destruct (junk_head j) as (b & j' & -> & _); [tauto|]. rewrite !app_length. cbn [length]. lia.
Qed.
Lemma tot_sum u rest : forall m t0, tot u m t0 rest = Z.of_nat (length rest) + (fst (mrun u m t0) + zsum (map (fun t => fst (mrun u (m0 u) t)) (map snd rest))).
Proof. induction rest as [|[j t] rest IH]; intros m t0; cbn [tot length map snd zsum fold_right]; [lia|]. rewrite IH. unfold zsum. lia. Qed.

(** C125.  The columns of a byte stream with ill-formed sequences in it: one per ill-formed sequence, plus what each of the texts between
    them measures when it is scanned alone; an unfinished character at the end counts nothing.  Each ill-formed sequence is reported
    once, everything is consumed, and the result ends behind the last text. *)
Theorem C125_contained : forall u, ucd_width_ok u -> widths_le2 u -> ucd_scan_ok u ->
  forall uchar i t0 rest p max, all_text t0 rest -> flaws rest -> unfinished p -> Forall (fun b => (0x80 <= b < 256)%N) p ->
  2 * Z.of_nat (length (bytes_of t0 rest ++ p)) < max ->
  exists r st' ev ns, scan_text u uchar i (sstate0 u) (bytes_of t0 rest ++ p) max = Ok (r, st', ev) /\
    Forall2 (fun t n => exists rt stt evt, scan_text u uchar i (sstate0 u) (utf8_text t) max = Ok (rt, stt, evt) /\ r_count rt = n) (texts t0 rest) ns /\
    r_count r = Z.of_nat (length rest) + zsum ns /\ invalids ev = length rest /\
    s_next st' = Some (Z.of_nat (length (bytes_of t0 rest ++ p))) /\
    (last_text t0 rest <> [] -> r_end r = Z.of_nat (length (bytes_of t0 rest))).
Proof.
  intros u OK HW SOK uchar i t0 rest p max Ht Hfl Hp Hpb Hm. rewrite app_length in Hm. pose proof (size_bytes rest t0 Hfl) as Sz.
  assert (Hpl : all_plain u t0 rest).
  { eapply Forall_impl; [|exact Ht]. intros t [H1 H2]. split; [exact H1|]. split; [apply plain_text_cp, H2|apply plain_printing; assumption]. }
  destruct (scan_text_stream u uchar i (sstate0 u) t0 rest p max OK HW Hp Hpb Hpl Hfl eq_refl (minv_start u) (or_introl eq_refl) ltac:(lia)) as (r & st' & ev & E & R1 & R2 & R3 & R4).
  exists r, st', ev, (map (fun t => fst (mrun u (m0 u) t)) (texts t0 rest)). split; [exact E|]. split; [|split; [|split; [exact R3|split; [exact R2|auto]]]].
  - assert (B : forall t, In t (texts t0 rest) -> (length t <= size t0 rest)%nat).
    { clear. revert t0. induction rest as [|[j t1] rest IH]; intros t0 t H; cbn [size] in *.
      - destruct H as [->|[]]. lia.
      - destruct H as [->|H]; [lia|]. cbn [map snd] in H. specialize (IH t1 t H). lia. }
    assert (G : forall l, incl l (texts t0 rest) -> Forall2 (fun t n => exists rt stt evt, scan_text u uchar i (sstate0 u) (utf8_text t) max = Ok (rt, stt, evt) /\ r_count rt = n) l (map (fun t => fst (mrun u (m0 u) t)) l)).
    { induction l as [|t l IH]; intros Hi; cbn [map]; constructor; [|apply IH; intros x Hx; apply Hi; right; exact Hx].
      assert (It : In t (texts t0 rest)) by (apply Hi; left; reflexivity). specialize (B t It).
      unfold all_text, all_plain in *. rewrite Forall_forall in Ht, Hpl. destruct (Ht t It) as [T1 T2]. destruct (Hpl t It) as (_ & P2 & P3).
      destruct (scan_text_m u uchar i (sstate0 u) t [] max) as (rt & stt & evt & Et & Q1 & _); auto.
      - left. reflexivity.
      - lia.
      - apply minv_fits; auto; [apply minv_start|lia].
      - rewrite app_nil_r in Et. exists rt, stt, evt. split; [exact Et|exact Q1]. }
    apply G. intros x Hx. exact Hx.
  - rewrite R1, tot_sum. reflexivity.
Qed.
Print Assumptions C125_contained.

Lemma stream_like a b x : dlike a b -> (x < 256)%N -> dlike (stream_step a x) (stream_step b x).
Proof.
  intros L Hx. unfold stream_step. destruct (N.ltb_spec x 0x80) as [C|C]; [apply dlike_refl|]. destruct (dlike_step a b x L C Hx) as [S1 S2].
  destruct (from_utf8 a x) as [da ra] eqn:Ea, (from_utf8 b x) as [db rb] eqn:Eb. cbn [fst snd] in *. subst rb. destruct ra as [| |c].
  - apply dlike_refl.
  - rewrite (S2 eq_refl). apply dlike_refl.
  - pose proof (from_utf8_success_idle _ _ _ _ Ea) as X. pose proof (from_utf8_success_idle _ _ _ _ Eb) as Y. split; congruence.
Qed.
Lemma streams_like : forall l a b, dlike a b -> Forall (fun x => (x < 256)%N) l -> dlike (fold_left stream_step l a) (fold_left stream_step l b).
Proof. induction l as [|x l IH]; intros a b L H; [exact L|]. cbn [fold_left]. apply IH; [apply stream_like; [exact L|exact (Forall_inv H)]|exact (Forall_inv_tail H)]. Qed.
Lemma boundary_shift s pre : at_boundary s -> Forall (fun x => (x < 256)%N) pre -> (at_boundary (s ++ pre) <-> at_boundary pre).
Proof.
  intros Hs Hp. unfold at_boundary in *. rewrite fold_left_app. destruct (streams_like pre (fold_left stream_step s dinit) dinit (idle_like _ Hs) Hp) as [E _]. rewrite E. tauto.
Qed.
Lemma ends_boundary : forall s d n r, snd (from_utf8_run d s) = repeat Incomplete n ++ [r] -> r <> Incomplete -> Forall (fun b => (0x80 <= b < 256)%N) s ->
  d_exp (fold_left stream_step s d) = 0%N.
Proof.
  induction s as [|b s IH]; intros d n r H Hr Hb; [destruct n; discriminate|]. cbn [fold_left]. rewrite stream_hi by (pose proof (Forall_inv Hb) as Hb1; cbv beta in Hb1; lia).
  cbn [from_utf8_run] in H. destruct (from_utf8 d b) as [d1 r1] eqn:E. destruct (from_utf8_run d1 s) as [d2 rs] eqn:E2. cbn [snd] in H. destruct n as [|n]; cbn [repeat app] in H.
  - injection H as -> ->. assert (s = []).
    { destruct s as [|y s]; [reflexivity|]. cbn [from_utf8_run] in E2. destruct (from_utf8 d1 y) as [d9 r9]. destruct (from_utf8_run d9 s). discriminate. }
    subst s. cbn [fold_left]. destruct r as [| |c]; [reflexivity|congruence|]. exact (from_utf8_success_idle _ _ _ _ E).
  - injection H as -> H. apply (IH d1 n r); [rewrite E2; exact H|exact Hr|exact (Forall_inv_tail Hb)].
Qed.
Lemma first_sequence : forall bs d, Forall (fun b => (b < 256)%N) bs -> exists s post, bs = s ++ post /\ Forall (fun b => (0x80 <= b < 256)%N) s /\
  ((exists n r, snd (from_utf8_run d s) = repeat Incomplete n ++ [r] /\ r <> Incomplete) \/
   (Forall (eq Incomplete) (snd (from_utf8_run d s)) /\ (post = [] \/ exists c q, post = c :: q /\ (c < 0x80)%N))).
Proof.
  induction bs as [|b bs IH]; intros d Hb.
  - exists [], []. split; [reflexivity|]. split; [constructor|]. right. split; [constructor|auto].
  - destruct (N.ltb_spec b 0x80) as [L|L].
    + exists [], (b :: bs). split; [reflexivity|]. split; [constructor|]. right. split; [constructor|]. right. eauto.
    + pose proof (Forall_inv Hb) as Hb1. cbv beta in Hb1. destruct (from_utf8 d b) as [d1 r] eqn:E.
      assert (One : r <> Incomplete -> exists s post, b :: bs = s ++ post /\ Forall (fun b => (0x80 <= b < 256)%N) s /\
        ((exists n r, snd (from_utf8_run d s) = repeat Incomplete n ++ [r] /\ r <> Incomplete) \/
         (Forall (eq Incomplete) (snd (from_utf8_run d s)) /\ (post = [] \/ exists c q, post = c :: q /\ (c < 0x80)%N)))).
      { intros Hr. exists [b], bs. split; [reflexivity|]. split; [constructor; [lia|constructor]|]. left. exists O, r. cbn [from_utf8_run]. rewrite E. split; [reflexivity|exact Hr]. }
      destruct r as [| |c]; [apply One; discriminate| |apply One; discriminate].
      destruct (IH d1 (Forall_inv_tail Hb)) as (s & post & -> & Hs & C). exists (b :: s), post. split; [reflexivity|]. split; [constructor; [lia|exact Hs]|].
      cbn [from_utf8_run]. rewrite E. destruct (from_utf8_run d1 s) as [d2 rs]. cbn [snd] in *. destruct C as [(n & r & -> & Hr)|(F & C)].
      * left. exists (S n), r. auto.
      * right. split; [constructor; auto|exact C].
Qed.

(** C125.  Every control-free byte string in which the decoder accepts only proper UTF-8 is such a stream. *)
Theorem C125_every : forall bs, control_free bs -> accepts_wellformed bs ->
  exists t0 rest p, bs = bytes_of t0 rest ++ p /\ all_text t0 rest /\ flaws rest /\ unfinished p /\ Forall (fun b => (0x80 <= b < 256)%N) p.
Proof.
  intros bs. remember (length bs) as n eqn:En. revert bs En. induction n as [n IH] using lt_wf_ind. intros bs En [Hb Hc] Ha.
  assert (Hb256 : Forall (fun b => (b < 256)%N) bs) by (eapply Forall_impl; [|exact Hb]; intros b ?; cbv beta in *; lia).
  (* what holds of the stream holds behind a boundary *)
  assert (Sub : forall s post, bs = s ++ post -> at_boundary s -> control_free post /\ accepts_wellformed post).
  { intros s post E Bs. rewrite E in Hb256. apply Forall_app in Hb256 as [_ Hp]. split; [split|].
    - rewrite E in Hb. apply Forall_app in Hb. tauto.
    - intros pre b q Eq Bp. apply (Hc (s ++ pre) b q); [rewrite E, Eq, app_assoc; reflexivity|]. apply boundary_shift; auto. rewrite Eq in Hp. apply Forall_app in Hp. tauto.
    - intros pre x q c Eq Bp Ac. apply (Ha (s ++ pre) x q c); [rewrite E, Eq, app_assoc; reflexivity| |exact Ac]. apply boundary_shift; auto. rewrite Eq in Hp. apply Forall_app in Hp. tauto. }
  destruct bs as [|b bs].
  { exists [], [], []. split; [reflexivity|]. split; [constructor; [split; constructor|constructor]|]. split; [exact I|]. split; constructor. }
  destruct (N.ltb_spec b 0x80) as [L|L].
  - destruct (Sub [b] bs eq_refl) as [S1 S2]. { unfold at_boundary, stream_step. cbn [fold_left]. destruct (N.ltb_spec b 0x80); [reflexivity|lia]. }
    destruct (IH (length bs) ltac:(subst n; cbn; lia) bs eq_refl S1 S2) as (t0 & rest & p & -> & Ht & Hf & Hp & Hq).
    exists (b :: t0), rest, p. split; [|split; [|auto]].
    + change (b :: t0) with ([b] ++ t0). rewrite bytes_of_app. rewrite (utf8_text_ascii [b]) by (constructor; [exact L|constructor]). reflexivity.
    + pose proof (Forall_inv Ht) as [T1 T2]. constructor; [|exact (Forall_inv_tail Ht)]. pose proof (Forall_inv Hb) as Hb1. cbv beta in Hb1.
      split; constructor; auto; [unfold scalar; lia|unfold plain_text; lia].
  - destruct (first_sequence (b :: bs) dinit Hb256) as (s & post & E & Hs & C).
    assert (Hsn : s <> []).
    { intros ->. cbn [app] in E. destruct C as [(k & r & H & _)|(_ & [->|(c & q & -> & Hq)])]; [destruct k; discriminate|discriminate|]. injection E as -> _. lia. }
    assert (Hc1 : ~ c1 (hd 0%N s)).
    { destruct s as [|y s]; [congruence|]. cbn [app] in E. injection E as <- _. cbn [hd]. apply (Hc [] b bs); reflexivity. }
    assert (Ls : (0 < length s)%nat) by (destruct s; [congruence|cbn; lia]).
    destruct C as [(k & r & H & Hr)|(F & C)].
    + pose proof (ends_boundary s dinit k r H Hr Hs) as Bs. destruct (Sub s post E Bs) as [S1 S2].
      destruct (IH (length post) ltac:(subst n; rewrite E, app_length; lia) post eq_refl S1 S2) as (t0 & rest & p & Ep & Ht & Hf & Hp & Hq).
      destruct r as [| |c]; [|congruence|].
      * exists [], ((s, t0) :: rest), p. split; [cbn [bytes_of utf8_text flat_map app]; rewrite E, Ep, <- app_assoc; reflexivity|].
        split; [constructor; [split; constructor|exact Ht]|]. split; [|auto]. split; [|exact Hf]. left. split; [exists k; exact H|auto].
      * destruct (Ha [] s post c E eq_refl (ex_intro _ k H)) as [Sc Es].
        assert (Hcc : (0x80 <= c)%N).
        { destruct (N.leb_spec 0x80 c) as [G|G]; [exact G|]. rewrite Es in Hs. unfold utf8 in Hs. destruct (N.ltb_spec c 0x80); [|lia]. apply Forall_inv in Hs. cbv beta in Hs. lia. }
        exists (c :: t0), rest, p. split; [|split; [|auto]].
        -- change (c :: t0) with ([c] ++ t0). rewrite bytes_of_app. cbn [utf8_text flat_map]. rewrite app_nil_r, <- Es, E, Ep, <- app_assoc. reflexivity.
        -- pose proof (Forall_inv Ht) as [T1 T2]. constructor; [|exact (Forall_inv_tail Ht)]. split; constructor; auto. unfold plain_text. lia.
    + destruct C as [->|(c & q & -> & Hcq)].
      * exists [], [], s. rewrite app_nil_r in E. split; [exact E|]. split; [constructor; [split; constructor|constructor]|]. split; [exact I|]. split; [exact F|exact Hs].
      * destruct (Sub (s ++ [c]) q) as [S1 S2].
        { rewrite E, <- app_assoc. reflexivity. }
        { unfold at_boundary. rewrite fold_left_app. cbn [fold_left]. unfold stream_step at 1. destruct (N.ltb_spec c 0x80); [reflexivity|lia]. }
        destruct (IH (length q) ltac:(subst n; rewrite E, app_length; cbn [length]; lia) q eq_refl S1 S2) as (t0 & rest & p & Ep & Ht & Hf & Hp & Hq).
        exists [], ((s, c :: t0) :: rest), p. split.
        -- cbn [bytes_of utf8_text flat_map app]. change (c :: t0) with ([c] ++ t0). rewrite bytes_of_app, (utf8_text_ascii [c]) by (constructor; [exact Hcq|constructor]).
           rewrite E, Ep, <- !app_assoc. reflexivity.
        -- split; [constructor; [split; constructor|]|].
           ++ cbn [map snd]. pose proof (Forall_inv Ht) as [T1 T2]. constructor; [|exact (Forall_inv_tail Ht)].
              rewrite E in Hb. apply Forall_app in Hb as [_ Hb]. pose proof (Forall_inv Hb) as Hb1. cbv beta in Hb1.
              split; constructor; auto; [unfold scalar; lia|unfold plain_text; lia].
           ++ split; [|auto]. split; [|exact Hf]. right. split; [split; [exact F|auto]|]. eauto.
Qed.
Print Assumptions C125_every.

(** C125.  So, when no flag follows other text and no Prepend character stands before a 7-bit one (C32): one column per ill-formed
    sequence plus the widths of the grapheme clusters of the texts between them. *)
Theorem C125_clusters : forall u, ucd_grapheme_ok u -> ucd_width_ok u -> widths_le2 u -> ucd_scan_ok u ->
  forall uchar i t0 rest p max, all_text t0 rest -> Forall (no_flags_no_prepend u) (texts t0 rest) -> flaws rest -> unfinished p -> Forall (fun b => (0x80 <= b < 256)%N) p ->
  2 * Z.of_nat (length (bytes_of t0 rest ++ p)) < max ->
  exists r st' ev cls, scan_text u uchar i (sstate0 u) (bytes_of t0 rest ++ p) max = Ok (r, st', ev) /\
    Forall2 (fun t cl => grapheme_clusters u t = Ok cl) (texts t0 rest) cls /\
    r_count r = Z.of_nat (length rest) + zsum (map (cluster_width u) (concat cls)).
Proof.
  intros u GOK OK HW SOK uchar i t0 rest p max Ht Hn Hfl Hp Hpb Hm.
  destruct (C125_contained u OK HW SOK uchar i t0 rest p max Ht Hfl Hp Hpb Hm) as (r & st' & ev & ns & E & F & R & _).
  assert (B : Forall (fun t => 2 * Z.of_nat (length t) < max) (texts t0 rest)).
  { pose proof (size_bytes rest t0 Hfl) as Sz. rewrite app_length in Hm. apply Forall_forall. intros t It.
    enough (length t <= size t0 rest)%nat by lia. clear -It. revert t0 It. induction rest as [|[j t1] rest IH]; intros t0 H; cbn [size] in *.
    - destruct H as [->|[]]. lia.
    - destruct H as [->|H]; [lia|]. cbn [map snd] in H. specialize (IH t1 H). lia. }
  assert (G : exists cls, Forall2 (fun t cl => grapheme_clusters u t = Ok cl) (texts t0 rest) cls /\ zsum ns = zsum (map (cluster_width u) (concat cls))).
  { clear E R. unfold all_text in Ht. revert Ht Hn B F. generalize (texts t0 rest) as ts. clear -GOK OK HW SOK. intros ts. revert ns. induction ts as [|t ts IH]; intros ns Ht Hn B F; inversion F as [|? n ? ns' Fn Fs]; subst.
    - exists []. split; [constructor|reflexivity].
    - destruct (IH ns' (Forall_inv_tail Ht) (Forall_inv_tail Hn) (Forall_inv_tail B) Fs) as (cls & C1 & C2).
      pose proof (Forall_inv Ht) as [T1 T2]. destruct (C32_scan_is_cluster_width_partial u GOK OK HW SOK uchar i t max T1 T2 (Forall_inv Hn) (Forall_inv B)) as (r & st & ev & cl & E1 & E2 & _ & E3).
      destruct Fn as (rt & stt & evt & E4 & E5). rewrite E1 in E4. injection E4 as <- _ _. exists (cl :: cls). split; [constructor; assumption|].
      cbn [concat]. unfold zsum in *. cbn [fold_right]. rewrite map_app, fold_right_app, C2, <- E5, E3. clear. induction (map (cluster_width u) cl) as [|x l IHl]; [reflexivity|]. cbn [fold_right]. rewrite <- IHl. lia. }
  destruct G as (cls & C1 & C2). exists r, st', ev, cls. split; [exact E|]. split; [exact C1|]. rewrite R, C2. reflexivity.
Qed.
Print Assumptions C125_clusters.

(** 'e' U+0301 | FF | U+231A | F0 9F (cut short before 'a') | 'a' U+4E00 | C3 unfinished: 1 + 1 + 2 + 1 + 3 columns. *)
Example C125_demo : let rest := [([0xFF], [0x231A]); ([0xF0; 0x9F], [0x61; 0x4E00])]%N in
  all_text [0x65; 0x301]%N rest /\ flaws rest /\ unfinished [0xC3]%N /\
  bytes_of [0x65; 0x301]%N rest ++ [0xC3]%N = [0x65; 0xCC; 0x81; 0xFF; 0xE2; 0x8C; 0x9A; 0xF0; 0x9F; 0x61; 0xE4; 0xB8; 0x80; 0xC3]%N /\
  exists st' ev, scan_text demo true (X86 W128) (sstate0 demo) (bytes_of [0x65; 0x301]%N rest ++ [0xC3]%N) 80 = Ok (SR 8 0 13, st', ev).
Proof.
  cbv zeta. split; [|split; [|split; [|split]]].
  - repeat (apply Forall_cons || apply Forall_nil); split; repeat (apply Forall_cons || apply Forall_nil); unfold scalar, plain_text; lia.
  - split; [left; split; [exists O; vm_compute; reflexivity|split; [repeat (apply Forall_cons || apply Forall_nil); lia|unfold c1; cbn [hd]; lia]]|].
    split; [|exact I]. right. split; [split; [unfold unfinished; vm_compute; repeat constructor|split; [repeat (apply Forall_cons || apply Forall_nil); lia|discriminate]]|]. do 2 eexists. split; [reflexivity|lia].
  - unfold unfinished. vm_compute. repeat constructor.
  - vm_compute. reflexivity.
  - do 2 eexists. vm_compute. reflexivity.
Qed.
