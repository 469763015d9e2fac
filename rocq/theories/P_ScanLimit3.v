(** What a limit leaves behind, and how the next call goes on. *)
From Verif Require Import Base Spec_Utf M_Utf8 P_Utf8 P_Utf8b M_Convert M_AsciiScan P_AsciiScan M_Ucd M_Grapheme M_Width
  Spec_Grapheme P_Grapheme Spec_Width P_Width M_Scan Spec_Scan P_Scan P_Scan2 P_Scan3 P_Scan4 P_Scan5 P_Scan6 P_ScanCuts P_ScanCut2 Spec_ScanLimit P_ScanLimit P_ScanLimit2 Spec_ScanLines.
Open Scope Z_scope.

Lemma term_cut u x c older b : neutral u c -> term_b u ((x ++ [c]) ++ older) b = term_b u (x ++ [c]) b.
Proof.
  intros HN. unfold term_b. rewrite (loose_cut u x c older b HN). f_equal. f_equal. destruct HN as (H1 & _). unfold ri_b.
  destruct x as [|y x]; cbn [app].
  - destruct older; [reflexivity|]. rewrite H1. reflexivity.
  - destruct (x ++ [c]) as [|z l] eqn:E; [destruct x; discriminate|]. reflexivity.
Qed.
Lemma tflags_cut u c older : neutral u c -> forall rest x, tflags u ((x ++ [c]) ++ older) rest = tflags u (x ++ [c]) rest.
Proof.
  intros HN. induction rest as [|b rest IH]; intros x; [reflexivity|]. cbn [tflags]. rewrite (term_cut u x c older b HN). f_equal. apply (IH (b :: x)).
Qed.
Lemma neutral_breaks u a loc c : neutral u c -> p_gcb (u a) <> GPrepend -> stateful_b u (a :: loc) c = true.
Proof.
  intros (H1 & H2 & H3) HP. unfold stateful_b. rewrite H1, H2, H3. rewrite (beq_neq _ _ HP). cbn [gcb_beq incb_beq]. rewrite ?andb_false_r. cbn. destruct (p_gcb (u a)); reflexivity.
Qed.
Lemma lim_resume u max m c q : ucd_grapheme_ok u -> ucd_width_ok u -> ucd_scan_ok u -> G u m -> stands_alone u c -> Forall plain_text (c :: q) ->
  lim u max 0 m [] [] false (c :: q) = take u max 0 false (terms_of u (c :: q)).
Proof.
  intros OK WOK SOK HG Hc Ht. destruct (N.eq_dec (m_hint m) 0) as [E0|E0]; [apply lim_terms; assumption|].
  inversion Ht as [|? ? Hc1 Ht']; subst. destruct (lim_take u max OK WOK SOK q) as [HO H7].
  destruct (N.lt_ge_cases c 0x80) as [L|L].
  - assert (K : kinv u [c] [c] (snd (mstep u c m))).
    { pose proof (kinv_first u c (mst (sstate0 u)) OK WOK SOK eq_refl Hc1) as K. unfold mstep in *. destruct (N.ltb_spec c 0x80); [exact K|lia]. }
    rewrite (start_from u max c q OK WOK SOK HO H7 [] m 0 [] [] false K); [|intros; lia|exact Hc1|exact Ht'].
    cbn [terms_of]. destruct (take u max 0 false (group [c] q (tflags u [c] q))). reflexivity.
  - destruct Hc as [Hc|Hc]; [lia|]. destruct HG as [HG|(a & loc & SV & HP)]; [contradiction|].
    pose proof (stateful_spec u (a :: loc) (m_g m) c OK SV) as SS.
    assert (B : brk_at u m c = true).
    { unfold brk_at. destruct (N.eqb_spec (m_hint m) 0); [contradiction|]. destruct (process_breakable u c (m_g m)) as [b g]. destruct SS as [SB _]. cbn [fst]. rewrite SB. apply neutral_breaks; assumption. }
    assert (K : kinv u (c :: a :: loc) [c] (snd (mstep u c m))).
    { rewrite mstep_hi by exact L. unfold mhi. destruct (N.eqb_spec (m_hint m) 0); [contradiction|]. unfold brk_at in B. destruct (N.eqb_spec (m_hint m) 0); [contradiction|].
      destruct (process_breakable u c (m_g m)) as [b g]. cbn [fst] in B. subst b. destruct SS as [_ SG]. cbn [snd].
      constructor; cbn [m_g m_hint m_acc m_rep m_here]; [exists (c :: a :: loc), []; split; [symmetry; apply app_nil_r|]; split; [exact SG|left; reflexivity]|lia|reflexivity|reflexivity|left; reflexivity]. }
    rewrite (start_from u max c q OK WOK SOK HO H7 (a :: loc) m 0 [] [] false K ltac:(auto) Hc1 Ht').
    pose proof (tflags_cut u c (a :: loc) Hc q []) as TC. cbn [app] in TC. rewrite TC. cbn [terms_of]. destruct (take u max 0 false (group [c] q (tflags u [c] q))). reflexivity.
Qed.

Lemma lines_G u uchar i st : ucd_grapheme_ok u -> between_lines u uchar i st -> G u (mst st) /\ d_exp (s_utf8 st) = 0%N /\ s_next st = None.
Proof.
  intros OK. induction 1 as [|st t max r st' ev B (IH1 & IH2 & IH3) Hs Ht Hn E].
  - split; [left; reflexivity|]. split; reflexivity.
  - pose proof (scan_text_lim u uchar i st t [] max ltac:(left; reflexivity) ltac:(constructor) Hs (plain_text_cp t Ht) IH2 (or_introl IH3)) as L. rewrite app_nil_r in L.
    destruct (lim u max 0 (mst st) [] [] false t) as [n tk]. destruct L as (r2 & st2 & ev2 & E2 & _ & _ & _ & _ & D & HG). rewrite E in E2. injection E2 as <- <- <-.
    split; [apply HG; assumption|]. split; [exact D|reflexivity].
Qed.

Lemma width7 u c : ucd_grapheme_ok u -> ucd_width_ok u -> ucd_scan_ok u -> plain_text c -> (c < 0x80)%N -> cluster_width u [c] = 1.
Proof.
  intros OK WOK SOK Hc L. pose proof (kinv_first u c (mst (sstate0 u)) OK WOK SOK eq_refl Hc) as K.
  change [c] with (rev [c]). rewrite (cluster_width_acc u _ WOK), <- (k_acc _ _ _ _ K), <- (k_rep _ _ _ _ K). unfold mstep. destruct (N.ltb_spec c 0x80); [reflexivity|lia].
Qed.
(** [take] in words *)
Lemma take_spec u max : forall ps n hi, Forall (fun p => forall c, p = [c] -> (c < 0x80)%N -> cluster_width u [c] = 1) ps ->
  exists l rest, ps = l ++ rest /\
   ((take u max n hi ps = (n + zsum (map (cluster_width u) l), concat l) /\
     (rest = [] \/ exists p rest', rest = p :: rest' /\ (max <= n + zsum (map (cluster_width u) l) \/ fits_in u (max - (n + zsum (map (cluster_width u) l))) p = false))) \/
    (exists c d q rest', rest = (c :: d :: q) :: rest' /\ (c < 0x80)%N /\ take u max n hi ps = (n + zsum (map (cluster_width u) l) + 1, concat l ++ [c]) /\
       (max <= n + zsum (map (cluster_width u) l) + 1 \/ fits_in u (max - (n + zsum (map (cluster_width u) l))) (c :: d :: q) = false))).
Proof.
  induction ps as [|p ps IH]; intros n hi HW.
  { exists [], []. split; [reflexivity|]. left. cbn. split; [f_equal; lia|auto]. }
  inversion HW as [|? ? HW1 HW2]; subst. cbn [take].
  assert (STOP : forall x, x = (n, []) -> max <= n \/ fits_in u (max - n) p = false -> exists l rest, p :: ps = l ++ rest /\
   ((x = (n + zsum (map (cluster_width u) l), concat l) /\
     (rest = [] \/ exists p rest', rest = p :: rest' /\ (max <= n + zsum (map (cluster_width u) l) \/ fits_in u (max - (n + zsum (map (cluster_width u) l))) p = false))) \/
    (exists c d q rest', rest = (c :: d :: q) :: rest' /\ (c < 0x80)%N /\ x = (n + zsum (map (cluster_width u) l) + 1, concat l ++ [c]) /\
       (max <= n + zsum (map (cluster_width u) l) + 1 \/ fits_in u (max - (n + zsum (map (cluster_width u) l))) (c :: d :: q) = false)))).
  { intros x -> H. exists [], (p :: ps). split; [reflexivity|]. left. cbn [map zsum fold_right concat]. rewrite Z.add_0_r. split; [reflexivity|]. right. eauto. }
  assert (GO : forall hi', exists l rest, p :: ps = l ++ rest /\
   (((let '(n', t) := take u max (n + cluster_width u p) hi' ps in (n', p ++ t)) = (n + zsum (map (cluster_width u) l), concat l) /\
     (rest = [] \/ exists p rest', rest = p :: rest' /\ (max <= n + zsum (map (cluster_width u) l) \/ fits_in u (max - (n + zsum (map (cluster_width u) l))) p = false))) \/
    (exists c d q rest', rest = (c :: d :: q) :: rest' /\ (c < 0x80)%N /\ (let '(n', t) := take u max (n + cluster_width u p) hi' ps in (n', p ++ t)) = (n + zsum (map (cluster_width u) l) + 1, concat l ++ [c]) /\
       (max <= n + zsum (map (cluster_width u) l) + 1 \/ fits_in u (max - (n + zsum (map (cluster_width u) l))) (c :: d :: q) = false)))).
  { intros hi'. destruct (IH (n + cluster_width u p) hi' HW2) as (l & rest & E & D). exists (p :: l), rest. split; [rewrite E; reflexivity|].
    cbn [map zsum fold_right concat]. fold (zsum (map (cluster_width u) l)). rewrite Z.add_assoc. destruct D as [[D1 D2]|(c & d & q & rest' & D1 & D2 & D3 & D4)].
    - left. rewrite D1. split; [reflexivity|exact D2].
    - right. exists c, d, q, rest'. split; [exact D1|]. split; [exact D2|]. split; [rewrite D3, app_assoc; reflexivity|exact D4]. }
  destruct (starts_7bit p) eqn:S7.
  - destruct (Z.leb_spec max n) as [L|L]; [apply STOP; [reflexivity|left; exact L]|].
    destruct p as [|c [|d q]]; [discriminate| |]; cbn [starts_7bit] in S7; apply N.ltb_lt in S7.
    + specialize (GO false). rewrite (HW1 c eq_refl S7) in GO. exact GO.
    + destruct ((n + 1 <? max) && fits_in u (max - n) (c :: d :: q)) eqn:EF; [apply GO|].
      exists [], ((c :: d :: q) :: ps). split; [reflexivity|]. right. exists c, d, q, ps. cbn [map zsum fold_right concat app]. rewrite Z.add_0_r. split; [reflexivity|]. split; [exact S7|]. split; [reflexivity|].
      apply andb_false_iff in EF as [EF|EF]; [left; apply Z.ltb_ge in EF; exact EF|right; exact EF].
  - destruct ((negb hi && (max <=? n)) || negb (fits_in u (max - n) p)) eqn:EF; [|apply GO].
    apply STOP; [reflexivity|]. apply orb_true_iff in EF as [EF|EF]; [left; apply andb_true_iff in EF; apply Z.leb_le, EF|right; apply negb_true_iff, EF].
Qed.
Lemma terms_7 u t : ucd_grapheme_ok u -> ucd_width_ok u -> ucd_scan_ok u -> Forall plain_text t ->
  Forall (fun p => forall c, p = [c] -> (c < 0x80)%N -> cluster_width u [c] = 1) (terms_of u t).
Proof.
  intros OK WOK SOK Ht. rewrite Forall_forall. intros p Hp c -> L. apply width7; auto. rewrite Forall_forall in Ht. apply Ht.
  destruct (terms_partition u t) as [P _]. rewrite <- P. apply in_concat. exists [c]. split; [exact Hp|left; reflexivity].
Qed.
Lemma forallb_false_ex {A} (f : A -> bool) l : forallb f l = false -> exists x, In x l /\ f x = false.
Proof.
  induction l as [|a l IH]; cbn [forallb]; [discriminate|]. intros H. destruct (f a) eqn:E; [|exists a; split; [left; reflexivity|exact E]].
  destruct (IH H) as (x & H1 & H2). exists x. split; [right; exact H1|exact H2].
Qed.
