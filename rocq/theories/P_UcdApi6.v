(** Lemmas for T_UcdApi2.v, continued: mirroring. *)
From Coq Require Import Ascii String Permutation Sorted.
From Verif Require Import Base M_TableGen M_PropGen M_UcdApi M_Tables Spec_Tables Spec_TableGen Spec_PropGen Spec_UcdApi
  P_Tables P_TableGen P_TableGen2 P_TableGen3 P_TableGen8 P_PropGen P_PropGen2 P_PropGen3 P_PropGen4 P_PropGen5 P_PropGen6 P_UcdApi P_UcdApi2 P_UcdApi3 P_UcdApi4 P_UcdApi5.
Open Scope N_scope.

(** ** loadBidiMirrored *)
Lemma mirrored_data u crlf : flag_line u -> load_mirrored_line (ud_text u ++ eol crlf) = if str_eqb (ul_f9 u) (lit "Y") then [ul_cp u] else [].
Proof.
  intros [[Hcp [Hccc [Hf [Hdec [Hu [Hl Ht]]]]]] H9]. unfold load_mirrored_line.
  set (fs := [hexs (ul_cp u); ul_name u; ul_category u; decs (ul_ccc u); ul_bidi u; dec_text (ul_dec u);
                  ul_f6 u; ul_f7 u; ul_f8 u; ul_f9 u; ul_f10 u; ul_f11 u; opt_text (ul_upper u); opt_text (ul_lower u); opt_text (ul_title u)]).
  assert (Hjoin : ud_text u = join [ch_semi] fs) by reflexivity.
  assert (Hsplit : split_semi (ud_text u) = fs).
  { rewrite Hjoin. apply split_join; [discriminate|]. subst fs.
    inversion Hf as [|? ? A1 B1]; inversion B1 as [|? ? A2 B2]; inversion B2 as [|? ? A3 B3]; inversion B3 as [|? ? A4 B4];
    inversion B4 as [|? ? A5 B5]; inversion B5 as [|? ? A6 B6]; inversion B6 as [|? ? A7 B7]; inversion B7 as [|? ? A8 B8]; inversion B8 as [|? ? A9 B9].
    repeat (constructor; [first [assumption | apply opt_no_semi | apply (dec_no_semi _ Hdec) | apply (num_not _ _ (hexs_chars _)); unfold numchar, ch_semi; lia
       | apply (num_not _ _ (decs_chars _)); unfold numchar, ch_semi; lia]|]). constructor. }
  assert (Hend : exists c s, ud_text u = c :: s /\ c <> ch_hash /\ trim (ud_text u ++ eol crlf) = ud_text u).
  { destruct (hexs_head (ul_cp u)) as [c [r [Ec [Hc1 Hc2]]]].
    exists c, (r ++ ch_semi :: join [ch_semi] (tl fs)). split; [rewrite Hjoin; change (join [ch_semi] fs) with (hexs (ul_cp u) ++ ch_semi :: join [ch_semi] (tl fs)); rewrite Ec; reflexivity|].
    split; [exact Hc2|].
    assert (Ee : exists m, ud_text u = c :: m ++ ch_semi :: opt_text (ul_title u)).
    { exists (r ++ ch_semi :: join [ch_semi] [ul_name u; ul_category u; decs (ul_ccc u); ul_bidi u; dec_text (ul_dec u);
                  ul_f6 u; ul_f7 u; ul_f8 u; ul_f9 u; ul_f10 u; ul_f11 u; opt_text (ul_upper u); opt_text (ul_lower u)]).
      rewrite Hjoin. subst fs. cbn [join]. rewrite Ec. cbn [app]. f_equal. repeat (rewrite <- app_assoc; cbn [app]; do 2 f_equal).
      }
    destruct Ee as [m Em]. rewrite Em. replace ((c :: m ++ ch_semi :: opt_text (ul_title u)) ++ eol crlf) with (c :: m ++ ch_semi :: opt_text (ul_title u) ++ eol crlf) by (cbn [app]; rewrite <- app_assoc; reflexivity).
    apply trim_ends; [exact Hc1|apply semi_not_white| |apply eol_white].
    destruct (ul_title u); [apply num_no_white, hexs_chars|constructor]. }
  destruct Hend as [c [s [Es [Hh Htr]]]]. rewrite Htr, Hsplit. rewrite Es. cbv beta iota zeta.
  destruct (N.eqb_spec c ch_hash); [contradiction|]. change (length fs <? 10)%nat with false. cbv iota.
  subst fs. cbn [field nth]. rewrite parse_hexs0 by exact Hcp. destruct H9 as [-> | ->]; reflexivity.
Qed.
Definition mirrored_cps (f : list (fline udline)) : list N := flat_map (fun u => if str_eqb (ul_f9 u) (lit "Y") then [ul_cp u] else []) (data f).
Lemma load_mirrored_data crlf f : lines_ok flag_line f -> load_mirrored (file_text ud_text crlf f) = compress None (nsort (mirrored_cps f)).
Proof.
  intros Hf. unfold load_mirrored. do 2 f_equal. unfold mirrored_cps. apply (lines_flat load_mirrored_line (fun u => if str_eqb (ul_f9 u) (lit "Y") then [ul_cp u] else []) ud_text crlf flag_line f Hf).
  - intros a Ha. now apply mirrored_data.
  - intros s. unfold load_mirrored_line. cbn [app]. destruct (trim_head ch_hash (s ++ eol crlf) hash_not_white) as [s' ->]. rewrite N.eqb_refl. reflexivity.
  - intros s H. unfold load_mirrored_line. rewrite trim_white; [reflexivity|]. apply Forall_app. split; [exact H|apply eol_white].
Qed.
(** sorting *)
Lemma ninsert_perm k l : Permutation (ninsert k l) (k :: l).
Proof. induction l as [|x l IH]; cbn [ninsert]; [reflexivity|]. destruct (x <? k); [|reflexivity]. rewrite IH. apply perm_swap. Qed.
Lemma nsort_perm l : Permutation (nsort l) l.
Proof. unfold nsort. induction l as [|x l IH]; cbn [fold_right]; [reflexivity|]. rewrite ninsert_perm. now rewrite IH. Qed.
Lemma ninsert_sorted k l : StronglySorted N.le l -> StronglySorted N.le (ninsert k l).
Proof.
  induction 1 as [|x l Hs IH Hx]; cbn [ninsert]; [constructor; constructor|]. destruct (N.ltb_spec x k) as [H|H].
  - constructor; [exact IH|]. eapply Permutation_Forall; [symmetry; apply ninsert_perm|]. constructor; [lia|exact Hx].
  - constructor; [constructor; assumption|]. constructor; [exact H|]. eapply Forall_impl; [|exact Hx]. cbn beta. intros; lia.
Qed.
Lemma nsort_sorted l : StronglySorted N.le (nsort l).
Proof. unfold nsort. induction l as [|x l IH]; cbn [fold_right]; [constructor|]. now apply ninsert_sorted. Qed.
Lemma sorted_nodup l : StronglySorted N.le l -> NoDup l -> StronglySorted N.lt l.
Proof.
  induction 1 as [|x l Hs IH Hx]; intros Hn; [constructor|]. inversion_clear Hn as [|? ? N1 N2]. constructor; [auto|].
  rewrite Forall_forall in *. intros y Hy. specialize (Hx y Hy). destruct (N.eq_dec x y) as [->|]; [contradiction|lia].
Qed.
(** compression into intervals *)
Lemma compress_ok l : forall a b, a <= b -> b <= 0x10FFFF -> StronglySorted N.lt (b :: l) -> Forall (fun c => c <= 0x10FFFF) l ->
  let m := compress (Some (a, b)) l in
  m <> [] /\ disjoint_sorted m /\ Forall (fun e => snd e <= 0x10FFFF) m /\ Forall (fun e => a <= fst e) m /\
  forall c, (exists e, In e m /\ fst e <= c <= snd e) <-> (a <= c <= b \/ In c l).
Proof.
  induction l as [|x l IH]; intros a b Hab Hb Hs Hf; cbv zeta; cbn [compress].
  - split; [discriminate|]. split; [split; (constructor; [|constructor]); [constructor|exact Hab]|]. split; [constructor; [exact Hb|constructor]|].
    split; [constructor; [cbn; lia|constructor]|]. intros c. split.
    + intros (e & [<-|[]] & H). left. exact H.
    + intros [H|[]]. exists (a, b). split; [left; reflexivity|exact H].
  - inversion_clear Hs as [|? ? S1 S2]. inversion_clear Hf as [|? ? F1 F2]. inversion_clear S2 as [|? ? S3 S4].
    rewrite N.mod_small by lia. destruct (N.eqb_spec (b + 1) x) as [E|E].
    + subst x. destruct (IH a (b + 1) ltac:(lia) F1 S1 F2) as (M1 & M2 & M3 & M4 & M5). repeat (split; [assumption|]). intros c. rewrite M5. cbn [In]. split.
      * intros [H|H]; [|auto]. destruct (N.eq_dec c (b + 1)) as [->|]; [auto|left; lia].
      * intros [H|[H|H]]; [left; lia|left; lia|auto].
    + destruct (IH x x ltac:(lia) F1 S1 F2) as (M1 & [D1 D2] & M3 & M4 & M5). split; [discriminate|]. split; [split|].
      * constructor; [exact D1|]. eapply Forall_impl; [|exact M4]. cbn. intros; lia.
      * constructor; [exact Hab|exact D2].
      * split; [constructor; [exact Hb|exact M3]|]. split; [constructor; [cbn; lia|]; eapply Forall_impl; [|exact M4]; cbn; intros; lia|].
        intros c. split.
        -- intros (e & [<-|He] & H); [left; exact H|]. right. destruct (proj1 (M5 c)) as [G|G]; [exists e; auto|left; lia|right; exact G].
        -- intros [H|H]; [exists (a, b); split; [left; reflexivity|exact H]|]. destruct (proj2 (M5 c)) as (e & He & G); [destruct H as [->|H]; [left; lia|right; exact H]|].
           exists e. split; [right; exact He|exact G].
Qed.
Lemma compress_none l : l <> [] -> StronglySorted N.lt l -> Forall (fun c => c <= 0x10FFFF) l ->
  let m := compress None l in
  m <> [] /\ disjoint_sorted m /\ Forall (fun e => snd e <= 0x10FFFF) m /\ forall c, (exists e, In e m /\ fst e <= c <= snd e) <-> In c l.
Proof.
  intros Hne Hs Hf. destruct l as [|x l]; [contradiction|]. cbn [compress]. inversion_clear Hf as [|? ? F1 F2].
  destruct (compress_ok l x x ltac:(lia) F1 Hs F2) as (M1 & M2 & M3 & _ & M5). cbv zeta. repeat (split; [assumption|]). intros c. rewrite M5. cbn [In]. split; (intros [H|H]; [left; lia|right; exact H]).
Qed.

(** ** loadBidiMirroringGlyph *)
Lemma pinsert_perm k l : Permutation (pinsert k l) (k :: l).
Proof. induction l as [|x l IH]; cbn [pinsert]; [reflexivity|]. destruct (pair_less x k); [|reflexivity]. rewrite IH. apply perm_swap. Qed.
Lemma psort_perm l : Permutation (psort l) l.
Proof. unfold psort. induction l as [|x l IH]; cbn [fold_right]; [reflexivity|]. rewrite pinsert_perm. now rewrite IH. Qed.
Lemma pinsert_sorted k l : strictly_sorted fst l -> ~ In (fst k) (map fst l) -> strictly_sorted fst (pinsert k l).
Proof.
  unfold strictly_sorted. induction 1 as [|x l Hs IH Hx]; intros Hn; cbn [pinsert]; [constructor; constructor|]. cbn [map In] in Hn.
  assert (Hk : fst x <> fst k) by tauto. unfold pair_less. destruct (N.ltb_spec (fst x) (fst k)) as [H|H].
  - cbn [orb]. constructor; [apply IH; tauto|]. eapply Permutation_Forall; [symmetry; apply pinsert_perm|]. constructor; [lia|exact Hx].
  - destruct (N.eqb_spec (fst x) (fst k)) as [E|_]; [contradiction|]. cbn [orb andb]. constructor; [constructor; assumption|]. constructor; [lia|].
    eapply Forall_impl; [|exact Hx]. cbn beta. intros; lia.
Qed.
Lemma psort_sorted l : NoDup (map fst l) -> strictly_sorted fst (psort l).
Proof.
  unfold psort. induction l as [|x l IH]; cbn [fold_right map]; intros H; [constructor|]. inversion_clear H as [|? ? N1 N2]. apply pinsert_sorted; [auto|].
  intros H. apply N1. change (In (fst x) (map fst (psort l))) in H. eapply Permutation_in; [|exact H]. apply Permutation_map, psort_perm.
Qed.
Lemma load_mirroring_data crlf f : mirror_file f -> load_mirroring (file_text st_text crlf f) =
  psort (map (fun l => (span_first (st_span l), parse_codepoint (st_prop l))) (data f)).
Proof.
  intros Hok. unfold load_mirroring. f_equal. etransitivity; [|exact (flat_map_single (fun l => (span_first (st_span l), parse_codepoint (st_prop l))) (data f))].
  etransitivity; [|apply (standard_flat (fun _ r => [(fst (fst r), parse_codepoint (snd r))]) (fun l => [(span_first (st_span l), parse_codepoint (st_prop l))]) crlf _ f Hok)].
  - apply flat_map_ext'. intros line. now destruct (parse_standard_line line) as [[[a b] p]|].
  - intros a (c & t & H). apply H.
  - intros a _. cbn [range_of fst snd]. reflexivity.
Qed.
