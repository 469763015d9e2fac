(** Lemmas for T_UcdApi2.v: blocks, script extensions, mirroring, ages. *)
From Coq Require Import Ascii String Permutation Sorted.
From Verif Require Import Base M_TableGen M_PropGen M_UcdApi M_Tables Spec_Tables Spec_TableGen Spec_PropGen Spec_UcdApi
  P_Tables P_TableGen P_TableGen2 P_TableGen3 P_TableGen8 P_PropGen P_PropGen2 P_PropGen3 P_PropGen4 P_PropGen5 P_PropGen6 P_UcdApi P_UcdApi2 P_UcdApi3 P_UcdApi4.
Open Scope N_scope.

(** ** Blocks *)
Lemma is_range_exact l crlf : st_ok l -> is_range (st_text l ++ eol crlf) = match st_span l with Span _ _ => true | One _ => false end.
Proof.
  intros [Hs [Hc [Hh Hq0]]]. assert (Hq : forall q r, st_comment l = Some q -> q <> r ++ [ch_cr]).
  { intros q r E ->. apply (Hq0 _ E). apply in_or_app. right. left. reflexivity. }
  unfold is_range. destruct (span_head (st_span l)) as [x [s [Es [Hw Hx]]]].
  rewrite eol_cut.
  2:{ intros r E. unfold st_text in E. destruct (st_comment l) as [q|] eqn:Eq; cbn [comment_text] in E.
      - destruct (list_eq_dec N.eq_dec q []) as [->|Hne].
        + rewrite !app_assoc in E. apply app_inj_tail in E. destruct E as [_ E]. discriminate.
        + destruct (exists_last Hne) as [q' [z Ez]]. subst q. apply (Hq (q' ++ [z]) q' eq_refl). f_equal.
          rewrite !app_assoc in E. change (ch_hash :: q' ++ [z]) with ((ch_hash :: q') ++ [z]) in E. rewrite app_assoc in E. apply app_inj_tail in E. destruct E as [_ ->]. reflexivity.
      - rewrite app_nil_r in E. destruct (st_gap2 l) as [|g].
        + cbn [spaces repeat] in E. rewrite app_nil_r in E. destruct (list_eq_dec N.eq_dec (st_prop l) []) as [En|Hne].
          * rewrite En, app_nil_r in E. destruct (st_gap1 l) as [|g'].
            -- cbn [spaces repeat] in E. rewrite app_nil_r, app_assoc in E. apply app_inj_tail in E. destruct E as [_ E]. discriminate.
            -- unfold spaces in E. replace (S g') with (g' + 1)%nat in E by lia. rewrite repeat_app, !app_assoc in E. apply app_inj_tail in E. destruct E as [_ E]. discriminate.
          * destruct (exists_last Hne) as [q' [z Ez]]. rewrite Ez, !app_assoc in E. apply app_inj_tail in E. destruct E as [_ ->].
            destruct Hc as [_ Hc]. apply (Hc ch_cr q' Ez). unfold white, ch_cr. auto.
        + unfold spaces in E. replace (S g) with (g + 1)%nat in E by lia. rewrite repeat_app, !app_assoc in E. apply app_inj_tail in E. destruct E as [_ E]. discriminate. }
  set (body := span_text (st_span l) ++ spaces (st_gap l) ++ lit ";" ++ spaces (st_gap1 l) ++ st_prop l ++ spaces (st_gap2 l)).
  assert (Hb : ~ In ch_hash body).
  { subst body. intros H. repeat (apply in_app_or in H; destruct H as [H|H]).
    - revert H. apply span_not; notnum.
    - apply repeat_spec in H. discriminate.
    - destruct H as [H|[]]. discriminate.
    - apply repeat_spec in H. discriminate.
    - exact (Hh H).
    - apply repeat_spec in H. discriminate. }
  assert (Ecut : match find_char ch_hash (st_text l) with Some i => firstn i (st_text l) | None => st_text l end = body).
  { assert (Et : st_text l = body ++ comment_text (st_comment l)) by (unfold st_text, body; rewrite <- !app_assoc; reflexivity). rewrite Et.
    destruct (st_comment l) as [q|]; cbn [comment_text]; [rewrite find_char_app, firstn_len by exact Hb; reflexivity|].
    rewrite app_nil_r, find_char_none by exact Hb. reflexivity. }
  rewrite Ecut. subst body. rewrite (app_assoc (span_text _)). change (lit ";" ++ ?y) with (ch_semi :: y). rewrite find_char_app.
  2:{ intros H. apply in_app_or in H. destruct H as [H|H]; [revert H; apply span_not; notnum|apply repeat_spec in H; discriminate]. }
  rewrite firstn_len.
  rewrite trim_back by apply white_spaces. rewrite trim_id by (apply clean_no_white, span_no_white).
  destruct (st_span l) as [c|a b]; cbn [span_text].
  - rewrite find_dots_none by (apply hexs_not; notnum). reflexivity.
  - change (lit ".." ++ hexs b) with (ch_dot :: ch_dot :: hexs b). rewrite find_dots_app by (apply hexs_not; notnum). reflexivity.
Qed.
Definition spanb (l : stline) : bool := match st_span l with Span _ _ => true | One _ => false end.
Lemma load_blocks_data crlf f : lines_ok st_ok f -> load_blocks (file_text st_text crlf f) = map (fun l => range_of l (st_prop l)) (filter spanb (data f)).
Proof.
  intros Hok. unfold load_blocks. transitivity (flat_map (fun l => if spanb l then [range_of l (st_prop l)] else []) (data f)).
  - etransitivity; [|apply (standard_flat (fun line r => if is_range line then [(fst r, trim (snd r))] else []) (fun l => if spanb l then [range_of l (st_prop l)] else []) crlf st_ok f Hok (fun a H => H))].
    + apply flat_map_ext'. intros line. now destruct (parse_standard_line line) as [[[a b] p]|].
    + intros a Ha. rewrite is_range_exact by exact Ha. unfold spanb. destruct (st_span a); [reflexivity|]. cbn [range_of fst snd]. rewrite trim_id; [reflexivity|apply Ha].
  - induction (data f) as [|l ls IH]; [reflexivity|]. cbn [flat_map filter]. rewrite IH. now destruct (spanb l).
Qed.

(** ** Script extensions *)
Definition not_space (w : str) : Prop := Forall (fun c => is_space c = false) w.
Lemma tokens_word cur w s : not_space w -> tokens cur (w ++ s) = tokens (rev w ++ cur) s.
Proof.
  revert cur. induction w as [|c w IH]; intros cur Hw; [reflexivity|]. inversion_clear Hw as [|? ? Hc Hw']. cbn [app tokens]. rewrite Hc, IH by exact Hw'.
  cbn [rev]. now rewrite <- app_assoc.
Qed.
Lemma tokens_join ws : Forall (fun w => w <> [] /\ not_space w) ws -> tokens [] (join (spaces 1) ws) = ws.
Proof.
  induction ws as [|w ws IH]; intros H; [reflexivity|]. inversion_clear H as [|? ? [Hne Hw] Hr].
  assert (Hrev : match rev w with [] => [] | _ => [rev (rev w)] end = [w]).
  { destruct (rev w) as [|c r] eqn:E; [apply (f_equal (@rev N)) in E; rewrite rev_involutive in E; contradiction|]. f_equal. rewrite <- E. apply rev_involutive. }
  destruct ws as [|w' ws].
  - cbn [join]. rewrite <- (app_nil_r w) at 1. rewrite tokens_word by exact Hw. rewrite app_nil_r. cbn [tokens]. exact Hrev.
  - cbn [join] in *. rewrite tokens_word by exact Hw. rewrite app_nil_r. change (spaces 1 ++ ?x) with (32 :: x). cbn [tokens]. change (is_space 32) with true. cbv iota. rewrite IH by exact Hr.
    destruct (rev w) as [|c r]; [discriminate Hrev|]. etransitivity; [|exact (f_equal (fun z => z ++ w' :: ws) Hrev)]. reflexivity.
Qed.
Lemma sinsert_perm k l : Permutation (sinsert k l) (k :: l).
Proof. induction l as [|x l IH]; cbn [sinsert]; [reflexivity|]. destruct (str_ltb x k); [|reflexivity]. rewrite IH. apply perm_swap. Qed.
Lemma ssort_perm l : Permutation (ssort l) l.
Proof. unfold ssort. induction l as [|x l IH]; cbn [fold_right]; [reflexivity|]. rewrite sinsert_perm. now rewrite IH. Qed.

Definition under (ws : list str) : str := concat (map (fun w => 95 :: w) ws).
Lemma sce_key_eq ws : sce_key ws = lit "sce" ++ under ws.
Proof.
  unfold sce_key. assert (G : forall k, fold_left (fun k s => k ++ lit "_" ++ s) ws k = k ++ under ws).
  { induction ws as [|w ws IH]; intros k; cbn [fold_left]; [unfold under; cbn; now rewrite app_nil_r|]. rewrite IH. unfold under. cbn [map concat]. change (lit "_" ++ w) with (95 :: w).
    now rewrite <- app_assoc. }
  apply G.
Qed.
Lemma cut_eq (c : N) (w w' t t' : str) : ~ In c w -> ~ In c w' -> (t = [] \/ exists r, t = c :: r) -> (t' = [] \/ exists r, t' = c :: r) -> w ++ t = w' ++ t' -> w = w' /\ t = t'.
Proof.
  revert w'. induction w as [|x w IH]; intros [|y w'] H H' Ht Ht' E; cbn [app] in E.
  - auto.
  - exfalso. destruct Ht as [->|[r ->]]; [discriminate E|]. injection E as -> _. apply H'. left. reflexivity.
  - exfalso. destruct Ht' as [->|[r ->]]; [discriminate E|]. injection E as -> _. apply H. left. reflexivity.
  - injection E as -> E. destruct (IH w') as [-> ->]; auto; intros G; [apply H|apply H']; right; exact G.
Qed.
Lemma under_inj ws ws' : Forall (without 95) ws -> Forall (without 95) ws' -> under ws = under ws' -> ws = ws'.
Proof.
  revert ws'. induction ws as [|w ws IH]; intros [|w' ws'] H H' E; [reflexivity|discriminate E|discriminate E|].
  unfold under in E. cbn [map concat] in E. injection E as E. inversion_clear H as [|? ? H1 H2]. inversion_clear H' as [|? ? H3 H4].
  assert (Hc : forall l : list str, concat (map (fun w => 95 :: w) l) = [] \/ exists r, concat (map (fun w => 95 :: w) l) = 95 :: r) by (intros [|z l]; [left; reflexivity|right; eexists; reflexivity]).
  destruct (cut_eq 95 w w' _ _ H1 H3 (Hc ws) (Hc ws') E) as [-> E']. f_equal. apply IH; assumption.
Qed.
Lemma sce_key_inj ws ws' : Forall (without 95) ws -> Forall (without 95) ws' -> sce_key ws = sce_key ws' -> ws = ws'.
Proof. rewrite !sce_key_eq. intros H H' E. apply app_inv_head in E. now apply under_inj. Qed.
(** the array a key refers to *)
Lemma sce_arrays_get al (sces : list sce_range) r : Forall (fun r => Forall (without 95) (snd r)) sces -> In r sces ->
  smap_get (sce_key (snd r)) (sce_arrays al sces) = Some (sce_names al (snd r)).
Proof.
  unfold sce_arrays. intros H Hin.
  assert (App : forall k (m : list (str * list str)) e, smap_get k (m ++ [e]) = match smap_get k m with Some v => Some v | None => if str_eqb k (fst e) then Some (snd e) else None end).
  { intros k m [k0 v0]. induction m as [|[k1 v1] m IH]; cbn [app smap_get fst snd]; [reflexivity|]. destruct (str_eqb k k1); [reflexivity|exact IH]. }
  assert (G : forall done, (forall ws a, Forall (without 95) ws -> smap_get (sce_key ws) done = Some a -> a = sce_names al ws) ->
    forall r, (In r sces \/ (smap_get (sce_key (snd r)) done <> None /\ Forall (without 95) (snd r))) ->
    smap_get (sce_key (snd r)) (fold_left (fun done r => match smap_get (sce_key (snd r)) done with Some _ => done | None => done ++ [(sce_key (snd r), sce_names al (snd r))] end) sces done) =
      Some (sce_names al (snd r))).
  { clear r Hin. induction H as [|x l Hx Hl IH]; intros done Hd r Hr; cbn [fold_left].
    - destruct Hr as [[]|[Hr Hw]]. destruct (smap_get (sce_key (snd r)) done) as [a|] eqn:E; [|contradiction]. f_equal. apply Hd; assumption.
    - destruct (smap_get (sce_key (snd x)) done) as [a|] eqn:Ex.
      + apply IH; [exact Hd|]. destruct Hr as [[->|Hr]|Hr]; [right; split; [congruence|exact Hx]|left; exact Hr|right; exact Hr].
      + apply IH.
        * intros ws a Hw E. rewrite App in E. destruct (smap_get (sce_key ws) done) as [a'|] eqn:E'; [injection E as <-; apply (Hd ws); assumption|].
          cbn [fst snd] in E. destruct (str_eqb_spec (sce_key ws) (sce_key (snd x))) as [K|]; [|discriminate]. injection E as <-. f_equal. symmetry. apply sce_key_inj; assumption.
        * destruct Hr as [[->|Hr]|[Hr Hw]].
          -- right. split; [|exact Hx]. rewrite App, Ex. cbn [fst]. rewrite str_eqb_refl. discriminate.
          -- left. exact Hr.
          -- right. split; [|exact Hw]. rewrite App. destruct (smap_get (sce_key (snd r)) done); [discriminate|contradiction]. }
  apply G; [intros ws a _ E; discriminate E|left; exact Hin].
Qed.
Lemma load_sce_data crlf f : lines_ok (fun l => exists ws, sce_line l ws) f ->
  load_sce (file_text st_text crlf f) = map (fun l => (fst (range_of l []), ssort (tokens [] (st_prop l)))) (data f).
Proof.
  intros Hok. unfold load_sce. etransitivity; [|exact (flat_map_single (fun l => (fst (range_of l []), ssort (tokens [] (st_prop l)))) (data f))].
  etransitivity; [|apply (standard_flat (fun _ r => [(fst r, ssort (tokens [] (trim (snd r))))]) (fun l => [(fst (range_of l []), ssort (tokens [] (st_prop l)))]) crlf _ f Hok)].
  - apply flat_map_ext'. intros line. now destruct (parse_standard_line line) as [[[a b] p]|].
  - intros a [ws H]. apply H.
  - intros a [ws H]. cbn [range_of fst snd]. rewrite trim_id; [reflexivity|]. destruct H as [[_ [H _]] _]. exact H.
Qed.
Lemma sce_tokens l ws : sce_line l ws -> tokens [] (st_prop l) = ws.
Proof.
  intros (_ & _ & -> & H). apply tokens_join. eapply Forall_impl; [|exact H]. cbn beta. intros w ([Hne _] & _ & Hs). split; assumption.
Qed.
