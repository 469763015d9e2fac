(** Lemmas for T_UcdApi.v: the grouped loaders. *)
From Coq Require Import Ascii String Permutation Sorted.
From Verif Require Import Base M_TableGen M_PropGen M_UcdApi M_Tables Spec_Tables Spec_TableGen Spec_PropGen Spec_UcdApi
  P_Tables P_TableGen P_TableGen2 P_TableGen8 P_PropGen P_PropGen2 P_PropGen3 P_PropGen4 P_PropGen5 P_PropGen6 P_UcdApi.
Open Scope N_scope.

Definition addto (o : option (list prange)) (rs : list prange) : option (list prange) :=
  match rs with [] => o | _ => Some (match o with Some l => l | None => [] end ++ rs) end.
Lemma addto_app o a b : addto (addto o a) b = addto o (a ++ b).
Proof. destruct a as [|x a]; [reflexivity|]. destruct b as [|y b]; cbn [addto]; [now rewrite app_nil_r|]. cbn [app]. now rewrite <- app_assoc. Qed.
Lemma addto_push k v m k' : smap_get k' (push k v m) = addto (smap_get k' m) (if str_eqb k' k then [v] else []).
Proof. rewrite push_get. destruct (str_eqb_spec k' k) as [->|]; reflexivity. Qed.
(** the lines of a file with property [k] *)
Definition of_value (k : str) (f : list (fline stline)) : list stline := filter (fun l => str_eqb k (st_prop l)) (data f).
Lemma of_value_cons k l f : of_value k (l :: f) = match l with Data a => if str_eqb k (st_prop a) then [a] else [] | _ => [] end ++ of_value k f.
Proof. unfold of_value. rewrite data_cons. destruct l as [a|s|s]; cbn [app filter]; [destruct (str_eqb k (st_prop a))|..]; reflexivity. Qed.
Lemma of_value_in k f l : In l (of_value k f) <-> has f l /\ st_prop l = k.
Proof.
  unfold of_value. rewrite filter_In, <- data_in. split; intros [A B]; (split; [exact A|]).
  - symmetry. now apply str_eqb_eq.
  - subst k. apply str_eqb_refl.
Qed.
Lemma parse_of (ok : stline -> Prop) crlf l : (forall a, ok a -> st_ok a) -> match l with Data a => ok a | Comment _ => True | Blank s => Forall white s end ->
  parse_standard_line (line_text st_text l ++ eol crlf) = parsed_line crlf l.
Proof. intros H G. apply parse_line. destruct l; auto. Qed.

Lemma load_emoji_get crlf f k : lines_ok word_line f ->
  smap_get k (load_emoji (file_text st_text crlf f)) = addto None (map (fun l => range_of l k) (of_value k f)).
Proof.
  intros Hf. unfold load_emoji.
  assert (G : forall m, smap_get k (fold_left load_emoji_line (file_text st_text crlf f) m) = addto (smap_get k m) (map (fun l => range_of l k) (of_value k f))).
  { induction f as [|l f IH]; intros m; [reflexivity|]. apply lines_cons in Hf as [Hl Hf]. rewrite file_text_cons. cbn [fold_left]. rewrite IH by exact Hf.
    rewrite of_value_cons, map_app, <- addto_app. f_equal. unfold load_emoji_line. rewrite (parse_of word_line crlf l word_line_ok Hl).
    destruct l as [l|s|s]; cbn [parsed_line]; [|reflexivity|reflexivity]. unfold range_of at 1. rewrite first_word_id by apply Hl.
    rewrite addto_push. f_equal. destruct (str_eqb_spec k (st_prop l)) as [E|]; [|reflexivity]. cbn [map]. now rewrite E. }
  apply G.
Qed.
Lemma load_core_get crlf f k : lines_ok core_line f -> word k ->
  smap_get k (fst (load_core (file_text st_text crlf f))) = addto None (map (fun l => range_of l []) (of_value k f)).
Proof.
  intros Hf Hk. unfold load_core.
  assert (G : forall m, smap_get k (fst (fold_left load_core_line (file_text st_text crlf f) m)) = addto (smap_get k (fst m)) (map (fun l => range_of l []) (of_value k f))).
  { induction f as [|l f IH]; intros m; [reflexivity|]. apply lines_cons in Hf as [Hl Hf]. rewrite file_text_cons. cbn [fold_left]. rewrite IH by exact Hf.
    rewrite of_value_cons, map_app, <- addto_app. f_equal. unfold load_core_line. destruct m as [core inc]. rewrite (parse_of core_line crlf l core_line_ok Hl).
    destruct l as [l|s|s]; cbn [parsed_line]; [|reflexivity|reflexivity]. unfold range_of at 1. destruct Hl as [Hok [Hw|(p & v & Hpw & Hvw & Ep)]].
    - rewrite find_char_none by apply Hw. rewrite first_word_id by exact Hw. cbn [fst]. rewrite addto_push. f_equal. destruct (str_eqb k (st_prop l)); reflexivity.
    - destruct (core_split p v Hpw Hvw) as (S1 & S2 & S3). rewrite Ep, S1, S2, S3.
      assert (N : str_eqb k (p ++ lit "; " ++ v) = false).
      { destruct (str_eqb_spec k (p ++ lit "; " ++ v)) as [E|]; [|reflexivity]. destruct Hk as (_ & _ & Hs & _). exfalso. apply Hs. rewrite E. apply in_or_app. right. left. reflexivity. }
      rewrite N. destruct (str_eqb p (lit "InCB")); reflexivity. }
  apply G.
Qed.

(** GraphemeBreakProperty.txt *)
Lemma find_sub_mentions p s n : find_sub p s = Some n -> mentions p s.
Proof.
  revert n. induction s as [|c s IH]; intros n; cbn [find_sub].
  - destruct p; cbn [starts_with]; [|discriminate]. intros _. exists [], []. reflexivity.
  - destruct (starts_with p (c :: s)) eqn:E.
    + intros _. clear IH. exists []. cbn [app]. revert E. generalize (c :: s). clear. induction p as [|x p IH]; intros t E; [exists t; reflexivity|].
      destruct t as [|y t]; [discriminate|]. cbn [starts_with] in E. apply andb_true_iff in E as [E1 E2]. apply N.eqb_eq in E1. subst y.
      destruct (IH t E2) as [v ->]. exists v. reflexivity.
    + destruct (find_sub p s) as [m|]; [|discriminate]. intros _. destruct (IH m eq_refl) as (u & v & ->). exists (c :: u), v. reflexivity.
Qed.
Lemma mentions_eol p s e : mentions p (s ++ e) -> (forall c, In c e -> ~ In c p) -> p <> [] -> mentions p s.
Proof.
  intros (u & v & E) He Hp. assert (H : (length u + length p <= length s)%nat \/ (length s < length u + length p)%nat) by lia. destruct H as [H|H].
  - exists u, (skipn (length u + length p) s). rewrite <- (firstn_skipn (length u + length p) s) at 1. rewrite app_assoc. f_equal.
    pose proof (f_equal (firstn (length u + length p)) E) as E'. rewrite app_assoc in E'. rewrite firstn_app in E'. replace (length u + length p - length s)%nat with O in E' by lia.
    cbn [firstn] in E'. rewrite app_nil_r in E'. rewrite E', <- app_length. rewrite firstn_app, firstn_all, Nat.sub_diag. cbn [firstn]. now rewrite app_nil_r.
  - exfalso. destruct (rev p) as [|c r] eqn:Er; [apply (f_equal (@rev N)) in Er; rewrite rev_involutive in Er; contradiction|].
    assert (Ep : p = rev r ++ [c]) by (rewrite <- (rev_involutive p), Er; reflexivity).
    apply (He c); [|rewrite Ep; apply in_or_app; right; left; reflexivity].
    pose proof (f_equal (fun x => nth_error x (length u + length p - 1)) E) as E'. cbn beta in E'. rewrite nth_error_app2 in E' by lia.
    assert (Ev : nth_error (u ++ p ++ v) (length u + length p - 1) = Some c).
    { rewrite nth_error_app2 by (rewrite Ep, app_length; cbn; lia). rewrite nth_error_app1 by (rewrite Ep, app_length; cbn; lia).
      rewrite Ep, nth_error_app2 by (rewrite !app_length; cbn; lia). rewrite app_length. cbn [length].
      replace (length u + (length (rev r) + 1) - 1 - length u - length (rev r))%nat with O by lia. reflexivity. }
    rewrite Ev in E'. apply nth_error_In in E'. exact E'.
Qed.
Lemma mentions_hash p s c : mentions p (c :: s) -> ~ In c p -> p <> [] -> mentions p s.
Proof.
  intros (u & v & E) Hc Hp. destruct u as [|x u].
  - destruct p as [|y p]; [contradiction|]. injection E as -> E. exfalso. apply Hc. left. reflexivity.
  - injection E as _ E. exists u, v. exact E.
Qed.
Lemma starts_app p s : starts_with p (p ++ s) = true.
Proof. induction p as [|c p IH]; [reflexivity|]. cbn [app starts_with]. now rewrite N.eqb_refl. Qed.
Definition PROP : str := lit "Property".
Lemma grouped_plain crlf g m s : ~ mentions (lit "Property:") s -> load_grouped_line PROP (g, m) ((ch_hash :: s) ++ eol crlf) = (g, m).
Proof.
  intros H. unfold load_grouped_line. destruct (trim_hash s (eol crlf) (eol_white crlf)) as [q [E _]]. rewrite E. cbn [N.eqb].
  replace (ch_hash =? ch_hash) with true by reflexivity.
  change (PROP ++ [58]) with (lit "Property:"). destruct (find_sub (lit "Property:") ((ch_hash :: s) ++ eol crlf)) as [n|] eqn:F; [|reflexivity].
  exfalso. apply H. apply find_sub_mentions in F. apply mentions_eol in F; [| |discriminate].
  - apply mentions_hash in F; [exact F| |discriminate]. unfold lit, ch_hash. cbn. intuition discriminate.
  - destruct crlf; cbn [eol]; [|intros ? []]. intros c [<-|[]]. unfold lit, ch_cr. cbn. intuition discriminate.
Qed.
Lemma grouped_blank crlf g m s : Forall white s -> load_grouped_line PROP (g, m) (s ++ eol crlf) = (g, m).
Proof.
  intros H. unfold load_grouped_line. rewrite (proj2 (proj2 (standard_skip crlf s)) H).
  rewrite trim_white; [reflexivity|]. apply Forall_app. split; [exact H|apply eol_white].
Qed.
Lemma grouped_data crlf g m l : word_line l -> load_grouped_line PROP (g, m) (st_text l ++ eol crlf) = (g, push g (range_of l (st_prop l)) m).
Proof.
  intros Hl. unfold load_grouped_line. destruct (st_head crlf l (word_line_ok _ Hl)) as [c [t [Et Hc]]]. rewrite Et.
  rewrite (proj2 (N.eqb_neq _ _) Hc), standard_exact by apply Hl. unfold range_of. rewrite first_word_id by apply Hl. reflexivity.
Qed.
Lemma grouped_header crlf g m sep name : Forall white sep -> word name ->
  load_grouped_line PROP (g, m) ((ch_hash :: lit " Property:" ++ sep ++ name) ++ eol crlf) = (name, match smap_get name m with Some _ => m | None => smap_set name [] m end).
Proof.
  intros Hs Hn. unfold load_grouped_line. destruct (trim_hash (lit " Property:" ++ sep ++ name) (eol crlf) (eol_white crlf)) as [q [E _]]. rewrite E.
  replace (ch_hash =? ch_hash) with true by reflexivity. change (PROP ++ [58]) with (lit "Property:").
  assert (F : find_sub (lit "Property:") ((ch_hash :: lit " Property:" ++ sep ++ name) ++ eol crlf) = Some 2%nat).
  { change ((ch_hash :: lit " Property:" ++ sep ++ name) ++ eol crlf) with (35 :: 32 :: lit "Property:" ++ ((sep ++ name) ++ eol crlf)).
    generalize ((sep ++ name) ++ eol crlf). intros t. reflexivity. }
  rewrite F. cbn [app]. replace (ch_hash =? ch_hash) with true by reflexivity.
  assert (Eg : first_word (trim (skipn (2 + length PROP + 1) (ch_hash :: (lit " Property:" ++ sep ++ name) ++ eol crlf))) = name).
  { unfold first_word. assert (T : trim (skipn (2 + length PROP + 1) (ch_hash :: (lit " Property:" ++ sep ++ name) ++ eol crlf)) = name).
    { change (skipn (2 + length PROP + 1) (ch_hash :: (lit " Property:" ++ sep ++ name) ++ eol crlf)) with ((sep ++ name) ++ eol crlf).
      rewrite trim_back by apply eol_white. unfold trim. rewrite drop_front_app by now apply ws_forall. exact (trim_id name (word_clean name Hn)). }
    rewrite T. exact (first_word_id name Hn). }
  rewrite Eg. reflexivity.
Qed.
