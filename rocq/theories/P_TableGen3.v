(** CaseFolding.txt and SpecialCasing.txt. *)
From Coq Require Import Ascii String Permutation.
From Verif Require Import Base M_Tables M_Normalize M_Case M_TableGen Spec_Tables Spec_TableGen P_Tables P_TableGen P_TableGen2.
Open Scope N_scope.

Lemma cps_not l c : ~ numchar c -> c <> ch_space -> ~ In c (cps_text l).
Proof. intros H1 H2 H. pose proof (cps_chars l) as G. rewrite Forall_forall in G. destruct (G c H); contradiction. Qed.
Lemma hexs_not n c : ~ numchar c -> ~ In c (hexs n).
Proof. apply num_not, hexs_chars. Qed.
Ltac notnum := unfold numchar, ch_semi, ch_hash, ch_space, ch_dot; lia.

Definition cf_simple (c : cfline) : option N := match cf_status c, cf_map c with FC, [x] | FS, [x] => Some x | _, _ => None end.
Definition cf_full (c : cfline) : option (list N) := match cf_status c with FC | FF => Some (cf_map c) | _ => None end.
Lemma status_no_semi s : ~ In ch_semi (status_text s).
Proof. destruct s; intros [H|[]]; discriminate. Qed.
Lemma load_cf simple full c crlf : cf_ok c -> load_folding_line (simple, full) (cf_text c ++ eol crlf) =
  (set_opt (cf_cp c) (cf_simple c) simple, set_opt (cf_cp c) (cf_full c) full).
Proof.
  intros [Hcp [Hm Hs]]. unfold load_folding_line. destruct (hexs_head (cf_cp c)) as [x [r [Ex [Hw Hh]]]].
  destruct (trim_keep x (r ++ lit "; " ++ status_text (cf_status c) ++ lit "; " ++ cps_text (cf_map c) ++ lit "; ") ch_hash (spaces 1 ++ cf_comment c ++ eol crlf) Hw hash_not_white) as [t' Et].
  assert (El : cf_text c ++ eol crlf = x :: (r ++ lit "; " ++ status_text (cf_status c) ++ lit "; " ++ cps_text (cf_map c) ++ lit "; ") ++ ch_hash :: spaces 1 ++ cf_comment c ++ eol crlf).
  { unfold cf_text. rewrite Ex. change (lit "; # ") with (lit "; " ++ ch_hash :: spaces 1). cbn [app]. rewrite <- !app_assoc. cbn [app]. rewrite <- ?app_assoc. reflexivity. }
  rewrite El, Et. clear El Et.
  assert (Esp : split_semi (x :: (r ++ lit "; " ++ status_text (cf_status c) ++ lit "; " ++ cps_text (cf_map c) ++ lit "; ") ++ ch_hash :: t') =
     hexs (cf_cp c) :: (spaces 1 ++ status_text (cf_status c)) :: (spaces 1 ++ cps_text (cf_map c)) :: split_semi (spaces 1 ++ ch_hash :: t')).
  { replace (x :: (r ++ lit "; " ++ status_text (cf_status c) ++ lit "; " ++ cps_text (cf_map c) ++ lit "; ") ++ ch_hash :: t')
      with (hexs (cf_cp c) ++ ch_semi :: (spaces 1 ++ status_text (cf_status c)) ++ ch_semi :: (spaces 1 ++ cps_text (cf_map c)) ++ ch_semi :: spaces 1 ++ ch_hash :: t').
    2:{ rewrite Ex. change (lit "; ") with (ch_semi :: spaces 1). cbn [app]. rewrite <- !app_assoc. cbn [app]. rewrite <- !app_assoc. cbn [app]. rewrite <- ?app_assoc. reflexivity. }
    rewrite split_cons by (apply hexs_not; notnum).
    rewrite split_cons by (intros [H|H]; [discriminate|exact (status_no_semi _ H)]).
    rewrite split_cons by (intros [H|H]; [discriminate|revert H; apply cps_not; notnum]). reflexivity. }
  rewrite Esp. cbv iota zeta beta. destruct (N.eqb_spec x ch_hash); [contradiction|]. cbn [length]. cbn [Nat.ltb Nat.leb orb]. cbv iota.
  cbn [field nth]. rewrite parse_hexs0 by exact Hcp. rewrite (trim_front (spaces 1)) by apply white_spaces.
  assert (Hst : trim (status_text (cf_status c)) = status_text (cf_status c)) by (destruct (cf_status c); reflexivity). rewrite Hst.
  pose proof (parse_cps 1 (cf_map c) 0 Hm) as Pm. cbn [spaces repeat] in Pm. rewrite app_nil_r in Pm. change [ch_space] with (spaces 1) in Pm. rewrite Pm.
  unfold cf_simple, cf_full, set_opt. destruct (cf_status c); cbn [status_text];
    match goal with |- context [str_eqb (lit ?a) (lit "C")] => let y := eval vm_compute in (str_eqb (lit a) (lit "C")) in change (str_eqb (lit a) (lit "C")) with y end;
    match goal with |- context [str_eqb (lit ?a) (lit "S")] => let y := eval vm_compute in (str_eqb (lit a) (lit "S")) in change (str_eqb (lit a) (lit "S")) with y end;
    match goal with |- context [str_eqb (lit ?a) (lit "F")] => let y := eval vm_compute in (str_eqb (lit a) (lit "F")) in change (str_eqb (lit a) (lit "F")) with y end; cbv iota.
  - destruct (cf_map c) as [|y [|z l]]; try discriminate. reflexivity.
  - destruct (cf_map c) as [|y [|z l]]; try discriminate. reflexivity.
  - reflexivity.
  - destruct (cf_map c) as [|y [|z l]]; reflexivity.
Qed.
Lemma load_cf_skip d crlf s : load_folding_line d ((ch_hash :: s) ++ eol crlf) = d /\ (Forall white s -> load_folding_line d (s ++ eol crlf) = d).
Proof.
  destruct d as [d1 d2]. split.
  - unfold load_folding_line. cbn [app]. destruct (trim_head ch_hash (s ++ eol crlf) hash_not_white) as [s' ->]. rewrite N.eqb_refl. reflexivity.
  - intros H. unfold load_folding_line. rewrite trim_white; [reflexivity|]. apply Forall_app. split; [exact H|apply eol_white].
Qed.
(** entries contributed by data lines *)
Definition data_entry {A V} (key : A -> N) (get : A -> option V) (l : fline A) : option (N * V) :=
  match l with Data a => option_map (pair (key a)) (get a) | _ => None end.
Lemma set_data_entry {A V} key (get : A -> option V) m a : set_entry (data_entry key get) m (Data a) = set_opt (key a) (get a) m.
Proof. unfold set_entry, data_entry, set_opt. destruct (get a); reflexivity. Qed.
Lemma data_table {A V} key (get : A -> option V) f :
  strictly_sorted fst (fold_left (set_entry (data_entry key get)) f []) /\
  ((forall a b v v', has f a -> has f b -> key a = key b -> get a = Some v -> get b = Some v' -> v = v') ->
   forall k v, In (k, v) (fold_left (set_entry (data_entry key get)) f []) <-> exists a, has f a /\ key a = k /\ get a = Some v).
Proof.
  destruct (fold_entries (data_entry key get) f) as [H1 H2]. split; [exact H1|]. intros Hu k v. rewrite H2.
  - split.
    + intros [[u|s|s] [Hl E]]; try discriminate. exists u. split; [exact Hl|]. unfold data_entry in E. destruct (get u) eqn:G; [|discriminate].
      cbn [option_map] in E. inversion E; subst. auto.
    + intros [u [Hl [<- E]]]. exists (Data u). split; [exact Hl|]. unfold data_entry. rewrite E. reflexivity.
  - intros [a| |] [b| |] k0 v0 v1 Ha Hb Ea Eb; try discriminate. unfold data_entry in Ea, Eb.
    destruct (get a) eqn:Ga; [|discriminate]. destruct (get b) eqn:Gb; [|discriminate]. cbn [option_map] in *. inversion Ea; inversion Eb; subst.
    apply (Hu a b); auto.
Qed.
Lemma folding_file crlf f : lines_ok cf_ok f -> load_case_folding (file_text cf_text crlf f) =
  (fold_left (set_entry (data_entry cf_cp cf_simple)) f [], fold_left (set_entry (data_entry cf_cp cf_full)) f []).
Proof.
  intros Hok. unfold load_case_folding, file_text. rewrite fold_map.
  set (F := fun s k => load_folding_line s (line_text cf_text k ++ (if crlf then [ch_cr] else []))).
  assert (HF : forall d l, In l f -> F d l = (set_entry (data_entry cf_cp cf_simple) (fst d) l, set_entry (data_entry cf_cp cf_full) (snd d) l)).
  { intros [d1 d2] l Hl. specialize (Hok l Hl). subst F. cbv beta. change (if crlf then [ch_cr] else []) with (eol crlf). destruct l as [u|s|s]; cbn [line_text fst snd].
    - rewrite !set_data_entry. apply load_cf, Hok.
    - exact (proj1 (load_cf_skip (d1, d2) crlf s)).
    - exact (proj2 (load_cf_skip (d1, d2) crlf s) Hok). }
  rewrite (surjective_pairing (fold_left F f ([], []))).
  rewrite (fold_proj F (set_entry (data_entry cf_cp cf_simple)) fst f (fun d l H => f_equal fst (HF d l H)) ([], [])).
  rewrite (fold_proj F (set_entry (data_entry cf_cp cf_full)) snd f (fun d l H => f_equal snd (HF d l H)) ([], [])). reflexivity.
Qed.

(** ** SpecialCasing.txt *)
Definition sp_entry (simple : list (N * N)) (cp : N) (l : list N) : option (list N) :=
  match l with [] => None | [x] => if x =? simple_or_self simple cp then None else Some l | _ => Some l end.
Lemma store_special_opt simple cp l m : store_special simple cp l m = set_opt cp (sp_entry simple cp l) m.
Proof. unfold store_special, sp_entry, set_opt. destruct l as [|x [|y l]]; try reflexivity. destruct (x =? simple_or_self simple cp); reflexivity. Qed.
Lemma count_app c a b : count_char c (a ++ b) = (count_char c a + count_char c b)%nat.
Proof. unfold count_char. rewrite filter_app, app_length. reflexivity. Qed.
Lemma count_none c a : ~ In c a -> count_char c a = 0%nat.
Proof.
  unfold count_char. induction a as [|x a IH]; intros H; [reflexivity|]. cbn [filter].
  destruct (N.eqb_spec c x) as [->|]; [exfalso; apply H; left; reflexivity|]. apply IH. intros G; apply H; right; exact G.
Qed.
Lemma load_sc d m s crlf : sc_ok s -> load_special_line d m (sc_text s ++ eol crlf) =
  match sc_condition s with
  | Some _ => m
  | None => mkSp (set_opt (sc_cp s) (sp_entry (d_lower d) (sc_cp s) (sc_lower s)) (sp_lower m))
                 (set_opt (sc_cp s) (sp_entry (d_title d) (sc_cp s) (sc_title s)) (sp_title m))
                 (set_opt (sc_cp s) (sp_entry (d_upper d) (sc_cp s) (sc_upper s)) (sp_upper m))
  end.
Proof.
  intros [Hcp [Hm [_ Hs]]]. apply Forall_app in Hm. destruct Hm as [Hl Hm]. apply Forall_app in Hm. destruct Hm as [Ht Hu].
  unfold load_special_line. destruct (hexs_head (sc_cp s)) as [x [r [Ex [Hw Hh]]]].
  set (cond := match sc_condition s with Some c => c ++ lit "; " | None => [] end).
  set (body := ch_semi :: (spaces 1 ++ cps_text (sc_lower s)) ++ ch_semi :: (spaces 1 ++ cps_text (sc_title s)) ++ ch_semi :: (spaces 1 ++ cps_text (sc_upper s)) ++ ch_semi :: spaces 1 ++ cond).
  destruct (trim_keep x (r ++ body) ch_hash (spaces 1 ++ sc_comment s ++ eol crlf) Hw hash_not_white) as [t' Et].
  assert (El : sc_text s ++ eol crlf = x :: (r ++ body) ++ ch_hash :: spaces 1 ++ sc_comment s ++ eol crlf).
  { unfold sc_text. fold cond. rewrite Ex. subst body. change (lit "# ") with (ch_hash :: spaces 1). change (lit "; ") with (ch_semi :: spaces 1). cbn [app].
    repeat (rewrite <- ?app_assoc; cbn [app]). reflexivity. }
  rewrite El, Et. clear El Et.
  assert (Eh : x :: (r ++ body) ++ ch_hash :: t' = hexs (sc_cp s) ++ body ++ ch_hash :: t') by (rewrite Ex; cbn [app]; rewrite <- app_assoc; reflexivity).
  assert (Hcnum : forall l, ~ In ch_semi (spaces 1 ++ cps_text l)) by (intros l [H|H]; [discriminate|revert H; apply cps_not; notnum]).
  assert (Esp : exists g gs, split_semi (x :: (r ++ body) ++ ch_hash :: t') =
     hexs (sc_cp s) :: (spaces 1 ++ cps_text (sc_lower s)) :: (spaces 1 ++ cps_text (sc_title s)) :: (spaces 1 ++ cps_text (sc_upper s)) :: g :: gs).
  { rewrite Eh. subst body. cbn [app]. rewrite split_cons by (apply hexs_not; notnum).
    change (ch_space :: cps_text ?l) with (spaces 1 ++ cps_text l).
    rewrite <- !app_assoc. cbn [app]. change (ch_space :: cps_text ?l ++ ?y) with (spaces 1 ++ cps_text l ++ y). rewrite (app_assoc (spaces 1)), split_cons by apply Hcnum.
    rewrite <- ?app_assoc. cbn [app]. change (ch_space :: cps_text ?l ++ ?y) with (spaces 1 ++ cps_text l ++ y). rewrite (app_assoc (spaces 1)), split_cons by apply Hcnum.
    rewrite <- ?app_assoc. cbn [app]. change (ch_space :: cps_text ?l ++ ?y) with (spaces 1 ++ cps_text l ++ y). rewrite (app_assoc (spaces 1)), split_cons by apply Hcnum.
    match goal with |- context [split_semi ?z] => destruct (split_semi z) as [|g gs] eqn:E; [exfalso; exact (split_ne _ E)|exists g, gs; reflexivity] end. }
  destruct Esp as [g [gs Esp]]. rewrite Esp. cbv iota zeta beta. destruct (N.eqb_spec x ch_hash); [contradiction|]. cbn [length].
  change (S (S (S (S (S (length gs))))) <? 4)%nat with false. cbn [orb]. cbv iota.
  assert (Hno : ~ In ch_hash (hexs (sc_cp s) ++ body)).
  { intros H. apply in_app_or in H. destruct H as [H|H]; [revert H; apply hexs_not; notnum|]. subst body.
    repeat match type of H with context [ch_semi :: ?a] => lazymatch a with [] => fail | _ => change (ch_semi :: a) with ([ch_semi] ++ a) in H end end.
    rewrite !in_app_iff in H.
    assert (Q1 : ~ In ch_hash [ch_semi]) by (intros [X|[]]; discriminate).
    assert (Q2 : ~ In ch_hash (spaces 1)) by (intros [X|[]]; discriminate).
    assert (Q3 : forall l, ~ In ch_hash (cps_text l)) by (intros l; apply cps_not; notnum).
    assert (Q4 : In ch_hash cond) by (pose proof (Q3 (sc_lower s)); pose proof (Q3 (sc_title s)); pose proof (Q3 (sc_upper s)); tauto).
    clear H. rename Q4 into H.
    subst cond. destruct (sc_condition s) as [c|]; [|destruct H]. apply in_app_or in H. destruct H as [H|[H|[H|[]]]]; [exact (proj2 Hs H)|discriminate|discriminate]. }
  assert (Ef : find_char ch_hash (x :: (r ++ body) ++ ch_hash :: t') = Some (length (hexs (sc_cp s) ++ body))).
  { rewrite Eh, app_assoc. apply find_char_app, Hno. }
  rewrite Ef. rewrite Eh, app_assoc, firstn_len.
  assert (Ec : count_char ch_semi (hexs (sc_cp s) ++ body) = (4 + count_char ch_semi cond)%nat).
  { subst body. rewrite count_app, (count_none _ (hexs _)) by (apply hexs_not; notnum).
    repeat match goal with |- context [ch_semi :: ?a] => lazymatch a with [] => fail | _ => change (ch_semi :: a) with ([ch_semi] ++ a) end end.
    rewrite !count_app.
    rewrite !(count_none _ (cps_text _)) by (apply cps_not; notnum).
    change (count_char ch_semi [ch_semi]) with 1%nat. change (count_char ch_semi (spaces 1)) with 0%nat. lia. }
  rewrite Ec. subst cond. destruct (sc_condition s) as [c|].
  - rewrite count_app. change (count_char ch_semi (lit "; ")) with 1%nat. replace (4 <? 4 + (count_char ch_semi c + 1))%nat with true by (symmetry; apply Nat.ltb_lt; lia). reflexivity.
  - change (count_char ch_semi []) with 0%nat. change (4 <? 4 + 0)%nat with false. cbv iota. cbn [field nth]. rewrite parse_hexs0 by exact Hcp.
    assert (P : forall l, Forall cp_ok l -> parse_codepoints (spaces 1 ++ cps_text l) = l).
    { intros l H. pose proof (parse_cps 1 l 0 H) as G. cbn [spaces repeat] in G. rewrite app_nil_r in G. exact G. }
    rewrite !P, !store_special_opt by assumption. reflexivity.
Qed.
Lemma load_sc_skip u d crlf s : load_special_line u d ((ch_hash :: s) ++ eol crlf) = d /\ (Forall white s -> load_special_line u d (s ++ eol crlf) = d).
Proof.
  split.
  - unfold load_special_line. cbn [app]. destruct (trim_head ch_hash (s ++ eol crlf) hash_not_white) as [s' ->]. rewrite N.eqb_refl. reflexivity.
  - intros H. unfold load_special_line. rewrite trim_white; [reflexivity|]. apply Forall_app. split; [exact H|apply eol_white].
Qed.
Definition sc_get (simple : list (N * N)) (get : scline -> list N) (s : scline) : option (list N) :=
  match sc_condition s with Some _ => None | None => sp_entry simple (sc_cp s) (get s) end.
Lemma special_file d crlf f : lines_ok sc_ok f -> load_special_casing d (file_text sc_text crlf f) =
  mkSp (fold_left (set_entry (data_entry sc_cp (sc_get (d_lower d) sc_lower))) f [])
       (fold_left (set_entry (data_entry sc_cp (sc_get (d_title d) sc_title))) f [])
       (fold_left (set_entry (data_entry sc_cp (sc_get (d_upper d) sc_upper))) f []).
Proof.
  intros Hok. unfold load_special_casing, file_text. rewrite fold_map.
  set (F := fun s k => load_special_line d s (line_text sc_text k ++ (if crlf then [ch_cr] else []))).
  assert (HF : forall m l, In l f -> F m l = mkSp (set_entry (data_entry sc_cp (sc_get (d_lower d) sc_lower)) (sp_lower m) l)
     (set_entry (data_entry sc_cp (sc_get (d_title d) sc_title)) (sp_title m) l) (set_entry (data_entry sc_cp (sc_get (d_upper d) sc_upper)) (sp_upper m) l)).
  { intros m l Hl. specialize (Hok l Hl). subst F. cbv beta. change (if crlf then [ch_cr] else []) with (eol crlf). destruct l as [u|s|s]; cbn [line_text].
    - rewrite !set_data_entry, load_sc by exact Hok. unfold sc_get. destruct (sc_condition u); [destruct m; reflexivity|reflexivity].
    - rewrite (proj1 (load_sc_skip d m crlf s)). destruct m; reflexivity.
    - rewrite (proj2 (load_sc_skip d m crlf s) Hok). destruct m; reflexivity. }
  pose proof (fold_proj F _ sp_lower f (fun d l H => f_equal sp_lower (HF d l H)) (mkSp [] [] [])) as E1.
  pose proof (fold_proj F _ sp_title f (fun d l H => f_equal sp_title (HF d l H)) (mkSp [] [] [])) as E2.
  pose proof (fold_proj F _ sp_upper f (fun d l H => f_equal sp_upper (HF d l H)) (mkSp [] [] [])) as E3.
  cbn [sp_lower sp_title sp_upper] in E1, E2, E3. rewrite <- E1, <- E2, <- E3. destruct (fold_left F f _); reflexivity.
Qed.
