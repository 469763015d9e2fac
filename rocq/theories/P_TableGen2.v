(** The loaders read back what the file format writes. *)
From Coq Require Import Ascii String Permutation.
From Verif Require Import Base M_Tables M_Normalize M_Case M_TableGen Spec_Tables Spec_TableGen P_Tables P_TableGen.
Open Scope N_scope.

(** ** Maps and sets *)
Lemma map_set_in {V} k (v : V) m : strictly_sorted fst m -> forall k' v',
  In (k', v') (map_set k v m) <-> (k' = k /\ v' = v) \/ (k' <> k /\ In (k', v') m).
Proof.
  induction 1 as [|[k0 v0] m Hs IH Hx]; intros k' v'; cbn [map_set].
  - cbn [In]. split; [intros [E|[]]; inversion E; auto|intros [[-> ->]|[_ []]]; auto].
  - rewrite Forall_forall in Hx. destruct (N.ltb_spec k k0).
    + cbn [In]. split.
      * intros [E|[E|E]]; [inversion E; auto|inversion E; subst; right; split; [lia|auto]|]. right. split; [|auto].
        specialize (Hx _ E). cbn in Hx. lia.
      * intros [[-> ->]|[_ H']]; [left; reflexivity|right; exact H'].
    + destruct (N.eqb_spec k k0) as [<-|Hne]; cbn [In].
      * split; [intros [E|E]; [inversion E; auto|]|].
        -- right. split; [|auto]. specialize (Hx _ E). cbn in Hx. lia.
        -- intros [[-> ->]|[Hk [E|E]]]; [left; reflexivity|inversion E; subst; congruence|right; exact E].
      * rewrite IH. split.
        -- intros [E|[E|[E1 E2]]]; [inversion E; subst; right; split; [congruence|auto]|left; exact E|right; auto].
        -- intros [E|[E1 [E2|E2]]]; [right; left; exact E|left; exact E2|right; right; auto].
Qed.
Lemma map_set_sorted {V} k (v : V) m : strictly_sorted fst m -> strictly_sorted fst (map_set k v m).
Proof.
  intros Hm. pose proof (map_set_in k v) as Hin. induction Hm as [|[k0 v0] m Hs IH Hx]; cbn [map_set]; [repeat constructor|].
  rewrite Forall_forall in Hx. destruct (N.ltb_spec k k0).
  - constructor; [constructor; [exact Hs|apply Forall_forall; exact Hx]|]. constructor; [exact H|]. apply Forall_forall. intros y Hy. specialize (Hx y Hy). cbn in *. lia.
  - destruct (N.eqb_spec k k0) as [<-|Hne].
    + constructor; [exact Hs|]. apply Forall_forall. exact Hx.
    + constructor; [exact IH|]. apply Forall_forall. intros [k' v'] Hy. apply (Hin m Hs) in Hy. cbn.
      destruct Hy as [[-> _]|[_ Hy]]; [lia|]. exact (Hx _ Hy).
Qed.
Lemma map_get_in {V} k (v : V) m : strictly_sorted fst m -> (map_get k m = Some v <-> In (k, v) m).
Proof.
  induction 1 as [|[k0 v0] m Hs IH Hx]; cbn [map_get In]; [split; [discriminate|intros []]|].
  rewrite Forall_forall in Hx. destruct (N.eqb_spec k k0) as [<-|Hne].
  - split; [intros E; inversion E; auto|intros [E|E]; [inversion E; reflexivity|]]. specialize (Hx _ E). cbn in Hx. lia.
  - rewrite IH. split; [auto|intros [E|E]; [inversion E; congruence|exact E]].
Qed.
Lemma set_insert_in k m : forall c, In c (set_insert k m) <-> c = k \/ In c m.
Proof.
  induction m as [|k0 m IH]; intros c; cbn [set_insert]; [cbn; intuition|]. destruct (k <? k0); [cbn; intuition|].
  destruct (N.eqb_spec k k0) as [<-|]; [cbn; intuition|]. cbn [In]. rewrite IH. intuition.
Qed.
Lemma set_insert_sorted k m : strictly_sorted (fun x => x) m -> strictly_sorted (fun x => x) (set_insert k m).
Proof.
  induction 1 as [|k0 m Hs IH Hx]; cbn [set_insert]; [repeat constructor|]. rewrite Forall_forall in Hx.
  destruct (N.ltb_spec k k0).
  - constructor; [constructor; [exact Hs|apply Forall_forall; exact Hx]|]. constructor; [exact H|]. apply Forall_forall. intros y Hy. specialize (Hx y Hy). lia.
  - destruct (N.eqb_spec k k0) as [<-|]; [constructor; [exact Hs|apply Forall_forall; exact Hx]|].
    constructor; [exact IH|]. apply Forall_forall. intros y Hy. apply set_insert_in in Hy. destruct Hy as [->|Hy]; [lia|exact (Hx y Hy)].
Qed.
Lemma insert_all_in l : forall m c, In c (insert_all l m) <-> In c l \/ In c m.
Proof.
  unfold insert_all. induction l as [|k l IH]; intros m c; cbn [fold_left]; [cbn; intuition|]. rewrite IH, set_insert_in. cbn [In]. intuition.
Qed.
Lemma insert_all_sorted l : forall m, strictly_sorted (fun x => x) m -> strictly_sorted (fun x => x) (insert_all l m).
Proof. unfold insert_all. induction l as [|k l IH]; intros m H; cbn [fold_left]; [exact H|]. apply IH, set_insert_sorted, H. Qed.

(** ** Folds of lines *)
Lemma fold_proj {S T L} (F : S -> L -> S) (f : T -> L -> T) (proj : S -> T) ls : (forall s l, In l ls -> proj (F s l) = f (proj s) l) ->
  forall s, proj (fold_left F ls s) = fold_left f ls (proj s).
Proof.
  induction ls as [|l ls IH]; intros H s; [reflexivity|]. cbn [fold_left]. rewrite IH by (intros; apply H; right; assumption).
  rewrite H by (left; reflexivity). reflexivity.
Qed.
Lemma fold_map {S K L} (F : S -> L -> S) (g : K -> L) ls : forall s, fold_left F (map g ls) s = fold_left (fun s k => F s (g k)) ls s.
Proof. induction ls as [|l ls IH]; intros s; [reflexivity|]. cbn [map fold_left]. apply IH. Qed.
Definition set_entry {L V} (entry : L -> option (N * V)) (m : list (N * V)) (l : L) : list (N * V) :=
  match entry l with Some (k, v) => map_set k v m | None => m end.
Lemma fold_entries {L V} (entry : L -> option (N * V)) ls :
  strictly_sorted fst (fold_left (set_entry entry) ls []) /\
  ((forall a b k v v', In a ls -> In b ls -> entry a = Some (k, v) -> entry b = Some (k, v') -> v = v') ->
   forall k v, In (k, v) (fold_left (set_entry entry) ls []) <-> exists l, In l ls /\ entry l = Some (k, v)).
Proof.
  induction ls as [|l ls [IH1 IH2]] using rev_ind; [split; [constructor|intros _ k v; split; [intros []|intros [l [[] _]]]]|].
  rewrite fold_left_app. cbn [fold_left]. unfold set_entry at 1 3.
  destruct (entry l) as [[k0 v0]|] eqn:E.
  - split; [apply map_set_sorted, IH1|]. intros Hf k v. rewrite map_set_in by exact IH1. rewrite IH2.
    2:{ intros a b k1 v1 v2 Ha Hb. apply Hf; apply in_or_app; left; assumption. }
    split.
    + intros [[-> ->]|[Hk [l' [Hl' El']]]]; [exists l|exists l']; (split; [apply in_or_app|assumption]); [right; left; reflexivity|left; assumption].
    + intros [l' [Hl' El']]. apply in_app_or in Hl'. destruct (N.eq_dec k k0) as [->|Hne].
      * left. split; [reflexivity|]. apply (Hf l' l k0 v v0); try assumption; apply in_or_app; [destruct Hl'; auto|right; left; reflexivity].
      * right. split; [exact Hne|]. destruct Hl' as [Hl'|[->|[]]]; [eauto|]. rewrite E in El'. inversion El'. congruence.
  - split; [exact IH1|]. intros Hf k v. rewrite IH2.
    2:{ intros a b k1 v1 v2 Ha Hb. apply Hf; apply in_or_app; left; assumption. }
    split; intros [l' [Hl' El']]; exists l'; (split; [|exact El']); [apply in_or_app; left; exact Hl'|].
    apply in_app_or in Hl'. destruct Hl' as [Hl'|[->|[]]]; [exact Hl'|]. congruence.
Qed.
Lemma fold_inserts {L} (cps : L -> list N) ls init : strictly_sorted (fun x => x) init ->
  strictly_sorted (fun x => x) (fold_left (fun m l => insert_all (cps l) m) ls init) /\
  forall c, In c (fold_left (fun m l => insert_all (cps l) m) ls init) <-> In c init \/ exists l, In l ls /\ In c (cps l).
Proof.
  revert init. induction ls as [|l ls IH]; intros init Hi; cbn [fold_left].
  - split; [exact Hi|]. intros c. split; [auto|intros [H|[l [[] _]]]; exact H].
  - destruct (IH (insert_all (cps l) init) (insert_all_sorted _ _ Hi)) as [H1 H2]. split; [exact H1|]. intros c. rewrite H2, insert_all_in.
    split.
    + intros [[H|H]|[l' [Hl' H]]]; [right; exists l; split; [left; reflexivity|exact H]|left; exact H|right; exists l'; split; [right; exact Hl'|exact H]].
    + intros [H|[l' [[->|Hl'] H]]]; [left; right; exact H|left; left; exact H|right; eauto].
Qed.

(** ** Lines *)
Definition eol (crlf : bool) : str := if crlf then [ch_cr] else [].
Lemma eol_white b : Forall white (eol b).
Proof. destruct b; cbn [eol]; [constructor; [unfold white, ch_cr; lia|constructor]|constructor]. Qed.
Lemma hash_not_white : ~ white ch_hash.
Proof. unfold white, ch_hash. lia. Qed.
Lemma semi_not_white : ~ white ch_semi.
Proof. unfold white, ch_semi. lia. Qed.
Lemma trim_head c s : ~ white c -> exists s', trim (c :: s) = c :: s'.
Proof.
  intros H. unfold trim. rewrite drop_front_id; [|intros y r E; inversion E; subst; apply not_white, H].
  destruct (drop_back_split is_ws (c :: s)) as [w [E F]]. destruct (drop_back is_ws (c :: s)) as [|d t].
  - cbn [app] in E. subst w. inversion F; subst. apply not_white in H. congruence.
  - cbn [app] in E. inversion E; subst. eauto.
Qed.
Lemma trim_ends c s x t w : ~ white c -> ~ white x -> no_white t -> Forall white w -> trim (c :: s ++ x :: t ++ w) = c :: s ++ x :: t.
Proof.
  intros Hc Hx Ht Hw. replace (c :: s ++ x :: t ++ w) with ([] ++ (c :: s ++ x :: t) ++ w) by (cbn [app]; rewrite <- app_assoc; reflexivity).
  apply trim_strip; [constructor|exact Hw|]. split; intros y r E; [inversion E; subst; exact Hc|].
  destruct (exists_last (l := x :: t)) as [q [z Ez]]; [discriminate|]. rewrite Ez, app_comm_cons, app_assoc in E. apply app_inj_tail in E. destruct E as [_ <-].
  assert (Hz : In z (x :: t)) by (rewrite Ez; apply in_or_app; right; left; reflexivity). destruct Hz as [<-|Hz]; [exact Hx|].
  unfold no_white in Ht. rewrite Forall_forall in Ht. apply Ht, Hz.
Qed.
Lemma hexs_head n : exists c r, hexs n = c :: r /\ ~ white c /\ c <> ch_hash.
Proof.
  destruct (hexs n) as [|c r] eqn:E; [exfalso; exact (hexs_ne n E)|]. exists c, r. split; [reflexivity|].
  pose proof (hexs_chars n) as H. rewrite E in H. inversion H; subst. unfold numchar in *. unfold white, ch_hash. lia.
Qed.
Lemma span_head r : exists c s, span_text r = c :: s /\ ~ white c /\ c <> ch_hash.
Proof.
  destruct r as [x|a b]; cbn [span_text]; [apply hexs_head|]. destruct (hexs_head a) as [c [s [-> H]]]. exists c. eexists. split; [cbn [app]; reflexivity|exact H].
Qed.

(** ** UnicodeData.txt *)
Definition dec_entry (d : option (option str * list N)) : option (list N * str) :=
  match d with None => None | Some (None, l) => Some (l, lit "canonical") | Some (Some t, l) => Some (l, t) end.
Lemma dec_clean d : match d with None => True | Some (_, l) => l <> [] end -> clean (dec_text d).
Proof.
  destruct d as [[[t|] l]|]; intros H; cbn [dec_text]; [|apply cps_clean|apply clean_nil].
  pose proof (cps_clean l) as [_ Hd]. split.
  - intros c r E. cbn in E. inversion E; subst. unfold white. lia.
  - intros c r E. destruct (exists_last (cps_ne l H)) as [q [z Ez]]. rewrite Ez, !app_assoc in E. apply app_inj_tail in E. destruct E as [_ <-].
    exact (Hd z q Ez).
Qed.
Lemma load_dec cp d m : match d with None => True | Some (t, l) => l <> [] /\ Forall cp_ok l /\
      match t with Some t => without ch_semi t /\ without ch_gt t /\ t <> lit "canonical" | None => True end end ->
  load_decomposition cp (dec_text d) m = match dec_entry d with Some v => map_set cp v m | None => m end.
Proof.
  intros Hd. unfold load_decomposition. rewrite trim_id by (apply dec_clean; destruct d as [[t l]|]; [apply Hd|exact I]).
  destruct d as [[[t|] l]|]; cbn [dec_text dec_entry]; [| |reflexivity]; destruct Hd as [Hne [Hl Ht]].
  - destruct Ht as [_ [Hgt _]]. change (lit "<" ++ t ++ lit "> " ++ cps_text l) with (ch_lt :: t ++ ch_gt :: spaces 1 ++ cps_text l). cbv beta iota.
    rewrite N.eqb_refl. cbv iota.
    change (ch_lt :: t ++ ch_gt :: spaces 1 ++ cps_text l) with ((ch_lt :: t) ++ ch_gt :: spaces 1 ++ cps_text l).
    rewrite find_char_app; [|intros [E|E]; [discriminate|exact (Hgt E)]].
    cbn [length]. replace (S (length t) - 1)%nat with (length t) by lia. rewrite firstn_len.
    change (S (length t)) with (length (ch_lt :: t)). rewrite skipn_len. cbn [skipn].
    rewrite (trim_front (spaces 1)) by (constructor; [left; reflexivity|constructor]). rewrite trim_id by apply cps_clean.
    destruct (cps_text l) as [|c r] eqn:E; [exfalso; exact (cps_ne l Hne E)|]. rewrite <- E.
    pose proof (parse_cps 0 l 0 Hl) as P. cbn [spaces repeat app] in P. rewrite app_nil_r in P. rewrite P. reflexivity.
  - destruct (cps_text l) as [|c r] eqn:E; [exfalso; exact (cps_ne l Hne E)|].
    assert (Hc : c <> ch_lt).
    { pose proof (cps_chars l) as H. rewrite E in H. inversion H as [|? ? H0]; subst. unfold numchar, ch_space in H0. unfold ch_lt. lia. }
    destruct (N.eqb_spec c ch_lt); [contradiction|]. cbv beta iota. rewrite <- E.
    pose proof (parse_cps 0 l 0 Hl) as P. cbn [spaces repeat app] in P. rewrite app_nil_r in P. rewrite P. reflexivity.
Qed.
Lemma opt_clean o : clean (opt_text o).
Proof. destruct o; [apply clean_no_white, num_no_white, hexs_chars|apply clean_nil]. Qed.
Lemma opt_no_semi o : ~ In ch_semi (opt_text o).
Proof. destruct o; [apply (num_not _ _ (hexs_chars n)); unfold numchar, ch_semi; lia|intros []]. Qed.
Lemma opt_set_text cp o m : opt_ok o -> opt_set cp (opt_text o) m = match o with Some v => map_set cp v m | None => m end.
Proof.
  intros H. unfold opt_set. rewrite trim_id by apply opt_clean. destruct o as [v|]; cbn [opt_text]; [|reflexivity].
  destruct (hexs v) as [|c r] eqn:E; [exfalso; exact (hexs_ne v E)|]. rewrite <- E, parse_hexs0 by exact H. reflexivity.
Qed.
Lemma dec_no_semi d : match d with None => True | Some (t, l) => l <> [] /\ Forall cp_ok l /\
      match t with Some t => without ch_semi t /\ without ch_gt t /\ t <> lit "canonical" | None => True end end -> ~ In ch_semi (dec_text d).
Proof.
  assert (Hc : forall l, ~ In ch_semi (cps_text l)).
  { intros l H. pose proof (cps_chars l) as G. rewrite Forall_forall in G. specialize (G _ H). unfold numchar, ch_space, ch_semi in G. lia. }
  destruct d as [[[t|] l]|]; cbn [dec_text]; [|intros _; apply Hc|intros _ []].
  intros [_ [_ [Ht _]]] H. apply in_app_or in H. destruct H as [[H|[]]|H]; [discriminate|].
  apply in_app_or in H. destruct H as [H|H]; [exact (Ht H)|]. apply in_app_or in H. destruct H as [[H|[H|[]]]|H]; [discriminate|discriminate|exact (Hc l H)].
Qed.
Definition set_opt {V} (cp : N) (o : option V) (m : list (N * V)) : list (N * V) := match o with Some v => map_set cp v m | None => m end.
Definition ccc_entry (u : udline) : option Z := if ul_ccc u =? 0 then None else Some (Z.of_N (ul_ccc u)).
Lemma load_data d u crlf : ud_ok u -> load_unicode_line d (ud_text u ++ eol crlf) =
  mkUd (set_opt (ul_cp u) (ccc_entry u) (d_ccc d)) (set_opt (ul_cp u) (dec_entry (ul_dec u)) (d_dec d))
       (set_opt (ul_cp u) (ul_upper u) (d_upper d)) (set_opt (ul_cp u) (ul_lower u) (d_lower d)) (set_opt (ul_cp u) (ul_title u) (d_title d)).
Proof.
  intros [Hcp [Hccc [Hf [Hdec [Hu [Hl Ht]]]]]]. unfold load_unicode_line.
  set (fs := [hexs (ul_cp u); ul_name u; ul_category u; decs (ul_ccc u); ul_bidi u; dec_text (ul_dec u);
                  ul_f6 u; ul_f7 u; ul_f8 u; ul_f9 u; ul_f10 u; ul_f11 u; opt_text (ul_upper u); opt_text (ul_lower u); opt_text (ul_title u)]).
  assert (Hjoin : ud_text u = join [ch_semi] fs) by reflexivity.
  assert (Hsplit : split_semi (ud_text u) = fs).
  { rewrite Hjoin. apply split_join; [discriminate|]. subst fs.
    inversion Hf as [|? ? A1 B1]; inversion B1 as [|? ? A2 B2]; inversion B2 as [|? ? A3 B3]; inversion B3 as [|? ? A4 B4];
    inversion B4 as [|? ? A5 B5]; inversion B5 as [|? ? A6 B6]; inversion B6 as [|? ? A7 B7]; inversion B7 as [|? ? A8 B8]; inversion B8 as [|? ? A9 B9].
    repeat (constructor; [first [assumption | apply opt_no_semi | apply (dec_no_semi _ Hdec) | apply (num_not _ _ (hexs_chars _)); unfold numchar, ch_semi; lia
       | apply (num_not _ _ (decs_chars _)); unfold numchar, ch_semi; lia]|]). constructor. }
  assert (Hend : exists c s, ud_text u = c :: s /\ c <> ch_hash /\ trim (ud_text u ++ eol crlf) = ud_text u).
  { destruct (hexs_head (ul_cp u)) as [c [r [Ec [Hc1 Hc2]]]].
    exists c, (r ++ ch_semi :: join [ch_semi] (tl fs)). split; [rewrite Hjoin; change (join [ch_semi] fs) with (hexs (ul_cp u) ++ ch_semi :: join [ch_semi] (tl fs)); rewrite Ec; reflexivity|].
    split; [exact Hc2|].
    assert (Ee : exists m, ud_text u = c :: m ++ ch_semi :: opt_text (ul_title u)).
    { exists (r ++ ch_semi :: join [ch_semi] [ul_name u; ul_category u; decs (ul_ccc u); ul_bidi u; dec_text (ul_dec u);
                  ul_f6 u; ul_f7 u; ul_f8 u; ul_f9 u; ul_f10 u; ul_f11 u; opt_text (ul_upper u); opt_text (ul_lower u)]).
      rewrite Hjoin. subst fs. cbn [join]. rewrite Ec. cbn [app]. f_equal. repeat (rewrite <- app_assoc; cbn [app]; do 2 f_equal).
      }
    destruct Ee as [m Em]. rewrite Em. replace ((c :: m ++ ch_semi :: opt_text (ul_title u)) ++ eol crlf) with (c :: m ++ ch_semi :: opt_text (ul_title u) ++ eol crlf) by (cbn [app]; rewrite <- app_assoc; reflexivity).
    apply trim_ends; [exact Hc1|apply semi_not_white| |apply eol_white].
    destruct (ul_title u); [apply num_no_white, hexs_chars|constructor]. }
  destruct Hend as [c [s [Es [Hh Htr]]]]. rewrite Htr, Hsplit. rewrite Es. cbv beta iota zeta.
  destruct (N.eqb_spec c ch_hash); [contradiction|]. change (length fs <? 15)%nat with false. cbn [orb]. cbv iota.
  subst fs. cbn [field nth]. rewrite parse_hexs0 by exact Hcp.
  rewrite (load_dec _ _ _ Hdec), !opt_set_text by assumption.
  rewrite (trim_id (decs _)) by (apply clean_no_white, num_no_white, decs_chars).
  unfold ccc_entry, set_opt.
  destruct (decs (ul_ccc u)) eqn:Ed; [exfalso; exact (decs_ne _ Ed)|]. rewrite <- Ed, parse_decs by exact Hccc.
  replace (Z.of_N (ul_ccc u) =? 0)%Z with (ul_ccc u =? 0) by lia.
  destruct (ul_ccc u =? 0); reflexivity.
Qed.
Lemma load_skip d crlf s : load_unicode_line d ((ch_hash :: s) ++ eol crlf) = d /\ (Forall white s -> load_unicode_line d (s ++ eol crlf) = d).
Proof.
  split.
  - unfold load_unicode_line. cbn [app]. destruct (trim_head ch_hash (s ++ eol crlf) hash_not_white) as [s' ->]. rewrite N.eqb_refl. reflexivity.
  - intros H. unfold load_unicode_line. rewrite trim_white; [reflexivity|]. apply Forall_app. split; [exact H|apply eol_white].
Qed.

(** the entry a line contributes to each map *)
Definition ud_entry {V} (get : udline -> option V) (l : fline udline) : option (N * V) :=
  match l with Data u => option_map (pair (ul_cp u)) (get u) | _ => None end.
Lemma set_entry_opt {V} (get : udline -> option V) m u : set_entry (ud_entry get) m (Data u) = set_opt (ul_cp u) (get u) m.
Proof. unfold set_entry, ud_entry, set_opt. destruct (get u); reflexivity. Qed.
Lemma load_file crlf f : lines_ok ud_ok f -> load_unicode_data (file_text ud_text crlf f) =
  mkUd (fold_left (set_entry (ud_entry ccc_entry)) f []) (fold_left (set_entry (ud_entry (fun u => dec_entry (ul_dec u)))) f [])
       (fold_left (set_entry (ud_entry ul_upper)) f []) (fold_left (set_entry (ud_entry ul_lower)) f []) (fold_left (set_entry (ud_entry ul_title)) f []).
Proof.
  intros Hok. unfold load_unicode_data, file_text. rewrite fold_map. fold (eol crlf).
  set (F := fun s k => load_unicode_line s (line_text ud_text k ++ eol crlf)).
  assert (HF : forall d l, In l f -> F d l = mkUd (set_entry (ud_entry ccc_entry) (d_ccc d) l) (set_entry (ud_entry (fun u => dec_entry (ul_dec u))) (d_dec d) l)
     (set_entry (ud_entry ul_upper) (d_upper d) l) (set_entry (ud_entry ul_lower) (d_lower d) l) (set_entry (ud_entry ul_title) (d_title d) l)).
  { intros d l Hl. specialize (Hok l Hl). subst F. cbv beta. destruct l as [u|s|s]; cbn [line_text].
    - rewrite !set_entry_opt. rewrite load_data by exact Hok. reflexivity.
    - rewrite (proj1 (load_skip d crlf s)). destruct d; reflexivity.
    - rewrite (proj2 (load_skip d crlf s)) by exact Hok. destruct d; reflexivity. }
  pose proof (fold_proj F (set_entry (ud_entry ccc_entry)) d_ccc f (fun d l H => f_equal d_ccc (HF d l H)) ucdata0) as E_d_ccc.
  pose proof (fold_proj F (set_entry (ud_entry (fun u => dec_entry (ul_dec u)))) d_dec f (fun d l H => f_equal d_dec (HF d l H)) ucdata0) as E_d_dec.
  pose proof (fold_proj F (set_entry (ud_entry ul_upper)) d_upper f (fun d l H => f_equal d_upper (HF d l H)) ucdata0) as E_d_upper.
  pose proof (fold_proj F (set_entry (ud_entry ul_lower)) d_lower f (fun d l H => f_equal d_lower (HF d l H)) ucdata0) as E_d_lower.
  pose proof (fold_proj F (set_entry (ud_entry ul_title)) d_title f (fun d l H => f_equal d_title (HF d l H)) ucdata0) as E_d_title.
  match goal with |- ?x = _ => change x with (fold_left F f ucdata0) end.
  change (d_ccc ucdata0) with (@nil (N * Z)) in E_d_ccc. change (d_dec ucdata0) with (@nil (N * (list N * str))) in E_d_dec.
  change (d_upper ucdata0) with (@nil (N * N)) in E_d_upper. change (d_lower ucdata0) with (@nil (N * N)) in E_d_lower.
  change (d_title ucdata0) with (@nil (N * N)) in E_d_title.
  rewrite <- E_d_ccc, <- E_d_dec, <- E_d_upper, <- E_d_lower, <- E_d_title. destruct (fold_left F f ucdata0); reflexivity.
Qed.
Lemma ud_table {V} (get : udline -> option V) f : 
  strictly_sorted fst (fold_left (set_entry (ud_entry get)) f []) /\
  (ud_unique f -> forall k v, In (k, v) (fold_left (set_entry (ud_entry get)) f []) <-> exists u, has f u /\ ul_cp u = k /\ get u = Some v).
Proof.
  destruct (fold_entries (ud_entry get) f) as [H1 H2]. split; [exact H1|]. intros Hu k v. rewrite H2.
  - split.
    + intros [[u|s|s] [Hl E]]; try discriminate. exists u. split; [exact Hl|]. unfold ud_entry in E. destruct (get u) eqn:G; [|discriminate].
      cbn [option_map] in E. inversion E; subst. auto.
    + intros [u [Hl [<- E]]]. exists (Data u). split; [exact Hl|]. unfold ud_entry. rewrite E. reflexivity.
  - intros [a| |] [b| |] k0 v0 v1 Ha Hb Ea Eb; try discriminate. unfold ud_entry in Ea, Eb.
    destruct (get a) eqn:Ga; [|discriminate]. destruct (get b) eqn:Gb; [|discriminate]. cbn [option_map] in *. inversion Ea; inversion Eb; subst.
    rewrite (Hu a b Ha Hb) in Ga; congruence.
Qed.

(** ** CompositionExclusions.txt *)
Lemma white_spaces k : Forall white (spaces k).
Proof. apply Forall_forall. intros x Hx. apply repeat_spec in Hx. subst. left. reflexivity. Qed.
Lemma load_ex m e crlf : ex_ok e -> load_exclusion_line m (ex_text e ++ eol crlf) = insert_all (parse_range (span_text (ex_span e))) m.
Proof.
  intros He. unfold load_exclusion_line, ex_text. destruct (span_head (ex_span e)) as [c [s [Es [Hw Hh]]]].
  destruct (ex_comment e) as [q|]; cbn [comment_text].
  - destruct (trim_keep c (s ++ spaces (ex_gap e)) ch_hash (q ++ eol crlf) Hw hash_not_white) as [t' Et].
    assert (El : (span_text (ex_span e) ++ spaces (ex_gap e) ++ ch_hash :: q) ++ eol crlf = c :: (s ++ spaces (ex_gap e)) ++ ch_hash :: q ++ eol crlf).
    { rewrite Es. cbn [app]. rewrite <- !app_assoc. reflexivity. }
    rewrite El, Et. destruct (N.eqb_spec c ch_hash); [contradiction|]. cbv zeta.
    change (c :: (s ++ spaces (ex_gap e)) ++ ch_hash :: t') with ((c :: s ++ spaces (ex_gap e)) ++ ch_hash :: t').
    rewrite find_char_app.
    2:{ change (c :: s ++ spaces (ex_gap e)) with ((c :: s) ++ spaces (ex_gap e)). rewrite <- Es. intros H. apply in_app_or in H. destruct H as [H|H].
        - revert H. apply span_not; unfold numchar, ch_hash, ch_dot; lia.
        - apply repeat_spec in H. discriminate. }
    rewrite firstn_len. change (c :: s ++ spaces (ex_gap e)) with ((c :: s) ++ spaces (ex_gap e)). rewrite <- Es.
    rewrite trim_back by apply white_spaces. rewrite trim_id by (apply clean_no_white, span_no_white). rewrite Es. reflexivity.
  - rewrite app_nil_r. assert (Et : trim ((span_text (ex_span e) ++ spaces (ex_gap e)) ++ eol crlf) = span_text (ex_span e)).
    { rewrite !trim_back by (apply white_spaces || apply eol_white). apply trim_id, clean_no_white, span_no_white. }
    rewrite Et. rewrite Es at 1. cbv iota zeta beta. destruct (N.eqb_spec c ch_hash); [contradiction|].
    rewrite find_char_none by (apply span_not; unfold numchar, ch_hash, ch_dot; lia).
    rewrite trim_id by (apply clean_no_white, span_no_white). rewrite Es. reflexivity.
Qed.
Lemma load_ex_skip d crlf s : load_exclusion_line d ((ch_hash :: s) ++ eol crlf) = d /\ (Forall white s -> load_exclusion_line d (s ++ eol crlf) = d).
Proof.
  split.
  - unfold load_exclusion_line. cbn [app]. destruct (trim_head ch_hash (s ++ eol crlf) hash_not_white) as [s' ->]. rewrite N.eqb_refl. reflexivity.
  - intros H. unfold load_exclusion_line. rewrite trim_white; [reflexivity|]. apply Forall_app. split; [exact H|apply eol_white].
Qed.
Lemma fold_ext {S L} (F G : S -> L -> S) ls : (forall s l, In l ls -> F s l = G s l) -> forall s, fold_left F ls s = fold_left G ls s.
Proof.
  induction ls as [|l ls IH]; intros H s; [reflexivity|]. cbn [fold_left]. rewrite H by (left; reflexivity). apply IH. intros; apply H; right; assumption.
Qed.
Lemma exclusions_file crlf f : lines_ok ex_ok f ->
  strictly_sorted (fun x => x) (load_exclusions (file_text ex_text crlf f)) /\
  forall c, In c (load_exclusions (file_text ex_text crlf f)) <-> exists e, has f e /\ covers (ex_span e) c.
Proof.
  intros Hok. unfold load_exclusions, file_text. rewrite fold_map. fold (eol crlf).
  set (cps := fun l : fline exline => match l with Data e => parse_range (span_text (ex_span e)) | _ => [] end).
  rewrite (fold_ext _ (fun m l => insert_all (cps l) m)).
  2:{ intros m l Hl. specialize (Hok l Hl). destruct l as [e|s|s]; cbn [line_text]; subst cps; cbv beta iota.
      - apply load_ex, Hok.
      - exact (proj1 (load_ex_skip m crlf s)).
      - exact (proj2 (load_ex_skip m crlf s) Hok). }
  destruct (fold_inserts cps f []) as [H1 H2]; [constructor|]. split; [exact H1|]. intros c. rewrite H2. split.
  - intros [[]|[[e|s|s] [Hl Hc]]]; [|destruct Hc|destruct Hc]. exists e. split; [exact Hl|]. apply (parse_range_span _ c (Hok _ Hl)), Hc.
  - intros [e [Hl Hc]]. right. exists (Data e). split; [exact Hl|]. apply (parse_range_span _ c (Hok _ Hl)), Hc.
Qed.

(** ** DerivedNormalizationProps.txt *)
Lemma split_app_head a q : ~ In ch_semi a -> exists g gs, split_semi q = g :: gs /\ split_semi (a ++ q) = (a ++ g) :: gs.
Proof.
  intros Ha. destruct (split_semi q) as [|g gs] eqn:E; [exfalso; exact (split_ne q E)|]. exists g, gs. split; [reflexivity|].
  induction a as [|x a IH]; [exact E|]. cbn [app split_semi].
  destruct (N.eqb_spec x ch_semi) as [->|]; [exfalso; apply Ha; left; reflexivity|]. rewrite IH; [reflexivity|]. intros G; apply Ha; right; exact G.
Qed.
Lemma split_head q g gs : split_semi q = g :: gs -> exists r, q = g ++ r.
Proof.
  revert g gs. induction q as [|c q IH]; intros g gs E; [cbn in E; inversion E; exists []; reflexivity|].
  cbn [split_semi] in E. destruct (c =? ch_semi); [inversion E; exists (c :: q); reflexivity|].
  destruct (split_semi q) as [|h hs] eqn:Eq; [exfalso; exact (split_ne q Eq)|]. inversion E; subst. destruct (IH h gs eq_refl) as [r ->]. exists r. reflexivity.
Qed.
(** the property and value fields the loader sees: the text after the name is not cut off when there is no value field *)
Definition np_fields (n : npline) : option (str * str) :=
  match nl_value n, nl_comment n with
  | Some v, _ => Some (nl_prop n, v)
  | None, None => Some (nl_prop n, [])
  | None, Some _ => None
  end.
Definition known (s : str) : Prop := s = lit "NFC_QC" \/ s = lit "NFKC_QC" \/ s = lit "NFD_QC" \/ s = lit "NFKD_QC" \/ s = lit "Full_Composition_Exclusion".
Lemma insert_unknown prop v cps m : ~ known prop -> insert_props prop v cps m = m.
Proof.
  unfold known. intros H. unfold insert_props. destruct m. rewrite !str_eqb_neq by (intros ->; intuition). reflexivity.
Qed.
Lemma known_no_hash s : known s -> ~ In ch_hash s.
Proof.
  assert (G : forall t, find_char ch_hash t = None -> ~ In ch_hash t).
  { intros t. induction t as [|x t IH]; cbn [find_char]; [intros _ []|]. destruct (N.eqb_spec x ch_hash); [discriminate|].
    destruct (find_char ch_hash t); [discriminate|]. intros _ [H|H]; [contradiction|exact (IH eq_refl H)]. }
  intros [->|[->|[->|[->| ->]]]]; apply G; reflexivity.
Qed.
Lemma load_np m n crlf : np_ok n -> load_nprops_line m (np_text n ++ eol crlf) =
  match np_fields n with Some (p, v) => insert_props p v (parse_range (span_text (nl_span n))) m | None => m end.
Proof.
  intros [Hsp [Hpn [Hpw [Hps [Hph Hv]]]]]. unfold load_nprops_line.
  destruct (span_head (nl_span n)) as [c [s [Es [Hw Hh]]]].
  set (line := np_text n ++ eol crlf).
  set (rest := match nl_value n with Some v => lit "; " ++ v | None => [] end ++ spaces (nl_gap' n) ++ comment_text (nl_comment n) ++ eol crlf).
  assert (El : line = (span_text (nl_span n) ++ spaces (nl_gap n)) ++ ch_semi :: (spaces 1 ++ nl_prop n) ++ rest).
  { subst line rest. unfold np_text. change (lit "; " ++ nl_prop n ++ ?x) with (ch_semi :: spaces 1 ++ nl_prop n ++ x).
    rewrite <- !app_assoc. cbn [app]. rewrite <- !app_assoc. reflexivity. }
  assert (Hhd : exists t, trim line = c :: t).
  { rewrite El, Es. cbn [app]. apply trim_head, Hw. }
  destruct Hhd as [t Et]. 
  assert (F0 : ~ In ch_semi (span_text (nl_span n) ++ spaces (nl_gap n))).
  { intros H. apply in_app_or in H. destruct H as [H|H]; [revert H; apply span_not; unfold numchar, ch_semi, ch_dot; lia|apply repeat_spec in H; discriminate]. }
  assert (F1 : ~ In ch_semi (spaces 1 ++ nl_prop n)).
  { intros [H|H]; [discriminate|exact (Hps H)]. }
  destruct (split_app_head _ rest F1) as [g [gs [Eg Er]]].
  assert (Esp : split_semi line = (span_text (nl_span n) ++ spaces (nl_gap n)) :: ((spaces 1 ++ nl_prop n) ++ g) :: gs).
  { rewrite El, split_cons by exact F0. rewrite Er. reflexivity. }
  pose proof (split_trim line) as Hst. rewrite Esp in Hst.
  rewrite Et at 1. cbv iota beta zeta. rewrite !trim_field, Hst.
  assert (Hlen : (length (split_semi (trim line)) <? 2)%nat = false).
  { rewrite <- (map_length trim (split_semi (trim line))), Hst. cbn [map length]. apply Nat.ltb_ge. lia. }
  rewrite Hlen. destruct (N.eqb_spec c ch_hash); [contradiction|]. cbn [orb map nth]. cbv iota.
  rewrite (trim_back (span_text _) (spaces _)) by apply white_spaces. rewrite (trim_id (span_text _)) by (apply clean_no_white, span_no_white).
  replace ((spaces 1 ++ nl_prop n) ++ g) with (spaces 1 ++ (nl_prop n ++ g)) by (rewrite app_assoc; reflexivity). rewrite (trim_front (spaces 1)) by apply white_spaces.
  assert (Hgaps : ~ In ch_semi (spaces (nl_gap' n))) by (intros H; apply repeat_spec in H; discriminate).
  unfold np_fields. destruct (nl_value n) as [v|].
  - (* a value field *)
    destruct Hv as [Hvc [Hvs Hvh]].
    assert (Eg' : rest = [] ++ ch_semi :: (spaces 1 ++ v ++ spaces (nl_gap' n)) ++ comment_text (nl_comment n) ++ eol crlf).
    { subst rest. change (lit "; " ++ v) with (ch_semi :: spaces 1 ++ v). cbn [app]. rewrite <- !app_assoc. reflexivity. }
    rewrite Eg', split_cons in Eg by (intros []). assert (E1 : g = []) by congruence. assert (E2 : gs = split_semi ((spaces 1 ++ v ++ spaces (nl_gap' n)) ++ comment_text (nl_comment n) ++ eol crlf)) by congruence. clear Hst. subst g gs. rewrite app_nil_r.
    rewrite (trim_id (nl_prop n)) by (apply clean_no_white, Hpw).
    assert (F2 : ~ In ch_semi (spaces 1 ++ v ++ spaces (nl_gap' n))).
    { intros H. apply in_app_or in H. destruct H as [[H|[]]|H]; [discriminate|]. apply in_app_or in H. destruct H as [H|H]; [exact (Hvs H)|exact (Hgaps H)]. }
    destruct (split_app_head _ (comment_text (nl_comment n) ++ eol crlf) F2) as [h [hs [Eh Eh2]]]. rewrite Eh2. cbn [map nth].
    replace ((spaces 1 ++ v ++ spaces (nl_gap' n)) ++ h) with (spaces 1 ++ (v ++ spaces (nl_gap' n) ++ h)) by (rewrite <- !app_assoc; reflexivity).
    rewrite (trim_front (spaces 1)) by apply white_spaces.
    f_equal. destruct (nl_comment n) as [q|]; cbn [comment_text] in Eh.
    + assert (Hh' : exists h', h = ch_hash :: h').
      { cbn [app split_semi] in Eh. change (ch_hash =? ch_semi) with false in Eh. cbv iota in Eh.
        destruct (split_semi (q ++ eol crlf)); inversion Eh; eauto. }
      destruct Hh' as [h' ->]. destruct v as [|x v].
      * cbn [app]. rewrite trim_front by apply white_spaces. destruct (trim_head ch_hash h' hash_not_white) as [h2 ->].
        cbn [find_char]. rewrite N.eqb_refl. reflexivity.
      * assert (Hx : ~ white x) by (apply (proj1 Hvc x v eq_refl)).
        destruct (trim_keep x (v ++ spaces (nl_gap' n)) ch_hash h' Hx hash_not_white) as [t' Et'].
        replace ((x :: v) ++ spaces (nl_gap' n) ++ ch_hash :: h') with (x :: (v ++ spaces (nl_gap' n)) ++ ch_hash :: h') by (cbn [app]; rewrite <- app_assoc; reflexivity).
        rewrite Et'. change (x :: (v ++ spaces (nl_gap' n)) ++ ch_hash :: t') with ((x :: v ++ spaces (nl_gap' n)) ++ ch_hash :: t').
        rewrite find_char_app.
        2:{ intros [H|H]; [apply Hvh; left; exact H|]. apply in_app_or in H. destruct H as [H|H]; [apply Hvh; right; exact H|apply repeat_spec in H; discriminate]. }
        rewrite firstn_len. change (x :: v ++ spaces (nl_gap' n)) with ((x :: v) ++ spaces (nl_gap' n)).
        rewrite trim_back by apply white_spaces. apply trim_id, Hvc.
    + cbn [app] in Eh. rewrite split_one in Eh by (apply white_no_semi, eol_white). inversion Eh; subst h.
      rewrite app_assoc, !trim_back by (apply eol_white || apply white_spaces). rewrite trim_id by exact Hvc. rewrite find_char_none by exact Hvh. reflexivity.
  - destruct (nl_comment n) as [q|].
    + (* the comment stays in the property field *)
      destruct (split_app_head (spaces (nl_gap' n)) (comment_text (Some q) ++ eol crlf) Hgaps) as [h [hs [Eh Eh2]]].
      assert (Eg' : rest = spaces (nl_gap' n) ++ comment_text (Some q) ++ eol crlf) by reflexivity.
      rewrite Eg', Eh2 in Eg. inversion Eg; subst g gs.
      assert (Hh' : exists h', h = ch_hash :: h').
      { cbn [comment_text app split_semi] in Eh. change (ch_hash =? ch_semi) with false in Eh. cbv iota in Eh.
        destruct (split_semi (q ++ eol crlf)); inversion Eh; eauto. }
      destruct Hh' as [h' ->]. apply insert_unknown. intros K. apply known_no_hash in K. apply K.
      destruct (nl_prop n) as [|x p]; [congruence|]. inversion Hpw; subst.
      replace ((x :: p) ++ spaces (nl_gap' n) ++ ch_hash :: h') with (x :: (p ++ spaces (nl_gap' n)) ++ ch_hash :: h') by (cbn [app]; rewrite <- app_assoc; reflexivity).
      destruct (trim_keep x (p ++ spaces (nl_gap' n)) ch_hash h') as [t' Et']; [assumption|apply hash_not_white|]. rewrite Et'.
      right. apply in_or_app. right. left. reflexivity.
    + assert (Eg' : rest = spaces (nl_gap' n) ++ eol crlf) by reflexivity.
      rewrite Eg' in Eg. rewrite split_one in Eg.
      2:{ intros H. apply in_app_or in H. destruct H as [H|H]; [exact (Hgaps H)|exact (white_no_semi _ (eol_white crlf) H)]. }
      inversion Eg; subst g gs. rewrite app_assoc, !trim_back by (apply eol_white || apply white_spaces).
      rewrite trim_id by (apply clean_no_white, Hpw). reflexivity.
Qed.
Lemma load_np_skip d crlf s : load_nprops_line d ((ch_hash :: s) ++ eol crlf) = d /\ (Forall white s -> load_nprops_line d (s ++ eol crlf) = d).
Proof.
  split.
  - unfold load_nprops_line. cbn [app]. destruct (trim_head ch_hash (s ++ eol crlf) hash_not_white) as [s' ->]. rewrite N.eqb_refl. reflexivity.
  - intros H. unfold load_nprops_line. rewrite trim_white; [reflexivity|]. apply Forall_app. split; [exact H|apply eol_white].
Qed.
Definition np0 (excl : list N) : nprops := mkNp excl [] [] [] [] [] [].
Lemma np_set (proj : nprops -> list N) (sel : str -> str -> bool) crlf f excl :
  (forall p v cps m, proj (insert_props p v cps m) = if sel p v then insert_all cps (proj m) else proj m) ->
  lines_ok np_ok f -> strictly_sorted (fun x => x) (proj (np0 excl)) ->
  strictly_sorted (fun x => x) (proj (load_nprops excl (file_text np_text crlf f))) /\
  forall c, In c (proj (load_nprops excl (file_text np_text crlf f))) <->
    In c (proj (np0 excl)) \/ exists n p v, has f n /\ np_fields n = Some (p, v) /\ sel p v = true /\ covers (nl_span n) c.
Proof.
  intros Hp Hok Hs. unfold load_nprops, file_text. rewrite fold_map. fold (np0 excl).
  set (cps := fun l : fline npline => match l with
     | Data n => match np_fields n with Some (p, v) => if sel p v then parse_range (span_text (nl_span n)) else [] | None => [] end | _ => [] end).
  set (F := fun s k => load_nprops_line s (line_text np_text k ++ (if crlf then [ch_cr] else []))).
  rewrite (fold_proj F (fun m l => insert_all (cps l) m) proj f).
  2:{ intros m l Hl. specialize (Hok l Hl). subst F cps. cbv beta. destruct l as [n|s|s]; cbn [line_text]; change (if crlf then [ch_cr] else []) with (eol crlf).
      - rewrite load_np by exact Hok. destruct (np_fields n) as [[p v]|]; [|reflexivity]. rewrite Hp. destruct (sel p v); reflexivity.
      - rewrite (proj1 (load_np_skip m crlf s)). reflexivity.
      - rewrite (proj2 (load_np_skip m crlf s) Hok). reflexivity. }
  destruct (fold_inserts cps f _ Hs) as [H1 H2]. split; [exact H1|]. intros c. rewrite H2. apply or_iff_compat_l. split.
  - intros [[n|s|s] [Hl Hc]]; [|destruct Hc|destruct Hc]. subst cps. cbv beta iota in Hc. destruct (np_fields n) as [[p v]|] eqn:E; [|destruct Hc].
    destruct (sel p v) eqn:Es; [|destruct Hc]. exists n, p, v. split; [exact Hl|]. split; [exact E|]. split; [exact Es|].
    apply parse_range_span; [apply (Hok _ Hl)|exact Hc].
  - intros [n [p [v [Hl [E [Es Hc]]]]]]. exists (Data n). split; [exact Hl|]. subst cps. cbv beta iota. rewrite E, Es.
    apply parse_range_span; [apply (Hok _ Hl)|exact Hc].
Qed.
Ltac np_sel := intros p v cps m; unfold insert_props; destruct m;
  repeat match goal with |- context [str_eqb p ?l] => let E := fresh "E" in destruct (str_eqb p l) eqn:E; [apply str_eqb_eq in E; subst p|] end;
  repeat match goal with |- context [str_eqb (lit ?a) (lit ?b)] => let x := eval vm_compute in (str_eqb (lit a) (lit b)) in change (str_eqb (lit a) (lit b)) with x end;
  cbn [andb]; repeat match goal with |- context [str_eqb v ?l] => let E := fresh "E" in destruct (str_eqb v l) eqn:E; [apply str_eqb_eq in E; subst v|] end;
  reflexivity.
Definition sel_of (p0 v0 : str) (p v : str) : bool := str_eqb p p0 && str_eqb v v0.
Lemma sel_nfc_no : forall p v cps m, np_nfc_no (insert_props p v cps m) = if sel_of (lit "NFC_QC") (lit "N") p v then insert_all cps (np_nfc_no m) else np_nfc_no m.
Proof. unfold sel_of. np_sel. Qed.
Lemma sel_nfc_maybe : forall p v cps m, np_nfc_maybe (insert_props p v cps m) = if sel_of (lit "NFC_QC") (lit "M") p v then insert_all cps (np_nfc_maybe m) else np_nfc_maybe m.
Proof. unfold sel_of. np_sel. Qed.
Lemma sel_nfkc_no : forall p v cps m, np_nfkc_no (insert_props p v cps m) = if sel_of (lit "NFKC_QC") (lit "N") p v then insert_all cps (np_nfkc_no m) else np_nfkc_no m.
Proof. unfold sel_of. np_sel. Qed.
Lemma sel_nfkc_maybe : forall p v cps m, np_nfkc_maybe (insert_props p v cps m) = if sel_of (lit "NFKC_QC") (lit "M") p v then insert_all cps (np_nfkc_maybe m) else np_nfkc_maybe m.
Proof. unfold sel_of. np_sel. Qed.
Lemma sel_nfd_no : forall p v cps m, np_nfd_no (insert_props p v cps m) = if sel_of (lit "NFD_QC") (lit "N") p v then insert_all cps (np_nfd_no m) else np_nfd_no m.
Proof. unfold sel_of. np_sel. Qed.
Lemma sel_nfkd_no : forall p v cps m, np_nfkd_no (insert_props p v cps m) = if sel_of (lit "NFKD_QC") (lit "N") p v then insert_all cps (np_nfkd_no m) else np_nfkd_no m.
Proof. unfold sel_of. np_sel. Qed.
Lemma sel_excl : forall p v cps m, np_excl (insert_props p v cps m) = if str_eqb p (lit "Full_Composition_Exclusion") then insert_all cps (np_excl m) else np_excl m.
Proof. np_sel. Qed.

(** the quick-check sets are what the file assigns *)
Lemma qc_set proj p0 v0 crlf f excl :
  (forall p v cps m, proj (insert_props p v cps m) = if sel_of p0 v0 p v then insert_all cps (proj m) else proj m) ->
  proj (np0 excl) = [] -> v0 <> [] -> lines_ok np_ok f ->
  strictly_sorted (fun x => x) (proj (load_nprops excl (file_text np_text crlf f))) /\
  forall c, In c (proj (load_nprops excl (file_text np_text crlf f))) <-> assigns f p0 (Some v0) c.
Proof.
  intros Hp Hi Hv Hok. destruct (np_set proj (sel_of p0 v0) crlf f excl Hp Hok) as [H1 H2]; [rewrite Hi; constructor|].
  split; [exact H1|]. intros c. rewrite H2, Hi. unfold assigns. split.
  - intros [[]|[n [p [v [Hl [E [Es Hc]]]]]]]. exists n. split; [exact Hl|]. unfold sel_of in Es. apply andb_true_iff in Es. destruct Es as [E1 E2].
    apply str_eqb_eq in E1, E2. subst. unfold np_fields in E. destruct (nl_value n); [inversion E; auto|]. destruct (nl_comment n); inversion E; subst. congruence.
  - intros [n [Hl [Ep [Ev Hc]]]]. right. exists n, p0, v0. split; [exact Hl|]. unfold np_fields. rewrite Ev, Ep. unfold sel_of. rewrite !str_eqb_refl. auto.
Qed.
(** the exclusion set: CompositionExclusions.txt and the Full_Composition_Exclusion lines without a comment *)
Lemma excl_set crlf fe fn : lines_ok ex_ok fe -> lines_ok np_ok fn ->
  let ex := np_excl (load_nprops (load_exclusions (file_text ex_text crlf fe)) (file_text np_text crlf fn)) in
  strictly_sorted (fun x => x) ex /\
  forall c, In c ex <-> (exists e, has fe e /\ covers (ex_span e) c) \/
    exists n, has fn n /\ nl_prop n = lit "Full_Composition_Exclusion" /\ (nl_value n <> None \/ nl_comment n = None) /\ covers (nl_span n) c.
Proof.
  intros He Hn ex. subst ex. destruct (exclusions_file crlf fe He) as [X1 X2].
  destruct (np_set np_excl (fun p _ => str_eqb p (lit "Full_Composition_Exclusion")) crlf fn (load_exclusions (file_text ex_text crlf fe))
     (fun p v => sel_excl p v) Hn X1) as [H1 H2]. split; [exact H1|]. intros c. rewrite H2. cbn [np0 np_excl]. rewrite X2. apply or_iff_compat_l. split.
  - intros [n [p [v [Hl [E [Es Hc]]]]]]. apply str_eqb_eq in Es. subst p. exists n. split; [exact Hl|]. unfold np_fields in E.
    destruct (nl_value n); [inversion E; subst; split; [reflexivity|split; [left; discriminate|exact Hc]]|].
    destruct (nl_comment n); inversion E; subst; split; [reflexivity|]. split; [right; reflexivity|exact Hc].
  - intros [n [Hl [Ep [Hx Hc]]]]. unfold np_fields. destruct (nl_value n) as [v|] eqn:Ev.
    + exists n, (nl_prop n), v. rewrite Ev, Ep, str_eqb_refl. auto.
    + destruct Hx as [Hx|Hx]; [congruence|]. exists n, (nl_prop n), []. rewrite Ev, Hx, Ep, str_eqb_refl. auto.
Qed.
