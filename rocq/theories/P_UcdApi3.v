(** Lemmas for T_UcdApi.v: the grouped loaders, continued. *)
From Coq Require Import Ascii String Permutation Sorted.
From Verif Require Import Base M_TableGen M_PropGen M_UcdApi M_Tables Spec_Tables Spec_TableGen Spec_PropGen Spec_UcdApi
  P_Tables P_TableGen P_TableGen2 P_TableGen8 P_PropGen P_PropGen2 P_PropGen3 P_PropGen4 P_PropGen5 P_PropGen6 P_UcdApi P_UcdApi2.
Open Scope N_scope.

Lemma file_text_app {A} (render : A -> str) crlf (f g : list (fline A)) : file_text render crlf (f ++ g) = file_text render crlf f ++ file_text render crlf g.
Proof. unfold file_text. apply map_app. Qed.
Lemma lines_app {A} (ok : A -> Prop) f g : lines_ok ok (f ++ g) -> lines_ok ok f /\ lines_ok ok g.
Proof. intros H. split; intros l Hl; apply H; apply in_or_app; auto. Qed.
Lemma grouped_body crlf g f : lines_ok word_line f -> (forall q, In (Comment q) f -> ~ mentions (lit "Property:") q) -> forall m,
  exists m', fold_left (load_grouped_line PROP) (file_text st_text crlf f) (g, m) = (g, m') /\
    forall k, smap_get k m' = addto (smap_get k m) (if str_eqb k g then map (fun l => range_of l (st_prop l)) (data f) else []).
Proof.
  induction f as [|l f IH]; intros Hf Hc m.
  { exists m. split; [reflexivity|]. intros k. destruct (str_eqb k g); reflexivity. }
  apply lines_cons in Hf as [Hl Hf]. rewrite file_text_cons. cbn [fold_left].
  assert (Hc' : forall q, In (Comment q) f -> ~ mentions (lit "Property:") q) by (intros q Hq; apply Hc; right; exact Hq).
  destruct l as [l|s|s]; cbn [line_text].
  - rewrite grouped_data by exact Hl. destruct (IH Hf Hc' (push g (range_of l (st_prop l)) m)) as (m' & E & H). exists m'. split; [exact E|].
    intros k. rewrite H, addto_push, addto_app, data_cons. cbn [app map]. now destruct (str_eqb k g).
  - rewrite grouped_plain by (apply Hc; left; reflexivity). destruct (IH Hf Hc' m) as (m' & E & H). exists m'. split; [exact E|exact H].
  - rewrite grouped_blank by exact Hl. destruct (IH Hf Hc' m) as (m' & E & H). exists m'. split; [exact E|exact H].
Qed.
Lemma load_grouped_get crlf name f : lines_ok word_line f -> grouped_file name f -> nonempty f ->
  smap_get name (load_grouped PROP (file_text st_text crlf f)) = Some (map (fun l => range_of l (st_prop l)) (data f)).
Proof.
  intros Hf (pre & sep & body & E & Hpre & Hsep & Hn & Hc) [a Ha]. unfold load_grouped. rewrite E in Hf |- *. apply lines_app in Hf as [Hf1 Hf2]. apply lines_cons in Hf2 as [_ Hf2].
  rewrite file_text_app, fold_left_app.
  destruct (grouped_body crlf [] pre Hf1 (fun q Hq => Hc q (in_or_app _ _ _ (or_introl Hq))) []) as (m1 & E1 & H1).
  assert (G1 : forall k, smap_get k m1 = None). { intros k. rewrite H1, Hpre. now destruct (str_eqb k []). }
  match goal with |- context [fold_left (load_grouped_line PROP) (file_text st_text crlf pre) ?z] => replace (fold_left (load_grouped_line PROP) (file_text st_text crlf pre) z) with (([] : str), m1) by (symmetry; exact E1) end.
  rewrite file_text_cons. cbn [fold_left]. cbn [line_text]. rewrite grouped_header by assumption. rewrite G1.
  destruct (grouped_body crlf name body Hf2 (fun q Hq => Hc q (in_or_app _ _ _ (or_intror Hq))) (smap_set name [] m1)) as (m2 & E2 & H2).
  rewrite E2. cbn [snd]. rewrite H2, smap_get_set, str_eqb_refl. rewrite data_app, data_cons, Hpre. cbn [app].
  assert (Hne : data body <> []). { intros X. apply data_in in Ha. rewrite E, data_app, data_cons, Hpre, X in Ha. destruct Ha. }
  destruct (data body) as [|x r]; [contradiction|]. reflexivity.
Qed.

(** DerivedGeneralCategory.txt *)
Definition valued_range (al : list (str * str)) (l : stline) : prange := range_of l (match smap_get (st_prop l) al with Some v => v | None => [] end).
Lemma gc_data crlf al cat m rl l v : word_line l -> smap_get (st_prop l) al = Some v ->
  load_gc_line al (Some (cat, m, rl)) (st_text l ++ eol crlf) = Some (cat, push cat (range_of l v) m, rl ++ [range_of l v]).
Proof.
  intros Hl Hv. unfold load_gc_line. rewrite standard_exact by apply Hl. destruct (st_text_head l (word_line_ok l Hl)) as (c & t & Et & Hc).
  assert (Es : starts_with (lit "# General_Category=") (st_text l ++ eol crlf) = false).
  { rewrite Et. unfold lit. cbn [app list_ascii_of_string map starts_with]. rewrite (proj2 (N.eqb_neq _ _)); [reflexivity|].
    intros E. apply Hc. rewrite <- E. reflexivity. }
  rewrite Es. unfold range_of. rewrite first_word_id, Hv by apply Hl. reflexivity.
Qed.
Lemma starts_split p s : starts_with p s = true -> exists r, s = p ++ r.
Proof.
  revert s. induction p as [|x p IH]; intros s; [exists s; reflexivity|]. destruct s as [|y s]; [discriminate|]. cbn [starts_with]. intros E.
  apply andb_true_iff in E as [E1 E2]. apply N.eqb_eq in E1. subst y. destruct (IH s E2) as [r ->]. exists r. reflexivity.
Qed.
Lemma app_prefix (p r s e : str) : s ++ e = p ++ r -> (length p <= length s)%nat -> exists r', s = p ++ r'.
Proof.
  revert p. induction s as [|c s IH]; intros [|x p] E L; cbn in L; [exists []; reflexivity|lia|exists (c :: s); reflexivity|].
  injection E as -> E. destruct (IH p E ltac:(lia)) as [r' ->]. exists r'. reflexivity.
Qed.
Lemma gc_comment crlf al st q : (forall r, q <> gc_header ++ r) -> load_gc_line al (Some st) ((ch_hash :: q) ++ eol crlf) = Some st.
Proof.
  intros H. unfold load_gc_line. destruct st as [[cat m] rl]. rewrite (proj1 (standard_skip crlf q)).
  destruct (starts_with (lit "# General_Category=") ((ch_hash :: q) ++ eol crlf)) eqn:E; [exfalso|reflexivity].
  apply starts_split in E as [r E]. change (lit "# General_Category=") with (ch_hash :: gc_header) in E. assert (E0 : q ++ eol crlf = gc_header ++ r) by exact (f_equal (@tl N) E). clear E. rename E0 into E.
  destruct (Nat.le_gt_cases (length gc_header) (length q)) as [L|L]; [destruct (app_prefix gc_header r q (eol crlf) E L) as [r' E']; exact (H r' E')|].
  pose proof (f_equal (fun x => nth_error x (length q)) E) as E'. cbn beta in E'. rewrite nth_error_app2, Nat.sub_diag in E' by lia.
  destruct crlf; cbn [eol] in E'.
  - rewrite nth_error_app1 in E' by exact L. cbn [nth_error] in E'. symmetry in E'. apply nth_error_In in E'. revert E'. unfold gc_header, lit, ch_cr. cbn. intuition discriminate.
  - rewrite nth_error_app1 in E' by exact L. cbn [nth_error] in E'. symmetry in E'. apply nth_error_None in E'. lia.
Qed.
Lemma gc_blank crlf al st s : Forall white s -> load_gc_line al (Some st) (s ++ eol crlf) = Some st.
Proof.
  intros H. unfold load_gc_line. destruct st as [[cat m] rl]. rewrite (proj2 (proj2 (standard_skip crlf s)) H).
  destruct (starts_with (lit "# General_Category=") (s ++ eol crlf)) eqn:E; [exfalso|reflexivity].
  assert (W : Forall white (s ++ eol crlf)) by (apply Forall_app; split; [exact H|apply eol_white]).
  apply starts_split in E as [r E]. rewrite E in W. inversion_clear W as [|? ? W1 _]. destruct W1 as [W1|[W1|[W1|W1]]]; discriminate W1.
Qed.
Lemma gc_header_line crlf al cat m rl name : word name ->
  load_gc_line al (Some (cat, m, rl)) ((ch_hash :: gc_header ++ name) ++ eol crlf) = Some (name, match smap_get name m with Some _ => m | None => smap_set name [] m end, rl).
Proof.
  intros Hn. unfold load_gc_line.
  change ((ch_hash :: gc_header ++ name) ++ eol crlf) with (lit "# General_Category=" ++ (name ++ eol crlf)). rewrite starts_app.
  assert (E : trim (skipn (length (lit "# General_Category=")) (lit "# General_Category=" ++ (name ++ eol crlf))) = name).
  { rewrite skipn_app, skipn_all, Nat.sub_diag. cbn [app skipn]. rewrite trim_back by apply eol_white. exact (trim_id name (word_clean name Hn)). }
  rewrite E. reflexivity.
Qed.
Lemma gc_body crlf al g f : lines_ok word_line f -> no_gc_header f -> (forall l, has f l -> exists v, smap_get (st_prop l) al = Some v) -> forall m rl,
  exists m', fold_left (load_gc_line al) (file_text st_text crlf f) (Some (g, m, rl)) = Some (g, m', rl ++ map (valued_range al) (data f)) /\
    forall k, smap_get k m' = addto (smap_get k m) (if str_eqb k g then map (valued_range al) (data f) else []).
Proof.
  induction f as [|l f IH]; intros Hf Hc Hal m rl.
  { exists m. cbn [file_text map fold_left data flat_map]. rewrite app_nil_r. split; [reflexivity|]. intros k. destruct (str_eqb k g); reflexivity. }
  apply lines_cons in Hf as [Hl Hf]. rewrite file_text_cons. cbn [fold_left].
  assert (Hc' : no_gc_header f) by (intros q Hq; apply Hc; right; exact Hq).
  assert (Hal' : forall l, has f l -> exists v, smap_get (st_prop l) al = Some v) by (intros l' Hl'; apply Hal; right; exact Hl').
  destruct l as [l|s|s]; cbn [line_text].
  - destruct (Hal l (or_introl eq_refl)) as [v Hv]. rewrite (gc_data crlf al g m rl l v Hl Hv).
    destruct (IH Hf Hc' Hal' (push g (range_of l v) m) (rl ++ [range_of l v])) as (m' & E & H). exists m'.
    assert (Ev : valued_range al l = range_of l v) by (unfold valued_range; rewrite Hv; reflexivity).
    rewrite data_cons. cbn [app map]. rewrite Ev. split; [rewrite E, <- app_assoc; reflexivity|].
    intros k. rewrite H, addto_push, addto_app. now destruct (str_eqb k g).
  - rewrite gc_comment by (apply Hc; left; reflexivity). destruct (IH Hf Hc' Hal' m rl) as (m' & E & H). exists m'. split; [exact E|exact H].
  - rewrite gc_blank by exact Hl. destruct (IH Hf Hc' Hal' m rl) as (m' & E & H). exists m'. split; [exact E|exact H].
Qed.
Definition sec_ranges (al : list (str * str)) (k : str) (secs : list gsection) : list prange :=
  flat_map (fun s => if str_eqb k (gs_name s) then map (valued_range al) (data (gs_body s)) else []) secs.
Lemma gc_secs crlf al secs : forall g m rl, lines_ok word_line (gc_file [] secs) ->
  (forall s, In s secs -> word (gs_name s) /\ no_gc_header (gs_body s) /\ nonempty (gs_body s)) ->
  (forall l, has (gc_file [] secs) l -> exists v, smap_get (st_prop l) al = Some v) ->
  exists g' m', fold_left (load_gc_line al) (file_text st_text crlf (gc_file [] secs)) (Some (g, m, rl)) = Some (g', m', rl ++ map (valued_range al) (data (gc_file [] secs))) /\
    forall k, smap_get k m' = addto (smap_get k m) (sec_ranges al k secs).
Proof.
  induction secs as [|s secs IH]; intros g m rl Hf Hs Hal.
  { exists g, m. cbn. rewrite app_nil_r. split; [reflexivity|]. reflexivity. }
  unfold gc_file in *. cbn [app flat_map] in *. apply lines_cons in Hf as [_ Hf]. apply lines_app in Hf as [Hf1 Hf2].
  destruct (Hs s (or_introl eq_refl)) as (Hn & Hh & Hne).
  rewrite file_text_cons, file_text_app. cbn [fold_left line_text]. rewrite fold_left_app. rewrite gc_header_line by exact Hn.
  destruct (gc_body crlf al (gs_name s) (gs_body s) Hf1 Hh (fun l Hl => Hal l (or_intror (in_or_app _ _ _ (or_introl Hl))))
    (match smap_get (gs_name s) m with Some _ => m | None => smap_set (gs_name s) [] m end) rl) as (m1 & E1 & H1). rewrite E1.
  destruct (IH (gs_name s) m1 (rl ++ map (valued_range al) (data (gs_body s))) Hf2 (fun s' H' => Hs s' (or_intror H')) (fun l Hl => Hal l (or_intror (in_or_app _ _ _ (or_intror Hl))))) as (g' & m' & E2 & H2).
  exists g', m'. split.
  - rewrite E2, data_cons, data_app. cbn [app]. rewrite map_app, app_assoc. reflexivity.
  - intros k. rewrite H2, H1. cbn [sec_ranges flat_map]. rewrite <- addto_app. f_equal. destruct Hne as [a Ha]. apply data_in in Ha.
    destruct (str_eqb_spec k (gs_name s)) as [->|N].
    + destruct (data (gs_body s)) as [|x r]; [destruct Ha|]. cbn [map addto].
      destruct (smap_get (gs_name s) m) as [l|] eqn:El; [rewrite El; reflexivity|]. rewrite smap_get_set, str_eqb_refl. reflexivity.
    + cbn [addto]. destruct (smap_get (gs_name s) m) as [l|] eqn:El; [reflexivity|]. rewrite smap_get_set. destruct (str_eqb_spec k (gs_name s)); [contradiction|reflexivity].
Qed.
Lemma load_gc_get crlf (al : list (str * str)) m pre secs : smap_get GC m = Some al -> lines_ok word_line (gc_file pre secs) -> data pre = [] -> no_gc_header pre ->
  (forall s, In s secs -> word (gs_name s) /\ no_gc_header (gs_body s) /\ nonempty (gs_body s)) ->
  (forall l, has (gc_file pre secs) l -> exists v, smap_get (st_prop l) al = Some v) ->
  exists cats, load_gc m (file_text st_text crlf (gc_file pre secs)) = Some (cats, map (valued_range al) (data (gc_file pre secs))) /\
    forall k, smap_get k cats = addto None (sec_ranges al k secs).
Proof.
  intros Hm Hf Hpre Hh Hs Hal. unfold load_gc. change (lit "General_Category") with GC. rewrite Hm. unfold gc_file in *. apply lines_app in Hf as [Hf1 Hf2].
  rewrite file_text_app, fold_left_app.
  destruct (gc_body crlf al [] pre Hf1 Hh (fun l Hl => Hal l (in_or_app _ _ _ (or_introl Hl))) [] []) as (m1 & E1 & H1).
  rewrite Hpre in E1. cbn [map app] in E1.
  match goal with |- context [fold_left (load_gc_line al) (file_text st_text crlf pre) ?z] => replace (fold_left (load_gc_line al) (file_text st_text crlf pre) z) with (Some (([] : str), m1, ([] : list prange))) by (symmetry; exact E1) end.
  destruct (gc_secs crlf al secs [] m1 [] Hf2 Hs (fun l Hl => Hal l (in_or_app _ _ _ (or_intror Hl)))) as (g' & m' & E2 & H2).
  unfold gc_file in E2. cbn [app] in E2.
  match goal with |- context [fold_left (load_gc_line al) ?t ?z] => replace (fold_left (load_gc_line al) t z) with (Some (g', m', map (valued_range al) (data (gc_file [] secs)))) by (symmetry; exact E2) end.
  exists m'. split; [rewrite data_app, Hpre; reflexivity|].
  intros k. rewrite H2, H1, Hpre. cbn [map]. destruct (str_eqb k []); reflexivity.
Qed.

(** groups after their sorts *)
Lemma groups_sorted_get m m' k : groups_sorted m m' -> match smap_get k m with Some l => exists l', smap_get k m' = Some l' /\ sorted_by_first l l' | None => smap_get k m' = None end.
Proof.
  induction 1 as [|[k1 l1] [k2 l2] m m' [E P] _ IH]; [reflexivity|]. cbn [fst snd] in E, P. subst k2. cbn [smap_get]. destruct (str_eqb k k1); [exists l2; auto|exact IH].
Qed.
