(** Tables generated from files: lookups. *)
From Coq Require Import Ascii String Permutation Sorted.
From Verif Require Import Base M_Tables M_Normalize M_Case M_TableGen Spec_Tables Spec_TableGen Spec_Case Spec_Normalize P_Tables P_Case P_Compose P_Order P_Normalize P_Hangul P_TableGen P_TableGen2 P_TableGen3.
Open Scope N_scope.

Lemma sorted_map {A B} (ka : A -> N) (kb : B -> N) (g : A -> B) l : (forall x, kb (g x) = ka x) -> strictly_sorted ka l -> strictly_sorted kb (map g l).
Proof.
  intros Hk. induction 1 as [|x l Hs IH Hx]; cbn [map]; constructor; [exact IH|]. apply Forall_map. eapply Forall_impl; [|exact Hx].
  intros y Hy. cbv beta in *. rewrite !Hk. exact Hy.
Qed.
Lemma sorted_filter {A} (k : A -> N) (p : A -> bool) l : strictly_sorted k l -> strictly_sorted k (filter p l).
Proof.
  induction 1 as [|x l Hs IH Hx]; cbn [filter]; [constructor|]. destruct (p x); [|exact IH]. constructor; [exact IH|].
  apply Forall_forall. intros y Hy. apply filter_In in Hy. rewrite Forall_forall in Hx. apply Hx, Hy.
Qed.

Section Files.
Variables (crlf : bool) (ud : list (fline udline)) (ex : list (fline exline)) (np : list (fline npline)).
Hypothesis Hfiles : norm_files_ok ud ex np.
Notation dd := (load_unicode_data (file_text ud_text crlf ud)).
Notation pp := (load_nprops (load_exclusions (file_text ex_text crlf ex)) (file_text np_text crlf np)).

Lemma ccc_table : strictly_sorted fst (d_ccc dd) /\ forall k v, In (k, v) (d_ccc dd) <-> exists u, has ud u /\ ul_cp u = k /\ ccc_entry u = Some v.
Proof. destruct Hfiles as [H1 [H2 _]]. rewrite load_file by exact H1. cbn [d_ccc]. destruct (ud_table ccc_entry ud) as [A B]. split; [exact A|apply B, H2]. Qed.
Lemma dec_table : strictly_sorted fst (d_dec dd) /\ forall k v, In (k, v) (d_dec dd) <-> exists u, has ud u /\ ul_cp u = k /\ dec_entry (ul_dec u) = Some v.
Proof.
  destruct Hfiles as [H1 [H2 _]]. rewrite load_file by exact H1. cbn [d_dec]. destruct (ud_table (fun u => dec_entry (ul_dec u)) ud) as [A B].
  split; [exact A|apply B, H2].
Qed.
Lemma write_ccc_table : strictly_sorted fst (write_ccc (d_ccc dd)) /\
  forall k v, In (k, v) (write_ccc (d_ccc dd)) <-> exists u, has ud u /\ ul_cp u = k /\ ul_ccc u = v /\ v <> 0.
Proof.
  destruct ccc_table as [A B]. split; [apply (sorted_map fst fst); [reflexivity|exact A]|]. intros k v. unfold write_ccc. rewrite in_map_iff. split.
  - intros [[k' z] [E H]]. cbn [fst snd] in E. inversion E; subst. apply B in H. destruct H as [u [Hu [Hc He]]]. exists u. split; [exact Hu|]. split; [exact Hc|].
    unfold ccc_entry in He. destruct (N.eqb_spec (ul_ccc u) 0); [discriminate|]. inversion He; subst. rewrite N2Z.id. auto.
  - intros [u [Hu [Hc [<- Hz]]]]. exists (k, Z.of_N (ul_ccc u)). cbn [fst snd]. rewrite N2Z.id. split; [reflexivity|]. apply B. exists u.
    split; [exact Hu|]. split; [exact Hc|]. unfold ccc_entry. destruct (N.eqb_spec (ul_ccc u) 0); [contradiction|reflexivity].
Qed.
Lemma dec_entry_canonical u v : ud_ok u -> dec_entry (ul_dec u) = Some v ->
  (is_canonical v = true <-> ul_dec u = Some (None, fst v)) /\ (is_canonical v = false <-> exists t, ul_dec u = Some (Some t, fst v)).
Proof.
  intros Hu E. destruct Hu as [_ [_ [_ [Hd _]]]]. unfold is_canonical. destruct (ul_dec u) as [[[t|] l]|]; cbn [dec_entry] in E; inversion E; subst v; cbn [fst snd].
  - rewrite str_eqb_neq by (apply Hd). split; split; try discriminate; [eauto|reflexivity].
  - rewrite str_eqb_refl. split; split; try discriminate; [reflexivity|reflexivity|]. intros [t H]. discriminate.
Qed.
Lemma ud_ok_has u : has ud u -> ud_ok u.
Proof. intros H. apply (proj1 Hfiles _ H). Qed.
Lemma canon_table : strictly_sorted fst (write_canonical (d_dec dd)) /\
  forall k l, In (k, l) (write_canonical (d_dec dd)) <-> exists u, has ud u /\ ul_cp u = k /\ ul_dec u = Some (None, l).
Proof.
  destruct dec_table as [A B]. split; [apply (sorted_map fst fst); [reflexivity|apply sorted_filter, A]|]. intros k l. unfold write_canonical. rewrite in_map_iff. split.
  - intros [[k' v] [E H]]. apply filter_In in H. cbn [fst snd] in *. destruct H as [H C]. inversion E; subst. apply B in H. destruct H as [u [Hu [Hc He]]].
    exists u. split; [exact Hu|]. split; [exact Hc|]. apply (proj1 (dec_entry_canonical u v (ud_ok_has u Hu) He)), C.
  - intros [u [Hu [Hc Hd]]]. exists (k, (l, lit "canonical")). split; [reflexivity|]. apply filter_In. split; [|reflexivity]. apply B. exists u. rewrite Hd. auto.
Qed.
Lemma compat_table : strictly_sorted fst (write_compat (d_dec dd)) /\
  forall k l, In (k, l) (write_compat (d_dec dd)) <-> exists u t, has ud u /\ ul_cp u = k /\ ul_dec u = Some (Some t, l).
Proof.
  destruct dec_table as [A B]. split; [apply (sorted_map fst fst); [reflexivity|apply sorted_filter, A]|]. intros k l. unfold write_compat. rewrite in_map_iff. split.
  - intros [[k' v] [E H]]. apply filter_In in H. cbn [fst snd] in *. destruct H as [H C]. apply negb_true_iff in C. inversion E; subst. apply B in H. destruct H as [u [Hu [Hc He]]].
    destruct (proj1 (proj2 (dec_entry_canonical u v (ud_ok_has u Hu) He)) C) as [t Ht]. exists u, t. auto.
  - intros [u [t [Hu [Hc Hd]]]]. exists (k, (l, t)). split; [reflexivity|]. apply filter_In. split; [apply B; exists u; rewrite Hd; auto|].
    cbn [snd]. apply negb_true_iff. unfold is_canonical. cbn [snd]. apply str_eqb_neq. pose proof (ud_ok_has u Hu) as [_ [_ [_ [G _]]]]. rewrite Hd in G. apply G.
Qed.
Lemma find_dec_some tbl k l : strictly_sorted fst tbl -> In (k, l) tbl -> find_decomposition tbl k = l.
Proof. intros Hs H. unfold find_decomposition. rewrite (proj2 (find_entry_exact fst tbl k (k, l) Hs)) by auto. reflexivity. Qed.
Lemma find_dec_none tbl k : strictly_sorted fst tbl -> (forall l, ~ In (k, l) tbl) -> find_decomposition tbl k = [].
Proof.
  intros Hs H. unfold find_decomposition. rewrite (proj2 (find_entry_none fst tbl k Hs)); [reflexivity|].
  intros [k' l] Hin E. cbn [fst] in E. subst k'. exact (H l Hin).
Qed.

Variable tb : norm_tables.
Hypothesis Hgen : generated_norm crlf ud ex np tb.
Lemma tb_ccc_eq : t_ccc tb = write_ccc (d_ccc dd).
Proof. destruct Hgen as [s [_ [_ ->]]]. reflexivity. Qed.
Lemma tb_canon_eq : t_canon tb = write_canonical (d_dec dd).
Proof. destruct Hgen as [s [_ [_ ->]]]. reflexivity. Qed.
Lemma tb_compat_eq : t_compat tb = write_compat (d_dec dd).
Proof. destruct Hgen as [s [_ [_ ->]]]. reflexivity. Qed.
Lemma gen_ccc u : has ud u -> canonical_combining_class tb (ul_cp u) = ul_ccc u.
Proof.
  intros Hu. unfold canonical_combining_class. rewrite tb_ccc_eq. destruct write_ccc_table as [A B].
  destruct (N.eq_dec (ul_ccc u) 0) as [E|E].
  - rewrite E, (proj2 (find_entry_none fst _ _ A)); [reflexivity|]. intros [k v] Hin Ek. cbn [fst] in Ek. subst k. apply B in Hin.
    destruct Hin as [u' [Hu' [Hc [Hv Hz]]]]. rewrite (proj1 (proj2 Hfiles) u' u Hu' Hu Hc) in Hv. congruence.
  - rewrite (proj2 (find_entry_exact fst _ _ (ul_cp u, ul_ccc u) A)); [reflexivity|]. split; [|reflexivity]. apply B. eauto.
Qed.
Lemma gen_ccc_none c : (forall u, has ud u -> ul_cp u <> c) -> canonical_combining_class tb c = 0.
Proof.
  intros H. unfold canonical_combining_class. rewrite tb_ccc_eq. destruct write_ccc_table as [A B].
  rewrite (proj2 (find_entry_none fst _ _ A)); [reflexivity|]. intros [k v] Hin Ek. cbn [fst] in Ek. subst k. apply B in Hin.
  destruct Hin as [u' [Hu' [Hc _]]]. exact (H u' Hu' Hc).
Qed.
Lemma gen_canon u : has ud u -> is_hangul_syllable (ul_cp u) = false ->
  canonical_decomposition tb (ul_cp u) = match ul_dec u with Some (None, l) => l | _ => [] end.
Proof.
  intros Hu Hh. unfold canonical_decomposition. rewrite Hh, tb_canon_eq. destruct canon_table as [A B].
  assert (None_case : (forall l, ul_dec u <> Some (None, l)) -> find_decomposition (write_canonical (d_dec dd)) (ul_cp u) = []).
  { intros G. apply find_dec_none; [exact A|]. intros l Hin. apply B in Hin. destruct Hin as [u' [Hu' [Hc Hd]]].
    rewrite (proj1 (proj2 Hfiles) u' u Hu' Hu Hc) in Hd. exact (G l Hd). }
  destruct (ul_dec u) as [[[t|] l]|] eqn:E; [apply None_case; discriminate| |apply None_case; discriminate].
  apply find_dec_some; [exact A|]. apply B. eauto.
Qed.
Lemma gen_compat u : has ud u -> is_hangul_syllable (ul_cp u) = false ->
  compatibility_decomposition tb (ul_cp u) = match ul_dec u with Some (_, l) => l | None => [] end.
Proof.
  intros Hu Hh. unfold compatibility_decomposition. rewrite gen_canon by assumption. rewrite tb_compat_eq. destruct compat_table as [A B].
  pose proof (ud_ok_has u Hu) as [_ [_ [_ [G _]]]].
  destruct (ul_dec u) as [[[t|] l]|] eqn:E.
  - apply find_dec_some; [exact A|]. apply B. eauto.
  - destruct l as [|x l]; [destruct (proj1 G eq_refl)|reflexivity].
  - apply find_dec_none; [exact A|]. intros l Hin. apply B in Hin. destruct Hin as [u' [t [Hu' [Hc Hd]]]].
    rewrite (proj1 (proj2 Hfiles) u' u Hu' Hu Hc) in Hd. congruence.
Qed.
Lemma gen_dec_none c : (forall u, has ud u -> ul_cp u <> c) -> is_hangul_syllable c = false ->
  canonical_decomposition tb c = [] /\ compatibility_decomposition tb c = [].
Proof.
  intros H Hh. assert (E : canonical_decomposition tb c = []).
  { unfold canonical_decomposition. rewrite Hh, tb_canon_eq. destruct canon_table as [A B]. apply find_dec_none; [exact A|].
    intros l Hin. apply B in Hin. destruct Hin as [u [Hu [Hc _]]]. exact (H u Hu Hc). }
  split; [exact E|]. unfold compatibility_decomposition. rewrite E, tb_compat_eq. destruct compat_table as [A B]. apply find_dec_none; [exact A|].
  intros l Hin. apply B in Hin. destruct Hin as [u [t [Hu [Hc _]]]]. exact (H u Hu Hc).
Qed.

(** exclusions and compositions *)
Lemma gen_excl c : In c (np_excl pp) <-> listed ex c \/ bare_exclusion np c.
Proof. destruct Hfiles as [_ [_ [He Hn]]]. apply (proj2 (excl_set crlf ex np He Hn)). Qed.
Lemma set_has_in c m : set_has c m = true <-> In c m.
Proof. unfold set_has. rewrite existsb_exists. split; [intros [x [H E]]; apply N.eqb_eq in E; congruence|intros H; exists c; split; [exact H|apply N.eqb_refl]]. Qed.
Lemma compositions_in a b c : In (a, b, c) (compositions (d_dec dd) (np_excl pp)) <-> composite ud ex np a b c.
Proof.
  destruct dec_table as [A B]. unfold compositions, composite. rewrite in_flat_map. split.
  - intros [[k [l ty]] [Hin H]]. cbn [fst snd] in H. destruct l as [|x [|y [|z l]]]; try destruct H.
    destruct (is_canonical ([x; y], ty) && negb (set_has k (np_excl pp))) eqn:E; [|destruct H]. destruct H as [H|[]]. inversion H; subst.
    apply andb_true_iff in E. destruct E as [E1 E2]. apply negb_true_iff in E2. apply B in Hin. destruct Hin as [u [Hu [Hc He]]]. split.
    + exists u. split; [exact Hu|]. split; [exact Hc|]. apply (proj1 (dec_entry_canonical u _ (ud_ok_has u Hu) He)), E1.
    + assert (~ In c (np_excl pp)) by (intros G; apply set_has_in in G; congruence). rewrite gen_excl in H0. tauto.
  - intros [[u [Hu [Hc Hd]]] [N1 N2]]. exists (c, ([a; b], lit "canonical")). split; [apply B; exists u; rewrite Hd; auto|]. cbn [fst snd].
    assert (G : set_has c (np_excl pp) = false).
    { destruct (set_has c (np_excl pp)) eqn:E; [|reflexivity]. apply set_has_in, gen_excl in E. tauto. }
    rewrite G. cbn. left. reflexivity.
Qed.
Lemma tcomp_in a b c : In (a, b, c) (t_comp tb) <-> composite ud ex np a b c.
Proof.
  destruct Hgen as [s [Hp [_ ->]]]. cbn [gen_norm t_comp]. rewrite <- compositions_in. split; apply Permutation_in; [|symmetry]; exact Hp.
Qed.
Lemma comp_less_spec x y : comp_less x y = true <-> pair_lt x y.
Proof. destruct x as [[a b] c], y as [[a' b'] c']. unfold comp_less, pair_lt. cbn. destruct (N.eqb_spec a a'); cbn [negb]; lia. Qed.
Lemma compositions_nodup : NoDup (compositions (d_dec dd) (np_excl pp)).
Proof.
  destruct dec_table as [A _]. unfold compositions. induction A as [|[k [l ty]] m Hs IH Hx]; cbn [flat_map]; [constructor|].
  cbn [fst snd]. destruct l as [|x [|y [|z l]]]; try exact IH. destruct (_ && _); [|exact IH]. cbn [app]. constructor; [|exact IH].
  intros H. apply in_flat_map in H. destruct H as [[k' [l' ty']] [Hin H]]. cbn [fst snd] in H. destruct l' as [|x' [|y' [|z' l']]]; try destruct H.
  destruct (_ && _); [|destruct H]. destruct H as [H|[]]. inversion H; subst. rewrite Forall_forall in Hx. specialize (Hx _ Hin). cbn in Hx. lia.
Qed.
Lemma gen_comp_sorted : composites_unique ud ex np -> StronglySorted pair_lt (t_comp tb).
Proof.
  intros Hu. assert (Hin : forall a b c, In (a, b, c) (t_comp tb) -> composite ud ex np a b c) by (intros; apply tcomp_in; assumption).
  assert (Hnd : NoDup (t_comp tb)).
  { destruct Hgen as [s [Hp [_ ->]]]. cbn [gen_norm t_comp]. apply (Permutation_NoDup (Permutation_sym Hp)), compositions_nodup. }
  assert (Hss : std_sorted (t_comp tb)) by (destruct Hgen as [s [_ [Hs ->]]]; exact Hs).
  induction Hss as [|x l Hs IH Hx]; [constructor|]. inversion Hnd; subst. constructor.
  - apply IH; [intros; apply Hin; right; assumption|assumption].
  - apply Forall_forall. intros y Hy. rewrite Forall_forall in Hx. specialize (Hx y Hy). cbv beta in Hx.
    destruct x as [[a b] c], y as [[a' b'] c']. unfold comp_less in Hx. unfold pair_lt. cbn.
    destruct (N.eqb_spec a' a) as [->|]; cbn [negb] in Hx; [|lia]. destruct (N.eq_dec b b') as [->|]; [|lia].
    exfalso. assert (c = c') by (apply (Hu a b'); apply Hin; [left; reflexivity|right; exact Hy]). subst c'. contradiction.
Qed.
Lemma gen_try_compose a b : composites_unique ud ex np -> is_hangul_l_jamo a = false -> is_hangul_syllable a = false ->
  forall c, c <> 0 -> (try_compose tb a b = c <-> composite ud ex np a b c).
Proof.
  intros Hu Hl Hs c Hc. unfold try_compose. rewrite Hl, Hs. rewrite <- tcomp_in. split.
  - intros E. destruct (comp_search_sound _ _ _ _ E) as [|H]; [contradiction|exact H].
  - intros H. apply comp_search_complete; [apply gen_comp_sorted, Hu|exact H].
Qed.
End Files.
