(** Case tables generated from the files. *)
From Coq Require Import Ascii String Sorted.
From Verif Require Import Base M_Tables M_Case M_TableGen Spec_Tables Spec_TableGen Spec_Case P_Tables P_Case P_TableGen P_TableGen2 P_TableGen3.
Open Scope N_scope.

Section Files.
Variables (crlf : bool) (ud : list (fline udline)) (sc : list (fline scline)) (cf : list (fline cfline)).
Hypothesis Hfiles : case_files_ok ud sc cf.
Variable tb : case_tables.
Hypothesis Hgen : generated_case crlf ud sc cf tb.

Lemma cf_simple_eq l s : cf_ok l -> cf_simple l = Some s <-> simple_status (cf_status l) /\ cf_map l = [s].
Proof.
  intros [_ [_ H]]. unfold cf_simple, simple_status. destruct (cf_status l).
  1, 2: destruct (cf_map l) as [|x [|y r]]; cbn in H; try discriminate; split; [intros [= <-]; auto|intros [_ [= ->]]; reflexivity].
  all: split; [destruct (cf_map l) as [|x [|y r]]; discriminate|intros [[G|G] _]; discriminate].
Qed.
Lemma cf_full_eq l m : cf_full l = Some m <-> full_status (cf_status l) /\ cf_map l = m.
Proof.
  unfold cf_full, full_status. destruct (cf_status l).
  1, 3: split; [intros [= <-]; auto|intros [_ ->]; reflexivity].
  all: split; [discriminate|intros [[G|G] _]; discriminate].
Qed.
Lemma cf_has l : has cf l -> cf_ok l.
Proof. intros H. destruct Hfiles as [_ [_ [_ [_ [Ok _]]]]]. exact (Ok (Data l) H). Qed.
Lemma sc_has l : has sc l -> sc_ok l.
Proof. intros H. destruct Hfiles as [_ [_ [Ok _]]]. exact (Ok (Data l) H). Qed.

Lemma simple_in k : strictly_sorted fst (simple_table tb k) /\ forall c s, In (c, s) (simple_table tb k) <-> file_simple ud cf k c s.
Proof.
  destruct Hfiles as [U1 [U2 [S1 [S2 [F1 F2]]]]]. unfold generated_case in Hgen. rewrite load_file in Hgen by exact U1. cbv zeta in Hgen.
  rewrite folding_file in Hgen by exact F1. subst tb.
  destruct k; cbn [simple_table gen_case s_upper s_lower s_title s_fold d_upper d_lower d_title fst file_simple].
  - destruct (ud_table ul_upper ud) as [A B]. split; [exact A|]. exact (B U2).
  - destruct (ud_table ul_lower ud) as [A B]. split; [exact A|]. exact (B U2).
  - destruct (ud_table ul_title ud) as [A B]. split; [exact A|]. exact (B U2).
  - destruct (data_table cf_cp cf_simple cf) as [A B]. split; [exact A|]. intros c s. rewrite B.
    + split.
      * intros [a [Ha [Hc Hs]]]. apply cf_simple_eq in Hs; [|apply cf_has, Ha]. exists a. tauto.
      * intros [a [Ha [Hc [Hs Hm]]]]. exists a. split; [exact Ha|split; [exact Hc|]]. apply cf_simple_eq; [apply cf_has, Ha|auto].
    + intros a b v v' Ha Hb E Ga Gb. apply cf_simple_eq in Ga; [|apply cf_has, Ha]. apply cf_simple_eq in Gb; [|apply cf_has, Hb].
      assert (a = b) by (apply (F2 a b Ha Hb E); tauto). subst b. destruct Ga, Gb. congruence.
Qed.
Lemma sp_entry_some simple c l m : l <> [] -> (sp_entry simple c l = Some m <-> l = m /\ m <> [simple_or_self simple c]).
Proof.
  intros Hne. unfold sp_entry. destruct l as [|x [|y l]]; [congruence| |].
  - destruct (N.eqb_spec x (simple_or_self simple c)) as [->|Hx].
    + split; [discriminate|intros [<- H]; congruence].
    + split; [intros [= <-]; split; [reflexivity|congruence]|intros [-> _]; reflexivity].
  - split; [intros [= <-]; split; [reflexivity|discriminate]|intros [-> _]; reflexivity].
Qed.
Lemma sc_table simple get : (forall s, has sc s -> sc_condition s = None -> get s <> []) ->
  strictly_sorted fst (fold_left (set_entry (data_entry sc_cp (sc_get simple get))) sc []) /\
  forall c m, In (c, m) (fold_left (set_entry (data_entry sc_cp (sc_get simple get))) sc []) <->
    (exists s, has sc s /\ sc_cp s = c /\ sc_condition s = None /\ get s = m) /\ m <> [simple_or_self simple c].
Proof.
  intros Hne. destruct (data_table sc_cp (sc_get simple get) sc) as [A B]. split; [exact A|]. destruct Hfiles as [_ [_ [_ [S2 _]]]].
  intros c m. rewrite B.
  - split.
    + intros [s [Hs [<- G]]]. unfold sc_get in G. destruct (sc_condition s) eqn:Ec; [discriminate|]. apply sp_entry_some in G; [|apply Hne; assumption].
      destruct G as [G1 G2]. split; [exists s; auto|exact G2].
    + intros [[s [Hs [<- [Ec G]]]] Hm]. exists s. split; [exact Hs|split; [reflexivity|]]. unfold sc_get. rewrite Ec. apply sp_entry_some; [apply Hne; assumption|auto].
  - intros a b v v' Ha Hb E Ga Gb. unfold sc_get in Ga, Gb. destruct (sc_condition a) eqn:Ea; [discriminate|]. destruct (sc_condition b) eqn:Eb; [discriminate|].
    assert (a = b) by (apply (S2 a b); assumption). congruence.
Qed.
Lemma full_in k : strictly_sorted fst (full_table tb k) /\ forall c m, In (c, m) (full_table tb k) <->
  file_special sc cf k c m /\ (k = Fold \/ m <> [simple_or_self (simple_table tb k) c]).
Proof.
  pose proof (fun k c s => proj2 (simple_in k) c s) as _.
  destruct Hfiles as [U1 [U2 [S1 [S2 [F1 F2]]]]]. unfold generated_case in Hgen. cbv zeta in Hgen. rewrite (special_file _ _ _ S1), (folding_file _ _ F1) in Hgen.
  set (d := load_unicode_data (file_text ud_text crlf ud)) in Hgen. clearbody d.
  assert (Hne : forall s, has sc s -> sc_condition s = None -> sc_lower s <> [] /\ sc_title s <> [] /\ sc_upper s <> []).
  { intros s Hs Ec. destruct (sc_has s Hs) as [_ [_ [_ H]]]. rewrite Ec in H. exact H. }
  destruct k; subst tb; cbn [simple_table full_table gen_case s_upper s_lower s_title s_fold f_upper f_lower f_title f_fold sp_upper sp_lower sp_title snd file_special].
  - destruct (sc_table (d_upper d) sc_upper) as [A B]; [intros s Hs Ec; apply (Hne s Hs Ec)|]. split; [exact A|]. intros c m. rewrite B.
    split; [intros [H1 H2]; auto|intros [H1 [H2|H2]]; [discriminate|auto]].
  - destruct (sc_table (d_lower d) sc_lower) as [A B]; [intros s Hs Ec; apply (Hne s Hs Ec)|]. split; [exact A|]. intros c m. rewrite B.
    split; [intros [H1 H2]; auto|intros [H1 [H2|H2]]; [discriminate|auto]].
  - destruct (sc_table (d_title d) sc_title) as [A B]; [intros s Hs Ec; apply (Hne s Hs Ec)|]. split; [exact A|]. intros c m. rewrite B.
    split; [intros [H1 H2]; auto|intros [H1 [H2|H2]]; [discriminate|auto]].
  - destruct (data_table cf_cp cf_full cf) as [A B]. split; [exact A|]. intros c m. rewrite B.
    + split.
      * intros [a [Ha [Hc G]]]. apply cf_full_eq in G. split; [exists a; tauto|left; reflexivity].
      * intros [[a [Ha [Hc G]]] _]. exists a. split; [exact Ha|split; [exact Hc|]]. apply cf_full_eq, G.
    + intros a b v v' Ha Hb E Ga Gb. apply cf_full_eq in Ga. apply cf_full_eq in Gb.
      assert (a = b) by (apply (F2 a b Ha Hb E); tauto). subst b. destruct Ga, Gb. congruence.
Qed.
Lemma special_length k c m : file_special sc cf k c m -> (1 <= length m <= 3)%nat.
Proof.
  destruct k; cbn [file_special].
  - intros [s [Hs [_ [Ec <-]]]]. destruct (sc_has s Hs) as [_ [_ [L H]]]. rewrite Ec in H. destruct (sc_upper s); [tauto|cbn in *; lia].
  - intros [s [Hs [_ [Ec <-]]]]. destruct (sc_has s Hs) as [_ [_ [L H]]]. rewrite Ec in H. destruct (sc_lower s); [tauto|cbn in *; lia].
  - intros [s [Hs [_ [Ec <-]]]]. destruct (sc_has s Hs) as [_ [_ [L H]]]. rewrite Ec in H. destruct (sc_title s); [tauto|cbn in *; lia].
  - intros [l [Hl [_ [[E|E] <-]]]]; destruct (cf_has l Hl) as [_ [_ H]]; rewrite E in H; lia.
Qed.
Lemma case_ready : tables_ok tb.
Proof.
  intros k. split; [apply simple_in|split; [apply full_in|]]. intros c m H. apply (proj2 (full_in k)) in H. apply (special_length k c), H.
Qed.
Hypothesis Hascii : ascii_agrees ud cf.
Lemma simple_fun k c s s' : file_simple ud cf k c s -> file_simple ud cf k c s' -> s = s'.
Proof.
  intros H H'. destruct (simple_in k) as [A B]. apply B, (map_get_in c s _ A) in H. apply B, (map_get_in c s' _ A) in H'. congruence.
Qed.
Lemma special_fun k c m m' : file_special sc cf k c m -> file_special sc cf k c m' -> m = m'.
Proof.
  destruct Hfiles as [U1 [U2 [S1 [S2 [F1 F2]]]]].
  destruct k; cbn [file_special]; try (intros [a [Ha [Ea [Ca <-]]]] [b [Hb [Eb [Cb <-]]]]; assert (a = b) by (apply (S2 a b); congruence); subst; reflexivity).
  intros [a [Ha [Ea [Ca <-]]]] [b [Hb [Eb [Cb <-]]]]. assert (a = b) by (apply (F2 a b); [assumption|assumption|congruence|tauto]). subst; reflexivity.
Qed.
Lemma simple_map_file k c s : simple_map tb k c s <-> file_simple_map ud cf k c s.
Proof.
  destruct (simple_in k) as [A B]. unfold simple_map, file_simple_map. split.
  - intros [[H1 ->]|[[H1 H2]|[H1 [H2 H3]]]].
    + left. apply Hascii, H1.
    + left. apply B, H2.
    + right. split; [|exact H3]. intros s' H. apply (H2 s'), B, H.
  - assert (Hd : ascii_changes k c \/ ~ ascii_changes k c) by (destruct k; cbn [ascii_changes]; lia).
    intros [H|[H1 H2]]; destruct Hd as [Hc|Hc].
    + left. split; [exact Hc|]. apply (simple_fun k c); [exact H|apply Hascii, Hc].
    + right. left. split; [exact Hc|apply B, H].
    + exfalso. apply (H1 _ (Hascii k c Hc)).
    + right. right. split; [exact Hc|split; [|exact H2]]. intros s' G. apply (H1 s'), B, G.
Qed.
Lemma simple_or_self_file k c : file_simple_map ud cf k c (simple_or_self (simple_table tb k) c).
Proof.
  destruct (simple_in k) as [A B]. unfold simple_or_self. destruct (map_get c (simple_table tb k)) as [x|] eqn:E.
  - left. apply B, (map_get_in c x _ A), E.
  - right. split; [|reflexivity]. intros s' H. apply B, (map_get_in c s' _ A) in H. congruence.
Qed.
Lemma simple_map_one k c s s' : file_simple_map ud cf k c s -> file_simple_map ud cf k c s' -> s = s'.
Proof.
  intros [H|[H1 H2]] [G|[G1 G2]]; [apply (simple_fun k c); assumption|exfalso; apply (G1 _ H)|exfalso; apply (H1 _ G)|congruence].
Qed.
Lemma char_map_file k c m : char_map tb k c m <-> file_map ud sc cf k c m.
Proof.
  destruct (full_in k) as [A B]. unfold char_map, file_map. split.
  - intros [H|[H [s [Hs ->]]]]; [left; apply B, H|].
    apply simple_map_file in Hs.
    destruct k.
    4: { right. split; [|eauto]. intros m' G. apply (H m'), B. auto. }
    all: match goal with |- file_special _ _ ?k _ _ \/ _ =>
      assert (D : file_special sc cf k c [s] \/ ~ file_special sc cf k c [s] ) ; [|
      destruct D as [D|D]; [left; exact D|right; split; [|eauto]; intros m' G;
      apply (H m'), B; split; [exact G|right; intros ->; apply D; rewrite (simple_map_one k c s _ Hs (simple_or_self_file k c)); exact G]]] end.
    all: clear - sc; unfold file_special; induction sc as [|l r IH]; [right; intros [? [[] _]]|].
    all: destruct IH as [[x [Hx Hr]]|IH]; [left; exists x; split; [right; exact Hx|exact Hr]|].
    all: destruct l as [x|t|t]; try (right; intros [x [[Hx|Hx] Hr]]; [discriminate|apply IH; exists x; split; [exact Hx|exact Hr]]).
    all: destruct (N.eq_dec (sc_cp x) c) as [E|E]; [|right; intros [y [[Hy|Hy] Hr]]; [injection Hy as ->; tauto|apply IH; exists y; split; [exact Hy|exact Hr]]].
    all: destruct (sc_condition x) as [cd|] eqn:Ec; [right; intros [y [[Hy|Hy] Hr]]; [injection Hy as ->; destruct Hr as [_ [G _]]; congruence|apply IH; exists y; split; [exact Hy|exact Hr]]|].
    + destruct (list_eq_dec N.eq_dec (sc_upper x) [s]) as [El|El]; [left; exists x; split; [left; reflexivity|auto]|].
      right; intros [y [[Hy|Hy] Hr]]; [injection Hy as ->; tauto|apply IH; exists y; split; [exact Hy|exact Hr]].
    + destruct (list_eq_dec N.eq_dec (sc_lower x) [s]) as [El|El]; [left; exists x; split; [left; reflexivity|auto]|].
      right; intros [y [[Hy|Hy] Hr]]; [injection Hy as ->; tauto|apply IH; exists y; split; [exact Hy|exact Hr]].
    + destruct (list_eq_dec N.eq_dec (sc_title x) [s]) as [El|El]; [left; exists x; split; [left; reflexivity|auto]|].
      right; intros [y [[Hy|Hy] Hr]]; [injection Hy as ->; tauto|apply IH; exists y; split; [exact Hy|exact Hr]].
  - intros [H|[H [s [Hs ->]]]].
    + destruct (list_eq_dec N.eq_dec m [simple_or_self (simple_table tb k) c]) as [->|Hm].
      * destruct k.
        4: { left. apply B. auto. }
        all: right; split; [intros m' G; apply B in G; destruct G as [G [G'|G']]; [discriminate|apply G'; match goal with H : file_special _ _ ?k _ _ |- _ => apply (special_fun k c); assumption end]|].
        all: eexists; split; [apply simple_map_file, simple_or_self_file|reflexivity].
      * left. apply B. auto.
    + right. split; [intros m' G; apply (H m'), B, G|]. exists s. split; [apply simple_map_file, Hs|reflexivity].
Qed.
(** the functions *)
Lemma case_simple k c : file_simple_map ud cf k c (simple_of tb k c).
Proof. apply simple_map_file, simple_of_spec, case_ready. Qed.
Lemma case_full k c : exists m, full_of tb k c = Ok m /\ file_map ud sc cf k c (emit c m).
Proof. destruct (full_of_spec tb case_ready k c) as [m [E [H _]]]. exists m. split; [exact E|apply char_map_file, H]. Qed.
Lemma case_convert k t : exists rs, convert_of tb k t = Ok (concat rs) /\ Forall2 (file_map ud sc cf k) t rs.
Proof.
  destruct (convert_of_spec tb case_ready k t) as [rs [E H]]. exists rs. split; [exact E|].
  clear - H Hfiles Hgen Hascii. induction H as [|c r t rs Hc Ht IH]; constructor; [apply char_map_file, Hc|exact IH].
Qed.
Lemma file_map_fun k c m m' : file_map ud sc cf k c m -> file_map ud sc cf k c m' -> m = m'.
Proof. intros H G. apply char_map_file in H, G. apply (char_map_fun tb case_ready k c); assumption. Qed.
End Files.
