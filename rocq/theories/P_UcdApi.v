(** Lemmas for T_UcdApi.v: sorted disjoint tables and the loaders as functions of the data lines. *)
From Coq Require Import Ascii String Permutation Sorted.
From Verif Require Import Base M_TableGen M_PropGen M_UcdApi M_Tables Spec_Tables Spec_TableGen Spec_PropGen Spec_UcdApi
  P_Tables P_TableGen P_TableGen2 P_TableGen8 P_PropGen P_PropGen2 P_PropGen3 P_PropGen4 T_Tables.
Open Scope N_scope.

(** ** Pairwise separated ranges *)
Lemma pairs_perm {A} (R : A -> A -> Prop) (l l' : list A) : (forall x y, R x y -> R y x) -> Permutation l l' -> ForallOrdPairs R l -> ForallOrdPairs R l'.
Proof.
  intros Hs. induction 1 as [|x l l' P IH|x y l|l l1 l2 P1 IH1 P2 IH2]; intros H.
  - constructor.
  - inversion_clear H as [|? ? A1 A2]. constructor; [|auto]. eapply Permutation_Forall; eassumption.
  - inversion_clear H as [|? ? A1 A2]. inversion_clear A2 as [|? ? B1 B2]. inversion_clear A1 as [|? ? C1 C2].
    constructor; [constructor; auto|]. constructor; assumption.
  - auto.
Qed.
Lemma pairs_map {A B} (f : A -> B) (R : B -> B -> Prop) l : ForallOrdPairs (fun a b => R (f a) (f b)) l -> ForallOrdPairs R (map f l).
Proof. induction 1 as [|x l H1 H2 IH]; cbn [map]; constructor; [|exact IH]. apply Forall_map. exact H1. Qed.
Lemma pairs_impl {A} (R R' : A -> A -> Prop) l : (forall x y, In x l -> In y l -> R x y -> R' x y) -> ForallOrdPairs R l -> ForallOrdPairs R' l.
Proof.
  intros HR H. induction H as [|x l H1 H2 IH]; constructor.
  - rewrite Forall_forall in *. intros y Hy. apply HR; [left; reflexivity|right; exact Hy|auto].
  - apply IH. intros a b Ha Hb. apply HR; right; assumption.
Qed.
Definition sep {V} (a b : N * N * V) : Prop := snd (fst a) < fst (fst b) \/ snd (fst b) < fst (fst a).
Lemma sep_sym {V} (a b : N * N * V) : sep a b -> sep b a. Proof. unfold sep. tauto. Qed.
Definition proper {V} (a : N * N * V) : Prop := fst (fst a) <= snd (fst a).
Lemma sorted_sep {V} (l : list (N * N * V)) : StronglySorted (fun a b => (fst (fst b) <? fst (fst a)) = false) l -> ForallOrdPairs sep l -> Forall proper l ->
  disjoint_sorted (ivls l).
Proof.
  intros Hs. induction Hs as [|a l Hs IH Ha]; intros Hp Hf; [split; constructor|].
  inversion_clear Hp as [|? ? P1 P2]. inversion_clear Hf as [|? ? F1 F2]. destruct (IH P2 F2) as [D1 D2]. split.
  - cbn [ivls map]. constructor; [exact D1|]. apply Forall_map. rewrite Forall_forall in *. intros b Hb. specialize (Ha b Hb). specialize (P1 b Hb). specialize (F2 b Hb).
    apply N.ltb_ge in Ha. unfold sep, proper in *. lia.
  - cbn [ivls map]. constructor; [exact F1|exact D2].
Qed.
Lemma sort_table {V} (l l' : list (N * N * V)) : sorted_by_first l l' -> ForallOrdPairs sep l -> Forall proper l -> disjoint_sorted (ivls l').
Proof.
  intros [P S1] H F. apply sorted_sep; [exact S1|eapply pairs_perm; [exact sep_sym|exact P|exact H]|eapply Permutation_Forall; eassumption].
Qed.
(** a sorted disjoint table below M has at most M + 1 entries *)
Lemma table_short (l : list (N * N)) M lo : disjoint_sorted l -> Forall (fun e => lo <= fst e /\ snd e <= M) l -> N.of_nat (length l) + lo <= M + 1 \/ l = [].
Proof.
  revert lo. induction l as [|[a b] l IH]; intros lo [H1 H2] H; [right; reflexivity|left].
  inversion_clear H1 as [|? ? S1 S2]. inversion_clear H2 as [|? ? F1 F2]. inversion_clear H as [|? ? G1 G2]. cbn [fst snd] in *.
  assert (E : Forall (fun e : N * N => b + 1 <= fst e /\ snd e <= M) l). { rewrite Forall_forall in *. intros e He. specialize (S2 e He). specialize (G2 e He). cbn in S2. lia. }
  destruct (IH (b + 1) (conj S1 F2) E) as [L| ->]; cbn [length]; lia.
Qed.
Lemma contains_table (l : list (N * N)) cp : l <> [] -> disjoint_sorted l -> Forall (fun e => snd e <= 0x10FFFF) l ->
  exists r, contains l cp = Ok r /\ (r = true <-> exists e, In e l /\ fst e <= cp <= snd e).
Proof.
  intros Hne Hd Hb. apply C52_contains_exact; [exact Hne|exact Hd|].
  destruct (table_short l 0x10FFFF 0 Hd) as [H|H]; [eapply Forall_impl; [|exact Hb]; cbn; intros; lia|lia|contradiction].
Qed.
Lemma search_table {V} (l : list (N * N * V)) cp (d : V) : l <> [] -> disjoint_sorted (ivls l) ->
  exists v, value_or (search l cp) d = Ok v /\
    ((exists r, In r l /\ fst (fst r) <= cp <= snd (fst r) /\ snd r = v) \/ ((forall r, In r l -> ~ (fst (fst r) <= cp <= snd (fst r))) /\ v = d)).
Proof.
  intros Hne Hd. destruct (C52_search_exact V l cp Hne Hd) as ([v|] & E & H1 & H2); rewrite E; cbn [value_or].
  - exists v. split; [reflexivity|]. left. destruct (H1 v eq_refl) as (lo & hi & Hin & Hc). exists (lo, hi, v). cbn. auto.
  - exists d. split; [reflexivity|]. right. split; [|reflexivity]. intros [[lo hi] p] Hr. cbn. apply (H2 eq_refl lo hi p Hr).
Qed.

(** ** Loaders *)
Lemma data_in {A} (f : list (fline A)) a : has f a <-> In a (data f).
Proof.
  unfold has, data. rewrite in_flat_map. split; [intros H; exists (Data a); split; [exact H|left; reflexivity]|].
  intros ([b|s|s] & H & G); cbn in G; [destruct G as [->|[]]; exact H|destruct G|destruct G].
Qed.
Lemma data_cons {A} (l : fline A) f : data (l :: f) = match l with Data a => [a] | _ => [] end ++ data f.
Proof. reflexivity. Qed.
Lemma data_app {A} (f g : list (fline A)) : data (f ++ g) = data f ++ data g.
Proof. unfold data. apply flat_map_app. Qed.
Lemma data_ok {A} (ok : A -> Prop) f : lines_ok ok f -> Forall ok (data f).
Proof. intros H. apply Forall_forall. intros a Ha. apply data_in in Ha. exact (H _ Ha). Qed.
(** per-line loaders *)
Lemma lines_flat {A B} (g : str -> list B) (h : A -> list B) (render : A -> str) crlf (ok : A -> Prop) f : lines_ok ok f ->
  (forall a, ok a -> g (render a ++ eol crlf) = h a) -> (forall s, g ((ch_hash :: s) ++ eol crlf) = []) -> (forall s, Forall white s -> g (s ++ eol crlf) = []) ->
  flat_map g (file_text render crlf f) = flat_map h (data f).
Proof.
  intros Hok H1 H2 H3. induction f as [|l f IH]; [reflexivity|]. apply lines_cons in Hok as [Hl Hf].
  rewrite file_text_cons, data_cons, flat_map_app. cbn [flat_map]. rewrite IH by exact Hf. f_equal.
  destruct l as [a|s|s]; cbn [line_text] in *; [rewrite H1 by exact Hl; cbn; now rewrite app_nil_r|apply H2|now apply H3].
Qed.
Lemma standard_flat {B} (g : str -> N * N * str -> list B) (h : stline -> list B) crlf (ok : stline -> Prop) f : lines_ok ok f -> (forall a, ok a -> st_ok a) ->
  (forall a, ok a -> g (st_text a ++ eol crlf) (range_of a (st_prop a)) = h a) ->
  flat_map (fun line => match parse_standard_line line with Some r => g line r | None => [] end) (file_text st_text crlf f) = flat_map h (data f).
Proof.
  intros Hok Hst Hg. eapply lines_flat; [exact Hok| | |].
  - intros a Ha. rewrite standard_exact by auto. apply Hg. exact Ha.
  - intros s. now rewrite (proj1 (standard_skip crlf s)).
  - intros s Hs. now rewrite (proj2 (proj2 (standard_skip crlf s)) Hs).
Qed.
Lemma flat_map_single {A B} (f : A -> B) l : flat_map (fun a => [f a]) l = map f l.
Proof. induction l; cbn; congruence. Qed.
Lemma flat_map_ext' {A B} (f g : A -> list B) l : (forall a, f a = g a) -> flat_map f l = flat_map g l.
Proof. intros H. induction l; cbn; rewrite ?H; congruence. Qed.
Lemma load_generic_data crlf f : lines_ok word_line f -> load_generic (file_text st_text crlf f) = map (fun l => range_of l (st_prop l)) (data f).
Proof.
  intros Hok. unfold load_generic. etransitivity; [|exact (flat_map_single (fun l => range_of l (st_prop l)) (data f))].
  etransitivity; [|apply (standard_flat (fun _ r => [(fst r, first_word (snd r))]) (fun l => [range_of l (st_prop l)]) crlf word_line f Hok word_line_ok)].
  - apply flat_map_ext'. intros line. now destruct (parse_standard_line line) as [[[a b] p]|].
  - intros a [_ Hw]. cbn [range_of fst snd]. now rewrite first_word_id.
Qed.

(** ** From lines to tables *)
Lemma span_proper l p : st_ok l -> proper (range_of l p) /\ snd (fst (range_of l p)) <= 0x10FFFF.
Proof. intros [H _]. unfold proper, range_of. cbn. destruct (st_span l); cbn in *; lia. Qed.
Lemma apart_sep a b p q : st_ok a -> st_ok b -> apart a b -> sep (range_of a p) (range_of b q).
Proof.
  intros [Ha _] [Hb _] H. unfold sep, range_of. cbn [fst snd].
  destruct (N.ltb_spec (span_last (st_span a)) (span_first (st_span b))); [left; assumption|].
  destruct (N.ltb_spec (span_last (st_span b)) (span_first (st_span a))); [right; assumption|]. exfalso.
  apply (H (N.max (span_first (st_span a)) (span_first (st_span b)))); destruct (st_span a), (st_span b); cbn in *; lia.
Qed.
Lemma covers_range l p c : fst (fst (range_of l p)) <= c <= snd (fst (range_of l p)) <-> covers (st_span l) c.
Proof. exact (inside_covers l p c). Qed.
Lemma range_table {V} (f : stline -> V) (ls : list stline) (l' : list (N * N * V)) : Forall st_ok ls -> ForallOrdPairs apart ls ->
  sorted_by_first (map (fun l => (fst (range_of l []), f l)) ls) l' ->
  disjoint_sorted (ivls l') /\ Forall (fun e => snd e <= 0x10FFFF) (ivls l') /\
  forall r, In r l' <-> exists l, In l ls /\ r = (fst (range_of l []), f l).
Proof.
  intros Hok Hap Hs. split; [|split].
  - apply (sort_table _ _ Hs).
    + apply pairs_map. eapply pairs_impl; [|exact Hap]. intros x y Hx Hy. rewrite Forall_forall in Hok. exact (apart_sep x y [] [] (Hok x Hx) (Hok y Hy)).
    + apply Forall_map. eapply Forall_impl; [|exact Hok]. intros l Hl. exact (proj1 (span_proper l [] Hl)).
  - destruct Hs as [P _]. unfold ivls. apply Forall_map. apply (Permutation_Forall P). apply Forall_map.
    eapply Forall_impl; [|exact Hok]. intros l Hl. exact (proj2 (span_proper l [] Hl)).
  - intros r. destruct Hs as [P _]. split.
    + intros H. apply (Permutation_in _ (Permutation_sym P)) in H. apply in_map_iff in H as [l [<- Hl]]. eauto.
    + intros [l [Hl ->]]. apply (Permutation_in _ P). apply in_map_iff. eauto.
Qed.

(** boolean checks *)
Fixpoint disjointb (l : list (N * N)) : bool :=
  match l with [] => true | x :: r => (fst x <=? snd x) && forallb (fun y => snd x <? fst y) r && disjointb r end.
Lemma disjointb_ok l : disjointb l = true -> disjoint_sorted l.
Proof.
  induction l as [|x l IH]; intros H; [split; constructor|]. cbn [disjointb] in H. apply andb_true_iff in H as [H H3]. apply andb_true_iff in H as [H1 H2].
  destruct (IH H3) as [A B]. apply N.leb_le in H1. split; constructor; try assumption. apply Forall_forall. intros y Hy. rewrite forallb_forall in H2. apply N.ltb_lt. now apply H2.
Qed.
