(** Proofs about the property table generator, part 3: loading the property files. *)
From Coq Require Import Ascii String Permutation Sorted.
From Verif Require Import Base M_TableGen M_PropGen Spec_TableGen Spec_PropGen P_TableGen P_TableGen2 P_TableGen8 P_PropGen P_PropGen2.
Open Scope N_scope.

Lemma word_prefix_app w t : no_white w -> without ch_semi w -> tail_ok t -> word_prefix (w ++ t) = w.
Proof.
  induction w as [|c w IH]; intros Hw Hs Ht.
  - cbn [app]. destruct t as [|c t]; [reflexivity|]. cbn [word_prefix]. cbn in Ht. destruct Ht as [->|[->| ->]]; reflexivity.
  - inversion_clear Hw as [|? ? Hc Hw']. cbn [app word_prefix].
    assert (E : (c =? 32) || (c =? 9) || (c =? ch_semi) = false).
    { apply orb_false_iff. split; [apply orb_false_iff; split|]; apply N.eqb_neq; intros ->; [apply Hc; left; reflexivity|apply Hc; right; left; reflexivity|apply Hs; left; reflexivity]. }
    rewrite E, IH; auto. intros H. apply Hs. right. exact H.
Qed.
Lemma word_clean w : word w -> clean w.
Proof. intros (_ & H & _). now apply clean_no_white. Qed.
Lemma first_word_id w : word w -> first_word w = w.
Proof.
  intros Hw. unfold first_word. rewrite trim_id by now apply word_clean. destruct Hw as (_ & Hw & Hs & _).
  rewrite <- (app_nil_r w) at 1. apply word_prefix_app; cbn; auto.
Qed.

(** the range of a line *)
Definition range_of (l : stline) (p : str) : prange := (span_first (st_span l), span_last (st_span l), p).
Lemma inside_covers l p c : inside (range_of l p) c <-> covers (st_span l) c.
Proof. unfold inside, range_of, r_first, r_last. cbn [fst snd]. destruct (st_span l); cbn; lia. Qed.
(** what a line contributes *)
Definition parsed_line (crlf : bool) (l : fline stline) : option (N * N * str) :=
  match l with Data l => Some (range_of l (st_prop l)) | _ => None end.
Lemma parse_line crlf (l : fline stline) : match l with Data a => st_ok a | Comment _ => True | Blank s => Forall white s end ->
  parse_standard_line (line_text st_text l ++ eol crlf) = parsed_line crlf l.
Proof.
  destruct l as [l|s|s]; intros H; cbn [line_text parsed_line].
  - apply standard_exact. exact H.
  - apply (proj1 (standard_skip crlf s)).
  - apply (proj2 (proj2 (standard_skip crlf s)) H).
Qed.
Lemma ok_weaken {A} (P Q : A -> Prop) f : (forall a, P a -> Q a) -> lines_ok P f -> lines_ok Q f.
Proof. intros H G l Hl. specialize (G l Hl). destruct l; auto. Qed.
Lemma lines_cons {A} (ok : A -> Prop) l f : lines_ok ok (l :: f) -> match l with Data a => ok a | Comment _ => True | Blank s => Forall white s end /\ lines_ok ok f.
Proof. intros H. split; [exact (H l (or_introl eq_refl))|]. intros l' Hl. apply H. right. exact Hl. Qed.
Lemma file_text_cons {A} (render : A -> str) crlf l f : file_text render crlf (l :: f) = (line_text render l ++ eol crlf) :: file_text render crlf f.
Proof. reflexivity. Qed.
Lemma word_line_ok l : word_line l -> st_ok l.
Proof. intros [H _]. exact H. Qed.

Lemma load_generic_cons line lines : load_generic (line :: lines) =
  (match parse_standard_line line with Some (a, b, p) => [(a, b, first_word p)] | None => [] end) ++ load_generic lines.
Proof. reflexivity. Qed.
Lemma load_generic_in crlf f : lines_ok word_line f -> forall r,
  In r (load_generic (file_text st_text crlf f)) <-> exists l, has f l /\ r = range_of l (st_prop l).
Proof.
  induction f as [|l f IH]; intros Hf r; [split; [intros []|intros [l [[] _]]]|].
  apply lines_cons in Hf as [Hl Hf]. rewrite file_text_cons, load_generic_cons, parse_line.
  2:{ destruct l; auto. now apply word_line_ok. }
  rewrite in_app_iff, (IH Hf r). destruct l as [l|s|s]; cbn [parsed_line].
  - unfold range_of at 1. rewrite first_word_id by apply Hl. cbn [In]. split.
    + intros [[<-|[]]|[l' [H ->]]]; [exists l; split; [left; reflexivity|reflexivity]|exists l'; split; [right; exact H|reflexivity]].
    + intros [l' [[E|H] ->]]; [injection E as <-; left; left; reflexivity|right; exists l'; auto].
  - cbn. split; [intros [[]|[l' [H ->]]]; exists l'; split; [right; exact H|reflexivity]|].
    intros [l' [[E|H] ->]]; [discriminate E|right; exists l'; auto].
  - cbn. split; [intros [[]|[l' [H ->]]]; exists l'; split; [right; exact H|reflexivity]|].
    intros [l' [[E|H] ->]]; [discriminate E|right; exists l'; auto].
Qed.

(** ** Grouped loading *)
Definition gsorted (m : list (str * list prange)) := ssorted m.
Lemma push_get {V} k (v : V) m k' : smap_get k' (push k v m) = if str_eqb k' k then Some (match smap_get k m with Some l => l | None => [] end ++ [v]) else smap_get k' m.
Proof. unfold push. apply smap_get_set. Qed.
Lemma ungroup_in m r : In r (ungroup m) <-> exists k l, In (k, l) m /\ In r l.
Proof.
  unfold ungroup. rewrite in_concat. split.
  - intros [l [H Hr]]. apply in_map_iff in H as [[k l'] [<- H]]. eauto.
  - intros [k [l [H Hr]]]. exists l. split; [apply in_map_iff; exists (k, l); auto|exact Hr].
Qed.
Lemma ungroup_get m r : ssorted m -> (In r (ungroup m) <-> exists k l, smap_get k m = Some l /\ In r l).
Proof. intros Hs. rewrite ungroup_in. split; intros [k [l [A B]]]; exists k, l; (split; [|exact B]); apply (smap_in m k l Hs); exact A. Qed.
Lemma push_sorted {V} k (v : V) m : ssorted m -> ssorted (push k v m).
Proof. apply smap_set_sorted. Qed.
Lemma ungroup_push k v m r : ssorted m -> (In r (ungroup (push k v m)) <-> In r (ungroup m) \/ r = v).
Proof.
  intros Hs. rewrite !ungroup_get by auto using push_sorted. split.
  - intros [k' [l [A B]]]. rewrite push_get in A. destruct (str_eqb_spec k' k) as [->|].
    + injection A as <-. apply in_app_or in B as [B|[<-|[]]]; [|auto]. left. destruct (smap_get k m) as [l|] eqn:E; [eauto|destruct B].
    + left. eauto.
  - intros [[k' [l [A B]]]| ->].
    + destruct (str_eqb_spec k' k) as [->|N].
      * exists k, (l ++ [v]). rewrite push_get, str_eqb_refl, A. split; [reflexivity|apply in_or_app; auto].
      * exists k', l. rewrite push_get, str_eqb_neq by exact N. auto.
    + exists k. eexists. rewrite push_get, str_eqb_refl. split; [reflexivity|]. apply in_or_app. right. left. reflexivity.
Qed.
Lemma ungroup_new g m r : ssorted m -> smap_get g m = None -> (In r (ungroup (smap_set g [] m)) <-> In r (ungroup m)).
Proof.
  intros Hs Hg. rewrite !ungroup_get by auto using smap_set_sorted. split.
  - intros [k [l [A B]]]. rewrite smap_get_set in A. destruct (str_eqb_spec k g) as [->|]; [injection A as <-; destruct B|eauto].
  - intros [k [l [A B]]]. exists k, l. rewrite smap_get_set. destruct (str_eqb_spec k g) as [->|]; [congruence|auto].
Qed.
Lemma st_head crlf l : st_ok l -> exists c t, trim (st_text l ++ eol crlf) = c :: t /\ c <> ch_hash.
Proof.
  intros [Hs _]. destruct (span_head (st_span l)) as [x [s [Es [Hw Hx]]]]. unfold st_text. rewrite Es.
  cbn [app]. set (rest := (s ++ _) ++ eol crlf).
  exists x. unfold trim. cbn [drop_front]. assert (Ex : is_ws x = false) by now apply not_white. rewrite Ex.
  destruct (drop_back_split is_ws (x :: rest)) as [w [Ew Hw2]].
  destruct (drop_back is_ws (x :: rest)) as [|y t] eqn:Ed.
  - cbn [app] in Ew. rewrite <- Ew in Hw2. inversion_clear Hw2. congruence.
  - cbn [app] in Ew. injection Ew as <- Et. exists t. split; [reflexivity|]. exact Hx.
Qed.
Lemma load_grouped_in crlf key f : lines_ok word_line f -> forall r,
  In r (ungroup (load_grouped key (file_text st_text crlf f))) <-> exists l, has f l /\ r = range_of l (st_prop l).
Proof.
  intros Hf r. unfold load_grouped.
  assert (G : forall st, ssorted (snd st) ->
    ssorted (snd (fold_left (load_grouped_line key) (file_text st_text crlf f) st)) /\
    (In r (ungroup (snd (fold_left (load_grouped_line key) (file_text st_text crlf f) st))) <->
     In r (ungroup (snd st)) \/ exists l, has f l /\ r = range_of l (st_prop l))).
  { induction f as [|l f IH]; intros [g m] Hs; [cbn [file_text map fold_left]; split; [exact Hs|]; split; [auto|intros [H|[l [[] _]]]; exact H]|].
    apply lines_cons in Hf as [Hl Hf]. rewrite file_text_cons. cbn [fold_left]. cbn [snd] in Hs.
    assert (Hp : parse_standard_line (line_text st_text l ++ eol crlf) = parsed_line crlf l).
    { apply parse_line. destruct l; auto. now apply word_line_ok. }
    destruct l as [l|s|s].
    - (* data *)
      assert (E : load_grouped_line key (g, m) (line_text st_text (Data l) ++ eol crlf) = (g, push g (range_of l (st_prop l)) m)).
      { unfold load_grouped_line. destruct (st_head crlf l (word_line_ok _ Hl)) as [c [t [Et Hc]]]. cbn [line_text] in *. rewrite Et.
        rewrite (proj2 (N.eqb_neq _ _) Hc), Hp. unfold parsed_line, range_of. rewrite first_word_id by apply Hl. reflexivity. }
      rewrite E. destruct (IH Hf (g, push g (range_of l (st_prop l)) m) (push_sorted _ _ _ Hs)) as [A B]. split; [exact A|]. rewrite B. cbn [snd].
      rewrite ungroup_push by exact Hs. split.
      + intros [[H| ->]|[l' [H ->]]]; [auto|right; exists l; split; [left; reflexivity|reflexivity]|right; exists l'; split; [right; exact H|reflexivity]].
      + intros [H|[l' [[E'|H] ->]]]; [auto|injection E' as <-; auto|right; exists l'; auto].
    - (* comment *)
      assert (E : exists g', load_grouped_line key (g, m) (line_text st_text (Comment s) ++ eol crlf) = (g', m) \/
        (smap_get g' m = None /\ load_grouped_line key (g, m) (line_text st_text (Comment s) ++ eol crlf) = (g', smap_set g' [] m))).
      { unfold load_grouped_line. rewrite Hp. cbn [parsed_line].
        destruct (trim (line_text st_text (Comment s) ++ eol crlf)) as [|c t]; [eauto|]. destruct (c =? ch_hash); [|eauto].
        destruct (find_sub (key ++ [58]) (line_text st_text (Comment s) ++ eol crlf)) as [pos|]; [|eauto].
        destruct (line_text st_text (Comment s) ++ eol crlf) as [|c0 r0]; [eauto|]. destruct (c0 =? ch_hash); [|eauto].
        set (g' := first_word _). exists g'. destruct (smap_get g' m) eqn:Eg; auto. }
      destruct E as [g' [E|[Eg E]]]; rewrite E.
      + destruct (IH Hf (g', m) Hs) as [A B]. split; [exact A|]. rewrite B. cbn [snd]. split.
        * intros [H|[l' [H ->]]]; [auto|right; exists l'; split; [right; exact H|reflexivity]].
        * intros [H|[l' [[E'|H] ->]]]; [auto|discriminate E'|right; exists l'; auto].
      + destruct (IH Hf (g', smap_set g' [] m) (smap_set_sorted _ _ _ Hs)) as [A B]. split; [exact A|]. rewrite B. cbn [snd]. rewrite ungroup_new by assumption. split.
        * intros [H|[l' [H ->]]]; [auto|right; exists l'; split; [right; exact H|reflexivity]].
        * intros [H|[l' [[E'|H] ->]]]; [auto|discriminate E'|right; exists l'; auto].
    - (* blank *)
      assert (E : load_grouped_line key (g, m) (line_text st_text (Blank s) ++ eol crlf) = (g, m)).
      { unfold load_grouped_line. rewrite Hp. cbn [line_text parsed_line] in *. rewrite trim_white; [reflexivity|].
        apply Forall_app. split; [exact Hl|apply eol_white]. }
      rewrite E. destruct (IH Hf (g, m) Hs) as [A B]. split; [exact A|]. rewrite B. cbn [snd]. split.
      + intros [H|[l' [H ->]]]; [auto|right; exists l'; split; [right; exact H|reflexivity]].
      + intros [H|[l' [[E'|H] ->]]]; [auto|discriminate E'|right; exists l'; auto]. }
  destruct (G ([], []) (SSorted_nil _)) as [_ B]. rewrite B. cbn. intuition.
Qed.
