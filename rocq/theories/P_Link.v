(** Lemmas: the generated table as the property assignment of the library. *)
From Coq Require Import String.
From Verif Require Import Base M_Ucd M_TableGen M_PropGen M_Multistage M_Emoji M_Link Spec_TableGen Spec_PropGen Spec_Link P_TableGen P_PropGen9 T_PropGen
  Spec_Grapheme Spec_Word Spec_Width Spec_Scan.
Open Scope N_scope.

Lemma is_named_eq s n : is_named s n = true <-> s = lit n.
Proof. unfold is_named. apply str_eqb_eq. Qed.
Ltac named_chain := repeat match goal with |- context [is_named ?s ?n] => let E := fresh "E" in destruct (is_named s n) eqn:E; [apply is_named_eq in E; subst|] end.

Lemma gcb_of_named n g s : In (n, g) gcb_names -> (gcb_of s = g <-> s = lit n).
Proof.
  intros H. split.
  - intros <-. revert H. unfold gcb_of. named_chain; cbn [gcb_names In]; intuition congruence.
  - intros ->. unfold gcb_names in H. repeat (destruct H as [H|H]; [injection H as <- <-; vm_compute; reflexivity|]). destruct H.
Qed.
Lemma incb_of_named n g s : In (n, g) incb_names -> (incb_of s = g <-> s = lit n).
Proof.
  intros H. split.
  - intros <-. revert H. unfold incb_of. named_chain; cbn [incb_names In]; intuition congruence.
  - intros ->. unfold incb_names in H. repeat (destruct H as [H|H]; [injection H as <- <-; vm_compute; reflexivity|]). destruct H.
Qed.
Lemma wb_of_named n g s : In (n, g) wb_names -> (wb_of s = g <-> s = lit n).
Proof.
  intros H. split.
  - intros <-. revert H. unfold wb_of. named_chain; cbn [wb_names In]; intuition congruence.
  - intros ->. unfold wb_names in H. repeat (destruct H as [H|H]; [injection H as <- <-; vm_compute; reflexivity|]). destruct H.
Qed.
Definition is_esc (s : str) : Prop := s = lit "Emoji" \/ In s (map (fun p => lit (fst p)) ecat_names).
Lemma ecat_of_named n g s : is_esc s -> In (n, g) ecat_names -> (ecat_of s = g <-> s = lit n).
Proof.
  intros V H. split.
  - intros <-. revert H. unfold ecat_of. named_chain; cbn [ecat_names In]; try solve [intuition congruence].
    destruct V as [V|V]; [apply is_named_eq in V; congruence|].
    assert (s = lit "Invalid").
    { apply in_map_iff in V as ([m e] & Em & Hm). cbn [fst] in Em. unfold ecat_names in Hm. cbn [In] in Hm.
      repeat (destruct Hm as [Hm|Hm]; [injection Hm as <- <-; symmetry in Em; apply is_named_eq in Em; congruence|]).
      destruct Hm as [Hm|[]]. injection Hm as <- <-. symmetry. exact Em. }
    subst s. intuition congruence.
  - intros ->. unfold ecat_names in H. repeat (destruct H as [H|H]; [injection H as <- <-; vm_compute; reflexivity|]). destruct H.
Qed.
Lemma first_match_in {V} (rules : list (Prop * V)) d v : first_match rules d v -> v = d \/ In v (map snd rules).
Proof.
  induction rules as [|[P x] r IH]; cbn; [now left|]. intros [[_ ->]|[_ H]]; [auto|]. destruct (IH H); auto.
Qed.

Section Props.
  Variables (crlf : bool) (F : ucd_files) (props : N -> orec).
  Hypothesis (Hok : files_ok F) (Hg : generated_props crlf F props).
  Lemma props_describe : describes F (fun c => props_of (props c)).
  Proof.
    intros c Hc. destruct (C76_values crlf F props Hok Hg c) as (_ & Vgc & Vg & Vw & _ & Vi & _).
    destruct (C77_flags crlf F props Hok Hg c) as (F1 & F2 & _ & F4 & _ & F6 & _ & F8 & _ & F10 & _).
    pose proof (C78_width crlf F props Hok Hg c) as W. cbn [props_of p_gcb p_incb p_wb p_width p_extpic p_virama p_varbase p_emoji_modifier p_emoji p_emoji_pres p_mc].
    assert (UG : forall v v', valued F GCB (gives (f_gcb F) c) (lit "Other") v -> valued F GCB (gives (f_gcb F) c) (lit "Other") v' -> v = v') by (intros v v'; apply (C76_values_unique F c v v' Hok)).
    assert (UW : forall v v', valued F WB (gives (f_wb F) c) (lit "Other") v -> valued F WB (gives (f_wb F) c) (lit "Other") v' -> v = v') by (intros v v'; apply (C76_values_unique F c v v' Hok)).
    assert (UI : forall v v', valued F INCB (fun w => gives (f_core F) c (incb w)) (lit "None") v -> valued F INCB (fun w => gives (f_core F) c (incb w)) (lit "None") v' -> v = v') by (intros v v'; apply (C76_values_unique F c v v' Hok)).
    assert (UC : forall v v', gc_value F c v -> gc_value F c v' -> v = v') by (intros v v'; apply (C76_values_unique F c v v' Hok)).
    split. { intros n g H. rewrite (gcb_of_named n g _ H). unfold file_gcb. split; [intros E; rewrite <- E; exact Vg|intros V; apply UG; [exact Vg|exact V]]. }
    split. { intros n g H. rewrite (incb_of_named n g _ H). unfold file_incb. split; [intros E; rewrite <- E; exact Vi|intros V; apply UI; [exact Vi|exact V]]. }
    split. { intros n g H. rewrite (wb_of_named n g _ H). unfold file_wb. split; [intros E; rewrite <- E; exact Vw|intros V; apply UW; [exact Vw|exact V]]. }
    split; [exact W|]. unfold emoji_prop.
    split; [exact F6|]. split; [exact F8|]. split; [exact F10|]. split; [exact F4|]. split; [exact F1|]. split; [exact F2|].
    rewrite is_named_eq. split; [intros E; rewrite <- E; exact Vgc|intros V; apply UC; [exact Vgc|exact V]].
  Qed.
  Lemma props_ecat : describes_ecat F (fun c => ecat_of (o_esc (props c))).
  Proof.
    intros c Hc n e H. pose proof (C79_emoji_segmentation_category crlf F props Hok Hg c) as M.
    assert (V : is_esc (o_esc (props c))).
    { destruct (first_match_in _ _ _ M) as [E|E]; [right; rewrite E; vm_compute; tauto|]. cbn [esc_rules map snd] in E. right. unfold ecat_names. cbn [map fst]. cbn [In] in E |- *. tauto. }
    rewrite (ecat_of_named n e _ V H). split; [intros E; rewrite <- E; exact M|]. intros M'. exact (first_match_unique _ _ _ _ M M').
  Qed.
End Props.

(** ** Uniqueness *)
Lemma enum_agree {A} (dec : forall a b : A, {a = b} + {a <> b}) (names : list (string * A)) (P : string -> Prop) (x y other : A) :
  (forall a, a = other \/ exists n, In (n, a) names) ->
  (forall n g, In (n, g) names -> (x = g <-> P n)) -> (forall n g, In (n, g) names -> (y = g <-> P n)) -> x = y.
Proof.
  intros T Hx Hy. destruct (T x) as [Ex|[n In1]].
  - destruct (T y) as [Ey|[m In2]]; [congruence|]. apply (Hx m y In2). apply (Hy m y In2). reflexivity.
  - symmetry. apply (Hy n x In1). apply (Hx n x In1). reflexivity.
Qed.
Lemma gcb_total a : a = GOther \/ exists n, In (n, a) gcb_names.
Proof. destruct a; [now left|..]; right; eexists; unfold gcb_names; cbn [In]; repeat (first [left; reflexivity | right]). Qed.
Lemma incb_total a : a = INone \/ exists n, In (n, a) incb_names.
Proof. destruct a; [now left|..]; right; eexists; unfold incb_names; cbn [In]; repeat (first [left; reflexivity | right]). Qed.
Lemma wb_total a : a = WOther \/ exists n, In (n, a) wb_names.
Proof. destruct a; [now left|..]; right; eexists; unfold wb_names; cbn [In]; repeat (first [left; reflexivity | right]). Qed.
Lemma bool_agree (a b : bool) (P : Prop) : (a = true <-> P) -> (b = true <-> P) -> a = b.
Proof. destruct a, b; intuition congruence. Qed.
Lemma describes_unique F u v : describes F u -> describes F v -> forall c, c <= 0x10FFFF -> u c = v c.
Proof.
  intros Hu Hv c Hc. destruct (Hu c Hc) as (A1 & A2 & A3 & A4 & A5 & A6 & A7 & A8 & A9 & A10 & A11).
  destruct (Hv c Hc) as (B1 & B2 & B3 & B4 & B5 & B6 & B7 & B8 & B9 & B10 & B11).
  pose proof (enum_agree gcb_eq_dec gcb_names _ _ _ GOther gcb_total A1 B1) as E1.
  pose proof (enum_agree incb_eq_dec incb_names _ _ _ INone incb_total A2 B2) as E2.
  pose proof (enum_agree wbc_eq_dec wb_names _ _ _ WOther wb_total A3 B3) as E3.
  pose proof (first_match_unique _ _ _ _ A4 B4) as E4.
  pose proof (bool_agree _ _ _ A5 B5) as E5. pose proof (bool_agree _ _ _ A6 B6) as E6. pose proof (bool_agree _ _ _ A7 B7) as E7.
  pose proof (bool_agree _ _ _ A8 B8) as E8. pose proof (bool_agree _ _ _ A9 B9) as E9. pose proof (bool_agree _ _ _ A10 B10) as E10.
  pose proof (bool_agree _ _ _ A11 B11) as E11.
  destruct (u c), (v c); cbn in *; congruence.
Qed.

(** ** The data hypotheses *)
Section Facts.
  Variables (F : ucd_files) (u : ucd).
  Hypothesis (D : describes F u) (Hhigh : forall c, 0x10FFFF < c -> u c = u 0) (Hf : database_facts F).
  Ltac inn := unfold gcb_names, incb_names, wb_names; cbn [In]; repeat (first [left; reflexivity | right]).
  Lemma low c : exists c', c' <= 0x10FFFF /\ u c = u c' /\ (c < 128 -> c' = c).
  Proof. destruct (N.le_gt_cases c 0x10FFFF) as [H|H]; [exists c; auto|exists 0]. split; [lia|]. split; [apply Hhigh, H|lia]. Qed.
  Lemma gcb_file c n g : c <= 0x10FFFF -> In (n, g) gcb_names -> (p_gcb (u c) = g <-> file_gcb F c n).
  Proof. intros Hc. apply (D c Hc). Qed.
  Lemma no_gcb c : c <= 0x10FFFF -> (forall n g, In (n, g) gcb_names -> ~ file_gcb F c n) -> p_gcb (u c) = GOther.
  Proof. intros Hc H. destruct (gcb_total (p_gcb (u c))) as [E|[n I]]; [exact E|]. destruct (H n _ I). now apply (gcb_file c n _ Hc I). Qed.
  Lemma widths2 : widths_le2 u.
  Proof.
    intros c. destruct (low c) as (c' & Hc & -> & _). destruct (D c' Hc) as (_ & _ & _ & W & _).
    destruct (first_match_in _ _ _ W) as [E|E]; [lia|]. cbn [width_rules map snd In] in E. intuition lia.
  Qed.
  Lemma grapheme_facts : ucd_grapheme_ok u.
  Proof.
    constructor.
    - intros c Hc. destruct (D c ltac:(lia)) as (G & I & _ & _ & P & _). split; [|split].
      + destruct (gcb_total (p_gcb (u c))) as [E|[n H]]; [now left|right]. pose proof (proj1 (G n _ H) eq_refl) as X.
        unfold ctl. destruct (df_ascii_gcb F Hf c n _ Hc H X) as [E|[E|E]]; auto.
      + destruct (incb_total (p_incb (u c))) as [E|[n H]]; [exact E|]. destruct (df_ascii_incb F Hf c n _ Hc H). now apply (I n _ H).
      + destruct (p_extpic (u c)) eqn:E; [|reflexivity]. destruct (df_ascii_pict F Hf c Hc). now apply P.
    - intros c. destruct (low c) as (c' & Hc & -> & _). destruct (D c' Hc) as (G & I & _). intros H.
      assert (X : file_incb F c' "Linker" \/ file_incb F c' "Extend").
      { destruct H as [H|H]; [left; apply (I "Linker"%string ILinker ltac:(inn)); exact H|right; apply (I "Extend"%string IExtend ltac:(inn)); exact H]. }
      destruct (df_linker F Hf c' X) as [Y|[Y|Y]]; [left|right; left|right; right]; eapply G; try exact Y; inn.
    - intros c. destruct (low c) as (c' & Hc & -> & _). destruct (D c' Hc) as (G & I & _). intros H. apply (no_gcb c' Hc).
      intros n g Hn. apply (df_consonant F Hf c' n g); [|exact Hn]. apply (I "Consonant"%string IConsonant ltac:(inn)), H.
    - intros c. destruct (low c) as (c' & Hc & -> & _). destruct (D c' Hc) as (_ & _ & _ & _ & P & _). intros H. apply (no_gcb c' Hc).
      intros n g Hn. apply (df_pict F Hf c' n g); [|exact Hn]. apply P, H.
  Qed.
  Lemma word_facts : ucd_word_ok u.
  Proof.
    intros c. destruct (low c) as (c' & Hc & -> & _). destruct (D c' Hc) as (_ & _ & W & _ & P & _). intros H I.
    apply (df_pict_wb F Hf c' (proj1 P H)). destruct I as [I|[I|I]]; [left|right; left|right; right]; (eapply W; [|exact I]; inn).
  Qed.
  Lemma zwj_width : p_width (u 0x200D) = 0.
  Proof.
    destruct (D 0x200D ltac:(lia)) as (_ & _ & _ & W & _). destruct (df_zwj F Hf) as [C P]. cbn [width_rules first_match] in W.
    destruct W as [[_ E]|[_ [[E _]|[_ [[[_ E] _]|[_ [[_ E]|[Z _]]]]]]]]; [exact E|discriminate|destruct (P E)|exact E|].
    destruct Z. unfold zero_width_category. do 2 apply Exists_cons_tl. apply Exists_cons_hd, C.
  Qed.
  Lemma width_facts : ucd_width_ok u.
  Proof.
    constructor; [|exact zwj_width]. destruct (ok_ascii u grapheme_facts 0 ltac:(lia)) as (G & _ & P). split; [exact P|].
    intros E. rewrite E in G. unfold ctl in G. intuition discriminate.
  Qed.
  Lemma scan_facts : ucd_scan_ok u.
  Proof.
    constructor.
    - intros c Hc. destruct (df_printable F Hf c Hc) as (G & H1 & H2 & H3 & H4 & H5 & H6). destruct (D c ltac:(lia)) as (_ & _ & _ & W & _). split.
      + cbn [width_rules first_match] in W. destruct W as [[[W|W] _]|[_ W]]; [contradiction|contradiction|].
        destruct W as [[_ W]|[_ W]]; [exact W|]. destruct W as [[_ W]|[_ W]]; [exact W|]. destruct W as [[W _]|[_ W]]; [contradiction|].
        destruct W as [[W _]|[_ W]]; [contradiction|]. destruct W as [[[W|W] _]|[_ W]]; [contradiction|contradiction|exact W].
      + apply no_gcb; [lia|exact G].
    - intros c. destruct (low c) as (c' & Hc & E & _). unfold ezs. rewrite E. destruct (D c' Hc) as (G & _ & _ & _ & _ & _ & V & _). intros B _ X.
      destruct (proj1 V B) as (e & He & Eb).
      destruct X as [X|[X|X]]; [apply (df_varbase F Hf e "Extend"%string He ltac:(cbn; auto))|apply (df_varbase F Hf e "ZWJ"%string He ltac:(cbn; auto))
        |apply (df_varbase F Hf e "SpacingMark"%string He ltac:(cbn; auto))]; rewrite Eb; (eapply G; [|exact X]; inn).
  Qed.
End Facts.
