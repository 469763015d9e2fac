(** Theorems about the query functions of ucd.h generated from the Unicode Character Database: C83 to C88.  The tables are those the generator
    writes for the text of the files ([file_text], with LF or CR LF); std::sort may leave any sorted permutation ([sorted_by_first]). *)
From Coq Require Import Ascii String Permutation Sorted.
From Verif Require Import Base M_TableGen M_PropGen M_UcdApi M_Tables Spec_Tables Spec_TableGen Spec_PropGen Spec_UcdApi
  P_Tables P_TableGen P_TableGen2 P_TableGen8 P_PropGen P_PropGen2 P_PropGen3 P_PropGen4 P_PropGen5 P_PropGen6 P_PropGen7
  PropGen_Demo T_PropGen P_UcdApi P_UcdApi2 P_UcdApi3 P_UcdApi4.
Open Scope N_scope.

(** C83.  script(): the script the file gives the code point, Unknown if it gives none; the table is never indexed out of range. *)
Theorem C83_script : forall crlf f tbl c, lines_ok word_line f -> separate f -> nonempty f ->
  sorted_by_first (load_generic (file_text st_text crlf f)) tbl ->
  exists v, api_script tbl c = Ok v /\ (gives f c v \/ (forall w, ~ gives f c w) /\ v = lit "Unknown").
Proof.
  intros crlf f tbl c Hf Hs Hne Ht. rewrite load_generic_data in Ht by exact Hf.
  destruct (search_lines st_prop (data f) tbl (lit "Unknown") c (word_lines_ok f Hf) Hs (nonempty_data f Hne) Ht) as (v & E & [(l & Hl & Hc & <-)|[Hno ->]]).
  - exists (st_prop l). split; [exact E|]. left. exists l. rewrite data_in. auto.
  - eexists. split; [exact E|]. right. split; [|reflexivity]. intros w (l & Hl & Hc & _). apply (Hno l); [now apply data_in|exact Hc].
Qed.
Print Assumptions C83_script.

(** C94.  script() and the Script field of the code point property table agree. *)
Theorem C94_script : forall crlf crlf' F props tbl c, files_ok F -> separate (f_scripts F) -> nonempty (f_scripts F) ->
  generated_props crlf F props -> sorted_by_first (load_generic (file_text st_text crlf' (f_scripts F))) tbl ->
  api_script tbl c = Ok (o_script (props c)).
Proof.
  intros crlf crlf' F props tbl c Hok Hs Hne Hp Ht. pose proof (proj1 (C76_values crlf F props Hok Hp c)) as V.
  assert (Hf : lines_ok word_line (f_scripts F)). { destruct Hok as (_ & H & _). inversion_clear H as [|? ? [H1 _] _]. exact H1. }
  destruct (C83_script crlf' (f_scripts F) tbl c Hf Hs Hne Ht) as (v & E & V'). rewrite E. f_equal.
  exact (proj1 (C76_values_unique F c v (o_script (props c)) Hok) V' V).
Qed.
Print Assumptions C94_script.

(** C84.  General categories. *)
Section Gc.
Context (crlf : bool) (head : list str) (aliases : list section) (pre : list (fline stline)) (secs : list gsection).
Let f := gc_file pre secs.
Lemma gc_aliases : pva_ok aliases -> secs <> [] -> gc_sections_ok aliases pre secs -> exists al,
  smap_get GC (load_pva (pva_text crlf head aliases)) = Some al /\ (forall a v, smap_get a al = Some v <-> alias aliases GC a v) /\
  (forall l, has f l -> exists v, smap_get (st_prop l) al = Some v).
Proof.
  intros Hp Hne (Hpre & _ & _ & Hs). destruct (load_pva_in crlf head aliases GC Hp ltac:(discriminate)) as [Hso Hal].
  assert (Hget : forall a v, smap_get a (match smap_get GC (load_pva (pva_text crlf head aliases)) with Some l => l | None => [] end) = Some v <-> alias aliases GC a v).
  { intros a v. rewrite <- Hal. symmetry. apply (smap_in _ a v Hso). }
  assert (Hcov : forall l, has f l -> exists v, alias aliases GC (st_prop l) v).
  { intros l Hl. unfold f, gc_file in Hl. apply data_in in Hl. rewrite data_app, Hpre in Hl. cbn [app] in Hl. apply data_in in Hl. unfold has in Hl. apply in_flat_map in Hl as (s & Hin & [E|Hl]); [discriminate E|].
    exists (gs_name s). destruct (Hs s Hin) as (_ & _ & _ & _ & H). now apply H. }
  destruct (smap_get GC (load_pva (pva_text crlf head aliases))) as [al|] eqn:E.
  - exists al. split; [reflexivity|]. split; [exact Hget|]. intros l Hl. destruct (Hcov l Hl) as [v Hv]. exists v. now apply Hget.
  - exfalso. destruct secs as [|s r]; [contradiction|]. destruct (Hs s (or_introl eq_refl)) as (_ & _ & _ & [l Hl] & H). apply H, Hget in Hl. discriminate Hl.
Qed.
Lemma gc_line_sec l : data pre = [] -> (has f l <-> exists s, In s secs /\ has (gs_body s) l).
Proof.
  intros Hpre. rewrite data_in. unfold f, gc_file. rewrite data_app, Hpre. cbn [app]. rewrite <- data_in. unfold has. rewrite in_flat_map. split.
  - intros (s & Hs & [E|H]); [discriminate E|]. exists s. auto.
  - intros (s & Hs & H). exists s. split; [exact Hs|right; exact H].
Qed.
End Gc.
(** the database can be loaded *)
Theorem C84_loads : forall crlf head aliases pre secs, pva_ok aliases -> secs <> [] -> lines_ok word_line (gc_file pre secs) -> gc_sections_ok aliases pre secs ->
  load_gc (load_pva (pva_text crlf head aliases)) (file_text st_text crlf (gc_file pre secs)) <> None.
Proof.
  intros crlf head aliases pre secs Hp Hne Hf Hs. destruct (gc_aliases crlf head aliases pre secs Hp Hne Hs) as (al & Hm & _ & Hcov).
  destruct Hs as (Hpre & Hh & Hnd & Hs).
  destruct (load_gc_get crlf al _ pre secs Hm Hf Hpre Hh (fun s Hin => match Hs s Hin with conj a (conj b (conj _ (conj d _))) => conj a (conj b d) end) Hcov) as (cats & E & _).
  congruence.
Qed.
Print Assumptions C84_loads.
(** general_category::get() returns the category the file gives the code point, Unspecified if it gives none *)
Theorem C84_get : forall crlf head aliases pre secs cats l tbl c, pva_ok aliases -> secs <> [] -> lines_ok word_line (gc_file pre secs) -> separate (gc_file pre secs) ->
  gc_sections_ok aliases pre secs ->
  load_gc (load_pva (pva_text crlf head aliases)) (file_text st_text crlf (gc_file pre secs)) = Some (cats, l) -> sorted_by_first l tbl ->
  exists v, api_gc_get tbl c = Ok v /\
    ((exists a, gives (gc_file pre secs) c a /\ alias aliases GC a v) \/ (forall a, ~ gives (gc_file pre secs) c a) /\ v = lit "Unspecified").
Proof.
  intros crlf head aliases pre secs cats l tbl c Hp Hne Hf Hsep Hs Hl Ht. destruct (gc_aliases crlf head aliases pre secs Hp Hne Hs) as (al & Hm & Hget & Hcov).
  assert (Hdne : data (gc_file pre secs) <> []).
  { apply nonempty_data. destruct secs as [|s r]; [contradiction|]. destruct Hs as (Hpre & _ & _ & Hs). destruct (Hs s (or_introl eq_refl)) as (_ & _ & _ & [x Hx] & _).
    exists x. apply gc_line_sec; [exact Hpre|]. exists s. split; [left; reflexivity|exact Hx]. }
  destruct Hs as (Hpre & Hh & Hnd & Hs).
  destruct (load_gc_get crlf al _ pre secs Hm Hf Hpre Hh (fun s Hin => match Hs s Hin with conj a (conj b (conj _ (conj d _))) => conj a (conj b d) end) Hcov) as (cats' & E & _).
  assert (El : l = map (valued_range al) (data (gc_file pre secs))) by congruence. clear E Hl. subst l.
  destruct (search_lines (fun l => match smap_get (st_prop l) al with Some v => v | None => [] end) (data (gc_file pre secs)) tbl (lit "Unspecified") c
    (word_lines_ok _ Hf) Hsep Hdne Ht) as (v & E & [(l & Hl & Hc & Hv)|[Hno ->]]).
  - exists v. split; [exact E|]. left. apply data_in in Hl. exists (st_prop l). split; [exists l; auto|]. destruct (Hcov l Hl) as [u Hu]. rewrite Hu in Hv. subst u. now apply Hget.
  - eexists. split; [exact E|]. right. split; [|reflexivity]. intros w (l & Hl & Hc & _). apply (Hno l); [now apply data_in|exact Hc].
Qed.
Print Assumptions C84_get.
(** contains(General_Category, c), and so is_uppercase_letter(c) etc., decide whether the file gives the code point that category *)
Theorem C84_contains : forall crlf head aliases pre secs cats l name c, pva_ok aliases -> secs <> [] -> lines_ok word_line (gc_file pre secs) ->
  gc_sections_ok aliases pre secs ->
  load_gc (load_pva (pva_text crlf head aliases)) (file_text st_text crlf (gc_file pre secs)) = Some (cats, l) ->
  exists b, api_gc_contains cats name c = Ok b /\ (b = true <-> exists a, gives (gc_file pre secs) c a /\ alias aliases GC a name).
Proof.
  intros crlf head aliases pre secs cats l name c Hp Hne Hf Hsec Hl. destruct (gc_aliases crlf head aliases pre secs Hp Hne Hsec) as (al & Hm & Hget & Hcov).
  destruct Hsec as (Hpre & Hh & Hnd & Hs).
  destruct (load_gc_get crlf al _ pre secs Hm Hf Hpre Hh (fun s Hin => match Hs s Hin with conj a (conj b (conj _ (conj d _))) => conj a (conj b d) end) Hcov) as (cats' & E & Hc).
  assert (Ec : cats = cats') by congruence. clear E Hl. subst cats'. unfold api_gc_contains. rewrite Hc.
  assert (Hbody : forall s, In s secs -> lines_ok word_line (gs_body s)).
  { intros s Hin x Hx. apply Hf. unfold gc_file. apply in_or_app. right. apply in_flat_map. exists s. split; [exact Hin|right; exact Hx]. }
  assert (Hmean : (exists a, gives (gc_file pre secs) c a /\ alias aliases GC a name) <-> exists s x, In s secs /\ gs_name s = name /\ has (gs_body s) x /\ covers (st_span x) c).
  { split.
    - intros (a & (x & Hx & Hcx & <-) & Ha). apply gc_line_sec in Hx as (s & Hin & Hx); [|exact Hpre]. exists s, x. split; [exact Hin|]. split; [|auto].
      destruct (Hs s Hin) as (_ & _ & _ & _ & H). destruct Hp as (_ & _ & Hu). apply (Hu GC (st_prop x)); [discriminate|apply H; exact Hx|exact Ha].
    - intros (s & x & Hin & <- & Hx & Hcx). exists (st_prop x). destruct (Hs s Hin) as (_ & _ & _ & _ & H). split; [|apply H; exact Hx].
      exists x. split; [apply gc_line_sec; [exact Hpre|]; exists s; auto|auto]. }
  destruct (in_dec (list_eq_dec N.eq_dec) name (map gs_name secs)) as [Hin|Hno].
  - apply in_map_iff in Hin as (s & <- & Hin).
    assert (Er : sec_ranges al (gs_name s) secs = map (valued_range al) (data (gs_body s))).
    { clear -Hnd Hin. unfold sec_ranges. induction secs as [|t r IH]; [destruct Hin|]. cbn [map flat_map] in *. inversion_clear Hnd as [|? ? N1 N2].
      assert (Hrest : forall k, ~ In k (map gs_name r) -> flat_map (fun s0 => if str_eqb k (gs_name s0) then map (valued_range al) (data (gs_body s0)) else []) r = []).
      { clear. intros k Hk. induction r as [|u r IH]; [reflexivity|]. cbn [flat_map map] in *. destruct (str_eqb_spec k (gs_name u)) as [->|]; [destruct Hk; left; reflexivity|]. apply IH. intros H. apply Hk. right. exact H. }
      destruct Hin as [->|Hin].
      - rewrite str_eqb_refl. rewrite Hrest by exact N1. now rewrite app_nil_r.
      - destruct (str_eqb_spec (gs_name s) (gs_name t)) as [E|]; [exfalso; apply N1; rewrite <- E; apply in_map; exact Hin|]. cbn [app]. now apply IH. }
    rewrite Er. destruct (Hs s Hin) as (_ & _ & Hasc & Hbn & _). pose proof (nonempty_data _ Hbn) as Hd.
    assert (Ea : addto None (map (valued_range al) (data (gs_body s))) = Some (map (valued_range al) (data (gs_body s)))) by (destruct (data (gs_body s)); [contradiction|reflexivity]).
    rewrite Ea. destruct (contains_lines (data (gs_body s)) (map (valued_range al) (data (gs_body s))) (fun l => match smap_get (st_prop l) al with Some v => v | None => [] end) c
      (word_lines_ok _ (Hbody s Hin)) (ascending_apart _ (Hbody s Hin) Hasc) Hd (ascending_sorted _ _ (word_lines_ok _ (Hbody s Hin)) Hasc)) as (b & Eb & Hb).
    exists b. split; [exact Eb|]. rewrite Hb, Hmean. split.
    + intros (x & Hx & Hcx). exists s, x. apply data_in in Hx. auto.
    + intros (s' & x & Hin' & En & Hx & Hcx). exists x. split; [|exact Hcx]. apply data_in. replace s with s'; [exact Hx|].
      clear -Hnd Hin Hin' En. induction secs as [|t r IH]; [destruct Hin|]. cbn [map] in Hnd. inversion_clear Hnd as [|? ? N1 N2].
      destruct Hin as [->|Hin], Hin' as [->|Hin']; [reflexivity| | |auto].
      * exfalso. apply N1. rewrite <- En. apply in_map. exact Hin'.
      * exfalso. apply N1. rewrite En. apply in_map. exact Hin.
  - assert (Er : sec_ranges al name secs = []).
    { clear -Hno. unfold sec_ranges. induction secs as [|u r IH]; [reflexivity|]. cbn [flat_map map] in *. destruct (str_eqb_spec name (gs_name u)) as [->|]; [destruct Hno; left; reflexivity|]. apply IH. intros H. apply Hno. right. exact H. }
    rewrite Er. exists false. split; [reflexivity|]. split; [discriminate|]. rewrite Hmean. intros (s & x & Hin & <- & _). exfalso. apply Hno. apply in_map. exact Hin.
Qed.
Print Assumptions C84_contains.
(** the two agree: contains(name, c) exactly if get(c) is [name] (for [name] other than Unspecified) *)
Theorem C84_get_contains_agree : forall crlf head aliases pre secs cats l tbl name c, pva_ok aliases -> secs <> [] -> lines_ok word_line (gc_file pre secs) ->
  separate (gc_file pre secs) -> gc_sections_ok aliases pre secs ->
  load_gc (load_pva (pva_text crlf head aliases)) (file_text st_text crlf (gc_file pre secs)) = Some (cats, l) -> sorted_by_first l tbl ->
  name <> lit "Unspecified" -> (api_gc_contains cats name c = Ok true <-> api_gc_get tbl c = Ok name).
Proof.
  intros crlf head aliases pre secs cats l tbl name c Hp Hne Hf Hsep Hs Hl Ht Hn.
  destruct (C84_get crlf head aliases pre secs cats l tbl c Hp Hne Hf Hsep Hs Hl Ht) as (v & Ev & Hv).
  destruct (C84_contains crlf head aliases pre secs cats l name c Hp Hne Hf Hs Hl) as (b & Eb & Hb). rewrite Ev, Eb. split.
  - intros E. injection E as ->. destruct (proj1 Hb eq_refl) as (a & (x & Hx & Hcx & <-) & Ha). destruct Hv as [(a' & (x' & Hx' & Hcx' & <-) & Ha')|[Hno _]].
    + f_equal. destruct Hp as (_ & _ & Hu). apply (Hu GC (st_prop x')); [discriminate|exact Ha'|]. replace x' with x; [exact Ha|].
      apply data_in in Hx, Hx'. unfold separate in Hsep. revert Hsep Hx Hx' Hcx Hcx'. clear. induction 1 as [|y ls H1 H2 IH]; intros H H' C C'; [destruct H|].
      rewrite Forall_forall in H1. destruct H as [->|H], H' as [->|H']; [reflexivity|destruct (H1 _ H' c C C')|destruct (H1 _ H c C' C)|auto].
    + exfalso. apply (Hno (st_prop x)). exists x. auto.
  - intros E. injection E as ->. f_equal. apply Hb. destruct Hv as [H|[_ H]]; [exact H|contradiction].
Qed.
Print Assumptions C84_get_contains_agree.
(** C94.  general_category::get() agrees with the General_Category of the code point property table wherever the file gives a category *)
Theorem C94_general_category : forall crlf F props pre secs cats l tbl c, files_ok F -> generated_props crlf F props -> f_gc F = gc_file pre secs ->
  separate (f_gc F) -> gc_sections_ok (f_pva F) pre secs -> secs <> [] ->
  load_gc (load_pva (pva_text crlf (f_pre F) (f_pva F))) (file_text st_text crlf (f_gc F)) = Some (cats, l) -> sorted_by_first l tbl ->
  (exists a, gives (f_gc F) c a) -> api_gc_get tbl c = Ok (o_gc (props c)).
Proof.
  intros crlf F props pre secs cats l tbl c Hok Hp Ef Hsep Hs Hne Hl Ht [w Hw]. pose proof (proj1 (proj2 (C76_values crlf F props Hok Hp c))) as V.
  assert (Hf : lines_ok word_line (f_gc F)). { destruct Hok as (_ & H & _). inversion_clear H as [|? ? _ H1]. inversion_clear H1 as [|? ? [H2 _] _]. exact H2. }
  assert (Hpva : pva_ok (f_pva F)) by apply Hok.
  rewrite Ef in Hf, Hsep, Hl.
  destruct (C84_get crlf (f_pre F) (f_pva F) pre secs cats l tbl c Hpva Hne Hf Hsep Hs Hl Ht) as (v & E & V'). rewrite E. f_equal. rewrite <- Ef in V'.
  apply (proj1 (proj2 (C76_values_unique F c v (o_gc (props c)) Hok))); [|exact V]. destruct V' as [H|[H _]]; [left; exact H|]. destruct (H w Hw).
Qed.
Print Assumptions C94_general_category.

(** C85.  contains(Core_Property, c) decides whether the file gives the code point that binary property. *)
Theorem C85_core_properties : forall crlf f core name c, lines_ok core_line f -> separate_values f -> groups_sorted (fst (load_core (file_text st_text crlf f))) core ->
  word name -> exists b, api_core_contains core name c = Ok b /\ (b = true <-> gives f c name).
Proof.
  intros crlf f core name c Hf Hsep Hg Hn. pose proof (groups_sorted_get _ _ name Hg) as G. rewrite (load_core_get crlf f name Hf Hn) in G.
  unfold api_core_contains. destruct (of_value name f) as [|x r] eqn:Eo.
  - cbn [map addto] in G. rewrite G. exists false. split; [reflexivity|]. split; [discriminate|]. intros (l & Hl & _ & E). assert (H : In l (of_value name f)) by (apply of_value_in; auto).
    rewrite Eo in H. destruct H.
  - change (addto None (map (fun l => range_of l []) (x :: r))) with (Some (map (fun l => range_of l []) (x :: r))) in G. rewrite <- Eo in G. destruct G as (l' & E & Hs). rewrite E.
    destruct (contains_lines (of_value name f) l' (fun _ => []) c (of_value_ok name f _ Hf core_line_ok) (values_apart name f Hsep) ltac:(rewrite Eo; discriminate) Hs) as (b & Eb & Hb).
    exists b. split; [exact Eb|]. rewrite Hb. split; [intros (l & Hl & Hc); apply of_value_in in Hl as [Hl E']; exists l; auto|intros (l & Hl & Hc & E'); exists l; rewrite of_value_in; auto].
Qed.
Print Assumptions C85_core_properties.
(** C85.  is_emoji(), is_extended_pictographic() etc. exist for the properties in the file and decide them. *)
Theorem C85_emoji_properties : forall crlf f groups name, lines_ok word_line f -> separate_values f -> groups_sorted (load_emoji (file_text st_text crlf f)) groups ->
  match api_emoji groups name with
  | Some is => forall c, exists b, is c = Ok b /\ (b = true <-> gives f c name)
  | None => forall c, ~ gives f c name
  end.
Proof.
  intros crlf f groups name Hf Hsep Hg. pose proof (groups_sorted_get _ _ name Hg) as G. rewrite (load_emoji_get crlf f name Hf) in G.
  unfold api_emoji. destruct (of_value name f) as [|x r] eqn:Eo.
  - cbn [map addto] in G. rewrite G. intros c (l & Hl & _ & E). assert (H : In l (of_value name f)) by (apply of_value_in; auto). rewrite Eo in H. destruct H.
  - change (addto None (map (fun l => range_of l name) (x :: r))) with (Some (map (fun l => range_of l name) (x :: r))) in G. rewrite <- Eo in G. destruct G as (l' & E & Hs). rewrite E. intros c.
    destruct (contains_lines (of_value name f) l' (fun _ => name) c (of_value_ok name f _ Hf word_line_ok) (values_apart name f Hsep) ltac:(rewrite Eo; discriminate) Hs) as (b & Eb & Hb).
    exists b. split; [exact Eb|]. rewrite Hb. split; [intros (l & Hl & Hc); apply of_value_in in Hl as [Hl E']; exists l; auto|intros (l & Hl & Hc & E'); exists l; rewrite of_value_in; auto].
Qed.
Print Assumptions C85_emoji_properties.
(** C94.  They agree with the flags of the code point property table. *)
Definition emoji_flags : list (string * N) :=
  [("Emoji", FlagEmoji); ("Emoji_Presentation", FlagEmojiPresentation); ("Emoji_Component", FlagEmojiComponent); ("Emoji_Modifier", FlagEmojiModifier);
   ("Emoji_Modifier_Base", FlagEmojiModifierBase); ("Extended_Pictographic", FlagExtendedPictographic)]%string.
Theorem C94_flags : forall crlf crlf' F props groups core c, files_ok F -> separate_values (f_emoji F) -> separate_values (f_core F) ->
  generated_props crlf F props -> groups_sorted (load_emoji (file_text st_text crlf' (f_emoji F))) groups ->
  groups_sorted (fst (load_core (file_text st_text crlf' (f_core F)))) core ->
  (forall name flag is, In (name, flag) emoji_flags -> api_emoji groups (lit name) = Some is -> is c = Ok (flag_set (o_flags (props c)) flag)) /\
  api_core_contains core (lit "Grapheme_Extend") c = Ok (flag_set (o_flags (props c)) FlagCoreGraphemeExtend).
Proof.
  intros crlf crlf' F props groups core c Hok He Hc Hp Hg Hk. pose proof (C77_flags crlf F props Hok Hp c) as V. cbv zeta in V.
  assert (Hwe : lines_ok word_line (f_emoji F)) by (destruct Hok as (_ & _ & _ & H & _); exact H).
  assert (Hwc : lines_ok core_line (f_core F)) by (destruct Hok as (_ & _ & [H _] & _); exact H).
  split.
  - intros name flag is Hin Ei. pose proof (C85_emoji_properties crlf' (f_emoji F) groups (lit name) Hwe He Hg) as E. rewrite Ei in E. destruct (E c) as (b & Eb & Hb). rewrite Eb. f_equal.
    apply Bool.eq_iff_eq_true. rewrite Hb. symmetry.
    destruct V as (V1 & V2 & V3 & V4 & V5 & V6 & _). unfold emoji_flags in Hin. cbn [In] in Hin.
    destruct Hin as [H|[H|[H|[H|[H|[H|[]]]]]]]; injection H as <- <-; assumption.
  - destruct (C85_core_properties crlf' (f_core F) core (lit "Grapheme_Extend") c Hwc Hc Hk) as (b & Eb & Hb). { apply wordb_ok. reflexivity. }
    rewrite Eb. f_equal. apply Bool.eq_iff_eq_true. rewrite Hb. symmetry. apply V.
Qed.
Print Assumptions C94_flags.

(** C86.  east_asian_width(): the width class the file gives the code point, Unspecified if it gives none. *)
Lemma width_enum_name w v : width_enum w v -> width_name w = v.
Proof.
  intros (a & e & Hin & -> & ->). unfold width_names in Hin. cbn [In] in Hin.
  repeat (destruct Hin as [Hin|Hin]; [injection Hin as <- <-; reflexivity|]). destruct Hin.
Qed.
Theorem C86_east_asian_width : forall crlf f tbl c, lines_ok word_line f -> separate f -> nonempty f -> (forall w, gives f c w -> exists v, width_enum w v) ->
  sorted_by_first (load_generic (file_text st_text crlf f)) tbl ->
  exists v, api_eaw tbl c = Ok v /\ ((exists w, gives f c w /\ width_enum w v) \/ (forall w, ~ gives f c w) /\ v = lit "Unspecified").
Proof.
  intros crlf f tbl c Hf Hs Hne Hw Ht. rewrite load_generic_data in Ht by exact Hf.
  destruct (range_table st_prop (data f) tbl (word_lines_ok f Hf) Hs Ht) as (D & B & Hin).
  assert (Htne : tbl <> []).
  { pose proof (nonempty_data f Hne) as Hd. destruct (data f) as [|l ls]; [contradiction|]. intros ->. apply (proj2 (Hin (range_of l (st_prop l)))). exists l. split; [left; reflexivity|reflexivity]. }
  destruct (merge_none tbl Htne D B) as (M1 & M2 & M3). unfold api_eaw.
  set (mt := map (fun r : prange => (fst r, width_name (snd r))) (merge_ranges None tbl)).
  assert (Dm : disjoint_sorted (ivls mt)). { unfold mt, ivls. rewrite map_map. cbn [fst]. exact M2. }
  assert (Hm : mt <> []). { unfold mt. destruct (merge_ranges None tbl); [contradiction|discriminate]. }
  assert (Hat : forall w, at_cp tbl c w <-> gives f c w).
  { intros w. unfold at_cp. split.
    - intros (r & Hr & Hc & E). apply Hin in Hr as (l & Hl & ->). exists l. split; [now apply data_in|]. split; [exact (proj1 (covers_range l [] c) Hc)|exact E].
    - intros (l & Hl & Hc & E). exists (range_of l (st_prop l)). split; [apply Hin; exists l; split; [now apply data_in|reflexivity]|]. split; [exact (proj2 (covers_range l [] c) Hc)|exact E]. }
  destruct (search_table mt c (lit "Unspecified") Hm Dm) as (v & E & [(r & Hr & Hc & <-)|[Hno ->]]).
  - eexists. split; [exact E|]. left. unfold mt in Hr. apply in_map_iff in Hr as (r0 & <- & Hr0). cbn [fst snd] in *.
    assert (G : gives f c (snd r0)). { apply Hat, M3. exists r0. auto. }
    exists (snd r0). split; [exact G|]. destruct (Hw _ G) as [v Hv]. rewrite (width_enum_name _ _ Hv). exact Hv.
  - eexists. split; [exact E|]. right. split; [|reflexivity]. intros w G. apply Hat, M3 in G as (r & Hr & Hc & _). apply (Hno (fst r, width_name (snd r))); [|exact Hc].
    unfold mt. apply (in_map (fun r : prange => (fst r, width_name (snd r)))). exact Hr.
Qed.
Print Assumptions C86_east_asian_width.

(** C87.  grapheme_cluster_break(): the class the file gives the code point, Undefined if it gives none. *)
Theorem C87_grapheme_cluster_break : forall crlf f groups, lines_ok word_line f -> separate f -> nonempty f -> grouped_file GCB f ->
  groups_sorted (load_grouped (lit "Property") (file_text st_text crlf f)) groups ->
  exists g, api_grapheme groups GCB = Some g /\
    forall c, exists v, g c = Ok v /\ (gives f c v \/ (forall w, ~ gives f c w) /\ v = lit "Undefined").
Proof.
  intros crlf f groups Hf Hs Hne Hgf Hg. pose proof (groups_sorted_get _ _ GCB Hg) as G. change (lit "Property") with PROP in G. rewrite (load_grouped_get crlf GCB f Hf Hgf Hne) in G.
  destruct G as (tbl & E & Ht). unfold api_grapheme. rewrite E. eexists. split; [reflexivity|]. intros c.
  destruct (search_lines st_prop (data f) tbl (lit "Undefined") c (word_lines_ok f Hf) Hs (nonempty_data f Hne) Ht) as (v & E' & [(l & Hl & Hc & <-)|[Hno ->]]).
  - exists (st_prop l). split; [exact E'|]. left. exists l. rewrite data_in. auto.
  - eexists. split; [exact E'|]. right. split; [|reflexivity]. intros w (l & Hl & Hc & _). apply (Hno l); [now apply data_in|exact Hc].
Qed.
Print Assumptions C87_grapheme_cluster_break.

(** C88.  plane(): the plane of every code point *)
Definition plane_enum (k : N) : string :=
  match k with
  | 0 => "Basic_Multilingual_Plane" | 1 => "Supplementary_Multilingual_Plane" | 2 => "Supplementary_Ideographic_Plane" | 3 => "Tertiary_Ideographic_Plane"
  | 14 => "Supplementary_Special_purpose_Plane" | 15 | 16 => "Supplementary_Private_Use_Area_Plane" | _ => "Unassigned"
  end%string.
Lemma plane_beyond k : 17 <= k -> plane_enum k = "Unassigned"%string.
Proof. intros H. destruct k as [|p]; [lia|]. do 5 (destruct p as [p|p|]; try reflexivity; try lia). Qed.
Theorem C88_plane : forall c, api_plane c = Ok (lit (plane_enum (c / 0x10000))).
Proof.
  intros c. unfold api_plane. set (tbl := map (fun r : prange => (fst r, sanitize (snd r))) planes).
  assert (D : disjoint_sorted (ivls tbl)) by (apply disjointb_ok; vm_compute; reflexivity).
  destruct (search_table tbl c (lit "Unassigned") ltac:(discriminate) D) as (v & E & H). etransitivity; [exact E|]. f_equal.
  destruct H as [(r & Hr & Hc & <-)|[Hno ->]].
  - unfold tbl, planes in Hr. rewrite map_map in Hr. cbn [map fst snd In] in Hr.
    assert (Hq : forall a, a mod 65536 = 0 -> a <= c <= a + 65535 -> c / 65536 = a / 65536).
    { clear. intros a Ha Hc. symmetry. apply (N.div_unique c 65536 (a / 65536) (c - a)); [lia|]. pose proof (N.div_mod a 65536 ltac:(lia)). lia. }
    repeat (destruct Hr as [<-|Hr]; [cbn [fst snd] in Hc; match type of Hc with ?a <= c <= _ => rewrite (Hq a eq_refl) by lia; reflexivity end|]).
    destruct Hr.
  - destruct (N.le_gt_cases 17 (c / 65536)) as [Hk|Hk]; [rewrite plane_beyond by exact Hk; reflexivity|exfalso].
    assert (Hd : c = 65536 * (c / 65536) + c mod 65536) by (apply N.div_mod; lia). assert (Hm : c mod 65536 < 65536) by (apply N.mod_lt; lia).
    set (k := c / 65536) in *. set (m := c mod 65536) in *. clearbody k m.
    assert (Hin : exists s, In (k * 65536, k * 65536 + 65535, s) tbl).
    { clear - Hk. destruct k as [|p]; [eexists; left; reflexivity|]. do 5 (try (destruct p as [p|p|]; try lia));
        (eexists; unfold tbl, planes; cbn [map In fst snd]; repeat ((left; reflexivity) || right)). }
    destruct Hin as [s Hin]. apply (Hno _ Hin). cbn [fst snd]. lia.
Qed.
Print Assumptions C88_plane.
