(** Theorems about the generated code point properties: C76 to C82.  [files_ok] (Spec_PropGen.v) describes the files of the Unicode Character
    Database, [generated_props] relates them to the record generated for each code point. *)
From Coq Require Import Ascii String Permutation.
From Verif Require Import Base M_TableGen M_PropGen Spec_TableGen Spec_PropGen P_TableGen P_PropGen7 P_PropGen8 P_PropGen9 PropGen_Demo
  M_Multistage Spec_Multistage T_Multistage.
Open Scope N_scope.

(** the lines of the demonstration database are those of the UCD *)
Example format_property_files :
  pva_text false (f_pre F_demo) [nth 2 (f_pva F_demo) (mkSec [] [] [])] = map lit [
    "# PropertyValueAliases-17.0.0.txt"; "# Date: 2025-06-30, 06:16:21 GMT"; "# General_Category (gc)"; "";
    "gc ; Cc                                    ; Control                          ; cntrl";
    "gc ; Cf                                    ; Format"; "gc ; Cn                                    ; Unassigned";
    "gc ; Lo                                    ; Other_Letter"; "gc ; Lu                                    ; Uppercase_Letter";
    "gc ; Mn                                    ; Nonspacing_Mark"; "gc ; So                                    ; Other_Symbol";
    "# @missing: 0000..10FFFF; General_Category; Unassigned"; ""]%string /\
  skipn 2 (file_text st_text false (f_core F_demo)) = map lit [
    "094D          ; InCB; Linker # Mn       DEVANAGARI SIGN VIRAMA";
    "0915..0939    ; InCB; Consonant # Lo  [37] DEVANAGARI LETTER KA..DEVANAGARI LETTER HA"]%string /\
  file_text ev_text false (f_evs F_demo) = map lit ["231A FE0E  ; text style;  # (1.1) WATCH"; "231A FE0F  ; emoji style; # (1.1) WATCH"]%string /\
  firstn 1 (file_text st_text false (f_hst F_demo)) = [lit "1160..11A7    ; V # Lo  [72] HANGUL JUNGSEONG FILLER..HANGUL JUNGSEONG O-YAE"].
Proof. split; [vm_compute; reflexivity|]. split; [vm_compute; reflexivity|]. split; vm_compute; reflexivity. Qed.

(** C76.  The enumerated properties of every code point are those the files give it, by their long names, or the default. *)
Theorem C76_values : forall crlf F props, files_ok F -> generated_props crlf F props -> forall c,
  (gives (f_scripts F) c (o_script (props c)) \/ (forall w, ~ gives (f_scripts F) c w) /\ o_script (props c) = lit "Unknown") /\
  gc_value F c (o_gc (props c)) /\
  valued F GCB (gives (f_gcb F) c) (lit "Other") (o_gcb (props c)) /\
  valued F WB (gives (f_wb F) c) (lit "Other") (o_wb (props c)) /\
  valued F EAW (gives (f_eaw F) c) (lit "Narrow") (o_eaw (props c)) /\
  valued F INCB (fun w => gives (f_core F) c (incb w)) (lit "None") (o_incb (props c)) /\
  age_value F c (o_age (props c)).
Proof.
  intros crlf F props Hok (d & members & Hp & Em & ->) c. cbn [out_record o_script o_gc o_gcb o_wb o_eaw o_incb o_age].
  split; [eapply script_field; eassumption|]. split; [eapply gc_field; eassumption|].
  split. { destruct (gcb_field crlf F d Hok Hp c) as (v & V & E & _). rewrite E. exact V. }
  split. { destruct (wb_field crlf F d Hok Hp c) as (v & V & E). rewrite E. exact V. }
  split. { destruct (eaw_field crlf F d Hok Hp c) as (v & V & E & _). rewrite E. exact V. }
  split. { destruct (incb_field crlf F d Hok Hp c) as (v & V & E). rewrite E. exact V. }
  eapply age_field; eassumption.
Qed.
Print Assumptions C76_values.

(** C76.  Each of these relations has at most one solution. *)
Theorem C76_values_unique : forall F c v v', files_ok F ->
  ((gives (f_scripts F) c v \/ (forall w, ~ gives (f_scripts F) c w) /\ v = lit "Unknown") ->
   (gives (f_scripts F) c v' \/ (forall w, ~ gives (f_scripts F) c w) /\ v' = lit "Unknown") -> v = v') /\
  (gc_value F c v -> gc_value F c v' -> v = v') /\
  (valued F GCB (gives (f_gcb F) c) (lit "Other") v -> valued F GCB (gives (f_gcb F) c) (lit "Other") v' -> v = v') /\
  (valued F WB (gives (f_wb F) c) (lit "Other") v -> valued F WB (gives (f_wb F) c) (lit "Other") v' -> v = v') /\
  (valued F EAW (gives (f_eaw F) c) (lit "Narrow") v -> valued F EAW (gives (f_eaw F) c) (lit "Narrow") v' -> v = v') /\
  (valued F INCB (fun w => gives (f_core F) c (incb w)) (lit "None") v -> valued F INCB (fun w => gives (f_core F) c (incb w)) (lit "None") v' -> v = v') /\
  (age_value F c v -> age_value F c v' -> v = v').
Proof. intros F c v v' Hok. exact (values_unique F c v v' Hok). Qed.
Print Assumptions C76_values_unique.

(** C77.  The flags are the binary properties. *)
Theorem C77_flags : forall crlf F props, files_ok F -> generated_props crlf F props -> forall c,
  let flag f := flag_set (o_flags (props c)) f = true in
  (flag FlagEmoji <-> gives (f_emoji F) c (lit "Emoji")) /\
  (flag FlagEmojiPresentation <-> gives (f_emoji F) c (lit "Emoji_Presentation")) /\
  (flag FlagEmojiComponent <-> gives (f_emoji F) c (lit "Emoji_Component")) /\
  (flag FlagEmojiModifier <-> gives (f_emoji F) c (lit "Emoji_Modifier")) /\
  (flag FlagEmojiModifierBase <-> gives (f_emoji F) c (lit "Emoji_Modifier_Base")) /\
  (flag FlagExtendedPictographic <-> gives (f_emoji F) c (lit "Extended_Pictographic")) /\
  (flag FlagCoreGraphemeExtend <-> gives (f_core F) c (lit "Grapheme_Extend")) /\
  (flag FlagVirama <-> gives (f_isc F) c (lit "Virama") \/ gives (f_isc F) c (lit "Invisible_Stacker")) /\
  o_flags (props c) < 256 /\
  (flag_set (o_flags2 (props c)) Flag2EmojiVariationBase = true <-> exists e, has (f_evs F) e /\ ev_base e = c) /\ o_flags2 (props c) <= 1.
Proof.
  intros crlf F props Hok (d & members & Hp & Em & ->) c flag. subst flag. cbn [out_record o_flags o_flags2].
  split; [apply (flag_emoji crlf F d Hok Hp "Emoji" 0 c); cbn [In]; tauto|].
  split; [apply (flag_emoji crlf F d Hok Hp "Emoji_Presentation" 1 c); cbn [In]; tauto|].
  split; [apply (flag_emoji crlf F d Hok Hp "Emoji_Component" 2 c); cbn [In]; tauto|].
  split; [apply (flag_emoji crlf F d Hok Hp "Emoji_Modifier" 3 c); cbn [In]; tauto|].
  split; [apply (flag_emoji crlf F d Hok Hp "Emoji_Modifier_Base" 4 c); cbn [In]; tauto|].
  split; [apply (flag_emoji crlf F d Hok Hp "Extended_Pictographic" 5 c); cbn [In]; tauto|].
  split; [change FlagCoreGraphemeExtend with (2 ^ 6); rewrite flag_bit, (flags_bit crlf F d Hok Hp); split; [|tauto]; intros [[_ H]|[[E _]|(g & _ & H)]]; [exact H|discriminate E|];
    cbn [In] in H; repeat (destruct H as [H|H]; [discriminate (f_equal snd H)|]); destruct H|].
  split; [change FlagVirama with (2 ^ 7); rewrite flag_bit, (flags_bit crlf F d Hok Hp); split; [|tauto]; intros [[E _]|[[_ H]|(g & _ & H)]]; [discriminate E|exact H|];
    cbn [In] in H; repeat (destruct H as [H|H]; [discriminate (f_equal snd H)|]); destruct H|].
  split; [exact (flags_small crlf F d Hok Hp c)|].
  destruct (flags2_ok crlf F d Hok Hp c) as [[-> H]|[-> H]]; (split; [|lia]); (split; [intros E|intros G]); [exact H|reflexivity|discriminate E|contradiction].
Qed.
Print Assumptions C77_flags.

(** C78.  The width of a code point is given by the first rule that applies, else it is 1. *)
Theorem C78_width : forall crlf F props, files_ok F -> generated_props crlf F props -> forall c, first_match (width_rules F c) 1 (o_width (props c)).
Proof. intros crlf F props Hok (d & members & Hp & Em & ->) c. exact (width_ok crlf F d Hok Hp c). Qed.
Print Assumptions C78_width.

(** C79.  The emoji segmentation category is given by the first rule that applies, else it is Invalid. *)
Theorem C79_emoji_segmentation_category : forall crlf F props, files_ok F -> generated_props crlf F props -> forall c,
  first_match (esc_rules F c) (lit "Invalid") (o_esc (props c)).
Proof. intros crlf F props Hok (d & members & Hp & Em & ->) c. exact (esc_ok crlf F d Hok Hp c). Qed.
Print Assumptions C79_emoji_segmentation_category.

(** C81.  Generation succeeds, and the result does not depend on line endings or on the order in which the sorts leave equal elements. *)
Theorem C81_generation_succeeds : forall crlf F, files_ok F -> exists props, generated_props crlf F props.
Proof. exact succeeds. Qed.
Print Assumptions C81_generation_succeeds.
Theorem C81_deterministic : forall crlf crlf' F props props', files_ok F -> generated_props crlf F props -> generated_props crlf' F props' -> forall c, props c = props' c.
Proof.
  intros crlf crlf' F props props' Hok G G' c. pose proof (C76_values crlf F props Hok G c) as V. pose proof (C76_values crlf' F props' Hok G' c) as V'.
  pose proof (C78_width crlf F props Hok G c) as W. pose proof (C78_width crlf' F props' Hok G' c) as W'.
  pose proof (C79_emoji_segmentation_category crlf F props Hok G c) as E. pose proof (C79_emoji_segmentation_category crlf' F props' Hok G' c) as E'.
  destruct V as (V1 & V2 & V3 & V4 & V5 & V6 & V7). destruct V' as (V1' & V2' & V3' & V4' & V5' & V6' & V7').
  assert (Ef : o_flags (props c) = o_flags (props' c) /\ o_flags2 (props c) = o_flags2 (props' c)).
  { destruct G as (d & m & Hp & _ & ->). destruct G' as (d' & m' & Hp' & _ & ->). cbn [out_record o_flags o_flags2]. split.
    - apply N.bits_inj. intros k. apply Bool.eq_iff_eq_true. rewrite (flags_bit crlf F d Hok Hp c k), (flags_bit crlf' F d' Hok Hp' c k). reflexivity.
    - destruct (flags2_ok crlf F d Hok Hp c) as [[-> H]|[-> H]], (flags2_ok crlf' F d' Hok Hp' c) as [[-> H']|[-> H']]; tauto. }
  destruct Ef as [Ef Ef2].
  pose proof (fun v v' => C76_values_unique F c v v' Hok) as U.
  apply (orec_eq (props c) (props' c)).
  - exact (first_match_unique _ _ _ _ W W').
  - exact Ef.
  - exact Ef2.
  - apply (proj1 (U _ _)); [exact V1|exact V1'].
  - apply (proj1 (proj2 (proj2 (U _ _)))); [exact V3|exact V3'].
  - apply (proj1 (proj2 (proj2 (proj2 (proj2 (U _ _)))))); [exact V5|exact V5'].
  - apply (proj1 (proj2 (U _ _))); [exact V2|exact V2'].
  - exact (first_match_unique _ _ _ _ E E').
  - apply (proj2 (proj2 (proj2 (proj2 (proj2 (proj2 (U _ _))))))); [exact V7|exact V7'].
  - apply (proj1 (proj2 (proj2 (proj2 (proj2 (proj2 (U _ _))))))); [exact V6|exact V6'].
  - apply (proj1 (proj2 (proj2 (proj2 (U _ _))))); [exact V4|exact V4'].
Qed.
Print Assumptions C81_deterministic.

(** the hypotheses of C76 to C81 are met, and the database gives non-trivial answers *)
Example C76_hypotheses : files_ok F_demo /\ exists props, generated_props true F_demo props.
Proof. split; [exact F_demo_ok|]. apply succeeds. exact F_demo_ok. Qed.
Definition d_demo : pdata := match sample_data true F_demo with Some d => d | None => mkPd [] [] [] [] [] [] [] [] [] [] [] [] [] end.
Definition members_demo : list str := match age_members (find_pva (pd_pva d_demo) "Age") with Some m => m | None => [] end.
Lemma d_demo_parsed : parsed true F_demo d_demo.
Proof. apply sample_parsed. vm_compute. reflexivity. Qed.
Lemma members_demo_ok : age_members (find_pva (pd_pva d_demo) "Age") = Some members_demo.
Proof. vm_compute. reflexivity. Qed.
Example C76_demo : out_record members_demo d_demo 0x41 =
  mkO 1 0 0 (lit "Latin") (lit "Other") (lit "Narrow") (lit "Uppercase_Letter") (lit "Invalid") (lit "V1_1") (lit "None") (lit "ALetter").
Proof. vm_compute. reflexivity. Qed.
Example C76_demo_scripts : map (fun c => o_script (out_record members_demo d_demo c)) [0x30; 0x301; 0x4E00] = map lit ["Common"; "Inherited"; "Unknown"]%string.
Proof. vm_compute. reflexivity. Qed.
Example C76_demo_incb : map (fun c => o_incb (out_record members_demo d_demo c)) [0x94D; 0x915; 0x41] = map lit ["Linker"; "Consonant"; "None"]%string.
Proof. vm_compute. reflexivity. Qed.
Example C77_demo : map (fun c => o_flags (out_record members_demo d_demo c)) [0x94D; 0x1039; 0x231A; 0x41] = [0xC0; 0x80; 0x03; 0].
Proof. vm_compute. reflexivity. Qed.
Example C78_demo : map (fun c => o_width (out_record members_demo d_demo c)) [0x41; 0x301; 0xAD; 0x600; 0x4E00; 0xFF01; 0x231A; 0x1160; 0x09] = [1; 0; 1; 1; 2; 2; 2; 0; 0].
Proof. vm_compute. reflexivity. Qed.
Example C79_demo : map (fun c => o_esc (out_record members_demo d_demo c)) [0x23; 0x231A; 0x1F1E6; 0x1F3FB; 0x200D; 0x41] =
  map lit ["KeyCapBase"; "EmojiEmojiPresentation"; "RegionalIndicator"; "EmojiModifier"; "ZWJ"; "Invalid"]%string.
Proof. vm_compute. reflexivity. Qed.

(** C80.  "A code point that EastAsianWidth.txt does not list has East_Asian_Width Neutral" (UAX #11, and the file's @missing line): false, it
    is Narrow. *)
Definition C80_statement : Prop := forall crlf F props, files_ok F -> generated_props crlf F props -> forall c,
  (forall w, ~ gives (f_eaw F) c w) -> o_eaw (props c) = lit "Neutral".
Theorem C80_east_asian_default_refuted : ~ C80_statement.
Proof.
  intros H. specialize (H true F_demo (out_record members_demo d_demo) F_demo_ok (ex_intro _ d_demo (ex_intro _ members_demo (conj d_demo_parsed (conj members_demo_ok eq_refl)))) 0x300).
  assert (E : o_eaw (out_record members_demo d_demo 0x300) = lit "Narrow") by (vm_compute; reflexivity). rewrite E in H.
  assert (G : lit "Narrow" = lit "Neutral"); [apply H|discriminate G]. intros w (l & Hl & Hc & _).
  cbn in Hl. destruct Hl as [E0|[E0|[E0|[]]]]; injection E0 as <-; cbn in Hc; lia.
Qed.
Print Assumptions C80_east_asian_default_refuted.
(** C80 (partial): it is Narrow; its width is that of a neutral character. *)
Theorem C80_east_asian_default_partial : forall crlf F props, files_ok F -> generated_props crlf F props -> forall c,
  (forall w, ~ gives (f_eaw F) c w) -> o_eaw (props c) = lit "Narrow".
Proof.
  intros crlf F props Hok G c Hno. destruct (C76_values crlf F props Hok G c) as (_ & _ & _ & _ & V & _). destruct V as [(w & Hw & _)|[_ E]]; [destruct (Hno w Hw)|exact E].
Qed.
Print Assumptions C80_east_asian_default_partial.

(** C82.  The table printed by the generator answers, for every code point, the record of that code point: block size 256, uint8_t stage 1,
    uint16_t stage 2, whatever the hash, if there are at most 65536 different records and 256 different blocks. *)
Theorem C82_table : forall crlf F d members hash, files_ok F -> parsed crlf F d -> age_members (find_pva (pd_pva d) "Age") = Some members ->
  few_values 65536 (rec_cells members d) -> few_blocks 256 256 (rec_cells members d) ->
  exists props g, generated_props crlf F props /\ generate crec crec_eqb hash 256 256 65536 (rec_cells members d) = Ok g /\
    (forall c, c <= 0x10FFFF -> exists r, get 256 0x10FFFF g c = Ok r /\ print_rec members d r = props c) /\
    (forall c, 0x10FFFF < c -> exists r, get 256 0x10FFFF g c = Ok r /\ print_rec members d r = props 0).
Proof.
  intros crlf F d members hash Hok Hp Em Hv Hb. exists (out_record members d).
  destruct (C53_lookup crec crec_eqb hash 256 256 65536 11 (rec_cells members d) (N.to_nat 4352)) as (g & Eg & _ & Hin & Hout); try assumption.
  - apply Nat.lt_0_succ. - reflexivity || lia. - rewrite P_PropGen9.cells_length. exact block_count. - apply P_PropGen9.cells_objects. - exact crec_eq_ok.
  - exists g. split; [exists d, members; auto|]. split; [exact Eg|]. split.
    + intros c Hc. exists (rec_at members d c). split; [|apply print_at]. apply (Hin 0x10FFFF c _ (rec_bytes (rec_at members d c))); [|exact Hc|now apply P_PropGen9.cells_nth].
      rewrite P_PropGen9.cells_length, N2Nat.id. reflexivity.
    + intros c Hc. exists (rec_at members d 0). split; [|apply print_at]. apply (Hout 0x10FFFF c _ (rec_bytes (rec_at members d 0)) Hc).
      apply (P_PropGen9.cells_nth members d 0). lia.
Qed.
Print Assumptions C82_table.
(** ... which holds if there are not too many ranges: a record changes only where a range of some file begins or ends, or at one of 25 code points *)
Theorem C82_few_ranges : forall d members, (2 * length (breaks d) + 1 <= 256)%nat ->
  few_values 65536 (rec_cells members d) /\ few_blocks 256 256 (rec_cells members d).
Proof. intros d members H. apply (table_small (rec_at members d) rec_bytes (breaks d)); [apply records_pieces|apply Nat.lt_0_succ|exact H]. Qed.
Print Assumptions C82_few_ranges.
Example C82_hypotheses : files_ok F_demo /\ parsed true F_demo d_demo /\ age_members (find_pva (pd_pva d_demo) "Age") = Some members_demo /\
  few_values 65536 (rec_cells members_demo d_demo) /\ few_blocks 256 256 (rec_cells members_demo d_demo).
Proof.
  split; [exact F_demo_ok|]. split; [exact d_demo_parsed|]. split; [exact members_demo_ok|]. apply C82_few_ranges. apply Nat.leb_le. vm_compute. reflexivity.
Qed.
