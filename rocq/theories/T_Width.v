(** Property theorems: cluster width (C24-C27). *)
From Verif Require Import Base Spec_Utf M_Utf8 M_Convert M_Ucd M_Grapheme M_Width M_CApi Spec_Grapheme Spec_Width Ucd_Demo
  P_Utf8 P_Convert P_Grapheme P_Width.
Open Scope Z_scope.

Lemma demo_width_ok : ucd_width_ok demo.
Proof. constructor; [split; [reflexivity|vm_compute; discriminate]|reflexivity]. Qed.
Lemma demo_le2 : widths_le2 demo.
Proof.
  intros c. unfold demo. revert c. refine (table_all (fun p => (p_width p <= 2)%N) demo_table _ _).
  - cbn. lia.
  - unfold demo_table. repeat (apply Forall_cons; [cbn; lia|]). apply Forall_nil.
Qed.

(** C24.  The function and the incremental accumulator agree on every sequence, including the shortcut. *)
Theorem C24_one_algorithm : forall u, ucd_width_ok u -> forall cl, cluster_width u cl = acc_width (pushes u acc0 cl).
Proof. intros u OK cl. apply cluster_width_acc, OK. Qed.
(** reset() then pushing a second cluster measures it from scratch. *)
Theorem C24_after_reset : forall u, ucd_width_ok u -> forall cl, acc_width (pushes u acc0 cl) = cluster_width u cl.
Proof. intros u OK cl. symmetry. apply cluster_width_acc, OK. Qed.
Print Assumptions C24_one_algorithm.
Print Assumptions C24_after_reset.
Example C24_example : ucd_width_ok demo /\ cluster_width demo [0x2764; 0xFE0F]%N = 2 /\ cluster_width demo [0x200D]%N = 0.
Proof. split; [exact demo_width_ok|]. vm_compute. auto. Qed.
(** The data hypothesis is needed: if NUL were a pictograph, a lone skin tone would measure 2 one way and 0 the other. *)
Example C24_hypothesis_needed : let u := fun c => if (c =? 0)%N then pr 1 GOther INone WOther true else demo c in
  cluster_width u [0x1F3FB]%N = 2 /\ acc_width (pushes u acc0 [0x1F3FB]%N) = 0.
Proof. vm_compute. auto. Qed.

(** C25.  At most two columns per code point, never negative; every internal int stays within [-n, 2n] after n pushes
    and the unsigned run counter within [0, n], so for n <= 2^29 nothing wraps. *)
Theorem C25_width_bounded : forall u, widths_le2 u -> forall cl, 0 <= cluster_width u cl <= 2 * Z.of_nat (length cl).
Proof. intros u HW cl. apply cluster_width_bounds, HW. Qed.
Theorem C25_counters_in_range : forall u, widths_le2 u -> forall cl, (Z.of_nat (length cl) <= 2 ^ 29) ->
  let s := pushes u acc0 cl in
  - 2 ^ 31 <= a_total s < 2 ^ 31 /\ - 2 ^ 31 <= a_total s + a_cur s < 2 ^ 31 /\ 0 <= a_cur s <= 2 /\ (a_ri s < 2 ^ 32)%N.
Proof.
  intros u HW cl HL. cbv zeta. pose proof (pushes_bounds u HW cl 0 acc0 ltac:(lia) acc0_bounds) as [B1 B2 B3 B4 B5].
  change (2 ^ 29) with 536870912 in HL. change (2 ^ 31) with 2147483648. change (2 ^ 32)%N with 4294967296%N. lia.
Qed.
Print Assumptions C25_width_bounded.
Print Assumptions C25_counters_in_range.
Example C25_example : widths_le2 demo /\ cluster_width demo [0x231A; 0xFE0E; 0xFE0E; 0xFE0E]%N = 0.
Proof. split; [exact demo_le2|vm_compute; reflexivity]. Qed.

(** C26.  A base (any visible character) with any number of plain marks ... *)
Theorem C26_marks_add_nothing : forall u, ucd_width_ok u -> forall b ms, base u b -> marks u ms -> cluster_width u (b :: ms) = cp_width u b.
Proof. intros; apply width_marks; assumption. Qed.
(** ... in fact a plain mark changes nothing wherever it is appended. *)
Theorem C26_mark_anywhere : forall u, ucd_width_ok u -> forall p m, mark u m -> cluster_width u (p ++ [m]) = cluster_width u p.
Proof. intros; apply width_mark_anywhere; assumption. Qed.
(** VS16 widens exactly the narrow variation bases. *)
Theorem C26_vs16 : forall u, ucd_width_ok u -> p_gcb (u 0xFE0F%N) <> GRI ->
  forall b ms ms2, base u b -> marks u ms -> marks u ms2 ->
  cluster_width u ((b :: ms) ++ 0xFE0F%N :: ms2) = if p_varbase (u b) && (p_width (u b) =? 1)%N then 2 else cp_width u b.
Proof. intros; apply width_vs16; assumption. Qed.
(** VS15 narrows exactly the wide variation bases. *)
Theorem C26_vs15 : forall u, ucd_width_ok u -> p_gcb (u 0xFE0E%N) <> GRI ->
  forall b ms ms2, base u b -> marks u ms -> marks u ms2 ->
  cluster_width u ((b :: ms) ++ 0xFE0E%N :: ms2) = if p_varbase (u b) && (p_width (u b) =? 2)%N then 1 else cp_width u b.
Proof. intros; apply width_vs15; assumption. Qed.
Theorem C26_spacing_mark : forall u, ucd_width_ok u -> forall b ms m ms2, base u b -> marks u ms -> spacing_mark u m -> marks u ms2 ->
  cluster_width u ((b :: ms) ++ m :: ms2) = 2.
Proof. intros; apply width_spacing; assumption. Qed.
(** Two consonants joined by a virama (optionally with joiners after it) take two columns. *)
Theorem C26_conjunct : forall u, ucd_width_ok u -> p_gcb (u 0x200D%N) <> GRI ->
  forall b ms v zs c2 ms2, base u b -> marks u ms -> virama u v -> Forall (fun z => z = 0x200D%N) zs -> base u c2 -> marks u ms2 ->
  cluster_width u ((b :: ms) ++ v :: zs ++ c2 :: ms2) = 2.
Proof. intros; apply width_conjunct; assumption. Qed.
(** A ZWJ swallows the following code point, whatever it is and whatever precedes (no virama, no ZWJ directly before). *)
Theorem C26_zwj_swallows : forall u, ucd_width_ok u -> forall p c x, Forall (fun c => p_virama (u c) = false) (p ++ [c]) -> c <> 0x200D%N ->
  cluster_width u ((p ++ [c]) ++ [0x200D; x]%N) = cluster_width u (p ++ [c]).
Proof. intros; apply width_zwj; assumption. Qed.
Theorem C26_skin_tone : forall u, ucd_width_ok u -> forall b ms t ms2, base u b -> p_extpic (u b) = true -> marks u ms ->
  (0x1F3FB <= t <= 0x1F3FF)%N -> p_gcb (u t) <> GRI -> marks u ms2 ->
  cluster_width u ((b :: ms) ++ t :: ms2) = cp_width u b.
Proof. intros u OK b ms t ms2 HB HX. apply width_tone; try assumption. unfold joins_emoji. rewrite HX. reflexivity. Qed.
(** Regional indicators are measured in pairs. *)
Theorem C26_flags : forall u, ucd_width_ok u -> forall ris, Forall (ri_cp u) ris -> (N.of_nat (length ris) < 2 ^ 31)%N ->
  cluster_width u ris = 2 * ((Z.of_nat (length ris) + 1) / 2).
Proof. intros; apply width_flags; assumption. Qed.
Print Assumptions C26_marks_add_nothing.
Print Assumptions C26_mark_anywhere.
Print Assumptions C26_vs16.
Print Assumptions C26_vs15.
Print Assumptions C26_spacing_mark.
Print Assumptions C26_conjunct.
Print Assumptions C26_zwj_swallows.
Print Assumptions C26_skin_tone.
Print Assumptions C26_flags.
Ltac dec_side := vm_compute; repeat split; try discriminate; try reflexivity; (intros [K1 K2]; first [exact (K1 eq_refl) | exact (K2 eq_refl) | congruence]).
Example C26_base_heart : base demo 0x2764%N.
Proof. dec_side. Qed.
Example C26_base_watch : base demo 0x231A%N.
Proof. dec_side. Qed.
Example C26_base_ka : base demo 0x915%N.
Proof. dec_side. Qed.
Example C26_mark_acute : marks demo [0x301]%N.
Proof. constructor; [dec_side|constructor]. Qed.
Example C26_virama : virama demo 0x94D%N.
Proof. dec_side. Qed.
Example C26_mc : spacing_mark demo 0x93E%N.
Proof. dec_side. Qed.
Example C26_ri : Forall (ri_cp demo) [0x1F1E9; 0x1F1EA; 0x1F1EB]%N.
Proof. repeat (apply Forall_cons; [dec_side|]). apply Forall_nil. Qed.
Example C26_values : cluster_width demo [0x2764; 0x301; 0xFE0F]%N = 2 /\ cluster_width demo [0x231A; 0xFE0E]%N = 1 /\
  cluster_width demo [0x61; 0xFE0F]%N = 1 /\ cluster_width demo [0x915; 0x94D; 0x200D; 0x915]%N = 2 /\
  cluster_width demo [0x1F469; 0x200D; 0x1F466]%N = 2 /\ cluster_width demo [0x1F1E9; 0x1F1EA; 0x1F1EB]%N = 4.
Proof. vm_compute. repeat split. Qed.

(** C27.  For every byte string (whatever SIMD path decodes it) and every table with widths up to two: the UTF-8
    overload, u8_gc_width and u32_gc_width in modifiable mode all return the sum of the cluster widths of the decoded text. *)
Theorem C27_utf8_width_is_sum : forall i u bytes t cl, Forall byte bytes -> widths_le2 u ->
  convert_to false i T32 T8 bytes = Ok t -> grapheme_clusters u t = Ok cl -> 2 * Z.of_nat (length t) < 2 ^ 31 ->
  utf8_width i u bytes = Ok (zsum (map (cluster_width u) cl)) /\
  u8_gc_width i u bytes Modifiable = Ok (zsum (map (cluster_width u) cl)) /\
  u32_gc_width u t Modifiable = Ok (zsum (map (cluster_width u) cl)).
Proof.
  intros i u bytes t cl HB HW Ht Hcl HL. rewrite grapheme_clusters_eq in Hcl. injection Hcl as <-.
  assert (H32 : u32_gc_width u t Modifiable = Ok (zsum (map (cluster_width u) (clusters_of u t)))).
  { unfold u32_gc_width. rewrite sum_clusters_text. cbn [process_cluster]. rewrite fold_sum_ok. f_equal.
    change (fun t0 c => t0 + cluster_width u c) with (fun t0 c => t0 + (cluster_width u) c). rewrite fold_add. lia. }
  split; [|split; [unfold u8_gc_width; rewrite Ht; exact H32|exact H32]].
  unfold utf8_width. rewrite Ht. cbn [bindR]. destruct t as [|c t]; [reflexivity|].
  rewrite sum_clusters_text, fold_sum_ok. f_equal. rewrite fold_add_mod by lia. rewrite Z.add_0_l. apply Z.mod_small.
  pose proof (zsum_bounds u (clusters_of u (c :: t)) HW) as B. rewrite clusters_of_concat in B. lia.
Qed.
(** Decoding never fails, so the two hypotheses on conversion and segmentation are always met; on well-formed text the
    decoded text is the text. *)
Theorem C27_wellformed : forall i u t cl, scalars t -> widths_le2 u -> grapheme_clusters u t = Ok cl -> 2 * Z.of_nat (length t) < 2 ^ 31 ->
  utf8_width i u (utf8_text t) = Ok (zsum (map (cluster_width u) cl)).
Proof.
  intros i u t cl Hs HW Hcl HL. apply (C27_utf8_width_is_sum i u (utf8_text t) t cl); auto.
  - apply utf8_text_bytes, Hs.
  - rewrite <- text_units_8, convert_to_units by exact Hs. rewrite text_units_32. reflexivity.
Qed.
Print Assumptions C27_utf8_width_is_sum.
Print Assumptions C27_wellformed.
Example C27_example : utf8_width NoSimd demo [0x61; 0xE2; 0x9D; 0xA4; 0xEF; 0xB8; 0x8F]%N = Ok 3.
Proof. vm_compute. reflexivity. Qed.
