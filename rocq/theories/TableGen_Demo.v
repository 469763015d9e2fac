(** Small UCD files with lines copied from the Unicode Character Database, and boolean checks of the hypotheses of T_TableGen.v on them. *)
From Coq Require Import Ascii String Permutation Sorted.
From Verif Require Import Base M_Tables M_Normalize M_Case M_TableGen Spec_TableGen Spec_Tables Spec_Case Norm_Demo P_TableGen P_TableGen2 P_TableGen3 P_TableGen4 P_TableGen5.
Open Scope N_scope.

(** ** Checks *)
Definition withoutb (c : N) (s : str) : bool := negb (existsb (N.eqb c) s).
Lemma withoutb_ok c s : withoutb c s = true -> without c s.
Proof.
  unfold withoutb, without. intros H G. apply negb_true_iff, not_true_iff_false in H. apply H. apply existsb_exists. exists c. split; [exact G|apply N.eqb_refl].
Qed.
Definition cp_okb (c : N) : bool := c <=? 0x10FFFF.
Lemma cp_okb_ok c : cp_okb c = true -> cp_ok c.
Proof. apply N.leb_le. Qed.
Lemma cps_okb_ok l : forallb cp_okb l = true -> Forall cp_ok l.
Proof. intros H. apply Forall_forall. rewrite forallb_forall in H. intros c Hc. apply cp_okb_ok, H, Hc. Qed.
Definition opt_okb (o : option N) : bool := match o with Some c => cp_okb c | None => true end.
Lemma opt_okb_ok o : opt_okb o = true -> opt_ok o.
Proof. destruct o; [apply cp_okb_ok|intros _; exact I]. Qed.
Definition ud_okb (u : udline) : bool :=
  cp_okb (ul_cp u) && (ul_ccc u <=? 254) &&
  forallb (withoutb ch_semi) [ul_name u; ul_category u; ul_bidi u; ul_f6 u; ul_f7 u; ul_f8 u; ul_f9 u; ul_f10 u; ul_f11 u] &&
  match ul_dec u with
  | None => true
  | Some (tag, l) => negb (match l with [] => true | _ => false end) && forallb cp_okb l &&
      match tag with Some t => withoutb ch_semi t && withoutb ch_gt t && negb (str_eqb t (lit "canonical")) | None => true end
  end && opt_okb (ul_upper u) && opt_okb (ul_lower u) && opt_okb (ul_title u).
Lemma ud_okb_ok u : ud_okb u = true -> ud_ok u.
Proof.
  unfold ud_okb, ud_ok. intros H. repeat (apply andb_true_iff in H; destruct H as [H ?]).
  split; [apply cp_okb_ok; assumption|]. split; [apply N.leb_le; assumption|]. split.
  { apply Forall_forall. intros s Hs. apply withoutb_ok. revert s Hs. apply forallb_forall. assumption. }
  split; [|auto using opt_okb_ok].
  destruct (ul_dec u) as [[t l]|]; [|exact I]. match goal with X : _ && _ = true |- _ => rename X into G end.
  apply andb_true_iff in G. destruct G as [G G3]. apply andb_true_iff in G. destruct G as [G1 G2].
  split; [destruct l; discriminate|]. split; [apply cps_okb_ok, G2|]. destruct t as [t|]; [|exact I].
  apply andb_true_iff in G3. destruct G3 as [G3 G5]. apply andb_true_iff in G3. destruct G3 as [G3 G4].
  split; [apply withoutb_ok, G3|split; [apply withoutb_ok, G4|]]. intros ->. rewrite str_eqb_refl in G5. discriminate.
Qed.
Definition datas {A} (f : list (fline A)) : list A := flat_map (fun l => match l with Data a => [a] | _ => [] end) f.
Lemma datas_in {A} (f : list (fline A)) a : has f a <-> In a (datas f).
Proof.
  unfold has, datas. rewrite in_flat_map. split.
  - intros H. exists (Data a). split; [exact H|left; reflexivity].
  - intros [l [Hl Ha]]. destruct l; [|destruct Ha|destruct Ha]. destruct Ha as [->|[]]. exact Hl.
Qed.
Fixpoint nodupb (l : list N) : bool := match l with [] => true | x :: r => negb (existsb (N.eqb x) r) && nodupb r end.
Lemma unique_keys {A} (key : A -> N) f : nodupb (map key (datas f)) = true -> forall a b, has f a -> has f b -> key a = key b -> a = b.
Proof.
  intros H a b Ha Hb E. apply datas_in in Ha, Hb. induction (datas f) as [|x l IH]; [destruct Ha|]. cbn [map nodupb] in H. apply andb_true_iff in H. destruct H as [H1 H2].
  assert (Hno : forall y, In y l -> key y <> key x).
  { intros y Hy G. apply negb_true_iff in H1. apply not_true_iff_false in H1. apply H1. apply existsb_exists. exists (key y). split; [apply in_map, Hy|apply N.eqb_eq; congruence]. }
  destruct Ha as [->|Ha], Hb as [->|Hb]; [reflexivity| | |apply IH; assumption].
  - exfalso. apply (Hno b Hb). congruence.
  - exfalso. apply (Hno a Ha). congruence.
Qed.
Definition all_data {A} (ok : A -> bool) (f : list (fline A)) : bool :=
  forallb (fun l => match l with Data a => ok a | Comment _ => true | Blank s => forallb is_ws s end) f.
Lemma all_data_ok {A} (ok : A -> Prop) (okb : A -> bool) f : (forall a, okb a = true -> ok a) -> all_data okb f = true -> lines_ok ok f.
Proof.
  intros H G l Hl. unfold all_data in G. rewrite forallb_forall in G. specialize (G l Hl). destruct l as [a|s|s]; [apply H, G|exact I|].
  apply Forall_forall. intros c Hc. apply is_ws_white. rewrite forallb_forall in G. apply G, Hc.
Qed.
Definition cleanb (s : str) : bool := negb (match s with c :: _ => is_ws c | [] => false end) && negb (match rev s with c :: _ => is_ws c | [] => false end).
Lemma cleanb_ok s : cleanb s = true -> clean s.
Proof.
  unfold cleanb, clean. intros H. apply andb_true_iff in H. destruct H as [H1 H2]. split.
  - intros c r -> Hw. apply is_ws_white in Hw. rewrite Hw in H1. discriminate.
  - intros c r -> Hw. rewrite rev_app_distr in H2. cbn [rev app] in H2. apply is_ws_white in Hw. rewrite Hw in H2. discriminate.
Qed.
Definition span_okb (r : span) : bool := match r with One c => c <=? 0x10FFFF | Span a b => (a <=? b) && (b <=? 0x10FFFF) end.
Lemma span_okb_ok r : span_okb r = true -> span_ok r.
Proof. destruct r; cbn [span_okb span_ok]; lia. Qed.
Definition np_okb (n : npline) : bool :=
  span_okb (nl_span n) && negb (match nl_prop n with [] => true | _ => false end) && forallb (fun c => negb (is_ws c)) (nl_prop n) &&
  withoutb ch_semi (nl_prop n) && withoutb ch_hash (nl_prop n) &&
  match nl_value n with Some v => cleanb v && withoutb ch_semi v && withoutb ch_hash v | None => true end.
Lemma np_okb_ok n : np_okb n = true -> np_ok n.
Proof.
  unfold np_okb, np_ok. intros H. repeat (apply andb_true_iff in H; destruct H as [H ?]).
  split; [apply span_okb_ok; assumption|]. split; [destruct (nl_prop n); discriminate|]. split.
  { apply Forall_forall. intros c Hc Hw. apply is_ws_white in Hw. match goal with X : forallb _ _ = true |- _ => rewrite forallb_forall in X; specialize (X c Hc); rewrite Hw in X; discriminate end. }
  split; [apply withoutb_ok; assumption|split; [apply withoutb_ok; assumption|]]. destruct (nl_value n) as [v|]; [|exact I].
  match goal with X : cleanb v && _ && _ = true |- _ => apply andb_true_iff in X; destruct X as [X ?]; apply andb_true_iff in X; destruct X as [X ?] end.
  split; [apply cleanb_ok; assumption|split; apply withoutb_ok; assumption].
Qed.
Definition cf_okb (c : cfline) : bool :=
  cp_okb (cf_cp c) && forallb cp_okb (cf_map c) &&
  match cf_status c with FF => (2 <=? length (cf_map c))%nat && (length (cf_map c) <=? 3)%nat | _ => Nat.eqb (length (cf_map c)) 1 end.
Lemma cf_okb_ok c : cf_okb c = true -> cf_ok c.
Proof.
  unfold cf_okb, cf_ok. intros H. repeat (apply andb_true_iff in H; destruct H as [H ?]).
  split; [apply cp_okb_ok; assumption|split; [apply cps_okb_ok; assumption|]]. destruct (cf_status c); try (apply Nat.eqb_eq; assumption).
  match goal with X : _ && _ = true |- _ => apply andb_true_iff in X; destruct X as [X1 X2] end. apply Nat.leb_le in X1, X2. auto.
Qed.
Definition nonemptyb (l : list N) : bool := match l with [] => false | _ => true end.
Definition sc_okb (s : scline) : bool :=
  cp_okb (sc_cp s) && forallb cp_okb (sc_lower s ++ sc_title s ++ sc_upper s) &&
  (length (sc_lower s) <=? 3)%nat && (length (sc_title s) <=? 3)%nat && (length (sc_upper s) <=? 3)%nat &&
  match sc_condition s with Some c => withoutb ch_semi c && withoutb ch_hash c | None => nonemptyb (sc_lower s) && nonemptyb (sc_title s) && nonemptyb (sc_upper s) end.
Lemma sc_okb_ok s : sc_okb s = true -> sc_ok s.
Proof.
  unfold sc_okb, sc_ok. intros H. repeat (apply andb_true_iff in H; destruct H as [H ?]).
  split; [apply cp_okb_ok; assumption|split; [apply cps_okb_ok; assumption|]]. split; [repeat split; apply Nat.leb_le; assumption|].
  destruct (sc_condition s) as [c|]; match goal with X : _ && _ = true |- _ => rename X into G end.
  - apply andb_true_iff in G. destruct G. split; apply withoutb_ok; assumption.
  - apply andb_true_iff in G. destruct G as [G G3]. apply andb_true_iff in G. destruct G as [G1 G2].
    destruct (sc_lower s), (sc_title s), (sc_upper s); try discriminate; repeat split; discriminate.
Qed.

(** ** Normalization files *)
Definition udl cp name cat ccc bidi dec old up lo ti : fline udline :=
  Data (mkUl cp (lit name) (lit cat) ccc (lit bidi) dec [] [] [] (lit "N") (lit old) [] up lo ti).
Definition ud_demo : list (fline udline) := [
  udl 0x41 "LATIN CAPITAL LETTER A" "Lu" 0 "L" None "" None (Some 0x61) None;
  udl 0x61 "LATIN SMALL LETTER A" "Ll" 0 "L" None "" (Some 0x41) None (Some 0x41);
  udl 0xC5 "LATIN CAPITAL LETTER A WITH RING ABOVE" "Lu" 0 "L" (Some (None, [0x41; 0x30A])) "LATIN CAPITAL LETTER A RING" None (Some 0xE5) None;
  udl 0x300 "COMBINING GRAVE ACCENT" "Mn" 230 "NSM" None "NON-SPACING GRAVE" None None None;
  udl 0x301 "COMBINING ACUTE ACCENT" "Mn" 230 "NSM" None "NON-SPACING ACUTE" None None None;
  udl 0x308 "COMBINING DIAERESIS" "Mn" 230 "NSM" None "NON-SPACING DIAERESIS" None None None;
  udl 0x30A "COMBINING RING ABOVE" "Mn" 230 "NSM" None "NON-SPACING RING ABOVE" None None None;
  udl 0x340 "COMBINING GRAVE TONE MARK" "Mn" 230 "NSM" (Some (None, [0x300])) "NON-SPACING GRAVE TONE MARK" None None None;
  udl 0x344 "COMBINING GREEK DIALYTIKA TONOS" "Mn" 230 "NSM" (Some (None, [0x308; 0x301])) "GREEK NON-SPACING DIAERESIS TONOS" None None None;
  udl 0x958 "DEVANAGARI LETTER QA" "Lo" 0 "L" (Some (None, [0x915; 0x93C])) "" None None None;
  udl 0xAC00 "<Hangul Syllable, First>" "Lo" 0 "L" None "" None None None;
  udl 0xD7A3 "<Hangul Syllable, Last>" "Lo" 0 "L" None "" None None None;
  udl 0xFB00 "LATIN SMALL LIGATURE FF" "Ll" 0 "L" (Some (Some (lit "compat"), [0x66; 0x66])) "" None None None ].
Definition ex_demo : list (fline exline) := [
  Comment (lit " CompositionExclusions-15.1.0.txt"); Blank [];
  Data (mkEx (One 0x958) 4 (Some (lit "  DEVANAGARI LETTER QA"))) ].
Definition np_demo : list (fline npline) := [
  Comment (lit " Derived Property: Full_Composition_Exclusion");
  Data (mkNl (Span 0x340 0x341) 4 (lit "Full_Composition_Exclusion") None 1 (Some (lit " Mn   [2] COMBINING GRAVE TONE MARK..COMBINING ACUTE TONE MARK")));
  Data (mkNl (One 0x344) 10 (lit "Full_Composition_Exclusion") None 1 (Some (lit " Mn       COMBINING GREEK DIALYTIKA TONOS")));
  Data (mkNl (One 0x958) 10 (lit "Full_Composition_Exclusion") None 1 (Some (lit " Lo       DEVANAGARI LETTER QA")));
  Blank [];
  Data (mkNl (One 0xC5) 10 (lit "NFD_QC") (Some (lit "N")) 1 (Some (lit " L&       LATIN CAPITAL LETTER A WITH RING ABOVE")));
  Data (mkNl (Span 0x340 0x341) 4 (lit "NFC_QC") (Some (lit "N")) 1 (Some (lit " Mn   [2] COMBINING GRAVE TONE MARK..COMBINING ACUTE TONE MARK")));
  Data (mkNl (Span 0x300 0x304) 4 (lit "NFC_QC") (Some (lit "M")) 1 (Some (lit " Mn   [5] COMBINING GRAVE ACCENT..COMBINING MACRON"))) ].

Lemma norm_demo_ok : norm_files_ok ud_demo ex_demo np_demo.
Proof.
  split; [apply (all_data_ok ud_ok ud_okb); [exact ud_okb_ok|vm_compute; reflexivity]|].
  split; [unfold ud_unique; apply unique_keys; vm_compute; reflexivity|].
  split; [apply (all_data_ok ex_ok (fun e => span_okb (ex_span e))); [intros e; apply span_okb_ok|vm_compute; reflexivity]|].
  apply (all_data_ok np_ok np_okb); [exact np_okb_ok|vm_compute; reflexivity].
Qed.
Definition tb_demo : norm_tables :=
  let d := load_unicode_data (file_text ud_text true ud_demo) in
  let p := load_nprops (load_exclusions (file_text ex_text true ex_demo)) (file_text np_text true np_demo) in
  gen_norm d p (compositions (d_dec d) (np_excl p)).
Lemma tb_demo_generated : generated_norm true ud_demo ex_demo np_demo tb_demo.
Proof.
  eexists. split; [apply Permutation_refl|]. split; [|reflexivity].
  assert (E : compositions (d_dec (load_unicode_data (file_text ud_text true ud_demo)))
    (np_excl (load_nprops (load_exclusions (file_text ex_text true ex_demo)) (file_text np_text true np_demo))) = [(0x41, 0x30A, 0xC5); (0x308, 0x301, 0x344)]) by (vm_compute; reflexivity).
  rewrite E. constructor; [constructor; [constructor|constructor]|]. constructor; [reflexivity|constructor].
Qed.
Definition demo_composite (a b c : N) : Prop := (a = 0x41 /\ b = 0x30A /\ c = 0xC5) \/ (a = 0x308 /\ b = 0x301 /\ c = 0x344).
Lemma demo_dec u t l : has ud_demo u -> ul_dec u = Some (t, l) -> In (ul_cp u, t, l)
  [(0xC5, None, [0x41; 0x30A]); (0x340, None, [0x300]); (0x344, None, [0x308; 0x301]); (0x958, None, [0x915; 0x93C]); (0xFB00, Some (lit "compat"), [0x66; 0x66])].
Proof.
  intros H. apply datas_in in H. unfold ud_demo, udl in H. cbn [datas flat_map app In] in H.
  repeat (destruct H as [<-|H]; [cbn [ul_cp ul_dec]; intros E; first [discriminate E | injection E as <- <-; cbn [In]; tauto]|]). destruct H.
Qed.
Lemma demo_composites a b c : composite ud_demo ex_demo np_demo a b c <-> demo_composite a b c.
Proof.
  rewrite <- (tcomp_in true ud_demo ex_demo np_demo norm_demo_ok tb_demo tb_demo_generated).
  assert (E : t_comp tb_demo = [(0x41, 0x30A, 0xC5); (0x308, 0x301, 0x344)]) by (vm_compute; reflexivity).
  rewrite E. unfold demo_composite. cbn [In]. split.
  - intros [H|[H|[]]]; inversion H; auto.
  - intros [[-> [-> ->]]|[-> [-> ->]]]; auto.
Qed.
Lemma demo_composites_unique : composites_unique ud_demo ex_demo np_demo.
Proof. intros a b c c' H G. apply demo_composites in H, G. unfold demo_composite in H, G. destruct H as [[? [? ?]]|[? [? ?]]], G as [[? [? ?]]|[? [? ?]]]; congruence. Qed.
Lemma demo_308 : ~ starter ud_demo 0x308.
Proof.
  intros H. assert (X : canonical_combining_class tb_demo 0x308 = 230) by (vm_compute; reflexivity).
  apply (starter_ccc true ud_demo ex_demo np_demo norm_demo_ok tb_demo tb_demo_generated) in H. congruence.
Qed.
Lemma demo_C5 : starter ud_demo 0xC5.
Proof. apply (starter_ccc true ud_demo ex_demo np_demo norm_demo_ok tb_demo tb_demo_generated). vm_compute. reflexivity. Qed.
Lemma norm_demo_data : norm_data_ok ud_demo ex_demo np_demo.
Proof.
  split; [|split; [|split]].
  - intros u H. apply datas_in in H. unfold ud_demo, udl in H. cbn [datas flat_map app In] in H.
    repeat (destruct H as [<-|H]; [cbn [ul_cp ul_dec ul_ccc]; intros E; first [split; reflexivity | discriminate E]|]). destruct H.
  - intros u H. apply datas_in in H. unfold ud_demo, udl in H. cbn [datas flat_map app In] in H.
    repeat (destruct H as [<-|H]; [cbn [ul_cp ul_dec ul_ccc]; intros E; first [reflexivity | exfalso; destruct E as [E|[E|E]]; discriminate E]|]). destruct H.
  - exists (fun c => if existsb (N.eqb c) [0xC5; 0x340; 0x344; 0x958; 0xFB00] then 1%nat else 0%nat). intros u t l x Hu Hd Hx.
    pose proof (demo_dec u t l Hu Hd) as H. cbn [In] in H.
    destruct H as [H|[H|[H|[H|[H|[]]]]]]; inversion H as [[Hcp Ht Hl]]; rewrite <- Hl in Hx; cbn [In] in Hx;
      repeat (destruct Hx as [<-|Hx]; [cbv; lia|]); destruct Hx.
  - intros a b c H Ha. apply demo_composites in H. destruct H as [[-> [-> ->]]|[-> [-> ->]]]; [exact demo_C5|exfalso; exact (demo_308 Ha)].
Qed.
Lemma norm_demo_derived : exclusions_derived ud_demo ex_demo np_demo.
Proof.
  intros n c Hn Hp Hc. apply datas_in in Hn. cbn [datas np_demo flat_map app In] in Hn.
  assert (K : forall u a b, has ud_demo u -> ul_cp u = c -> ul_dec u = Some (None, [a; b]) -> c = 0xC5 \/ (c = 0x344 /\ a = 0x308) \/ c = 0x958).
  { intros u a b Hu Ecp Ed. pose proof (demo_dec u _ _ Hu Ed) as G. cbn [In] in G. destruct G as [G|[G|[G|[G|[G|[]]]]]]; inversion G; subst; auto. }
  destruct Hn as [<-|[<-|[<-|Hn]]]; cbn [nl_span covers] in Hc.
  - right. split; [unfold is_hangul_syllable, SBase, SCount, LCount, VCount, TCount; lia|]. intros u a b Hu Ecp Ed. destruct (K u a b Hu Ecp Ed) as [E|[[E _]|E]]; lia.
  - subst c. right. split; [reflexivity|]. intros u a b Hu Ecp Ed. destruct (K u a b Hu Ecp Ed) as [E|[[_ ->]|E]]; [discriminate E|exact demo_308|discriminate E].
  - subst c. left. exists (mkEx (One 0x958) 4 (Some (lit "  DEVANAGARI LETTER QA"))). split; [unfold has, ex_demo; cbn [In]; tauto|reflexivity].
  - exfalso. destruct Hn as [<-|[<-|[<-|[]]]]; discriminate Hp.
Qed.

(** ** Case files *)
Definition upper_line (c : N) : udline := mkUl c (lit "LATIN CAPITAL LETTER " ++ [c]) (lit "Lu") 0 (lit "L") None [] [] [] (lit "N") [] [] None (Some (c + 32)) None.
Definition lower_line (c : N) : udline :=
  mkUl c (lit "LATIN SMALL LETTER " ++ [c - 32]) (lit "Ll") 0 (lit "L") None [] [] [] (lit "N") [] [] (Some (c - 32)) None (Some (c - 32)).
Definition fold_line (c : N) : cfline := mkCf c FC [c + 32] (lit "LATIN CAPITAL LETTER " ++ [c]).
Definition upper_lines : list (fline udline) := map (fun c => Data (upper_line c)) (nrange 0x41 26).
Definition lower_lines : list (fline udline) := map (fun c => Data (lower_line c)) (nrange 0x61 26).
Definition udc_demo : list (fline udline) := upper_lines ++ lower_lines ++ [
  udl 0xDF "LATIN SMALL LETTER SHARP S" "Ll" 0 "L" None "" None None None;
  udl 0x1C5 "LATIN CAPITAL LETTER D WITH SMALL LETTER Z WITH CARON" "Lt" 0 "L" (Some (Some (lit "compat"), [0x44; 0x17E])) "LATIN LETTER CAPITAL D SMALL Z HACEK" (Some 0x1C4) (Some 0x1C6) (Some 0x1C5);
  udl 0x1E9E "LATIN CAPITAL LETTER SHARP S" "Lu" 0 "L" None "" None (Some 0xDF) None ].
Definition sc_demo : list (fline scline) := [
  Comment (lit " The German es-zed is special--the normal mapping is to SS.");
  Data (mkSc 0xDF [0xDF] [0x53; 0x73] [0x53; 0x53] None (lit "LATIN SMALL LETTER SHARP S"));
  Blank [];
  Data (mkSc 0x3A3 [0x3C2] [0x3A3] [0x3A3] (Some (lit "Final_Sigma")) (lit "GREEK CAPITAL LETTER SIGMA")) ].
Definition cf_demo : list (fline cfline) := map (fun c => Data (fold_line c)) (nrange 0x41 26) ++ [
  Data (mkCf 0x49 FT [0x131] (lit "LATIN CAPITAL LETTER I"));
  Data (mkCf 0xDF FF [0x73; 0x73] (lit "LATIN SMALL LETTER SHARP S"));
  Data (mkCf 0x1E9E FF [0x73; 0x73] (lit "LATIN CAPITAL LETTER SHARP S"));
  Data (mkCf 0x1E9E FS [0xDF] (lit "LATIN CAPITAL LETTER SHARP S")) ].
Lemma case_demo_ok : case_files_ok udc_demo sc_demo cf_demo.
Proof.
  split; [apply (all_data_ok ud_ok ud_okb); [exact ud_okb_ok|vm_compute; reflexivity]|].
  split; [unfold ud_unique; apply unique_keys; vm_compute; reflexivity|].
  split; [apply (all_data_ok sc_ok sc_okb); [exact sc_okb_ok|vm_compute; reflexivity]|].
  split; [intros a b Ha Hb _ _; apply (unique_keys sc_cp sc_demo); [vm_compute; reflexivity|assumption|assumption]|].
  split; [apply (all_data_ok cf_ok cf_okb); [exact cf_okb_ok|vm_compute; reflexivity]|].
  set (key := fun (p : fstatus -> bool) c => if p (cf_status c) then 2 * cf_cp c else 2 * (3 * cf_cp c + match cf_status c with FC => 0 | FS => 0 | FF => 1 | FT => 2 end) + 1).
  intros a b Ha Hb E [[Sa Sb]|[Sa Sb]].
  - apply (unique_keys (key (fun s => match s with FC | FS => true | _ => false end)) cf_demo); [vm_compute; reflexivity|assumption|assumption|].
    unfold key. destruct Sa as [-> | ->], Sb as [-> | ->]; rewrite E; reflexivity.
  - apply (unique_keys (key (fun s => match s with FC | FF => true | _ => false end)) cf_demo); [vm_compute; reflexivity|assumption|assumption|].
    unfold key. destruct Sa as [-> | ->], Sb as [-> | ->]; rewrite E; reflexivity.
Qed.
Lemma case_demo_ascii : ascii_agrees udc_demo cf_demo.
Proof.
  intros k c H. destruct k; cbn [ascii_changes ascii_swap file_simple] in *.
  - exists (lower_line c). split; [apply in_or_app; right; apply in_or_app; left; apply (in_map (fun c => Data (lower_line c))), in_nrange; lia|]. split; reflexivity.
  - exists (upper_line c). split; [apply in_or_app; left; apply (in_map (fun c => Data (upper_line c))), in_nrange; lia|]. split; reflexivity.
  - exists (lower_line c). split; [apply in_or_app; right; apply in_or_app; left; apply (in_map (fun c => Data (lower_line c))), in_nrange; lia|]. split; reflexivity.
  - exists (fold_line c). split; [apply in_or_app; left; apply (in_map (fun c => Data (fold_line c))), in_nrange; lia|].
    split; [reflexivity|split; [left; reflexivity|reflexivity]].
Qed.
