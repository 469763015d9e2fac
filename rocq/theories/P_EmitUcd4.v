(** ucd.cpp: script extensions, break properties, widths, ages. *)
From Coq Require Import String Lia.
From Verif Require Import Base M_TableGen M_PropGen M_UcdApi Spec_Cpp Spec_EmitUcd M_Emit M_EmitUcd P_TableGen P_Emit P_Emit2 P_Emit3 P_Emit4 P_EmitUcd P_EmitUcd2 P_EmitUcd3.
Open Scope N_scope.

(** ** Script extensions *)
Lemma key_wordy props : Forall wordy props -> wordy (sce_key props) /\ sce_key props <> [].
Proof.
  intros H. unfold sce_key. assert (X : forall k, wordy k /\ k <> [] -> wordy (fold_left (fun k s => k ++ lit "_" ++ s) props k) /\ fold_left (fun k s => k ++ lit "_" ++ s) props k <> []).
  { induction H as [|s r Hs Hr IH]; intros k Hk; [exact Hk|]. cbn [fold_left]. apply IH. destruct Hk as [Hk Hn]. split.
    - apply Forall_app. split; [exact Hk|]. apply Forall_app. split; [wlit|exact Hs].
    - destruct k; [congruence|discriminate]. }
  apply X. split; [wlit|discriminate].
Qed.
Definition ste : list tok := [TWord (lit "unicode"); TPunct 58; TPunct 58; TWord (lit "Script")].
Definition arr_ok (e : str * list str) : Prop := wordy (fst e) /\ fst e <> [] /\ small (length (snd e)) /\ Forall (fun s => wordy s /\ s <> []) (snd e).
Definition sce_head (e : str * list str) : str :=
  lit "auto static const " ++ fst e ++ lit " = std::array<unicode::Script, " ++ fmt_d (N.of_nat (length (snd e))) ++ lit ">{" ++ nl.
Lemma sce_array_local e : arr_ok e -> local_array (sce_array e) Assigned (lit "unicode::Script") (fst e) (map (fun s => IExpr (enum_toks ste s)) (snd e)).
Proof.
  intros (Hw & Hn & Hs & Hl).
  assert (E : sce_array e = sce_head e ++ flat_map (fun s => lit "    unicode::Script::" ++ s ++ lit "," ++ nl) (snd e) ++ (lit "};" ++ nl ++ nl)).
  { unfold sce_array, sce_head. rewrite <- !app_assoc. reflexivity. }
  rewrite E.
  apply (tab_gen (fun s => lit "    unicode::Script::" ++ s ++ lit "," ++ nl) (enum_toks ste) (fun s => IExpr (enum_toks ste s)) (fun s => wordy s /\ s <> []) (snd e)
    (sce_head e) [TWord (lit "auto"); TWord (lit "static"); TWord (lit "const")] (fst e) (lit "unicode::Script") (toks_of (lit "std::array<unicode::Script, "))).
  - intros s [Ws Ns]. eapply piece_toks; [pc|reflexivity].
  - intros s _ S. apply plain_val, plain_enum. intros S'. reflexivity.
  - intros s h. discriminate.
  - exact Hl.
  - exact Hs.
  - unfold sce_head. destruct (size_wordy _ Hs) as [Zw Zn]. eapply piece_toks; [pc|]. rewrite (fmt_numeral _ Hs). reflexivity.
  - exact Hw.
  - exact Hn.
  - lits.
  - lits.
Qed.
Lemma sce_array_values (e : str * list str) : all_some (read_enum (lit "unicode::Script")) (map (fun s => IExpr (enum_toks ste s)) (snd e)) = Some (snd e).
Proof. rewrite <- (map_id (snd e)) at 2. apply all_some_map. apply Forall_forall. intros s _. apply enum_read. reflexivity. Qed.

Definition vth : list tok := toks_of sce_element.
Definition view_toks (e : N * N * str) : list tok :=
  vth ++ [TPunct 123; TPunct 123; w (fst (fst e)); TPunct 44; w (snd (fst e)); TPunct 125; TPunct 44; TPunct 123; TWord (snd e); TPunct 46; TWord (lit "data"); TPunct 40; TPunct 41;
  TPunct 44; TWord (snd e); TPunct 46; TWord (lit "size"); TPunct 40; TPunct 41; TPunct 125; TPunct 125].
Definition view_val (e : N * N * str) : init :=
  IList vth [IList [] [IExpr [w (fst (fst e))]; IExpr [w (snd (fst e))]];
             IList [] [IExpr [TWord (snd e); TPunct 46; TWord (lit "data"); TPunct 40; TPunct 41]; IExpr [TWord (snd e); TPunct 46; TWord (lit "size"); TPunct 40; TPunct 41]]].
Definition sce_entry (r : csce) : N * N * str := (fst (fst (fst r)), snd (fst (fst r)), sce_key (snd (fst r))).
Definition sce_ok (r : csce) : Prop := pair_fits (fst (fst r)) /\ Forall wordy (snd (fst r)) /\ quiet (snd r).
Lemma sce_piece r : sce_ok r -> piece LStart (sce_line r) LStart (view_toks (sce_entry r) ++ [TPunct 44]).
Proof.
  intros ([H1 H2] & H3 & Q). destruct (key_wordy _ H3) as [Kw Kn]. unfold sce_line, sce_entry.
  assert (T : piece LStart sce_element LStart vth) by lits.
  set (k := sce_key (snd (fst r))) in *.
  assert (X : piece LStart (lit " { { 0x" ++ fmt_X4 (fst (fst (fst r))) ++ lit ", 0x" ++ fmt_X4 (snd (fst (fst r))) ++ lit " }, { " ++ k
    ++ lit ".data(), " ++ k ++ lit ".size() } }, // " ++ snd r ++ nl) LStart
    ([TPunct 123; TPunct 123; w (fst (fst (fst r))); TPunct 44; w (snd (fst (fst r))); TPunct 125; TPunct 44; TPunct 123; TWord k; TPunct 46; TWord (lit "data"); TPunct 40; TPunct 41;
      TPunct 44; TWord k; TPunct 46; TWord (lit "size"); TPunct 40; TPunct 41; TPunct 125; TPunct 125] ++ [TPunct 44])).
  { eapply piece_toks; [pc|reflexivity]. }
  assert (I : piece LStart (lit "    ") LStart []) by lits.
  eapply piece_eq; [exact (piece_app _ _ _ _ _ _ _ I (piece_app _ _ _ _ _ _ _ T X))| |].
  - rewrite <- ?app_assoc. reflexivity.
  - reflexivity.
Qed.
Lemma view_parse e S : parse_run (S, CNone) (view_toks e) = Some (S, CDone (view_val e)).
Proof. reflexivity. Qed.
Lemma view_read l : Forall (fun e => u32 (fst (fst e)) /\ u32 (snd (fst e))) l -> all_some (read_view sce_type) (map view_val l) = Some l.
Proof.
  intros H. rewrite <- (map_id l) at 2. apply all_some_map. eapply Forall_impl; [|exact H]. intros [[a b] k] [H1 H2]. cbn [fst snd] in *.
  unfold view_val, read_view. cbn [fst snd]. rewrite str_eqb_refl.
  replace (spells vth sce_type) with true by reflexivity. replace (spells [TPunct 46; TWord (lit "data"); TPunct 40; TPunct 41] (lit ".data()")) with true by reflexivity.
  replace (spells [TPunct 46; TWord (lit "size"); TPunct 40; TPunct 41] (lit ".size()")) with true by reflexivity.
  cbn [andb]. rewrite !unsigned_hex by assumption. reflexivity.
Qed.
Definition sce_main (sces : list csce) : str :=
  lit "static const std::array<" ++ sce_element ++ lit ", " ++ fmt_d (N.of_nat (length sces)) ++ lit "> sce { {" ++ nl ++ flat_map sce_line sces ++ lit "} };" ++ nl.
Lemma sce_local sces : Forall sce_ok sces -> small (length sces) ->
  local_array (sce_main sces) (Direct false) sce_type (lit "sce") (map (fun r => view_val (sce_entry r)) sces).
Proof.
  intros Hl Hs. destruct (numeral_wordy _ Hs) as [Nw Nn].
  set (vals := map (fun r => view_val (sce_entry r)) sces).
  assert (L : length vals = length sces) by apply map_length.
  assert (T : piece LStart (lit "std::array<" ++ sce_type ++ lit ", ") LStart (toks_of (lit "std::array<" ++ sce_type ++ lit ", "))) by lits.
  exists [TWord (lit "static"); TWord (lit "const")], (decl_toks (toks_of (lit "std::array<" ++ sce_type ++ lit ", ")) (length sces) (lit "sce")),
    ([TPunct 123; TPunct 123] ++ line_toks (fun r => view_toks (sce_entry r)) sces ++ [TPunct 125; TPunct 125]), [], (IList [] [IList [] vals]).
  split; [|split; [|split; [|reflexivity]]].
  - pose proof (lines_piece sce_line (fun r => view_toks (sce_entry r)) sce_ok sce_piece sces Hl) as B.
    assert (P1 : piece LStart (lit "static const ") LStart [TWord (lit "static"); TWord (lit "const")]) by lits.
    assert (P2 : piece LStart (numeral (length sces) ++ lit "> sce { {" ++ nl) LStart [TWord (numeral (length sces)); TPunct 62; TWord (lit "sce"); TPunct 123; TPunct 123]).
    { eapply piece_toks; [pc|reflexivity]. }
    assert (P3 : piece LStart (lit "} };" ++ nl) LStart [TPunct 125; TPunct 125; TPunct 59]) by lits.
    eapply piece_eq; [exact (piece_app _ _ _ _ _ _ _ P1 (piece_app _ _ _ _ _ _ _ T (piece_app _ _ _ _ _ _ _ P2 (piece_app _ _ _ _ _ _ _ B P3))))| |].
    + unfold sce_main. rewrite (fmt_numeral _ Hs). change sce_element with sce_type.
      change (lit "static const std::array<") with (lit "static const " ++ lit "std::array<"). rewrite <- ?app_assoc. reflexivity.
    + unfold decl_toks. rewrite <- ?app_assoc. cbn [app]. rewrite <- ?app_assoc. reflexivity.
  - rewrite L. apply lex_decl; [exact T|exact Hs|wlit|discriminate].
  - unfold parse_init. cbn [app parse_run parse_step].
    assert (HV : forall x, sce_ok x -> forall S, exists c, parse_run (S, CNone) (view_toks (sce_entry x)) = Some (S, c) /\
      (c = CDone (view_val (sce_entry x)) \/ exists ts, c = CToks ts 0 /\ view_val (sce_entry x) = IExpr ts)) by (intros x _ S; apply done_val, view_parse).
    idtac.
    pose proof (lines_parse (fun r => view_toks (sce_entry r)) (fun r => view_val (sce_entry r)) sce_ok HV sces [] [] [([], [])] [TPunct 125] Hl) as P.
    rewrite P. reflexivity.
Qed.
Lemma sce_values sces : Forall sce_ok sces -> all_some (read_view sce_type) (map (fun r => view_val (sce_entry r)) sces) = Some (map sce_entry sces).
Proof. intros H. rewrite <- (map_map sce_entry view_val). apply view_read. apply Forall_map. eapply Forall_impl; [|exact H]. intros r ([A B] & _). split; assumption. Qed.
Lemma smap_get_snoc {V} k k' (v : V) m : smap_get k (m ++ [(k', v)]) = match smap_get k m with Some x => Some x | None => if str_eqb k k' then Some v else None end.
Proof. induction m as [|[a b] r IH]; [reflexivity|]. cbn. destruct (str_eqb k a); [reflexivity|exact IH]. Qed.
Lemma sce_arrays_in al l : forall done e, In e (fold_left (fun done (r : sce_range) => match smap_get (sce_key (snd r)) done with Some _ => done
      | None => done ++ [(sce_key (snd r), sce_names al (snd r))] end) l done) ->
  In e done \/ exists r, In r l /\ e = (sce_key (snd r), sce_names al (snd r)).
Proof.
  induction l as [|r l IH]; intros done e H; [left; exact H|]. cbn [fold_left] in H. apply IH in H. destruct H as [H|(r' & Hr & ->)].
  - destruct (smap_get (sce_key (snd r)) done); [left; exact H|]. apply in_app_or in H. destruct H as [H|[<-|[]]]; [left; exact H|].
    right. exists r. split; [left; reflexivity|reflexivity].
  - right. exists r'. split; [right; exact Hr|reflexivity].
Qed.

(** ** Break properties *)
Definition brk_ok (e : str * list crange) : Prop := wordy (fst e) /\ fst e <> [] /\ small (length (snd e)) /\ Forall cprop_ok (snd e).
Definition brk_th (name : str) : list tok := [TWord (lit "Prop"); TPunct 60; TPunct 58; TPunct 58; TWord (lit "unicode"); TPunct 58; TPunct 58; TWord name; TPunct 62].
Definition brk_te : list tok := [TPunct 58; TPunct 58; TWord (lit "unicode"); TPunct 58; TPunct 58].
Lemma break_local e : brk_ok e -> local_array (break_table e) Assigned (lit "Prop<::unicode::" ++ fst e ++ lit ">") (fst e)
  (map (fun r => ev (brk_th (fst e)) brk_te (fst e) (fst r)) (snd e)).
Proof.
  intros (Hw & Hn & Hs & Hl). unfold break_table.
  assert (T : piece LStart (lit "Prop<::unicode::" ++ fst e ++ lit ">") LStart (brk_th (fst e))) by (eapply piece_toks; [pc|reflexivity]).
  assert (E : piece LStart (lit "::unicode::" ++ fst e) (LWord (fst e)) brk_te) by (eapply piece_toks; [pc|reflexivity]).
  apply (enum_local (lit "Prop<::unicode::" ++ fst e ++ lit ">") (lit "::unicode::" ++ fst e) (brk_th (fst e)) brk_te (fst e) T E ltac:(intros S; reflexivity) ltac:(intros S; reflexivity)
    ltac:(discriminate) (snd e) (fst e) _ [TWord (lit "auto"); TWord (lit "static"); TWord (lit "const")]); try assumption.
  - apply fold_head; try assumption. apply enum_array, T.
  - exact close_piece.
Qed.
Lemma break_values e : brk_ok e -> all_some (read_prop (lit "Prop<::unicode::" ++ fst e ++ lit ">") (lit "::unicode::" ++ fst e))
  (map (fun r => ev (brk_th (fst e)) brk_te (fst e) (fst r)) (snd e)) = Some (map fst (snd e)).
Proof.
  intros (Hw & Hn & Hs & Hl).
  assert (T : piece LStart (lit "Prop<::unicode::" ++ fst e ++ lit ">") LStart (brk_th (fst e))) by (eapply piece_toks; [pc|reflexivity]).
  assert (E : piece LStart (lit "::unicode::" ++ fst e) (LWord (fst e)) brk_te) by (eapply piece_toks; [pc|reflexivity]).
  apply (enum_values_c _ _ _ _ _ T E). exact Hl.
Qed.

(** ** Widths *)
Definition wth : list tok := toks_of (lit "Prop<::unicode::EastAsianWidth>").
Definition wte : list tok := [TPunct 58; TPunct 58; TWord (lit "unicode"); TPunct 58; TPunct 58; TWord (lit "EastAsianWidth")].
Definition wrange (m : merged) : prange := (fst (m_range m), width_name (r_prop (m_range m))).
Definition merged_ok (m : merged) : Prop := u32 (r_first (m_range m)) /\ u32 (r_last (m_range m)) /\ Forall quiet (m_comments m).
Lemma width_name_ok s : width_name s <> [] /\ wordy (width_name s).
Proof.
  unfold width_name.
  destruct (str_eqb s (lit "A")); [split; [discriminate|wlit]|]. destruct (str_eqb s (lit "F")); [split; [discriminate|wlit]|].
  destruct (str_eqb s (lit "H")); [split; [discriminate|wlit]|]. destruct (str_eqb s (lit "N")); [split; [discriminate|wlit]|].
  destruct (str_eqb s (lit "Na")); [split; [discriminate|wlit]|]. destruct (str_eqb s (lit "W")); [split; [discriminate|wlit]|].
  split; [discriminate|wlit].
Qed.
Lemma comments_piece cs : Forall quiet cs -> piece LStart (flat_map (fun c => lit "    // " ++ c ++ nl) cs) LStart [].
Proof.
  intros H. induction H as [|c r Hc Hr IH]; [apply piece_nil|]. cbn [flat_map]. change (@nil tok) with (@nil tok ++ @nil tok).
  refine (piece_app _ _ _ _ _ _ _ _ IH). eapply piece_toks; [pc|reflexivity].
Qed.
Lemma eaw_piece m : merged_ok m -> piece LStart (eaw_line m) LStart (prop_toks wth wte (wrange m) ++ [TPunct 44]).
Proof.
  intros (H1 & H2 & H3). unfold eaw_line. destruct (width_name_ok (r_prop (m_range m))) as [Nn Nw].
  assert (C : piece LStart (if (1 <? length (m_comments m))%nat then flat_map (fun c => lit "    // " ++ c ++ nl) (m_comments m) else []) LStart []).
  { destruct (1 <? length (m_comments m))%nat; [apply comments_piece, H3|apply piece_nil]. }
  assert (I : piece LStart (lit "    ") LStart []) by lits.
  assert (T : piece LStart (lit "Prop<::unicode::EastAsianWidth>") LStart wth) by lits.
  assert (E : piece LStart (lit "::unicode::EastAsianWidth") (LWord (lit "EastAsianWidth")) [TPunct 58; TPunct 58; TWord (lit "unicode"); TPunct 58; TPunct 58]) by lits.
  pose proof (entry_piece _ _ _ _ _ _ (width_name (r_prop (m_range m))) _ _ I T E H1 H2 Nn Nw) as P.
  assert (X : piece LStart ((match m_comments m with
      | [c] => if m_count m =? 1 then lit " // " ++ c else if 1 <? m_count m then lit " // #" ++ fmt_d (m_count m) else []
      | _ => if 1 <? m_count m then lit " // #" ++ fmt_d (m_count m) else []
      end) ++ nl) LStart []).
  { assert (Y : piece LStart ((if 1 <? m_count m then lit " // #" ++ fmt_d (m_count m) else []) ++ nl) LStart []).
    { destruct (1 <? m_count m); [eapply piece_toks; [pc|reflexivity]|lits]. }
    destruct (m_comments m) as [|c [|c2 r]]; [exact Y| |exact Y]. destruct (m_count m =? 1); [|exact Y].
    pose proof (Forall_inv H3) as Q. eapply piece_toks; [pc|reflexivity]. }
  eapply piece_eq; [exact (piece_app _ _ _ _ _ _ _ C (piece_app _ _ _ _ _ _ _ P X))|reflexivity|]. cbn [app]. rewrite app_nil_r.
  unfold wrange, r_first, r_last, r_prop. destruct (m_range m) as [[a b] n]. reflexivity.
Qed.
Lemma range_comment_quiet a b s : u32 a -> u32 b -> quiet s -> quiet (range_comment a b s).
Proof.
  intros Ha Hb [H1 H2]. unfold range_comment. split.
  - apply Forall_app. split; [no10|]. apply Forall_app. split; [apply wordy_no10, X4_wordy, Ha|]. apply Forall_app. split; [no10|].
    apply Forall_app. split; [apply wordy_no10, X4_wordy, Hb|]. apply Forall_app. split; [no10|exact H1].
  - rewrite !app_assoc. destruct s as [|c r].
    + rewrite app_nil_r. rewrite last_app by discriminate. vm_compute. discriminate.
    + rewrite last_app by discriminate. exact H2.
Qed.
Definition width_ok (r : crange) : Prop := pair_fits (cr r) /\ quiet (snd r).
Lemma merge_all_ok l : forall cur, Forall width_ok l -> match cur with Some c => merged_ok c | None => True end -> Forall merged_ok (merge_all cur l).
Proof.
  induction l as [|r l IH]; intros cur Hl Hc.
  - destruct cur; cbn; [constructor; [exact Hc|constructor]|constructor].
  - destruct (Forall_inv Hl) as [[R1 R2] Q]. pose proof (Forall_inv_tail Hl) as Hl'.
    assert (F : merged_ok (mkM (fst r) [snd r] 1)).
    { split; [exact R1|]. split; [exact R2|]. constructor; [exact Q|constructor]. }
    cbn [merge_all]. destruct cur as [[[[a b] v] cs n]|].
    + destruct Hc as (C1 & C2 & C3). destruct (((b + 1) mod 2 ^ 32 =? c_first r) && str_eqb v (c_prop r)).
      * apply IH; [exact Hl'|]. split; [exact C1|]. split; [exact R2|]. cbn [m_comments].
        assert (Z : quiet (range_comment (c_first r) (c_last r) (snd r))) by (apply range_comment_quiet; assumption).
        cbn [m_comments m_range r_first r_last fst snd] in *. unfold join_comments. destruct cs as [|c [|c2 cs]].
        -- constructor.
        -- constructor; [apply range_comment_quiet; [exact C1|exact C2|exact (Forall_inv C3)]|]. constructor; [exact Z|constructor].
        -- apply Forall_app. split; [exact C3|]. constructor; [exact Z|constructor].
      * constructor; [split; [exact C1|split; assumption]|]. apply IH; assumption.
    + apply IH; assumption.
Qed.
Lemma merge_all_ranges l : forall cur, map m_range (merge_all cur l) = merge_ranges (option_map m_range cur) (map fst l).
Proof.
  induction l as [|r l IH]; intros cur; [destruct cur; reflexivity|]. cbn [merge_all merge_ranges map].
  destruct cur as [[[[a b] v] cs n]|]; cbn [option_map m_range].
  - unfold c_first, c_prop, c_last. destruct (((b + 1) mod 2 ^ 32 =? r_first (fst r)) && str_eqb v (r_prop (fst r))).
    + rewrite IH. reflexivity.
    + cbn [map m_range]. rewrite IH. reflexivity.
  - rewrite IH. reflexivity.
Qed.
Lemma widths_local ms : Forall merged_ok ms -> small (length ms) ->
  local_array (table_head [] (lit "EastAsianWidth") (lit "Prop<::unicode::EastAsianWidth>") (length ms) ++ flat_map eaw_line ms ++ close_fold) Assigned
    (lit "Prop<::unicode::EastAsianWidth>") (lit "EastAsianWidth") (map (fun m => prop_val wth wte (wrange m)) ms).
Proof.
  intros Hl Hs. apply (tab_local eaw_line (fun m => prop_toks wth wte (wrange m)) (fun m => prop_val wth wte (wrange m)) merged_ok ms [] (lit "EastAsianWidth")
    (lit "Prop<::unicode::EastAsianWidth>") (toks_of (lit "std::array<Prop<::unicode::EastAsianWidth>, "))).
  - exact eaw_piece.
  - intros x _ S. apply done_val, prop_parse; intros S'; reflexivity.
  - intros x h. discriminate.
  - exact Hl.
  - exact Hs.
  - apply piece_nil.
  - wlit.
  - discriminate.
  - lits.
  - exact close_piece.
Qed.
Lemma widths_values ms : Forall merged_ok ms ->
  all_some (read_prop (lit "Prop<::unicode::EastAsianWidth>") (lit "::unicode::EastAsianWidth")) (map (fun m => prop_val wth wte (wrange m)) ms)
  = Some (map (fun r => (fst r, width_name (snd r))) (map m_range ms)).
Proof.
  intros H. rewrite <- (map_map wrange (prop_val wth wte)).
  transitivity (Some (map wrange ms)); [|f_equal; symmetry; exact (map_map m_range (fun r : prange => (fst r, width_name (snd r))) ms)].
  apply prop_read; [reflexivity|reflexivity|].
  apply Forall_map. eapply Forall_impl; [|exact H]. intros m (H1 & H2 & _). destruct (width_name_ok (r_prop (m_range m))) as [A B].
  split; [exact H1|]. split; [exact H2|]. split; assumption.
Qed.

(** ** Ages *)
Definition text_char (c : N) : Prop := c <> 34 /\ c <> 10 /\ c <> 92.
Lemma piece_string v s : Forall text_char s -> piece (LStr v) s (LStr (v ++ s)) [].
Proof.
  intros H. split.
  - induction H as [|c r (Hc & Hc1 & Hc2) Hr IH]; [cbn; discriminate|]. destruct r; [exact Hc2|exact IH].
  - rewrite splice_id by (eapply Forall_impl; [|exact H]; intros c (_ & A & _); exact A). revert v.
    induction H as [|c r (Hc & Hc1 & Hc2) Hr IH]; intros v; cbn [lex_run]; [rewrite app_nil_r; reflexivity|].
    cbn [lex_step]. destruct (N.eqb_spec c 34); [congruence|]. destruct (N.eqb_spec c 10); [congruence|]. destruct (N.eqb_spec c 92); [congruence|].
    cbn [orb after]. rewrite IH. cbn. rewrite <- app_assoc. reflexivity.
Qed.
Definition age_toks (e : str * str) : list tok :=
  [TWord (lit "std"); TPunct 58; TPunct 58; TWord (lit "pair"); TPunct 123; TStr (fst e); TWord (lit "sv"); TPunct 44] ++ enum_toks [TWord (lit "Age")] (snd e) ++ [TPunct 125].
Definition age_val (e : str * str) : init :=
  IList [TWord (lit "std"); TPunct 58; TPunct 58; TWord (lit "pair")] [IExpr [TStr (fst e); TWord (lit "sv")]; IExpr (enum_toks [TWord (lit "Age")] (snd e))].
Definition age_ok (e : str * str) : Prop := Forall text_char (fst e) /\ wordy (snd e) /\ snd e <> [].
Lemma age_piece e : age_ok e -> piece LStart (age_line e) LStart (age_toks e ++ [TPunct 44]).
Proof.
  intros (H1 & H2 & H3). unfold age_line.
  assert (A : piece LStart (lit "        std::pair{ """) (LStr []) [TWord (lit "std"); TPunct 58; TPunct 58; TWord (lit "pair"); TPunct 123]) by lits.
  assert (C : forall s, piece (LStr s) (lit """sv, Age::") LStart [TStr s; TWord (lit "sv"); TPunct 44; TWord (lit "Age"); TPunct 58; TPunct 58]) by (intros s; lits).
  assert (D : piece LStart (snd e ++ lit " }," ++ nl) LStart [TWord (snd e); TPunct 125; TPunct 44]) by (eapply piece_toks; [pc|reflexivity]).
  eapply piece_eq; [exact (piece_app _ _ _ _ _ _ _ A (piece_app _ _ _ _ _ _ _ (piece_string [] _ H1) (piece_app _ _ _ _ _ _ _ (C (fst e)) D)))|reflexivity|reflexivity].
Qed.
Lemma age_parse e S : parse_run (S, CNone) (age_toks e) = Some (S, CDone (age_val e)).
Proof. reflexivity. Qed.
Definition age_head (n : nat) : str :=
  lit "    static constexpr auto mappings = std::array<std::pair<std::string_view, Age>, " ++ fmt_d (N.of_nat n) ++ lit ">{" ++ nl.
Lemma ages_local l : Forall age_ok l -> small (length l) ->
  local_array (age_head (length l) ++ flat_map age_line l ++ lit "    };" ++ nl) Assigned (lit "std::pair<std::string_view, Age>") (lit "mappings") (map age_val l).
Proof.
  intros Hl Hs. apply (tab_gen age_line age_toks age_val age_ok l (age_head (length l)) [TWord (lit "static"); TWord (lit "constexpr"); TWord (lit "auto")] (lit "mappings")
    (lit "std::pair<std::string_view, Age>") (toks_of (lit "std::array<std::pair<std::string_view, Age>, "))).
  - exact age_piece.
  - intros x _ S. apply done_val, age_parse.
  - intros x h. discriminate.
  - exact Hl.
  - exact Hs.
  - unfold age_head. destruct (size_wordy _ Hs) as [Zw Zn]. eapply piece_toks; [pc|]. rewrite (fmt_numeral _ Hs). reflexivity.
  - wlit.
  - discriminate.
  - lits.
  - lits.
Qed.
Lemma ages_values l : Forall age_ok l -> all_some read_age (map age_val l) = Some l.
Proof.
  intros H. rewrite <- (map_id l) at 2. apply all_some_map. eapply Forall_impl; [|exact H]. intros [a n] _. unfold age_val, read_age. cbn [fst snd].
  replace (spells [TWord (lit "std"); TPunct 58; TPunct 58; TWord (lit "pair")] (lit "std::pair")) with true by reflexivity.
  rewrite (enum_read [TWord (lit "Age")] (lit "Age") n eq_refl). reflexivity.
Qed.
