(** ucd.cpp: its tables. *)
From Coq Require Import String Lia.
From Verif Require Import Base M_TableGen M_PropGen M_UcdApi Spec_Cpp Spec_EmitUcd M_Emit M_EmitUcd P_TableGen P_Emit P_Emit2 P_Emit3 P_Emit4 P_EmitUcd P_EmitUcd2.
Open Scope N_scope.

Lemma done_val (val : init) S ts : parse_run (S, CNone) ts = Some (S, CDone val) ->
  exists c, parse_run (S, CNone) ts = Some (S, c) /\ (c = CDone val \/ exists ts, c = CToks ts 0 /\ val = IExpr ts).
Proof. intros H. eexists. split; [exact H|]. left. reflexivity. Qed.
Lemma plain_val S ts : plain ts -> exists c, parse_run (S, CNone) ts = Some (S, c) /\ (c = CDone (IExpr ts) \/ exists t, c = CToks t 0 /\ IExpr ts = IExpr t).
Proof. intros H. eexists. split; [apply H|]. right. exists ts. split; reflexivity. Qed.
(** any head *)
Lemma tab_gen {A} (line : A -> str) (etoks : A -> list tok) (val : A -> init) (ok : A -> Prop) (l : list A) head pre name type tt close :
  (forall x, ok x -> piece LStart (line x) LStart (etoks x ++ [TPunct 44])) ->
  (forall x, ok x -> forall S, exists c, parse_run (S, CNone) (etoks x) = Some (S, c) /\ (c = CDone (val x) \/ exists ts, c = CToks ts 0 /\ val x = IExpr ts)) ->
  (forall x h, val x <> IList [] h) -> Forall ok l -> small (length l) ->
  piece LStart head LStart (pre ++ (TWord name :: TPunct 61 :: tt ++ [TWord (numeral (length l)); TPunct 62]) ++ [TPunct 123]) ->
  wordy name -> name <> [] -> piece LStart (lit "std::array<" ++ type ++ lit ", ") LStart tt ->
  piece LStart close LStart [TPunct 125; TPunct 59] ->
  local_array (head ++ flat_map line l ++ close) Assigned type name (map val l).
Proof.
  intros HL HV HN Hl Hs H Hw Hne T C. eapply (assigned_local _ pre _ tt _ (line_toks etoks l) _ []).
  - rewrite map_length. eapply piece_eq; [exact (piece_app _ _ _ _ _ _ _ H (piece_app _ _ _ _ _ _ _ (lines_piece line etoks ok HL l Hl) C))|reflexivity|].
    rewrite <- ?app_assoc. cbn [app]. rewrite <- ?app_assoc. reflexivity.
  - exact T.
  - rewrite map_length. exact Hs.
  - exact Hw.
  - exact Hne.
  - intros h acc S rest. apply (lines_parse etoks val ok HV). exact Hl.
  - intros h E. destruct l as [|x [|y r]]; try discriminate E. injection E as E. exact (HN x h E).
Qed.

(** ** Interval tables *)
Definition close_fold : str := lit "}; // " ++ fold_close ++ nl.
Lemma close_piece : piece LStart close_fold LStart [TPunct 125; TPunct 59]. Proof. lits. Qed.
Definition ivs_ok (e : str * list crange) : Prop := wordy (fst e) /\ fst e <> [] /\ small (length (snd e)) /\ Forall interval_ok (snd e).
Lemma interval_local e : ivs_ok e -> local_array (interval_table e) Assigned (lit "Interval") (fst e) (map (fun r => pair_val iv (cr r)) (snd e)).
Proof.
  intros (Hw & Hn & Hs & Hl). unfold interval_table.
  apply (tab_local interval_line (fun r => pair_toks iv (cr r)) (fun r => pair_val iv (cr r)) interval_ok (snd e) [] (fst e) (lit "Interval")
    (toks_of (lit "std::array<Interval, "))).
  - exact interval_piece.
  - intros x _ S. apply done_val, pair_parse, iv_plain.
  - intros x h. discriminate.
  - exact Hl.
  - exact Hs.
  - apply piece_nil.
  - exact Hw.
  - exact Hn.
  - lits.
  - exact close_piece.
Qed.
Lemma interval_values e : ivs_ok e -> all_some (read_typed_pair (lit "Interval")) (map (fun r => pair_val iv (cr r)) (snd e)) = Some (map cr (snd e)).
Proof.
  intros (_ & _ & _ & Hl). rewrite <- (map_map cr (pair_val iv)). apply pair_read; [reflexivity|]. apply Forall_map. eapply Forall_impl; [|exact Hl]. intros r [H _]. exact H.
Qed.
(** ** Tables of enumerators *)
Section enum.
  Variables (type enum : str) (th te : list tok) (ew : str).
  Hypothesis (T : piece LStart type LStart th) (E : piece LStart enum (LWord ew) te) (Pt : plain th) (Pe : plain (te ++ [TWord ew])) (Hth : th <> []).
  Lemma enum_type : lex type = Some th. Proof. apply piece_lex, T. Qed.
  Lemma enum_enum : lex enum = Some (te ++ [TWord ew]). Proof. destruct E as [_ R]. unfold lex. rewrite R. reflexivity. Qed.
  Lemma enum_array : piece LStart (lit "std::array<" ++ type ++ lit ", ") LStart (toks_of (lit "std::array<") ++ th ++ [TPunct 44]).
  Proof.
    assert (A : piece LStart (lit "std::array<") LStart (toks_of (lit "std::array<"))) by lits. assert (B : piece LStart (lit ", ") LStart [TPunct 44]) by lits.
    exact (piece_app _ _ _ _ _ _ _ A (piece_app _ _ _ _ _ _ _ T B)).
  Qed.
  Definition ev := prop_val th (te ++ [TWord ew]).
  Lemma ev_head x h : ev x <> IList [] h. Proof. unfold ev, prop_val. intros H. injection H as H _. exact (Hth H). Qed.
  Lemma ev_parse x S : exists c, parse_run (S, CNone) (prop_toks th (te ++ [TWord ew]) x) = Some (S, c) /\ (c = CDone (ev x) \/ exists ts, c = CToks ts 0 /\ ev x = IExpr ts).
  Proof. apply done_val, prop_parse; assumption. Qed.
  Lemma enum_local (l : list crange) name head pre close : Forall cprop_ok l -> small (length l) -> wordy name -> name <> [] ->
    piece LStart head LStart (pre ++ (TWord name :: TPunct 61 :: (toks_of (lit "std::array<") ++ th ++ [TPunct 44]) ++ [TWord (numeral (length l)); TPunct 62]) ++ [TPunct 123]) ->
    piece LStart close LStart [TPunct 125; TPunct 59] ->
    local_array (head ++ flat_map (prop_line type enum) l ++ close) Assigned type name (map (fun r => ev (fst r)) l).
  Proof.
    intros Hl Hs Hw Hn H C. apply (tab_gen (prop_line type enum) (fun r => prop_toks th (te ++ [TWord ew]) (fst r)) (fun r => ev (fst r)) cprop_ok l head pre name type
      (toks_of (lit "std::array<") ++ th ++ [TPunct 44])).
    - intros x Hx. apply propline_piece; assumption.
    - intros x _ S. apply ev_parse.
    - intros x h. apply ev_head.
    - exact Hl.
    - exact Hs.
    - exact H.
    - exact Hw.
    - exact Hn.
    - exact enum_array.
    - exact C.
  Qed.
  Lemma enum_values (l : list prange) : Forall prop_ok l -> all_some (read_prop type enum) (map ev l) = Some l.
  Proof. intros H. apply prop_read; [exact enum_type|exact enum_enum|exact H]. Qed.
  Lemma enum_values_c (l : list crange) : Forall cprop_ok l -> all_some (read_prop type enum) (map (fun r => ev (fst r)) l) = Some (map fst l).
  Proof. intros H. rewrite <- (map_map fst ev). apply enum_values. apply Forall_map. eapply Forall_impl; [|exact H]. intros r [A _]. exact A. Qed.
End enum.
(** the head in front of a fold *)
Lemma fold_head name type n tt : wordy name -> name <> [] -> small n -> piece LStart (lit "std::array<" ++ type ++ lit ", ") LStart tt ->
  piece LStart (table_head [] name type n) LStart
    ([TWord (lit "auto"); TWord (lit "static"); TWord (lit "const")] ++ (TWord name :: TPunct 61 :: tt ++ [TWord (numeral n); TPunct 62]) ++ [TPunct 123]).
Proof. intros. apply head_piece; try assumption. apply piece_nil. Qed.

(** ** Planes *)
Definition pth : list tok := toks_of (lit "Prop<::unicode::Plane>").
Definition pte : list tok := [TWord (lit "unicode"); TPunct 58; TPunct 58].
Definition plane_range (p : N * N * N * str * str) : prange := let '(n, a, b, s, l) := p in (a, b, sanitize l).
Definition plane_short (p : N * N * N * str * str) : str := let '(n, a, b, s, l) := p in s.
Definition plane_ok (p : N * N * N * str * str) : Prop := prop_ok (plane_range p) /\ quiet (plane_short p).
Lemma plane_piece p : plane_ok p -> piece LStart (plane_line p) LStart (prop_toks pth (pte ++ [TWord (lit "Plane")]) (plane_range p) ++ [TPunct 44]).
Proof.
  destruct p as [[[[n a] b] s] l]. intros [(H1 & H2 & H3 & H4) Q]. unfold plane_range, r_first, r_last, r_prop, plane_short in *. cbn [fst snd] in *.
  assert (I : piece LStart (lit "        ") LStart []) by lits.
  assert (T : piece LStart (lit "Prop<::unicode::Plane>") LStart pth) by lits.
  assert (E : piece LStart (lit "unicode::Plane") (LWord (lit "Plane")) pte) by lits.
  assert (X : piece LStart (match s with [] => lit " // Plane " ++ fmt_d n ++ nl | _ => lit " // Plane " ++ fmt_d n ++ lit " " ++ s ++ nl end) LStart []).
  { destruct s; eapply piece_toks; first [pc|reflexivity]. }
  unfold plane_line.
  eapply piece_eq; [exact (piece_app _ _ _ _ _ _ _ (entry_piece _ _ _ _ _ _ (sanitize l) a b I T E H1 H2 H3 H4) X)|reflexivity|apply app_nil_r].
Qed.
Lemma planes_ok : Forall plane_ok planes_full.
Proof.
  unfold planes_full. cbn [map].
  repeat (apply Forall_cons; [split; [split; [reflexivity|split; [reflexivity|split; [discriminate|wlit]]]|split; [no10|vm_compute; discriminate]]|]). apply Forall_nil.
Qed.
Definition planes_text : str :=
  table_head (lit "    ") (lit "Plane") (lit "Prop<::unicode::Plane>") (length planes_full) ++ flat_map plane_line planes_full ++ lit "    }; // " ++ fold_close ++ nl.
Lemma planes_local : local_array planes_text Assigned (lit "Prop<::unicode::Plane>") (lit "Plane")
    (map (fun p => prop_val pth (pte ++ [TWord (lit "Plane")]) (plane_range p)) planes_full).
Proof.
  unfold planes_text.
  apply (tab_local plane_line (fun p => prop_toks pth (pte ++ [TWord (lit "Plane")]) (plane_range p)) (fun p => prop_val pth (pte ++ [TWord (lit "Plane")]) (plane_range p))
    plane_ok planes_full (lit "    ") (lit "Plane") (lit "Prop<::unicode::Plane>") (toks_of (lit "std::array<Prop<::unicode::Plane>, "))).
  - exact plane_piece.
  - intros x _ S. apply done_val, prop_parse; intros S'; reflexivity.
  - intros x h. discriminate.
  - exact planes_ok.
  - reflexivity.
  - lits.
  - wlit.
  - discriminate.
  - lits.
  - lits.
Qed.
Lemma planes_values : all_some (read_prop (lit "Prop<::unicode::Plane>") (lit "unicode::Plane")) (map (fun p => prop_val pth (pte ++ [TWord (lit "Plane")]) (plane_range p)) planes_full)
  = Some (map (fun r => (fst r, sanitize (snd r))) planes).
Proof.
  rewrite <- (map_map plane_range). rewrite prop_read; [reflexivity|reflexivity|reflexivity|]. apply Forall_map. eapply Forall_impl; [|exact planes_ok]. intros p [H _]. exact H.
Qed.

(** ** Mirroring *)
Lemma mirrored_local ivs : Forall pair_fits ivs -> small (length ivs) ->
  local_array (table_head [] (lit "Bidi_Mirrored") (lit "Interval") (length ivs) ++ flat_map mirrored_line ivs ++ close_fold) Assigned (lit "Interval") (lit "Bidi_Mirrored")
    (map (pair_val iv) ivs).
Proof.
  intros Hl Hs. apply (tab_local mirrored_line (pair_toks iv) (pair_val iv) pair_fits ivs [] (lit "Bidi_Mirrored") (lit "Interval") (toks_of (lit "std::array<Interval, "))).
  - exact mirrored_piece.
  - intros x _ S. apply done_val, pair_parse, iv_plain.
  - intros x h. discriminate.
  - exact Hl.
  - exact Hs.
  - apply piece_nil.
  - wlit.
  - discriminate.
  - lits.
  - exact close_piece.
Qed.
Lemma glyphs_local gs : Forall pair_fits gs -> small (length gs) ->
  local_array (table_head [] (lit "Bidi_Mirroring_Glyph") (lit "std::pair<char32_t, char32_t>") (length gs) ++ flat_map glyph_line gs ++ close_fold) Assigned
    (lit "std::pair<char32_t, char32_t>") (lit "Bidi_Mirroring_Glyph") (map (pair_val pp) gs).
Proof.
  intros Hl Hs. apply (tab_local glyph_line (pair_toks pp) (pair_val pp) pair_fits gs [] (lit "Bidi_Mirroring_Glyph") (lit "std::pair<char32_t, char32_t>")
    (toks_of (lit "std::array<std::pair<char32_t, char32_t>, "))).
  - exact glyph_piece.
  - intros x _ S. apply done_val, pair_parse, pp_plain.
  - intros x h. discriminate.
  - exact Hl.
  - exact Hs.
  - apply piece_nil.
  - wlit.
  - discriminate.
  - lits.
  - exact close_piece.
Qed.
(** ** Blocks *)
Definition block_line (b : prange) : str :=
  prop_entry (lit "    ") (lit "Prop<::unicode::Block>") (lit "::unicode::Block") (sanitize (r_prop b)) (r_first b) (r_last b) ++ nl.
Definition san (r : prange) : prange := (fst r, sanitize (snd r)).
Definition bth : list tok := toks_of (lit "Prop<::unicode::Block>").
Definition bte : list tok := [TPunct 58; TPunct 58; TWord (lit "unicode"); TPunct 58; TPunct 58; TWord (lit "Block")].
Lemma block_piece r : prop_ok (san r) -> piece LStart (block_line r) LStart (prop_toks bth bte (san r) ++ [TPunct 44]).
Proof.
  destruct r as [[a b] n]. intros (H1 & H2 & H3 & H4). unfold block_line, san, r_first, r_last, r_prop in *. cbn [fst snd] in *.
  assert (I : piece LStart (lit "    ") LStart []) by lits.
  assert (T : piece LStart (lit "Prop<::unicode::Block>") LStart bth) by lits.
  assert (E : piece LStart (lit "::unicode::Block") (LWord (lit "Block")) [TPunct 58; TPunct 58; TWord (lit "unicode"); TPunct 58; TPunct 58]) by lits.
  assert (X : piece LStart nl LStart []) by lits.
  eapply piece_eq; [exact (piece_app _ _ _ _ _ _ _ (entry_piece _ _ _ _ _ _ (sanitize n) a b I T E H1 H2 H3 H4) X)|reflexivity|apply app_nil_r].
Qed.
Lemma blocks_local bs : Forall (fun r => prop_ok (san r)) bs -> small (length bs) ->
  local_array (table_head [] (lit "Block") (lit "Prop<::unicode::Block>") (length bs) ++ flat_map block_line bs ++ lit "};" ++ nl) Assigned
    (lit "Prop<::unicode::Block>") (lit "Block") (map (fun r => prop_val bth bte (san r)) bs).
Proof.
  intros Hl Hs. apply (tab_local block_line (fun r => prop_toks bth bte (san r)) (fun r => prop_val bth bte (san r)) (fun r => prop_ok (san r)) bs [] (lit "Block")
    (lit "Prop<::unicode::Block>") (toks_of (lit "std::array<Prop<::unicode::Block>, "))).
  - exact block_piece.
  - intros x _ S. apply done_val, prop_parse; intros S'; reflexivity.
  - intros x h. discriminate.
  - exact Hl.
  - exact Hs.
  - apply piece_nil.
  - wlit.
  - discriminate.
  - lits.
  - lits.
Qed.
Lemma blocks_values bs : Forall (fun r => prop_ok (san r)) bs ->
  all_some (read_prop (lit "Prop<::unicode::Block>") (lit "::unicode::Block")) (map (fun r => prop_val bth bte (san r)) bs) = Some (map san bs).
Proof. intros H. rewrite <- (map_map san (prop_val bth bte)). apply prop_read; [reflexivity|reflexivity|]. apply Forall_map, H. Qed.
