(** C131: the compiler reads in ucd.cpp the tables and functions the generator computed. *)
From Coq Require Import String Lia.
From Verif Require Import Base M_TableGen M_PropGen M_UcdApi Spec_Cpp Spec_Emit Spec_EmitUcd M_Emit M_EmitUcd P_TableGen P_Emit P_Emit2 P_Emit3 P_Emit4 P_Emit5 P_EmitUcd P_EmitUcd2 P_EmitUcd3
  P_EmitUcd4 T_Emit.
Open Scope N_scope.

(** the tables of the API (the arguments of api_plane, api_core_contains, ... of M_UcdApi) *)
Definition ranges_of (e : str * list crange) : str * list (N * N) := (fst e, intervals (map fst (snd e))).
Definition api_of (al : list (str * str)) (u : ucd_src) : api_tables :=
  mkApi (map ranges_of (u_core u)) (map fst (u_gcs u)) (map ranges_of (u_cats u)) (map fst (u_scripts u))
    (map (fun r => (fst (fst r), sce_key (snd (fst r)))) (u_sces u)) (sce_arrays al (map fst (u_sces u)))
    (map (fun r => (fst r, sanitize (snd r))) (u_blocks u)) (map (fun e => (fst e, map fst (snd e))) (u_breaks u))
    (map (fun r => (fst r, width_name (snd r))) (merge_ranges None (map fst (u_widths u)))) (map ranges_of (u_emoji u)) (u_mirrored u) (u_glyphs u)
    (option_map (filter (fun e => negb (str_eqb (snd e) (lit "Unassigned")))) (smap_get (lit "Age") (u_pva u))).
(** the data: see the end of Spec_EmitUcd; [com] is what is asked of a comment *)
Definition no_end (c : str) : Prop := last c 0 <> 92.
Definition map_fits (com : str -> Prop) (e : str * list crange) : Prop :=
  identifier (fst e) /\ few (snd e) /\ Forall (fun r => fits (c_first r) (c_last r) /\ com (snd r)) (snd e).
Definition src_fits (com : str -> Prop) (u : ucd_src) : Prop :=
  Forall (map_fits com) (u_core u) /\ Forall (map_fits com) (u_cats u) /\ Forall (map_fits com) (u_emoji u) /\
  (few (u_gcs u) /\ Forall (fun r => range_fits (fst r) /\ com (snd r)) (u_gcs u)) /\
  (few (u_scripts u) /\ Forall (fun r => range_fits (fst r) /\ com (snd r)) (u_scripts u)) /\
  (few (u_sces u) /\ Forall (fun r => fits (fst (fst (fst r))) (snd (fst (fst r))) /\ few (snd (fst r)) /\ Forall identifier (snd (fst r)) /\ com (snd r)) (u_sces u)) /\
  (forall al, smap_get (lit "Script") (u_pva u) = Some al -> Forall (fun e => identifier (snd e)) al) /\
  (few (u_blocks u) /\ Forall (fun r => fits (r_first r) (r_last r) /\ identifier (sanitize (r_prop r))) (u_blocks u)) /\
  Forall (fun e => identifier (fst e) /\ few (snd e) /\ Forall (fun r => range_fits (fst r) /\ com (snd r)) (snd e)) (u_breaks u) /\
  (few (u_widths u) /\ Forall (fun r => fits (c_first r) (c_last r) /\ com (snd r)) (u_widths u)) /\
  (few (u_mirrored u) /\ Forall (fun e => fits (fst e) (snd e)) (u_mirrored u)) /\ (few (u_glyphs u) /\ Forall (fun e => fits (fst e) (snd e)) (u_glyphs u)) /\
  (forall al, smap_get (lit "Age") (u_pva u) = Some al ->
     few al /\ Forall (fun e => Forall (fun c => c <> 34 /\ c <> 10 /\ c <> 92) (fst e) /\ identifier (snd e)) al).
(** C131, the property: whatever the data, as long as numbers fit, names are identifiers and comments are one line. *)
Definition C131_statement : Prop :=
  forall u al file, smap_get (lit "Script") (u_pva u) = Some al -> ucd_cpp_text u = Some file -> src_fits one_line u -> ucd_cpp_denotes file (api_of al u).

(** ** The file as a list of parts *)
Definition ns : str := lit "namespace tables {" ++ nl.
Definition ns_end : str := lit "} // end namespace tables" ++ nl ++ nl.
Definition planes_intro : str := lit "namespace tables" ++ nl ++ lit "{" ++ nl ++ lit "    // clang-format off" ++ nl.
Definition planes_end : str := lit "    // clang-format off" ++ nl ++ lit "} // namespace tables" ++ nl ++ nl.
Definition plane_fun : str :=
  lit "Plane plane(char32_t codepoint) noexcept {" ++ nl ++ lit "    return search(tables::Plane, codepoint).value_or(Plane::Unassigned);" ++ nl ++ lit "}" ++ nl ++ nl.
Definition core_fun (core : list (str * list crange)) : str :=
  lit "bool contains(Core_Property prop, char32_t codepoint) noexcept {" ++ nl ++ lit "    switch (prop)" ++ nl ++ lit "    {" ++ nl
  ++ flat_map core_case core ++ lit "    }" ++ nl ++ lit "    return false;" ++ nl ++ lit "}" ++ nl ++ nl.
Definition gc_head (n : nat) : str :=
  lit "auto const General_Category = std::array<Prop<::unicode::General_Category>, " ++ fmt_d (N.of_nat n) ++ lit ">{" ++ nl.
Definition gc_table (gcs : list crange) : str :=
  gc_head (length gcs) ++ flat_map (prop_line (lit "Prop<::unicode::General_Category>") (lit "::unicode::General_Category")) gcs ++ lit "};" ++ nl.
Definition gc_open : str := lit "namespace general_category" ++ nl ++ lit "{" ++ nl.
Definition gc_fun : str :=
  lit "    General_Category get(char32_t value) noexcept {" ++ nl
  ++ lit "        return search(tables::General_Category, value).value_or(General_Category::Unspecified);" ++ nl ++ lit "    }" ++ nl.
Definition gc_close : str := lit "}" ++ nl ++ nl.
Definition cats_fun (cats : list (str * list crange)) : str :=
  lit "bool contains(General_Category generalCategory, char32_t codepoint) noexcept {" ++ nl ++ lit "    switch (generalCategory)" ++ nl ++ lit "    {" ++ nl
  ++ flat_map gc_case cats ++ lit "        case General_Category::Unspecified: return false;" ++ nl ++ lit "    }" ++ nl ++ lit "    return false;" ++ nl ++ lit "}" ++ nl ++ nl.
Definition script_table (scripts : list crange) : str :=
  table_head [] (lit "Script") (lit "Prop<unicode::Script>") (length scripts) ++ flat_map (prop_line (lit "Prop<unicode::Script>") (lit "unicode::Script")) scripts ++ close_fold.
Definition script_fun : str :=
  lit "Script script(char32_t codepoint) noexcept {" ++ nl ++ lit "    return search(tables::Script, codepoint).value_or(Script::Unknown);" ++ nl ++ lit "}" ++ nl ++ nl.
Definition sce_open : str := lit "namespace tables { // " ++ fold_open ++ lit " ScriptExtensions" ++ nl.
Definition sce_close : str := lit "} // " ++ fold_close ++ nl ++ nl.
Definition sce_fun_text : str :=
  lit "std::optional<std::span<Script const>> script_extensions(char32_t codepoint) noexcept {" ++ nl
  ++ lit "    auto const p = search(tables::sce, codepoint);" ++ nl ++ lit "    if (!p.has_value())" ++ nl ++ lit "        return std::nullopt;" ++ nl
  ++ lit "    return std::span<Script const>{ p->first, p->second };" ++ nl ++ lit "}" ++ nl ++ nl.
Definition blocks_table (bs : list prange) : str :=
  table_head [] (lit "Block") (lit "Prop<::unicode::Block>") (length bs) ++ flat_map block_line bs ++ lit "};" ++ nl.
Definition blocks_end : str := lit "} // end namespace tables {}" ++ nl ++ nl.
Definition block_fun : str :=
  lit "Block block(char32_t codepoint) noexcept {" ++ nl ++ lit "    return search(tables::Block, codepoint).value_or(::unicode::Block::Unspecified);" ++ nl ++ lit "}" ++ nl ++ nl.
Definition widths_table (l : list merged) : str :=
  table_head [] (lit "EastAsianWidth") (lit "Prop<::unicode::EastAsianWidth>") (length l) ++ flat_map eaw_line l ++ close_fold.
Definition width_fun : str :=
  lit "EastAsianWidth east_asian_width(char32_t codepoint) noexcept {" ++ nl
  ++ lit "    return search(tables::EastAsianWidth, codepoint).value_or(EastAsianWidth::Unspecified);" ++ nl ++ lit "}" ++ nl ++ nl.
Definition mirrored_table (ivs : list (N * N)) : str :=
  table_head [] (lit "Bidi_Mirrored") (lit "Interval") (length ivs) ++ flat_map mirrored_line ivs ++ close_fold.
Definition glyph_table (gs : list (N * N)) : str :=
  table_head [] (lit "Bidi_Mirroring_Glyph") (lit "std::pair<char32_t, char32_t>") (length gs) ++ flat_map glyph_line gs ++ close_fold.
Definition mirrored_fun : str :=
  lit "bool is_mirrored(char32_t codepoint) noexcept {" ++ nl ++ lit "    return contains(tables::Bidi_Mirrored, codepoint);" ++ nl ++ lit "}" ++ nl ++ nl.
Definition glyph_fun_text : str :=
  lit "char32_t bidi_mirroring_glyph(char32_t codepoint) noexcept {" ++ nl ++ lit "    auto const it = std::lower_bound(" ++ nl
  ++ lit "        tables::Bidi_Mirroring_Glyph.begin()," ++ nl ++ lit "        tables::Bidi_Mirroring_Glyph.end()," ++ nl ++ lit "        codepoint," ++ nl
  ++ lit "        [](auto const& pair, char32_t cp) { return pair.first < cp; });" ++ nl
  ++ lit "    if (it != tables::Bidi_Mirroring_Glyph.end() && it->first == codepoint)" ++ nl ++ lit "        return it->second;" ++ nl
  ++ lit "    return codepoint;" ++ nl ++ lit "}" ++ nl ++ nl.
Definition age_open : str :=
  lit "std::optional<Age> make_age(std::string_view value) noexcept {" ++ nl ++ lit "    using namespace std::string_view_literals;" ++ nl
  ++ lit "    // clang-format off" ++ nl.
Definition age_table (l : list (str * str)) : str := age_head (length l) ++ flat_map age_line l ++ lit "    };" ++ nl.
Definition age_close : str :=
  lit "    // clang-format on" ++ nl
  ++ lit "    for (auto const& [key, val] : mappings)" ++ nl ++ lit "        if (key == value)" ++ nl ++ lit "            return val;" ++ nl
  ++ lit "    return std::nullopt;" ++ nl ++ lit "}" ++ nl ++ nl.
Definition parts (al : list (str * str)) (u : ucd_src) : list str :=
  [impl_header; planes_intro; planes_text; planes_end; plane_fun; ns] ++ map interval_table (u_core u) ++ [ns_end; core_fun (u_core u)]
  ++ [ns; gc_table (u_gcs u); ns_end; gc_open; gc_fun; gc_close; ns] ++ map interval_table (u_cats u) ++ [ns_end; cats_fun (u_cats u)]
  ++ [ns; script_table (u_scripts u); ns_end; script_fun; sce_open] ++ map sce_array (sce_arrays al (map fst (u_sces u)))
  ++ [sce_main (u_sces u); sce_close; sce_fun_text; ns; blocks_table (u_blocks u); blocks_end; block_fun; ns] ++ map break_table (u_breaks u)
  ++ [ns_end] ++ map break_function (u_breaks u) ++ [nl; ns; widths_table (merge_all None (u_widths u)); ns_end; width_fun; ns] ++ map interval_table (u_emoji u)
  ++ [ns_end] ++ map emoji_function (u_emoji u) ++ [ns; mirrored_table (u_mirrored u); glyph_table (u_glyphs u); ns_end; mirrored_fun; glyph_fun_text]
  ++ (match smap_get (lit "Age") (u_pva u) with Some a => [age_open; age_table (age_entries a); age_close] | None => [] end)
  ++ [lit "} // namespace unicode" ++ nl].
Ltac sec := rewrite <- ?app_assoc; reflexivity.
Lemma planes_eq : emit_planes = planes_intro ++ planes_text ++ planes_end ++ plane_fun.
Proof. unfold emit_planes, planes_intro, planes_text, planes_end, plane_fun. sec. Qed.
Lemma core_eq c : emit_core c = ns ++ flat_map interval_table c ++ ns_end ++ core_fun c.
Proof. unfold emit_core, ns, ns_end, core_fun. sec. Qed.
Lemma gcs_eq l : emit_gcs l = ns ++ gc_table l ++ ns_end ++ gc_open ++ gc_fun ++ gc_close.
Proof. unfold emit_gcs, ns, ns_end, gc_table, gc_head, gc_open, gc_fun, gc_close. sec. Qed.
Lemma cats_eq c : emit_cats c = ns ++ flat_map interval_table c ++ ns_end ++ cats_fun c.
Proof. unfold emit_cats, ns, ns_end, cats_fun. sec. Qed.
Lemma scripts_eq l : emit_scripts l = ns ++ script_table l ++ ns_end ++ script_fun.
Proof. unfold emit_scripts, ns, ns_end, script_table, close_fold, script_fun. sec. Qed.
Lemma sces_eq al l : emit_sces al l = sce_open ++ flat_map sce_array (sce_arrays al (map fst l)) ++ sce_main l ++ sce_close ++ sce_fun_text.
Proof. unfold emit_sces, sce_open, sce_main, sce_close, sce_fun_text. sec. Qed.
Lemma blocks_eq l : emit_blocks l = ns ++ blocks_table l ++ blocks_end ++ block_fun.
Proof. unfold emit_blocks, ns, blocks_table, blocks_end, block_fun, block_line. sec. Qed.
Lemma breaks_eq l : emit_breaks l = ns ++ flat_map break_table l ++ ns_end ++ flat_map break_function l ++ nl.
Proof. unfold emit_breaks, ns, ns_end. sec. Qed.
Lemma widths_eq l : emit_widths l = ns ++ widths_table (merge_all None l) ++ ns_end ++ width_fun.
Proof. unfold emit_widths, ns, ns_end, widths_table, close_fold, width_fun. sec. Qed.
Lemma emoji_eq l : emit_emoji l = ns ++ flat_map interval_table l ++ ns_end ++ flat_map emoji_function l.
Proof. unfold emit_emoji, ns, ns_end. sec. Qed.
Lemma bidi_eq a b : emit_bidi a b = ns ++ mirrored_table a ++ glyph_table b ++ ns_end ++ mirrored_fun ++ glyph_fun_text.
Proof. unfold emit_bidi, ns, ns_end, mirrored_table, glyph_table, close_fold, mirrored_fun, glyph_fun_text. sec. Qed.
Lemma age_eq l : emit_age l = age_open ++ age_table (age_entries l) ++ age_close.
Proof. unfold emit_age, age_open, age_table, age_head, age_close. sec. Qed.
Lemma parts_eq u al : smap_get (lit "Script") (u_pva u) = Some al -> ucd_cpp_text u = Some (concat (parts al u)).
Proof.
  intros H. unfold ucd_cpp_text. rewrite H. f_equal. unfold parts.
  rewrite planes_eq, core_eq, gcs_eq, cats_eq, scripts_eq, sces_eq, blocks_eq, breaks_eq, widths_eq, emoji_eq, bidi_eq.
  destruct (smap_get (lit "Age") (u_pva u)) as [a|]; [rewrite age_eq|]; rewrite !concat_app; cbn [concat]; rewrite <- !flat_map_concat_map, ?app_nil_r; rewrite <- ?app_assoc;
    cbn [app]; reflexivity.
Qed.

(** ** The functions *)
Lemma ftext s t ts : piece LStart s LStart ts -> piece LStart t LStart ts -> holds_text s t. Proof. exact (holds_self s t ts). Qed.
Lemma plane_fun_text : holds_text plane_fun (fun_text (lit "Plane") (lit "plane") (search_text (lit "Plane") (lit "Plane::Unassigned"))).
Proof. eapply ftext; lits. Qed.
Lemma gc_fun_text : holds_text gc_fun (lit "General_Category get(char32_t value) noexcept { return search(tables::General_Category, value).value_or(General_Category::Unspecified); }").
Proof. eapply ftext; lits. Qed.
Lemma script_fun_text : holds_text script_fun (fun_text (lit "Script") (lit "script") (search_text (lit "Script") (lit "Script::Unknown"))).
Proof. eapply ftext; lits. Qed.
Lemma sce_fun_ok : holds_text sce_fun_text sce_fun. Proof. eapply ftext; lits. Qed.
Lemma block_fun_text : holds_text block_fun (fun_text (lit "Block") (lit "block") (search_text (lit "Block") (lit "::unicode::Block::Unspecified"))).
Proof. eapply ftext; lits. Qed.
Lemma width_fun_text : holds_text width_fun (fun_text (lit "EastAsianWidth") (lit "east_asian_width") (search_text (lit "EastAsianWidth") (lit "EastAsianWidth::Unspecified"))).
Proof. eapply ftext; lits. Qed.
Lemma mirrored_fun_text : holds_text mirrored_fun (fun_text (lit "bool") (lit "is_mirrored") (contains_call (lit "Bidi_Mirrored"))).
Proof. eapply ftext; lits. Qed.
Lemma glyph_fun_ok : holds_text glyph_fun_text glyph_fun. Proof. eapply ftext; lits. Qed.
Lemma age_intro_ok : holds_text age_open age_intro. Proof. eapply ftext; lits. Qed.
Lemma age_fun_ok : holds_text age_close age_fun. Proof. eapply ftext; lits. Qed.
Definition named (e : str * list crange) : Prop := wordy (fst e) /\ fst e <> [].
Lemma break_fun_text e : named e -> holds_text (break_function e) (fun_text (fst e) (map down (fst e)) (search_text (fst e) (fst e ++ lit "::Undefined"))).
Proof.
  intros [Hw Hn]. rewrite <- lower_down. pose proof (lower_wordy _ Hw) as Lw. pose proof (lower_ne _ Hn) as Ln.
  unfold break_function, fun_text, search_text. eapply ftext; [pc|]. eapply piece_toks; [pc|reflexivity].
Qed.
Lemma emoji_fun_text e : named e -> holds_text (emoji_function e) (fun_text (lit "bool") (lit "is_" ++ map down (fst e)) (contains_call (fst e))).
Proof.
  intros [Hw Hn]. rewrite <- lower_down. pose proof (lower_wordy _ Hw) as Lw. pose proof (lower_ne _ Hn) as Ln.
  unfold emoji_function, fun_text, contains_call. change (lit "bool is_") with (lit "bool " ++ lit "is_").
  eapply ftext; [pc|]. eapply piece_toks; [pc|reflexivity].
Qed.
Definition call_toks (type name : str) : list tok :=
  [TWord (lit "case"); TWord type; TPunct 58; TPunct 58; TWord name; TPunct 58; TWord (lit "return"); TWord (lit "contains"); TPunct 40; TWord (lit "tables"); TPunct 58; TPunct 58; TWord name;
   TPunct 44; TWord (lit "codepoint"); TPunct 41; TPunct 59].
Lemma flat_map_map {A B C} (f : A -> B) (g : B -> list C) l : flat_map g (map f l) = flat_map (fun x => g (f x)) l.
Proof. induction l as [|x r IH]; [reflexivity|]. cbn. rewrite IH. reflexivity. Qed.
Lemma core_fun_text core : Forall named core -> holds_text (core_fun core) (switch_text (lit "Core_Property") (lit "prop") (map fst core) []).
Proof.
  intros H. unfold core_fun, switch_text. rewrite flat_map_map.
  destruct (flat_pieces core_case (fun e => lit "case " ++ lit "Core_Property" ++ lit "::" ++ fst e ++ lit ": return " ++ contains_call (fst e) ++ lit "; ")
    (fun e => call_toks (lit "Core_Property") (fst e)) core) as [A B].
  { intros e He. rewrite Forall_forall in H. destruct (H e He) as [Hw Hn]. unfold core_case, contains_call. split; eapply piece_toks; first [pc|reflexivity]. }
  assert (C : piece LStart (lit "bool contains(Core_Property prop, char32_t codepoint) noexcept {" ++ nl ++ lit "    switch (prop)" ++ nl ++ lit "    {" ++ nl) LStart
     (toks_of (lit "bool contains(Core_Property prop, char32_t codepoint) noexcept { switch (prop) { "))) by lits.
  assert (D : piece LStart (lit "    }" ++ nl ++ lit "    return false;" ++ nl ++ lit "}" ++ nl ++ nl) LStart (toks_of (lit " } return false; }"))) by lits.
  assert (C' : piece LStart (lit "bool contains(" ++ lit "Core_Property" ++ lit " " ++ lit "prop" ++ lit ", char32_t codepoint) noexcept { switch (" ++ lit "prop" ++ lit ") { ") LStart
     (toks_of (lit "bool contains(Core_Property prop, char32_t codepoint) noexcept { switch (prop) { "))) by lits.
  assert (D' : piece LStart ([] ++ lit " } return false; }") LStart (toks_of (lit " } return false; }"))) by lits.
  eapply ftext.
  - eapply piece_eq; [exact (piece_app _ _ _ _ _ _ _ C (piece_app _ _ _ _ _ _ _ A D))|rewrite <- ?app_assoc; reflexivity|reflexivity].
  - eapply piece_eq; [exact (piece_app _ _ _ _ _ _ _ C' (piece_app _ _ _ _ _ _ _ B D'))|rewrite <- ?app_assoc; reflexivity|reflexivity].
Qed.
Lemma cats_fun_text cats : Forall named cats ->
  holds_text (cats_fun cats) (switch_text (lit "General_Category") (lit "generalCategory") (map fst cats) (lit "case General_Category::Unspecified: return false;")).
Proof.
  intros H. unfold cats_fun, switch_text. rewrite flat_map_map.
  destruct (flat_pieces gc_case (fun e => lit "case " ++ lit "General_Category" ++ lit "::" ++ fst e ++ lit ": return " ++ contains_call (fst e) ++ lit "; ")
    (fun e => call_toks (lit "General_Category") (fst e)) cats) as [A B].
  { intros e He. rewrite Forall_forall in H. destruct (H e He) as [Hw Hn]. unfold gc_case, contains_call. split; eapply piece_toks; first [pc|reflexivity]. }
  assert (C : piece LStart (lit "bool contains(General_Category generalCategory, char32_t codepoint) noexcept {" ++ nl ++ lit "    switch (generalCategory)" ++ nl ++ lit "    {" ++ nl) LStart
     (toks_of (lit "bool contains(General_Category generalCategory, char32_t codepoint) noexcept { switch (generalCategory) { "))) by lits.
  assert (D : piece LStart (lit "        case General_Category::Unspecified: return false;" ++ nl ++ lit "    }" ++ nl ++ lit "    return false;" ++ nl ++ lit "}" ++ nl ++ nl) LStart
     (toks_of (lit "case General_Category::Unspecified: return false; } return false; }"))) by lits.
  assert (C' : piece LStart (lit "bool contains(" ++ lit "General_Category" ++ lit " " ++ lit "generalCategory" ++ lit ", char32_t codepoint) noexcept { switch (" ++ lit "generalCategory" ++ lit ") { ") LStart
     (toks_of (lit "bool contains(General_Category generalCategory, char32_t codepoint) noexcept { switch (generalCategory) { "))) by lits.
  assert (D' : piece LStart (lit "case General_Category::Unspecified: return false;" ++ lit " } return false; }") LStart
     (toks_of (lit "case General_Category::Unspecified: return false; } return false; }"))) by lits.
  eapply ftext.
  - eapply piece_eq; [exact (piece_app _ _ _ _ _ _ _ C (piece_app _ _ _ _ _ _ _ A D))|rewrite <- ?app_assoc; reflexivity|reflexivity].
  - eapply piece_eq; [exact (piece_app _ _ _ _ _ _ _ C' (piece_app _ _ _ _ _ _ _ B D'))|rewrite <- ?app_assoc; reflexivity|reflexivity].
Qed.

(** ** The hypotheses, in the form the tables need them *)
Definition calm (c : str) : Prop := one_line c /\ no_end c.
Lemma map_fits_ok l : Forall (map_fits calm) l -> Forall ivs_ok l /\ Forall named l.
Proof.
  intros H. split; (eapply Forall_impl; [|exact H]); intros e ((Hn & Hw) & Hs & Hl); [|split; assumption].
  split; [exact Hw|]. split; [exact Hn|]. split; [exact Hs|exact Hl].
Qed.
Lemma range_fits_ok l : Forall (fun r : crange => range_fits (fst r) /\ calm (snd r)) l -> Forall cprop_ok l.
Proof. intros H. eapply Forall_impl; [|exact H]. intros r [((A & B) & (Cn & Cw)) D]. split; [repeat split; assumption|exact D]. Qed.
Lemma gc_local gcs : Forall cprop_ok gcs -> small (length gcs) ->
  local_array (gc_table gcs) Assigned (lit "Prop<::unicode::General_Category>") (lit "General_Category")
    (map (fun r => ev (toks_of (lit "Prop<::unicode::General_Category>")) brk_te (lit "General_Category") (fst r)) gcs).
Proof.
  intros Hl Hs. unfold gc_table.
  apply (enum_local (lit "Prop<::unicode::General_Category>") (lit "::unicode::General_Category") (toks_of (lit "Prop<::unicode::General_Category>")) brk_te (lit "General_Category")
    ltac:(lits) ltac:(lits) ltac:(intros S; reflexivity) ltac:(intros S; reflexivity) ltac:(discriminate) gcs (lit "General_Category") _ [TWord (lit "auto"); TWord (lit "const")]).
  - exact Hl.
  - exact Hs.
  - wlit.
  - discriminate.
  - unfold gc_head. destruct (size_wordy _ Hs) as [Zw Zn]. eapply piece_toks; [pc|]. rewrite (fmt_numeral _ Hs). reflexivity.
  - lits.
Qed.
Lemma gc_values gcs : Forall cprop_ok gcs -> all_some (read_prop (lit "Prop<::unicode::General_Category>") (lit "::unicode::General_Category"))
    (map (fun r => ev (toks_of (lit "Prop<::unicode::General_Category>")) brk_te (lit "General_Category") (fst r)) gcs) = Some (map fst gcs).
Proof. intros H. eapply enum_values_c; [lits|lits|exact H]. Qed.
Lemma script_local l : Forall cprop_ok l -> small (length l) ->
  local_array (script_table l) Assigned (lit "Prop<unicode::Script>") (lit "Script")
    (map (fun r => ev (toks_of (lit "Prop<unicode::Script>")) pte (lit "Script") (fst r)) l).
Proof.
  intros Hl Hs. unfold script_table.
  apply (enum_local (lit "Prop<unicode::Script>") (lit "unicode::Script") (toks_of (lit "Prop<unicode::Script>")) pte (lit "Script")
    ltac:(lits) ltac:(lits) ltac:(intros S; reflexivity) ltac:(intros S; reflexivity) ltac:(discriminate) l (lit "Script") _ [TWord (lit "auto"); TWord (lit "static"); TWord (lit "const")]).
  - exact Hl.
  - exact Hs.
  - wlit.
  - discriminate.
  - apply fold_head; [wlit|discriminate|exact Hs|apply enum_array; lits].
  - exact close_piece.
Qed.
Lemma script_values l : Forall cprop_ok l -> all_some (read_prop (lit "Prop<unicode::Script>") (lit "unicode::Script"))
    (map (fun r => ev (toks_of (lit "Prop<unicode::Script>")) pte (lit "Script") (fst r)) l) = Some (map fst l).
Proof. intros H. eapply enum_values_c; [lits|lits|exact H]. Qed.
Lemma sce_names_ok al props : Forall (fun e : str * str => identifier (snd e)) al -> Forall identifier props -> Forall identifier (sce_names al props).
Proof.
  intros Ha Hp. unfold sce_names. apply Forall_map. eapply Forall_impl; [|exact Hp]. intros s Hs. cbv beta.
  assert (X : forall v, smap_get s al = Some v -> identifier v).
  { clear Hp. induction Ha as [|[k x] r Hx Hr IH]; cbn; [discriminate|]. intros v. destruct (str_eqb s k); [|apply IH]. intros E. injection E as <-. exact Hx. }
  destruct (smap_get s al) as [v|]; [apply X; reflexivity|exact Hs].
Qed.
Lemma arrays_ok al sces : Forall (fun e : str * str => identifier (snd e)) al ->
  Forall (fun r : csce => fits (fst (fst (fst r))) (snd (fst (fst r))) /\ few (snd (fst r)) /\ Forall identifier (snd (fst r)) /\ calm (snd r)) sces ->
  Forall arr_ok (sce_arrays al (map fst sces)).
Proof.
  intros Ha Hs. apply Forall_forall. intros e He. unfold sce_arrays in He. apply sce_arrays_in in He. destruct He as [[]|(r & Hr & ->)].
  apply in_map_iff in Hr. destruct Hr as (c & <- & Hc). rewrite Forall_forall in Hs. destruct (Hs c Hc) as (_ & F & I & _).
  destruct (key_wordy (snd (fst c))) as [Kw Kn]. { eapply Forall_impl; [|exact I]. intros s [_ A]. exact A. }
  split; [exact Kw|]. split; [exact Kn|]. cbn [snd]. split.
  - unfold sce_names, small. rewrite map_length. exact F.
  - eapply Forall_impl; [|exact (sce_names_ok al _ Ha I)]. intros s [A B]. split; assumption.
Qed.
Lemma sces_ok sces :
  Forall (fun r : csce => fits (fst (fst (fst r))) (snd (fst (fst r))) /\ few (snd (fst r)) /\ Forall identifier (snd (fst r)) /\ calm (snd r)) sces -> Forall sce_ok sces.
Proof.
  intros H. eapply Forall_impl; [|exact H]. intros r (A & _ & I & Q). split; [exact A|]. split; [|exact Q]. eapply Forall_impl; [|exact I]. intros s [_ B]. exact B.
Qed.
Lemma merge_all_length l : forall cur, (length (merge_all cur l) <= length l + match cur with Some _ => 1 | None => 0 end)%nat.
Proof.
  induction l as [|r l IH]; intros cur; [destruct cur; cbn; lia|]. cbn [merge_all length]. destruct cur as [[[[a b] v] cs n]|].
  - destruct (((b + 1) mod 2 ^ 32 =? c_first r) && str_eqb v (c_prop r)).
    + pose proof (IH (Some (mkM (a, c_last r, v) (join_comments a b cs r) (n + 1)))) as H; cbv beta iota in H; lia.
    + cbn [length]. pose proof (IH (Some (mkM (fst r) [snd r] 1))) as H; cbv beta iota in H; lia.
  - pose proof (IH (Some (mkM (fst r) [snd r] 1))) as H; cbv beta iota in H; lia.
Qed.
Lemma few_le {A B} (a : list A) (b : list B) : (length a <= length b)%nat -> few b -> few a. Proof. unfold few. intros H X. eapply N.le_lt_trans; [|exact X]. lia. Qed.
Lemma sound_map {A} (f : A -> str) l : Forall (fun x => sound (f x)) l -> Forall sound (map f l). Proof. apply Forall_map. Qed.

Lemma filter_len {A} (f : A -> bool) l : (length (filter f l) <= length l)%nat.
Proof. induction l as [|x r IH]; [cbn; lia|]. cbn [filter length]. destruct (f x); cbn [length]; lia. Qed.
Definition ready (al : list (str * str)) (u : ucd_src) : Prop :=
  (Forall ivs_ok (u_core u) /\ Forall named (u_core u)) /\ (Forall ivs_ok (u_cats u) /\ Forall named (u_cats u)) /\ (Forall ivs_ok (u_emoji u) /\ Forall named (u_emoji u)) /\
  (Forall cprop_ok (u_gcs u) /\ small (length (u_gcs u))) /\ (Forall cprop_ok (u_scripts u) /\ small (length (u_scripts u))) /\
  (Forall sce_ok (u_sces u) /\ small (length (u_sces u))) /\ Forall arr_ok (sce_arrays al (map fst (u_sces u))) /\
  (Forall (fun r => prop_ok (san r)) (u_blocks u) /\ small (length (u_blocks u))) /\ (Forall brk_ok (u_breaks u) /\ Forall named (u_breaks u)) /\
  (Forall merged_ok (merge_all None (u_widths u)) /\ small (length (merge_all None (u_widths u)))) /\
  (Forall pair_fits (u_mirrored u) /\ small (length (u_mirrored u))) /\ (Forall pair_fits (u_glyphs u) /\ small (length (u_glyphs u))) /\
  (forall l, smap_get (lit "Age") (u_pva u) = Some l -> Forall age_ok (age_entries l) /\ small (length (age_entries l))).
Lemma fits_ready u al : smap_get (lit "Script") (u_pva u) = Some al -> src_fits calm u -> ready al u.
Proof.
  intros Hal (F1 & F2 & F3 & (G1 & G2) & (S1 & S2) & (E1 & E2) & A1 & (B1 & B2) & K & (W1 & W2) & (M1 & M2) & (L1 & L2) & Y). unfold ready.
  refine (conj (map_fits_ok _ F1) (conj (map_fits_ok _ F2) (conj (map_fits_ok _ F3) (conj (conj (range_fits_ok _ G2) G1) (conj (conj (range_fits_ok _ S2) S1)
    (conj (conj (sces_ok _ E2) E1) (conj (arrays_ok al _ (A1 al Hal) E2) (conj (conj _ B1) (conj (conj _ _) (conj (conj _ _) (conj (conj M2 M1) (conj (conj L2 L1) _)))))))))))).
  - eapply Forall_impl; [|exact B2]. intros r ((P1 & P2) & (P3 & P4)). repeat split; assumption.
  - eapply Forall_impl; [|exact K]. intros e ((P1 & P2) & P3 & P4). split; [exact P2|]. split; [exact P1|]. split; [exact P3|]. apply range_fits_ok, P4.
  - eapply Forall_impl; [|exact K]. intros e ((P1 & P2) & P3 & P4). split; assumption.
  - apply merge_all_ok; [exact W2|exact I].
  - apply (few_le _ (u_widths u)); [|exact W1]. pose proof (merge_all_length (u_widths u) None) as H. cbv beta iota in H. lia.
  - intros l El. destruct (Y l El) as [Y1 Y2]. split.
    + apply Forall_forall. intros e He. apply filter_In in He. destruct He as [He _]. rewrite Forall_forall in Y2. destruct (Y2 e He) as (P1 & P2 & P3). split; [exact P1|]. split; assumption.
    + apply (few_le _ l); [|exact Y1]. apply filter_len.
Qed.
Lemma blocks_loc bs : Forall (fun r => prop_ok (san r)) bs -> small (length bs) ->
  local_array (blocks_table bs) Assigned (lit "Prop<::unicode::Block>") (lit "Block") (map (fun r => prop_val bth bte (san r)) bs).
Proof. unfold blocks_table. exact (blocks_local bs). Qed.
Lemma widths_loc ms : Forall merged_ok ms -> small (length ms) ->
  local_array (widths_table ms) Assigned (lit "Prop<::unicode::EastAsianWidth>") (lit "EastAsianWidth") (map (fun m => prop_val wth wte (wrange m)) ms).
Proof. unfold widths_table. exact (widths_local ms). Qed.
Lemma mirrored_loc ivs : Forall pair_fits ivs -> small (length ivs) ->
  local_array (mirrored_table ivs) Assigned (lit "Interval") (lit "Bidi_Mirrored") (map (pair_val iv) ivs).
Proof. unfold mirrored_table. exact (mirrored_local ivs). Qed.
Lemma glyphs_loc gs : Forall pair_fits gs -> small (length gs) ->
  local_array (glyph_table gs) Assigned (lit "std::pair<char32_t, char32_t>") (lit "Bidi_Mirroring_Glyph") (map (pair_val pp) gs).
Proof. unfold glyph_table. exact (glyphs_local gs). Qed.
Lemma ages_loc l : Forall age_ok l -> small (length l) -> local_array (age_table l) Assigned (lit "std::pair<std::string_view, Age>") (lit "mappings") (map age_val l).
Proof. unfold age_table. exact (ages_local l). Qed.
Lemma Forall_app_2 {A} (P : A -> Prop) a b : Forall P a -> Forall P b -> Forall P (a ++ b).
Proof. intros H K. apply Forall_app. split; assumption. Qed.
(** every part reads as a whole number of tokens *)
Lemma planes_intro_s : sound planes_intro. Proof. eexists; lits. Qed.
Lemma planes_end_s : sound planes_end. Proof. eexists; lits. Qed.
Lemma plane_fun_s : sound plane_fun. Proof. eexists; lits. Qed.
Lemma ns_s : sound ns. Proof. eexists; lits. Qed.
Lemma ns_end_s : sound ns_end. Proof. eexists; lits. Qed.
Lemma gc_open_s : sound gc_open. Proof. eexists; lits. Qed.
Lemma gc_fun_s : sound gc_fun. Proof. eexists; lits. Qed.
Lemma gc_close_s : sound gc_close. Proof. eexists; lits. Qed.
Lemma script_fun_s : sound script_fun. Proof. eexists; lits. Qed.
Lemma sce_open_s : sound sce_open. Proof. eexists; lits. Qed.
Lemma sce_close_s : sound sce_close. Proof. eexists; lits. Qed.
Lemma sce_fun_text_s : sound sce_fun_text. Proof. eexists; lits. Qed.
Lemma blocks_end_s : sound blocks_end. Proof. eexists; lits. Qed.
Lemma block_fun_s : sound block_fun. Proof. eexists; lits. Qed.
Lemma nl_s : sound nl. Proof. eexists; lits. Qed.
Lemma width_fun_s : sound width_fun. Proof. eexists; lits. Qed.
Lemma mirrored_fun_s : sound mirrored_fun. Proof. eexists; lits. Qed.
Lemma glyph_fun_text_s : sound glyph_fun_text. Proof. eexists; lits. Qed.
Lemma age_open_s : sound age_open. Proof. eexists; lits. Qed.
Lemma age_close_s : sound age_close. Proof. eexists; lits. Qed.
Lemma impl_header_s : sound impl_header. Proof. eexists; lits. Qed.
Lemma last_s : sound (lit "} // namespace unicode" ++ nl). Proof. eexists; lits. Qed.
Ltac closed := match goal with
  | |- sound planes_intro => exact planes_intro_s
  | |- sound planes_end => exact planes_end_s
  | |- sound plane_fun => exact plane_fun_s
  | |- sound ns => exact ns_s
  | |- sound ns_end => exact ns_end_s
  | |- sound gc_open => exact gc_open_s
  | |- sound gc_fun => exact gc_fun_s
  | |- sound gc_close => exact gc_close_s
  | |- sound script_fun => exact script_fun_s
  | |- sound sce_open => exact sce_open_s
  | |- sound sce_close => exact sce_close_s
  | |- sound sce_fun_text => exact sce_fun_text_s
  | |- sound blocks_end => exact blocks_end_s
  | |- sound block_fun => exact block_fun_s
  | |- sound nl => exact nl_s
  | |- sound width_fun => exact width_fun_s
  | |- sound mirrored_fun => exact mirrored_fun_s
  | |- sound glyph_fun_text => exact glyph_fun_text_s
  | |- sound age_open => exact age_open_s
  | |- sound age_close => exact age_close_s
  | |- sound impl_header => exact impl_header_s
  | |- sound (lit _ ++ nl) => exact last_s end.
Lemma parts_sound u al : ready al u -> Forall sound (parts al u).
Proof.
  intros ((I1 & N1) & (I2 & N2) & (I3 & N3) & (G3 & G1) & (S3 & S1) & (E3 & E1) & R3 & (B3 & B1) & (K3 & K4) & (W3 & W4) & (M3 & M1) & (L3 & L1) & Y3).
  unfold parts. 
  repeat match goal with
    | |- Forall sound (_ ++ _) => apply Forall_app_2
    | |- Forall sound (_ :: _) => apply Forall_cons
    | |- Forall sound [] => apply Forall_nil
    | |- Forall sound (map _ _) => apply sound_map end.
  all: try closed.
  - eapply local_sound, planes_local.
  - eapply Forall_impl; [|exact I1]. intros e He. eapply local_sound, interval_local, He.
  - eapply holds_sound, core_fun_text, N1.
  - eapply local_sound, gc_local; assumption.
  - eapply Forall_impl; [|exact I2]. intros e He. eapply local_sound, interval_local, He.
  - eapply holds_sound, cats_fun_text, N2.
  - eapply local_sound, script_local; assumption.
  - eapply Forall_impl; [|exact R3]. intros e He. eapply local_sound, sce_array_local, He.
  - eapply local_sound, sce_local; assumption.
  - eapply local_sound, blocks_loc; assumption.
  - eapply Forall_impl; [|exact K3]. intros e He. eapply local_sound, break_local, He.
  - eapply Forall_impl; [|exact K4]. intros e He. eapply holds_sound, break_fun_text, He.
  - eapply local_sound, widths_loc; assumption.
  - eapply Forall_impl; [|exact I3]. intros e He. eapply local_sound, interval_local, He.
  - eapply Forall_impl; [|exact N3]. intros e He. eapply holds_sound, emoji_fun_text, He.
  - eapply local_sound, mirrored_loc; assumption.
  - eapply local_sound, glyphs_loc; assumption.
  - destruct (smap_get (lit "Age") (u_pva u)) as [l|]; [|apply Forall_nil]. destruct (Y3 l eq_refl) as [Y4 Y5].
    repeat apply Forall_cons; [closed|eapply local_sound, ages_loc; assumption|closed|apply Forall_nil].
Qed.

(** ** The property *)
Ltac memb :=
  match goal with
  | |- In ?x (?x :: _) => apply in_eq
  | |- In ?x (_ :: _) => apply in_cons; memb
  | |- In ?x (_ ++ _) => apply in_or_app; first [left; memb | right; memb]
  | |- In (?f ?e) (map ?f _) => apply in_map; assumption
  end.
Lemma mirrored_values l : Forall pair_fits l -> all_some (read_typed_pair (lit "Interval")) (map (pair_val iv) l) = Some l.
Proof. apply pair_read. reflexivity. Qed.
Lemma glyphs_values l : Forall pair_fits l -> all_some (read_typed_pair (lit "std::pair<char32_t, char32_t>")) (map (pair_val pp) l) = Some l.
Proof. apply pair_read. vm_compute. reflexivity. Qed.
Section ucd_file.
  Variables (u : ucd_src) (al : list (str * str)) (file : str).
  Hypothesis (Hr : ready al u) (Hf : file = concat (parts al u)).
  Let Hs : Forall sound (parts al u) := parts_sound u al Hr.
  Lemma u_table {A} s f type name vals (rd : init -> option A) l : In s (parts al u) -> local_array s f type name vals -> all_some rd vals = Some l ->
    has_table file f type name rd l.
  Proof. exact (file_table (parts al u) file Hs Hf s f type name vals rd l). Qed.
  Lemma u_text s t : In s (parts al u) -> holds_text s t -> contains_text file t.
  Proof. exact (file_text (parts al u) file Hs Hf s t). Qed.
  Lemma in_planes : In planes_text (parts al u). Proof. unfold parts; memb. Qed.
  Lemma in_plane_fun : In plane_fun (parts al u). Proof. unfold parts; memb. Qed.
  Lemma in_core_iv e : In e (u_core u) -> In (interval_table e) (parts al u). Proof. intros H. unfold parts; memb. Qed.
  Lemma in_core_fun : In (core_fun (u_core u)) (parts al u). Proof. unfold parts; memb. Qed.
  Lemma in_gc : In (gc_table (u_gcs u)) (parts al u). Proof. unfold parts; memb. Qed.
  Lemma in_gc_fun : In gc_fun (parts al u). Proof. unfold parts; memb. Qed.
  Lemma in_cats_iv e : In e (u_cats u) -> In (interval_table e) (parts al u). Proof. intros H. unfold parts; memb. Qed.
  Lemma in_cats_fun : In (cats_fun (u_cats u)) (parts al u). Proof. unfold parts; memb. Qed.
  Lemma in_script : In (script_table (u_scripts u)) (parts al u). Proof. unfold parts; memb. Qed.
  Lemma in_script_fun : In script_fun (parts al u). Proof. unfold parts; memb. Qed.
  Lemma in_arrays e : In e (sce_arrays al (map fst (u_sces u))) -> In (sce_array e) (parts al u). Proof. intros H. unfold parts; memb. Qed.
  Lemma in_sce : In (sce_main (u_sces u)) (parts al u). Proof. unfold parts; memb. Qed.
  Lemma in_sce_fun : In sce_fun_text (parts al u). Proof. unfold parts; memb. Qed.
  Lemma in_blocks : In (blocks_table (u_blocks u)) (parts al u). Proof. unfold parts; memb. Qed.
  Lemma in_block_fun : In block_fun (parts al u). Proof. unfold parts; memb. Qed.
  Lemma in_breaks e : In e (u_breaks u) -> In (break_table e) (parts al u). Proof. intros H. unfold parts; memb. Qed.
  Lemma in_break_fun e : In e (u_breaks u) -> In (break_function e) (parts al u). Proof. intros H. unfold parts; memb. Qed.
  Lemma in_widths : In (widths_table (merge_all None (u_widths u))) (parts al u). Proof. unfold parts; memb. Qed.
  Lemma in_width_fun : In width_fun (parts al u). Proof. unfold parts; memb. Qed.
  Lemma in_emoji e : In e (u_emoji u) -> In (interval_table e) (parts al u). Proof. intros H. unfold parts; memb. Qed.
  Lemma in_emoji_fun e : In e (u_emoji u) -> In (emoji_function e) (parts al u). Proof. intros H. unfold parts; memb. Qed.
  Lemma in_mirrored : In (mirrored_table (u_mirrored u)) (parts al u). Proof. unfold parts; memb. Qed.
  Lemma in_glyphs : In (glyph_table (u_glyphs u)) (parts al u). Proof. unfold parts; memb. Qed.
  Lemma in_mirrored_fun : In mirrored_fun (parts al u). Proof. unfold parts; memb. Qed.
  Lemma in_glyph_fun : In glyph_fun_text (parts al u). Proof. unfold parts; memb. Qed.
  Lemma in_age s a : smap_get (lit "Age") (u_pva u) = Some a -> In s [age_open; age_table (age_entries a); age_close] -> In s (parts al u).
  Proof.
    intros E H. unfold parts.
    repeat lazymatch goal with |- In _ (match ?x with Some _ => _ | None => _ end ++ _) => fail | |- In _ (_ ++ _) => apply in_or_app; right end.
    match goal with |- In _ (match ?x with Some _ => _ | None => _ end ++ _) => replace x with (Some a) end.
    apply in_or_app. left. exact H.
  Qed.
  Lemma d_planes : enum_table file (lit "Plane") (lit "Prop<::unicode::Plane>") (lit "unicode::Plane") (map (fun r => (fst r, sanitize (snd r))) planes) /\
    contains_text file (fun_text (lit "Plane") (lit "plane") (search_text (lit "Plane") (lit "Plane::Unassigned"))).
  Proof. split; [exact (u_table _ _ _ _ _ _ _ in_planes planes_local planes_values)|exact (u_text _ _ in_plane_fun plane_fun_text)]. Qed.
  Lemma ivs_map (l : list (str * list crange)) : Forall ivs_ok l -> (forall e, In e l -> In (interval_table e) (parts al u)) ->
    forall name r, In (name, r) (map ranges_of l) -> interval_table_in file name r.
  Proof.
    intros H K name r Hi. apply in_map_iff in Hi. destruct Hi as (e & E & He). unfold ranges_of in E. injection E as E1 E2. subst name r.
    rewrite Forall_forall in H. pose proof (H e He) as Oe. unfold interval_table_in.
    eapply u_table; [exact (K e He)|exact (interval_local e Oe)|]. rewrite (interval_values e Oe). unfold intervals. rewrite map_map. reflexivity.
  Qed.
  Lemma names_of (l : list (str * list crange)) : map fst (map ranges_of l) = map fst l.
  Proof. rewrite map_map. apply map_ext. intros e. reflexivity. Qed.
  Lemma d_core : ready al u -> (forall name l, In (name, l) (map ranges_of (u_core u)) -> interval_table_in file name l) /\
    contains_text file (switch_text (lit "Core_Property") (lit "prop") (map fst (map ranges_of (u_core u))) []).
  Proof.
    intros H. destruct H as ((I1 & N1) & _). split.
    - exact (ivs_map _ I1 in_core_iv).
    - rewrite names_of. exact (u_text _ _ in_core_fun (core_fun_text _ N1)).
  Qed.
  Lemma d_gcs : ready al u -> enum_table file (lit "General_Category") (lit "Prop<::unicode::General_Category>") (lit "::unicode::General_Category") (map fst (u_gcs u)) /\
    contains_text file (lit "General_Category get(char32_t value) noexcept { return search(tables::General_Category, value).value_or(General_Category::Unspecified); }").
  Proof.
    intros H. destruct H as (_ & _ & _ & (G1 & G2) & _). split.
    - exact (u_table _ _ _ _ _ _ _ in_gc (gc_local _ G1 G2) (gc_values _ G1)).
    - exact (u_text _ _ in_gc_fun gc_fun_text).
  Qed.
  Lemma d_cats : ready al u -> (forall name l, In (name, l) (map ranges_of (u_cats u)) -> interval_table_in file name l) /\
    contains_text file (switch_text (lit "General_Category") (lit "generalCategory") (map fst (map ranges_of (u_cats u)))
      (lit "case General_Category::Unspecified: return false;")).
  Proof.
    intros H. destruct H as (_ & (I1 & N1) & _). split.
    - exact (ivs_map _ I1 in_cats_iv).
    - rewrite names_of. exact (u_text _ _ in_cats_fun (cats_fun_text _ N1)).
  Qed.
  Lemma d_scripts : ready al u -> enum_table file (lit "Script") (lit "Prop<unicode::Script>") (lit "unicode::Script") (map fst (u_scripts u)) /\
    contains_text file (fun_text (lit "Script") (lit "script") (search_text (lit "Script") (lit "Script::Unknown"))).
  Proof.
    intros H. destruct H as (_ & _ & _ & _ & (G1 & G2) & _). split.
    - exact (u_table _ _ _ _ _ _ _ in_script (script_local _ G1 G2) (script_values _ G1)).
    - exact (u_text _ _ in_script_fun script_fun_text).
  Qed.
  Lemma d_sces : ready al u ->
    has_table file (Direct false) sce_type (lit "sce") (read_view sce_type) (map (fun r => (fst (fst r), sce_key (snd (fst r)))) (u_sces u)) /\
    (forall key l, In (key, l) (sce_arrays al (map fst (u_sces u))) -> has_table file Assigned (lit "unicode::Script") key (read_enum (lit "unicode::Script")) l) /\
    contains_text file sce_fun.
  Proof.
    intros H. destruct H as (_ & _ & _ & _ & _ & (S1 & S2) & R & _). split; [|split].
    - replace (map (fun r => (fst (fst r), sce_key (snd (fst r)))) (u_sces u)) with (map sce_entry (u_sces u)).
      + exact (u_table _ _ _ _ _ _ _ in_sce (sce_local _ S1 S2) (sce_values _ S1)).
      + apply map_ext. intros [[[a b] ps] c]. reflexivity.
    - intros key l Hi. rewrite Forall_forall in R. pose proof (R _ Hi) as Oe.
      exact (u_table _ _ _ _ _ _ _ (in_arrays _ Hi) (sce_array_local _ Oe) (sce_array_values (key, l))).
    - exact (u_text _ _ in_sce_fun sce_fun_ok).
  Qed.
  Lemma d_blocks : ready al u ->
    enum_table file (lit "Block") (lit "Prop<::unicode::Block>") (lit "::unicode::Block") (map (fun r => (fst r, sanitize (snd r))) (u_blocks u)) /\
    contains_text file (fun_text (lit "Block") (lit "block") (search_text (lit "Block") (lit "::unicode::Block::Unspecified"))).
  Proof.
    intros H. destruct H as (_ & _ & _ & _ & _ & _ & _ & (B1 & B2) & _). split.
    - exact (u_table _ _ _ _ _ _ _ in_blocks (blocks_loc _ B1 B2) (blocks_values _ B1)).
    - exact (u_text _ _ in_block_fun block_fun_text).
  Qed.
  Lemma d_breaks : ready al u -> forall name l, In (name, l) (map (fun e => (fst e, map fst (snd e))) (u_breaks u)) ->
    enum_table file name (lit "Prop<::unicode::" ++ name ++ lit ">") (lit "::unicode::" ++ name) l /\
    contains_text file (fun_text name (map down name) (search_text name (name ++ lit "::Undefined"))).
  Proof.
    intros H name l Hi. destruct H as (_ & _ & _ & _ & _ & _ & _ & _ & (B1 & B2) & _).
    apply in_map_iff in Hi. destruct Hi as (e & E & He). injection E as E1 E2. subst name l. rewrite Forall_forall in B1, B2.
    pose proof (B1 e He) as Oe. pose proof (B2 e He) as Ne. split.
    - exact (u_table _ _ _ _ _ _ _ (in_breaks e He) (break_local e Oe) (break_values e Oe)).
    - exact (u_text _ _ (in_break_fun e He) (break_fun_text e Ne)).
  Qed.
  Lemma d_widths : ready al u -> enum_table file (lit "EastAsianWidth") (lit "Prop<::unicode::EastAsianWidth>") (lit "::unicode::EastAsianWidth")
      (map (fun r => (fst r, width_name (snd r))) (merge_ranges None (map fst (u_widths u)))) /\
    contains_text file (fun_text (lit "EastAsianWidth") (lit "east_asian_width") (search_text (lit "EastAsianWidth") (lit "EastAsianWidth::Unspecified"))).
  Proof.
    intros H. destruct H as (_ & _ & _ & _ & _ & _ & _ & _ & _ & (W1 & W2) & _). split.
    - pose proof (widths_values _ W1) as V. pose proof (merge_all_ranges (u_widths u) None) as M. cbn [option_map] in M. rewrite M in V.
      exact (u_table _ _ _ _ _ _ _ in_widths (widths_loc _ W1 W2) V).
    - exact (u_text _ _ in_width_fun width_fun_text).
  Qed.
  Lemma d_emoji : ready al u -> forall name l, In (name, l) (map ranges_of (u_emoji u)) ->
    interval_table_in file name l /\ contains_text file (fun_text (lit "bool") (lit "is_" ++ map down name) (contains_call name)).
  Proof.
    intros H name l Hi. destruct H as (_ & _ & (I1 & N1) & _). split; [exact (ivs_map _ I1 in_emoji name l Hi)|].
    apply in_map_iff in Hi. destruct Hi as (e & E & He). unfold ranges_of in E. injection E as E1 E2. subst name l.
    rewrite Forall_forall in N1. exact (u_text _ _ (in_emoji_fun e He) (emoji_fun_text e (N1 e He))).
  Qed.
  Lemma d_mirrored : ready al u -> interval_table_in file (lit "Bidi_Mirrored") (u_mirrored u) /\
    contains_text file (fun_text (lit "bool") (lit "is_mirrored") (contains_call (lit "Bidi_Mirrored"))).
  Proof.
    intros H. destruct H as (_ & _ & _ & _ & _ & _ & _ & _ & _ & _ & (M1 & M2) & _). split.
    - exact (u_table _ _ _ _ _ _ _ in_mirrored (mirrored_loc _ M1 M2) (mirrored_values _ M1)).
    - exact (u_text _ _ in_mirrored_fun mirrored_fun_text).
  Qed.
  Lemma d_glyphs : ready al u ->
    has_table file Assigned (lit "std::pair<char32_t, char32_t>") (lit "Bidi_Mirroring_Glyph") (read_typed_pair (lit "std::pair<char32_t, char32_t>")) (u_glyphs u) /\
    contains_text file glyph_fun.
  Proof.
    intros H. destruct H as (_ & _ & _ & _ & _ & _ & _ & _ & _ & _ & _ & (M1 & M2) & _). split.
    - exact (u_table _ _ _ _ _ _ _ in_glyphs (glyphs_loc _ M1 M2) (glyphs_values _ M1)).
    - exact (u_text _ _ in_glyph_fun glyph_fun_ok).
  Qed.
  Lemma d_ages : ready al u -> forall l, option_map (filter (fun e => negb (str_eqb (snd e) (lit "Unassigned")))) (smap_get (lit "Age") (u_pva u)) = Some l ->
     has_table file Assigned (lit "std::pair<std::string_view, Age>") (lit "mappings") read_age l /\ contains_text file age_intro /\ contains_text file age_fun.
  Proof.
    intros H l E. destruct H as (_ & _ & _ & _ & _ & _ & _ & _ & _ & _ & _ & _ & Y).
    destruct (smap_get (lit "Age") (u_pva u)) as [a|] eqn:Ha; [|discriminate E]. cbn [option_map] in E. injection E as E.
    change (age_entries a = l) in E. destruct (Y a eq_refl) as [Y1 Y2]. rewrite E in Y1, Y2.
    pose proof (fun s => in_age s a Ha) as K. rewrite E in K. split; [|split].
    - refine (u_table _ _ _ _ _ _ _ (K _ _) (ages_loc _ Y1 Y2) (ages_values _ Y1)). apply in_cons, in_eq.
    - refine (u_text _ _ (K _ _) age_intro_ok). apply in_eq.
    - refine (u_text _ _ (K _ _) age_fun_ok). apply in_cons, in_cons, in_eq.
  Qed.
  Lemma d_all : ucd_cpp_denotes file (api_of al u).
  Proof.
    exact (conj d_planes (conj (d_core Hr) (conj (d_gcs Hr) (conj (d_cats Hr) (conj (d_scripts Hr) (conj (d_sces Hr) (conj (d_blocks Hr) (conj (d_breaks Hr)
      (conj (d_widths Hr) (conj (d_emoji Hr) (conj (d_mirrored Hr) (conj (d_glyphs Hr) (d_ages Hr))))))))))))).
  Qed.
End ucd_file.

(** C131. *)
Theorem C131_text_denotes_partial u al file : smap_get (lit "Script") (u_pva u) = Some al -> ucd_cpp_text u = Some file ->
  src_fits (fun c => one_line c /\ no_end c) u -> ucd_cpp_denotes file (api_of al u).
Proof.
  intros Ha E F. pose proof (parts_eq u al Ha) as P. rewrite E in P. assert (X : file = concat (parts al u)) by congruence.
  exact (d_all u al file (fits_ready u al Ha F) X).
Qed.
Print Assumptions C131_text_denotes_partial.

(** ** The counterexample: two ranges, the comment behind the first a backslash.  The second line is part of the comment. *)
Lemma typed_in_text file name l a b ts : interval_table_in file name l -> In (a, b) l -> lex file = Some ts -> exists v, In (TWord v) ts /\ int_literal v = Some a.
Proof.
  intros (vals & (pre & decl & body & post & i & L & _ & P & E) & R) Hab HL. rewrite HL in L. injection L as ->.
  destruct (all_some_in _ _ _ _ R Hab) as (x & Hx & Rx).
  destruct x as [|h [|u [|v [|]]]]; try discriminate. cbn [read_typed_pair] in Rx. destruct (spells h (lit "Interval")); [|discriminate].
  destruct (unsigned 32 u) as [p|] eqn:U; [|discriminate]. destruct (unsigned 32 v); [|discriminate].
  injection Rx as -> _. destruct (unsigned_tok _ _ _ U) as (s & Hs & Is). exists s. split; [|exact Is].
  assert (X : In (TWord s) body).
  { apply (init_in_text _ _ P), (elements_toks _ _ E). apply in_flat_map. exists (IList h [u; v]). split; [exact Hx|]. cbn [init_toks flat_map].
    rewrite !in_app_iff. tauto. }
  rewrite !in_app_iff. tauto.
Qed.
Definition back_u : ucd_src := mkSrc [(lit "Alphabetic", [(0x41, 0x5A, [], [92]); (0x61, 0x7A, [], lit "Letters")])] [] [] [] [] [(lit "Script", [])] [] [] [] [] [] [].
Definition back_text : str := concat (parts [] back_u).
Definition reads_97 (t : tok) : bool := match t with TWord v => match int_literal v with Some n => n =? 0x61 | None => false end | _ => false end.
Lemma back_lex : match lex back_text with Some ts => negb (existsb reads_97 ts) | None => false end = true.
Proof. vm_compute. reflexivity. Qed.
Lemma ident_b s : (match s with [] => false | _ => forallb word_char s end) = true -> identifier s.
Proof. destruct s as [|c r]; [discriminate|]. intros H. split; [discriminate|]. apply Forall_forall. apply forallb_forall. exact H. Qed.
Ltac ident := apply ident_b; vm_compute; reflexivity.
Ltac com := repeat first [apply Forall_nil | apply Forall_cons; [discriminate|]].
(** C131. The property fails: the second range is not in the compiled array. *)
Theorem C131_backslash_refuted : ~ C131_statement.
Proof.
  intros H. pose proof (H back_u [] back_text eq_refl (parts_eq back_u [] eq_refl)) as X. clear H.
  assert (F : src_fits one_line back_u).
  { unfold src_fits, map_fits, few, fits, one_line, back_u.
    cbn [u_core u_cats u_emoji u_gcs u_scripts u_sces u_pva u_blocks u_breaks u_widths u_mirrored u_glyphs length].
    refine (conj _ (conj _ (conj _ (conj _ (conj _ (conj _ (conj _ (conj _ (conj _ (conj _ (conj _ (conj _ _)))))))))))); try (repeat split; try constructor; lia).
    - apply Forall_cons; [|constructor]. split; [ident|]. split; [cbn; lia|]. apply Forall_cons; [|apply Forall_cons; [|constructor]];
        (split; [split; vm_compute; reflexivity|cbn [snd]; com]).
    - intros al E. injection E as <-. constructor.
    - intros al E. discriminate E. }
  destruct (X F) as (_ & (Y & _) & _). pose proof (Y (lit "Alphabetic") [(0x41, 0x5A); (0x61, 0x7A)] ltac:(left; reflexivity)) as Z.
  pose proof back_lex as L. destruct (lex back_text) as [ts|] eqn:E; [|discriminate L].
  destruct (typed_in_text _ _ _ 0x61 0x7A ts Z ltac:(right; left; reflexivity) E) as (v & Hv & Iv).
  assert (C : existsb reads_97 ts = true) by (apply existsb_exists; exists (TWord v); split; [exact Hv|cbn; rewrite Iv; reflexivity]).
  rewrite C in L. discriminate L.
Qed.
Print Assumptions C131_backslash_refuted.

(** The hypotheses of the partial theorem are met by data with a table of every kind. *)
Definition some_u : ucd_src :=
  mkSrc [(lit "Alphabetic", [(0x41, 0x5A, [], lit "L&  [26] LATIN CAPITAL LETTER A..Z"); (0x10FFFE, 0x10FFFF, [], [])]); (lit "Math", [])]
        [(0, 0x1F, lit "Control", lit "Cc"); (0x20, 0x20, lit "Space_Separator", lit "Zs")]
        [(lit "Control", [(0, 0x1F, [], lit "Cc")]); (lit "Space_Separator", [(0x20, 0x20, [], lit "Zs")])]
        [(0x41, 0x5A, lit "Latin", lit "L&")]
        [(0x342, 0x342, [lit "Grek"], lit "Mn"); (0x363, 0x36F, [lit "Latn"; lit "Grek"], lit "Mn")]
        [(lit "Script", [(lit "Grek", lit "Greek"); (lit "Latn", lit "Latin")]); (lit "Age", [(lit "1.1", lit "V1_1"); (lit "NA", lit "Unassigned"); (lit "15.0", lit "V15_0")])]
        [(0, 0x7F, lit "Basic Latin"); (0x80, 0xFF, lit "Latin-1 Supplement")]
        [(lit "Grapheme_Cluster_Break", [(0x300, 0x36F, lit "Extend", lit "Mn")]); (lit "Word_Break", [])]
        [(0x20, 0x20, lit "Na", lit "Zs"); (0x21, 0x7E, lit "Na", lit "Po"); (0x3000, 0x3000, lit "F", lit "Zs")]
        [(lit "Emoji_Presentation", [(0x1F600, 0x1F64F, [], lit "E1.0")])] [(0x28, 0x29)] [(0x28, 0x29); (0x29, 0x28)].
Example C131_fits : src_fits (fun c => one_line c /\ no_end c) some_u /\ (exists al file, smap_get (lit "Script") (u_pva some_u) = Some al /\ ucd_cpp_text some_u = Some file).
Proof.
  split.
  - unfold src_fits, map_fits, few, fits, range_fits, one_line, no_end, some_u.
    cbn [u_core u_cats u_emoji u_gcs u_scripts u_sces u_pva u_blocks u_breaks u_widths u_mirrored u_glyphs length].
    assert (Z : forall n m, (n <? m) = true -> n < m) by (intros n m; apply N.ltb_lt).
    assert (K : forall (c : str), forallb (fun x => negb (x =? 10)) c = true -> Forall (fun x => x <> 10) c).
    { intros c H. apply Forall_forall. intros x Hx. rewrite forallb_forall in H. specialize (H x Hx). intros ->. discriminate H. }
    refine (conj _ (conj _ (conj _ (conj _ (conj _ (conj _ (conj _ (conj _ (conj _ (conj _ (conj _ (conj _ _))))))))))));
    try (intros al E; vm_compute in E; injection E as <-);
    repeat match goal with
      | |- Forall _ (fst _) => progress cbn [fst snd] | |- Forall _ (snd _) => progress cbn [fst snd]
      | |- _ /\ _ => split
      | |- Forall (fun c => c <> 10) _ => apply K; vm_compute; reflexivity
      | |- Forall _ [] => constructor
      | |- Forall _ (_ :: _) => constructor
      | |- fits _ _ => split
      | |- identifier _ => ident
      | |- _ < _ => apply Z; vm_compute; reflexivity
      | |- last _ _ <> _ => vm_compute; discriminate
      | |- _ <> 34 => discriminate | |- _ <> 10 => discriminate | |- _ <> 92 => discriminate end.
  - exists [(lit "Grek", lit "Greek"); (lit "Latn", lit "Latin")]. eexists. split; [reflexivity|]. apply (parts_eq some_u). reflexivity.
Qed.
(** What the API then has: the two widths merged, the unassigned age dropped, the name of the extension array. *)
Example C131_api : exists al, smap_get (lit "Script") (u_pva some_u) = Some al /\
  a_widths (api_of al some_u) = [(0x20, 0x7E, lit "Narrow"); (0x3000, 0x3000, lit "FullWidth")] /\
  a_ages (api_of al some_u) = Some [(lit "1.1", lit "V1_1"); (lit "15.0", lit "V15_0")] /\
  a_sces (api_of al some_u) = [(0x342, 0x342, lit "sce_Grek"); (0x363, 0x36F, lit "sce_Latn_Grek")] /\
  a_sce_arrays (api_of al some_u) = [(lit "sce_Grek", [lit "Greek"]); (lit "sce_Latn_Grek", [lit "Latin"; lit "Greek"])].
Proof. eexists. split; [reflexivity|]. repeat split. Qed.
