(** C135: ucd.h declares to the compiler the functions that ucd.cpp defines. *)
From Coq Require Import String Lia.
From Verif Require Import Base M_TableGen M_PropGen M_UcdApi Spec_Cpp Spec_Emit Spec_EmitUcd Spec_EmitMs Spec_EmitUcdH M_Emit M_EmitUcd M_EmitUcdH
  P_TableGen P_Emit P_Emit2 P_Emit3 P_Emit4 P_EmitUcd P_EmitUcd2 P_EmitUcd4 P_EmitMs P_EmitEnums P_EmitUcdH T_Emit T_EmitUcd T_EmitMs.
Open Scope N_scope.

Definition header_fits (u : ucd_src) : Prop :=
  Forall identifier (map fst (u_cats u)) /\ Forall identifier (map fst (u_breaks u)) /\ Forall identifier (map fst (u_emoji u)).
Definition has_ages (u : ucd_src) : bool := match smap_get (lit "Age") (u_pva u) with Some _ => true | None => false end.

Section header.
  Variables (cats breaks emoji : list str) (age : str).
  Hypothesis Hc : Forall identifier cats.
  Hypothesis Hb : Forall identifier breaks.
  Hypothesis He : Forall identifier emoji.
  Hypothesis Ha : sound age.
  Definition h_parts : list str :=
    [h_header; h_open; h_plane; h_core; h_gc; h_helpers cats; h_script; h_sce; h_block] ++ map break_decl breaks ++ [nl; h_widths]
    ++ map emoji_decl emoji ++ [nl; h_bidi; age; lit "} // namespace unicode" ++ nl].
  Lemma nl_s : sound nl. Proof. exists []. lits. Qed.
  Lemma parts_sound : Forall sound h_parts.
  Proof.
    unfold h_parts. apply Forall_app. split.
    { apply Forall_cons; [exact P_EmitUcdH.header_sound|]. apply Forall_cons; [exact (holds_sound _ _ open_holds)|]. apply Forall_cons; [exact (holds_sound _ _ plane_holds)|].
      apply Forall_cons; [exact (holds_sound _ _ core_holds)|]. apply Forall_cons; [exact (holds_sound _ _ gc_holds)|]. apply Forall_cons; [exact (holds_sound _ _ (helpers_holds _ Hc))|].
      apply Forall_cons; [exact (holds_sound _ _ script_holds)|]. apply Forall_cons; [exact (holds_sound _ _ sce_holds)|].
      apply Forall_cons; [exact (holds_sound _ _ block_holds)|]. apply Forall_nil. }
    apply Forall_app. split.
    { apply Forall_map. eapply Forall_impl; [|exact Hb]. intros n Hn. exact (holds_sound _ _ (break_holds n Hn)). }
    apply Forall_app. split.
    { apply Forall_cons; [exact nl_s|]. apply Forall_cons; [exact (holds_sound _ _ widths_holds)|]. apply Forall_nil. }
    apply Forall_app. split.
    { apply Forall_map. eapply Forall_impl; [|exact He]. intros n Hn. exact (holds_sound _ _ (emoji_holds n Hn)). }
    apply Forall_cons; [exact nl_s|]. apply Forall_cons; [exact (holds_sound _ _ mirrored_holds)|]. apply Forall_cons; [exact Ha|]. apply Forall_cons; [exact hend_sound|]. apply Forall_nil.
  Qed.
  Variable file : str.
  Hypothesis Hf : file = concat h_parts.
  Lemma in_h s t : In s h_parts -> holds_text s t -> contains_text file t.
  Proof. exact (T_Emit.file_text _ _ parts_sound Hf s t). Qed.
  Lemma front n s : nth_error [h_header; h_open; h_plane; h_core; h_gc; h_helpers cats; h_script; h_sce; h_block] n = Some s -> In s h_parts.
  Proof. intros H. unfold h_parts. apply in_or_app. left. exact (nth_error_In _ _ H). Qed.
  Lemma at_breaks n : In n breaks -> In (break_decl n) h_parts.
  Proof. intros H. unfold h_parts. apply in_or_app. right. apply in_or_app. left. apply in_map, H. Qed.
  Lemma at_widths : In h_widths h_parts.
  Proof. unfold h_parts. apply in_or_app. right. apply in_or_app. right. apply in_or_app. left. right. left. reflexivity. Qed.
  Lemma at_emoji n : In n emoji -> In (emoji_decl n) h_parts.
  Proof. intros H. unfold h_parts. do 3 (apply in_or_app; right). apply in_or_app. left. apply in_map, H. Qed.
  Lemma at_bidi : In h_bidi h_parts.
  Proof. unfold h_parts. do 4 (apply in_or_app; right). right. left. reflexivity. Qed.
  Lemma at_age : In age h_parts.
  Proof. unfold h_parts. do 4 (apply in_or_app; right). right. right. left. reflexivity. Qed.
  Lemma h_denotes b : (b = true -> age = h_age) -> ucd_h_denotes file cats breaks emoji b.
  Proof.
    intros Hage. split; [exact (in_h _ _ (front 1 _ eq_refl) open_holds)|]. split.
    2:{ split; [exact (in_h _ _ (front 5 _ eq_refl) (helpers_holds _ Hc))|exact (in_h _ _ at_widths widths_to_string)]. }
    intros s Hs. unfold signatures in Hs. unfold declared_in. apply in_app_or in Hs. destruct Hs as [Hs|Hs].
    { destruct Hs as [<-|[<-|[<-|[<-|[<-|[<-|[<-|[<-|[<-|[<-|[]]]]]]]]]]].
      - exact (in_h _ _ (front 2 _ eq_refl) plane_holds).
      - exact (in_h _ _ (front 3 _ eq_refl) core_holds).
      - exact (in_h _ _ (front 4 _ eq_refl) gc_holds).
      - exact (in_h _ _ (front 5 _ eq_refl) (get_holds _ Hc)).
      - exact (in_h _ _ (front 6 _ eq_refl) script_holds).
      - exact (in_h _ _ (front 7 _ eq_refl) sce_holds).
      - exact (in_h _ _ (front 8 _ eq_refl) block_holds).
      - exact (in_h _ _ at_widths widths_holds).
      - exact (in_h _ _ at_bidi mirrored_holds).
      - exact (in_h _ _ at_bidi glyph_holds). }
    apply in_app_or in Hs. destruct Hs as [Hs|Hs].
    { apply in_map_iff in Hs as (n & <- & Hn). exact (in_h _ _ (at_breaks n Hn) (break_holds n (proj1 (Forall_forall _ _) Hb n Hn))). }
    apply in_app_or in Hs. destruct Hs as [Hs|Hs].
    { apply in_map_iff in Hs as (n & <- & Hn). exact (in_h _ _ (at_emoji n Hn) (emoji_holds n (proj1 (Forall_forall _ _) He n Hn))). }
    destruct b; [|destruct Hs]. destruct Hs as [<-|[]]. pose proof at_age as A. rewrite (Hage eq_refl) in A. exact (in_h _ _ A age_holds).
  Qed.
End header.
Definition age_part (u : ucd_src) : str := match smap_get (lit "Age") (u_pva u) with Some _ => h_age | None => [] end.
Lemma age_part_sound u : sound (age_part u).
Proof. unfold age_part. destruct (smap_get (lit "Age") (u_pva u)); [exact (holds_sound _ _ age_holds)|exists []; apply piece_nil]. Qed.
Lemma h_text_parts u file : ucd_h_text u = Some file ->
  file = concat (h_parts (map fst (u_cats u)) (map fst (u_breaks u)) (map fst (u_emoji u)) (age_part u)).
Proof.
  unfold ucd_h_text. destruct (smap_get (lit "Script") (u_pva u)); [|discriminate]. intros E.
  assert (E0 := f_equal (fun o => match o with Some x => x | None => [] end) E). cbv beta iota in E0. rewrite <- E0. clear E E0.
  unfold h_parts. rewrite !concat_app. cbn [concat]. rewrite !app_nil_r. unfold h_breaks, h_emoji. rewrite !flat_map_concat_map. fold (age_part u).
  rewrite <- ?app_assoc. reflexivity.
Qed.

(** C135. *)
Theorem C135_header_denotes : forall u file, ucd_h_text u = Some file -> header_fits u ->
  ucd_h_denotes file (map fst (u_cats u)) (map fst (u_breaks u)) (map fst (u_emoji u)) (has_ages u).
Proof.
  intros u file E (Hc & Hb & He).
  apply (h_denotes _ _ _ (age_part u) Hc Hb He (age_part_sound u) file (h_text_parts u file E)).
  unfold has_ages, age_part. destruct (smap_get (lit "Age") (u_pva u)); [reflexivity|discriminate].
Qed.
Print Assumptions C135_header_denotes.

(** ** The definitions *)
Lemma defined_gen file t sig rest ta : contains_text file t -> t = (sig ++ lit " {") ++ rest -> piece LStart (sig ++ lit " {") LStart ta -> defined_in file sig.
Proof. intros H -> P. exact (contains_prefix _ _ _ _ H P). Qed.
Lemma lookup_defined file type name body p : contains_text file (fun_text type (p ++ name) body) -> identifier type -> identifier (p ++ name) -> defined_in file (lookup_sig type (p ++ name)).
Proof.
  intros H Ht Hn.
  pose proof (sig_piece type p name par_toks (lit "(char32_t codepoint) noexcept" ++ lit " {") [TPunct 123] Ht Hn ltac:(intros v; lits)) as X.
  assert (E : (lookup_sig type (p ++ name) ++ lit " {") = type ++ lit " " ++ (p ++ name) ++ lit "(char32_t codepoint) noexcept" ++ lit " {")
    by (unfold lookup_sig; rewrite <- ?app_assoc; reflexivity).
  eapply (defined_gen _ _ (lookup_sig type (p ++ name)) (lit " return " ++ body ++ lit "; }")); [exact H| |rewrite E; exact X].
  rewrite E. unfold fun_text. change (lit "(char32_t codepoint) noexcept { return ") with (lit "(char32_t codepoint) noexcept" ++ lit " {" ++ lit " return "). rewrite <- ?app_assoc. reflexivity.
Qed.
Lemma lookup_defined0 file type name body : contains_text file (fun_text type name body) -> identifier type -> identifier name -> defined_in file (lookup_sig type name).
Proof. exact (lookup_defined file type name body []). Qed.
Ltac idl := split; [discriminate|wlit].
(** C135. Every function of the list is declared in ucd.h and defined in ucd.cpp, with the same signature. *)
Theorem C135_declared_and_defined : forall u header impl, ucd_h_text u = Some header -> ucd_cpp_text u = Some impl -> src_fits (fun c => one_line c /\ no_end c) u ->
  forall s, In s (signatures (map fst (u_breaks u)) (map fst (u_emoji u)) (has_ages u)) -> declared_in header s /\ defined_in impl s.
Proof.
  intros u header impl Eh Ei Fi s Hs.
  destruct (smap_get (lit "Script") (u_pva u)) as [al|] eqn:Ha; [|unfold ucd_h_text in Eh; rewrite Ha in Eh; discriminate Eh].
  pose proof (C131_text_denotes_partial u al impl Ha Ei Fi) as D.
  destruct Fi as (Fcore & Fcats & Femoji & _ & _ & _ & _ & _ & Fbreaks & _).
  assert (Hc : Forall identifier (map fst (u_cats u))) by (apply Forall_map; eapply Forall_impl; [|exact Fcats]; intros e H; exact (proj1 H)).
  assert (He : Forall identifier (map fst (u_emoji u))) by (apply Forall_map; eapply Forall_impl; [|exact Femoji]; intros e H; exact (proj1 H)).
  assert (Hb : Forall identifier (map fst (u_breaks u))) by (apply Forall_map; eapply Forall_impl; [|exact Fbreaks]; intros e H; exact (proj1 H)).
  split. { destruct (C135_header_denotes u header Eh (conj Hc (conj Hb He))) as (_ & H & _). exact (H s Hs). }
  destruct D as ((_ & Dplane) & (_ & Dcore) & (_ & Dget) & (_ & Dcat) & (_ & Dscript) & (_ & _ & Dsce) & (_ & Dblock) & Dbreaks & (_ & Dwidth) & Demoji & (_ & Dmir) & (_ & Dglyph) & Dage).
  unfold signatures in Hs. apply in_app_or in Hs. destruct Hs as [Hs|Hs].
  { destruct Hs as [<-|[<-|[<-|[<-|[<-|[<-|[<-|[<-|[<-|[<-|[]]]]]]]]]]].
    - apply (lookup_defined0 _ _ _ _ Dplane); idl.
    - eapply (defined_gen _ _ _ (lit " switch (prop) { " ++ _) _ Dcore); [|lits]. unfold switch_text. reflexivity.
    - eapply (defined_gen _ _ _ (lit " switch (generalCategory) { " ++ _) _ Dcat); [|lits]. unfold switch_text. reflexivity.
    - eapply (defined_gen _ _ _ (lit " return search(tables::General_Category, value).value_or(General_Category::Unspecified); }") _ Dget); [reflexivity|lits].
    - apply (lookup_defined0 _ _ _ _ Dscript); idl.
    - eapply (defined_gen _ _ _ (lit " auto const p = search(tables::sce, codepoint); if (!p.has_value()) return std::nullopt; return std::span<Script const>{ p->first, p->second }; }") _ Dsce); [reflexivity|lits].
    - apply (lookup_defined0 _ _ _ _ Dblock); idl.
    - apply (lookup_defined0 _ _ _ _ Dwidth); idl.
    - apply (lookup_defined0 _ _ _ _ Dmir); idl.
    - eapply (defined_gen _ _ (lookup_sig (lit "char32_t") (lit "bidi_mirroring_glyph")) (skipn (length (lookup_sig (lit "char32_t") (lit "bidi_mirroring_glyph") ++ lit " {")) glyph_fun) _ Dglyph); [vm_compute; reflexivity|lits]. }
  apply in_app_or in Hs. destruct Hs as [Hs|Hs].
  { apply in_map_iff in Hs as (n & <- & Hn). pose proof Hn as Hn'. apply in_map_iff in Hn' as ([n' l] & En & Hl). cbn [fst] in En. subst n'.
    destruct (Dbreaks n (map fst l)) as (_ & X). { apply in_map_iff. exists (n, l). split; [reflexivity|exact Hl]. }
    rewrite Forall_forall in Hb. apply (lookup_defined0 _ _ _ _ X); [exact (Hb n Hn)|apply lower_ident; exact (Hb n Hn)]. }
  apply in_app_or in Hs. destruct Hs as [Hs|Hs].
  { apply in_map_iff in Hs as (n & <- & Hn). pose proof Hn as Hn'. apply in_map_iff in Hn' as ([n' l] & En & Hl). cbn [fst] in En. subst n'.
    rewrite Forall_forall in He. pose proof (lower_ident n (He n Hn)) as [A B].
    assert (Y : exists r, In (n, r) (a_emoji (api_of al u))). { exists (snd (ranges_of (n, l))). cbn [api_of a_emoji]. apply in_map_iff. exists (n, l). split; [|exact Hl]. reflexivity. }
    destruct Y as (r & Y). destruct (Demoji n r Y) as (_ & X).
    apply (lookup_defined _ _ _ _ (lit "is_") X); [idl|]. split; [discriminate|]. apply Forall_app. split; [wlit|exact B]. }
  unfold has_ages in Hs. cbn [api_of a_ages] in Dage. destruct (smap_get (lit "Age") (u_pva u)) as [ages|]; [|destruct Hs]. destruct Hs as [<-|[]].
  destruct (Dage _ eq_refl) as (_ & X & _).
  eapply (defined_gen _ _ _ (lit " using namespace std::string_view_literals;") _ X); [reflexivity|lits].
Qed.
Print Assumptions C135_declared_and_defined.

(** The hypotheses are met. *)
Example C135_hypotheses : header_fits some_u /\ (exists header, ucd_h_text some_u = Some header) /\ src_fits (fun c => one_line c /\ no_end c) some_u /\
  map fst (u_cats some_u) <> [] /\ map fst (u_emoji some_u) <> [] /\ has_ages some_u = true.
Proof.
  split; [unfold header_fits; repeat split; cbn [map fst u_cats u_breaks u_emoji some_u]; repeat first [apply Forall_nil | apply Forall_cons; [apply ident_c; vm_compute; reflexivity|]]|].
  split; [eexists; reflexivity|]. split; [exact (proj1 C131_fits)|]. split; [discriminate|]. split; [discriminate|reflexivity].
Qed.
