(** C119: from Scripts.txt, ScriptExtensions.txt and PropertyValueAliases.txt to script runs. *)
From Coq Require Import String Permutation Sorted.
From Verif Require Import Base M_TableGen M_PropGen M_UcdApi M_Script M_Emoji M_Run M_LinkScript M_Link Spec_TableGen Spec_PropGen Spec_UcdApi Spec_Script
  Spec_Emoji Spec_Run Spec_Link Spec_LinkScript P_TableGen P_TableGen2 P_TableGen8 P_PropGen P_UcdApi P_UcdApi2 P_UcdApi5 UcdApi_Demo LinkScript_Demo T_UcdApi T_UcdApi2 T_UcdApi3 T_Script T_Emoji T_Run T_Link.
Open Scope N_scope.

(** [tb] are the tables of a library generated from the files: some order left by the sorts, some numbering of the enumerators. *)
Definition compiled_scripts (F : script_files) (num : str -> N) (tb : script_tables) : Prop :=
  exists crlf head tbl sces ext, sorted_by_first (load_generic (file_text st_text crlf (sf_scripts F))) tbl /\
    sorted_by_first (load_sce (file_text st_text crlf (sf_extensions F))) sces /\
    api_script_extensions (load_pva (pva_text crlf head (sf_aliases F))) sces = Some ext /\ tb = linked_scripts num tbl ext.

Lemma sce_line_fun l a b : sce_line l a -> sce_line l b -> a = b.
Proof. intros A B. rewrite <- (sce_tokens _ _ A). apply (sce_tokens _ _ B). Qed.
Section Link.
Context (F : script_files) (num : str -> N) (tb : script_tables) (Hok : script_files_ok F) (Hc : compiled_scripts F num tb).
Lemma lists_fun c a b : lists (sf_extensions F) c a -> lists (sf_extensions F) c b -> a = b.
Proof.
  intros (l & Hl & Cl & La) (l' & Hl' & Cl' & Lb). destruct Hok as (_ & _ & _ & _ & _ & Hs & _).
  assert (E : l = l'); [|subst l'; exact (sce_line_fun l a b La Lb)].
  apply data_in in Hl, Hl'. revert Hl Hl'. unfold separate in Hs. induction Hs as [|x ls Hx Hs IH]; [intros []|].
  rewrite Forall_forall in Hx. intros [->|H] [->|H']; auto; exfalso; [exact (Hx l' H' c Cl Cl')|exact (Hx l H c Cl' Cl)].
Qed.
Lemma link_script c : exists n, script_of tb c = num n /\ file_script F c n.
Proof.
  destruct Hc as (crlf & head & tbl & sces & ext & Ht & Hx & He & ->). destruct Hok as (H1 & H2 & H3 & _).
  destruct (C83_script crlf (sf_scripts F) tbl c H1 H2 H3 Ht) as (v & E & V). exists v. cbn [linked_scripts script_of]. rewrite E. auto.
Qed.
Lemma link_ext c : match extensions_of tb c with
  | Some l => exists ws vs, lists (sf_extensions F) c ws /\ length l = length ws /\ Forall2 (alias (sf_aliases F) SC) ws vs /\ (forall s, In s l <-> exists v, In v vs /\ s = num v)
  | None => forall ws, ~ lists (sf_extensions F) c ws end.
Proof.
  destruct Hc as (crlf & head & tbl & sces & ext & Ht & Hx & He & ->). destruct Hok as (_ & _ & _ & H4 & H5 & H6 & H7 & H8).
  destruct (C90_script_extensions crlf head (sf_aliases F) (sf_extensions F) sces H4 H5 H6 H7 H8 Hx) as (g & Eg & G).
  rewrite He in Eg. injection Eg as <-. destruct (G c) as (r & E & R). cbn [linked_scripts extensions_of]. rewrite E. destruct r as [vs|]; [|exact R].
  destruct R as (ws & vs' & Hl & Fa & Pm). exists ws, vs'. split; [exact Hl|]. split.
  - rewrite map_length, <- (Permutation_length Pm). symmetry. clear -Fa. induction Fa; cbn [length]; auto.
  - split; [exact Fa|]. intros s. rewrite in_map_iff. split; intros (v & A & B).
    + exists v. split; [apply (Permutation_in _ (Permutation_sym Pm)), B|auto].
    + exists v. split; [auto|apply (Permutation_in _ Pm), A].
Qed.
Lemma alias_fun a v v' : alias (sf_aliases F) SC a v -> alias (sf_aliases F) SC a v' -> v = v'.
Proof. destruct Hok as (_ & _ & _ & (_ & _ & H) & _). apply H. discriminate. Qed.
Lemma file_script_fun c a b : file_script F c a -> file_script F c b -> a = b.
Proof.
  destruct Hok as (_ & Hs & _). intros [(l & Hl & Cl & <-)|[Na ->]] [(l' & Hl' & Cl' & <-)|[Nb ->]]; try reflexivity.
  - assert (E : l = l'); [|now subst]. apply data_in in Hl, Hl'. revert Hl Hl'. unfold separate in Hs. induction Hs as [|x ls Hx Hs IH]; [intros []|].
    rewrite Forall_forall in Hx. intros [->|H] [->|H']; auto; exfalso; [exact (Hx l' H' c Cl Cl')|exact (Hx l H c Cl' Cl)].
  - destruct (Nb (st_prop l)). exists l. auto.
  - destruct (Na (st_prop l')). exists l'. auto.
Qed.
Lemma f2_l {A B} (R : A -> B -> Prop) l m x : Forall2 R l m -> In x l -> exists y, In y m /\ R x y.
Proof. induction 1 as [|a b l m Hab _ IH]; [intros []|]. intros [->|H]; [exists b; cbn; auto|]. destruct (IH H) as (y & A1 & A2). exists y. cbn. auto. Qed.
Lemma f2_r {A B} (R : A -> B -> Prop) l m y : Forall2 R l m -> In y m -> exists x, In x l /\ R x y.
Proof. induction 1 as [|a b l m Hab _ IH]; [intros []|]. intros [->|H]; [exists a; cbn; auto|]. destruct (IH H) as (x & A1 & A2). exists x. cbn. auto. Qed.
Lemma used_in c n : file_used_with F c n -> used_with tb c (num n).
Proof.
  intros [H|(ws & w & Hl & Hw & Ha)].
  - left. destruct (link_script c) as (m & -> & Hm). now rewrite (file_script_fun c n m H Hm).
  - right. pose proof (link_ext c) as E. destruct (extensions_of tb c) as [l|]; [|destruct (E ws Hl)].
    destruct E as (ws' & vs & Hl' & _ & Fa & I). exists l. split; [reflexivity|]. rewrite (lists_fun c ws ws' Hl Hl') in Hw.
    destruct (f2_l _ _ _ w Fa Hw) as (v & Hv & Av). apply I. exists v. split; [exact Hv|]. now rewrite (alias_fun w n v Ha Av).
Qed.
Lemma used_out c s : used_with tb c s -> exists n, s = num n /\ file_used_with F c n.
Proof.
  intros [->|(l & El & Hs)].
  - destruct (link_script c) as (m & E & Hm). exists m. split; [exact E|left; exact Hm].
  - pose proof (link_ext c) as E. rewrite El in E. destruct E as (ws & vs & Hl & _ & Fa & I). apply I in Hs as (v & Hv & ->). exists v. split; [reflexivity|].
    right. destruct (f2_r _ _ _ v Fa Hv) as (w & Hw & Aw). exists ws, w. auto.
Qed.
Context (Hf : script_facts F) (Hi : numbering num) (Hn : numbered num).
Lemma num_real n : n <> lit "Invalid" -> (real (num n) <-> real_script n).
Proof.
  destruct Hn as (N0 & N1 & N2). intros H. unfold real, real_script. rewrite <- N0, <- N1, <- N2. split.
  - intros (_ & A & B). split; congruence.
  - intros [A B]. split; [|split]; intros E; apply Hi in E; congruence.
Qed.
Lemma used_valid c n : file_used_with F c n -> n <> lit "Invalid".
Proof.
  destruct Hf as (H1 & _ & H3). intros [[H|[_ ->]]|(ws & w & A & B & C)]; [exact (H1 c n H)|discriminate|]. apply (H3 c ws w n A B C).
Qed.
Lemma link_data : script_data tb.
Proof.
  intros c l El. pose proof (link_ext c) as E. rewrite El in E. destruct E as (ws & vs & Hl & -> & Fa & I). destruct Hf as (_ & H2 & H3).
  split; [exact (H2 c ws Hl)|]. intros s Hs. apply I in Hs as (v & Hv & ->). destruct (f2_r _ _ _ v Fa Hv) as (w & Hw & Aw).
  destruct (H3 c ws w v Hl Hw Aw) as [R V]. now apply num_real.
Qed.
Lemma link_has_real c : has_real tb c <-> file_has_real F c.
Proof.
  split.
  - intros (s & Rs & Us). destruct (used_out c s Us) as (n & -> & Un). exists n. split; [|exact Un]. apply num_real; [exact (used_valid c n Un)|exact Rs].
  - intros (n & Rn & Un). exists (num n). split; [|exact (used_in c n Un)]. apply num_real; [exact (used_valid c n Un)|exact Rn].
Qed.
Lemma link_used c n : used_with tb c (num n) <-> file_used_with F c n.
Proof. split; [|apply used_in]. intros H. destruct (used_out c _ H) as (m & E & Hm). apply Hi in E. now subst. Qed.
Lemma link_shared t a b n : shared tb t a b (num n) <-> file_shared F t a b n.
Proof.
  unfold shared, file_shared. split; intros H i c I E R; apply link_used; apply (H i c I E), link_has_real, R.
Qed.
End Link.

(** ** The theorems *)
(** C119.  There is such a library for all well-formed files, and enumerators can be numbered. *)
Definition code (s : str) : N := fold_right (fun c r => 2 ^ c * (2 * r + 1)) 0 s.
Lemma code_step c : forall d a b, 2 ^ c * (2 * a + 1) = 2 ^ d * (2 * b + 1) -> c = d /\ a = b.
Proof.
  induction c as [|c IH] using N.peano_ind; intros d a b E.
  - destruct (N.eq_dec d 0) as [->|Hd]; [split; [reflexivity|rewrite N.pow_0_r in E; lia]|].
    exfalso. replace d with (N.succ (N.pred d)) in E by lia. rewrite N.pow_succ_r' in E. rewrite N.pow_0_r in E.
    assert (X : N.odd (1 * (2 * a + 1)) = true). { rewrite N.mul_1_l. rewrite N.odd_add_mul_2 || idtac. rewrite N.add_comm, N.odd_add_mul_2. reflexivity. }
    rewrite E in X. rewrite <- N.mul_assoc, N.odd_mul in X. cbn in X. discriminate.
  - destruct (N.eq_dec d 0) as [->|Hd].
    + exfalso. rewrite N.pow_succ_r' in E. rewrite N.pow_0_r in E.
      assert (X : N.odd (1 * (2 * b + 1)) = true) by (rewrite N.mul_1_l, N.add_comm, N.odd_add_mul_2; reflexivity).
      rewrite <- E in X. rewrite <- N.mul_assoc, N.odd_mul in X. cbn in X. discriminate.
    + replace d with (N.succ (N.pred d)) in E by lia. rewrite !N.pow_succ_r' in E. rewrite <- !N.mul_assoc in E.
      apply N.mul_cancel_l in E; [|lia]. destruct (IH _ _ _ E) as [-> ->]. split; lia.
Qed.
Lemma code_pos c r : 2 ^ c * (2 * r + 1) <> 0.
Proof. pose proof (N.pow_nonzero 2 c ltac:(lia)). nia. Qed.
Lemma code_inj a : forall b, code a = code b -> a = b.
Proof.
  induction a as [|c a IH]; intros [|d b] E; try reflexivity; cbn [code fold_right] in E.
  - symmetry in E. now apply code_pos in E.
  - now apply code_pos in E.
  - apply code_step in E as [-> E]. now rewrite (IH b E).
Qed.
Definition enum_demo (s : str) : N :=
  if str_eqb s (lit "Invalid") then 0 else if str_eqb s (lit "Common") then 1 else if str_eqb s (lit "Inherited") then 2 else 3 + code s.
Lemma enum_demo_inj : numbering enum_demo.
Proof.
  intros a b. unfold enum_demo.
  destruct (str_eqb a (lit "Invalid")) eqn:A0; [apply str_eqb_eq in A0|]; (destruct (str_eqb b (lit "Invalid")) eqn:B0; [apply str_eqb_eq in B0|]); try congruence;
  (destruct (str_eqb a (lit "Common")) eqn:A1; [apply str_eqb_eq in A1|]); (destruct (str_eqb b (lit "Common")) eqn:B1; [apply str_eqb_eq in B1|]); try congruence;
  (destruct (str_eqb a (lit "Inherited")) eqn:A2; [apply str_eqb_eq in A2|]); (destruct (str_eqb b (lit "Inherited")) eqn:B2; [apply str_eqb_eq in B2|]); try congruence;
  try (intros X; exfalso; lia). intros X. apply code_inj. lia.
Qed.
Theorem C119_numbering : exists num, numbering num /\ numbered num.
Proof. exists enum_demo. split; [exact enum_demo_inj|split; [|split]; reflexivity]. Qed.
Print Assumptions C119_numbering.
Theorem C119_builds : forall F num, script_files_ok F -> exists tb, compiled_scripts F num tb.
Proof.
  intros F num (H1 & H2 & H3 & H4 & H5 & H6 & H7 & H8).
  pose proof (rsort_ok (load_generic (file_text st_text false (sf_scripts F)))) as S1. pose proof (rsort_ok (load_sce (file_text st_text false (sf_extensions F)))) as S2.
  destruct (C90_script_extensions false [] (sf_aliases F) (sf_extensions F) _ H4 H5 H6 H7 H8 S2) as (g & Eg & _).
  eexists. exists false, [], (rsort (load_generic (file_text st_text false (sf_scripts F)))), (rsort (load_sce (file_text st_text false (sf_extensions F)))), g. split; [exact S1|]. split; [exact S2|]. split; [exact Eg|reflexivity].
Qed.
Print Assumptions C119_builds.

(** C119.  The scripts the segmenter sees for a code point are exactly those of the files. *)
Theorem C119_library_reads_files : forall F num tb, script_files_ok F -> compiled_scripts F num tb -> script_facts F -> numbering num -> numbered num ->
  forall c n, (script_of tb c = num n <-> file_script F c n) /\ (used_with tb c (num n) <-> file_used_with F c n) /\ script_data tb.
Proof.
  intros F num tb Hok Hc Hf Hi Hn c n. split; [|split; [exact (link_used F num tb Hok Hc Hi c n)|exact (link_data F num tb Hok Hc Hf Hi Hn)]].
  destruct (link_script F num tb Hok Hc c) as (m & E & Hm). rewrite E. split.
  - intros X. apply Hi in X. now subst.
  - intros X. now rewrite (file_script_fun F Hok c n m X Hm).
Qed.
Print Assumptions C119_library_reads_files.

(** C119.  The runs of every text partition it; a run has one script, by name, that its code points share; it ends only where no script is
    shared with the next code point too. *)
Definition C119_statement : Prop := forall F num tb, script_files_ok F -> compiled_scripts F num tb -> script_facts F -> numbering num -> numbered num ->
  forall t calls rs, script_runs tb calls (sseg_new t) = Ok rs -> forall a b s, is_run rs a b s ->
    (exists n, s = num n /\ file_shared F t a b n) /\ ((b < length t)%nat -> ~ exists n, file_shared F t a (S b) n).
(** C119 (maximality always; soundness whenever the run shares a real script; Common when no code point of the run has a real script). *)
Theorem C119_script_runs_partial : forall F num tb, script_files_ok F -> compiled_scripts F num tb -> script_facts F -> numbering num -> numbered num ->
  forall t calls, (length t < calls)%nat -> exists rs, script_runs tb calls (sseg_new t) = Ok rs /\ ends_at (length t) 0 (map snd rs) /\
  forall a b s, is_run rs a b s ->
    ((b < length t)%nat -> ~ exists n, file_shared F t a (S b) n) /\
    ((exists i c, (a <= i < b)%nat /\ nth_error t i = Some c /\ file_has_real F c) -> (exists x, real_script x /\ x <> lit "Invalid" /\ file_shared F t a b x) ->
       exists n, s = num n /\ real_script n /\ file_shared F t a b n) /\
    ((forall i c, (a <= i < b)%nat -> nth_error t i = Some c -> ~ file_has_real F c) -> s = num (lit "Common")).
Proof.
  intros F num tb Hok Hc Hf Hi Hn t calls Hl. destruct (C54_partition tb t calls Hl) as (rs & E & P). exists rs. split; [exact E|]. split; [exact P|].
  pose proof (link_data F num tb Hok Hc Hf Hi Hn) as D. pose proof (link_shared F num tb Hok Hc Hf Hi Hn) as Sh. pose proof (link_has_real F num tb Hok Hc Hf Hi Hn) as Hr.
  intros a b s R. destruct (C55_sound_partial tb t calls rs D E a b s R) as [H1 H2]. split; [|split].
  - intros Hb (n & X). apply (C55_maximal_partial tb t calls rs D E a b s R Hb). exists (num n). now apply Sh.
  - intros (i & c & Ic & Ec & Rc) (x & Rx & Vx & Sx). destruct H1 as [Rs Ss].
    + exists i, c. rewrite Hr. auto.
    + exists (num x). split; [now apply (num_real num Hi Hn)|now apply Sh].
    + assert (U : used_with tb c s) by (apply (Ss i c Ic Ec), Hr, Rc). destruct (used_out F num tb Hok Hc c s U) as (n & -> & Un). exists n. split; [reflexivity|].
      split; [apply (num_real num Hi Hn); [exact (used_valid F Hf c n Un)|exact Rs]|now apply Sh].
  - intros H. destruct Hn as (_ & -> & _). apply H2. intros i c Ic Ec Rc. apply (H i c Ic Ec), Hr, Rc.
Qed.
Print Assumptions C119_script_runs_partial.
Lemma has_real_dec tb c : has_real tb c \/ ~ has_real tb c.
Proof.
  pose (cands := script_of tb c :: match extensions_of tb c with Some l => l | None => [] end).
  assert (I : forall s, used_with tb c s <-> In s cands).
  { intros s. unfold used_with, cands. cbn [In]. split.
    - intros [->|(l & -> & H)]; auto.
    - intros [<-|H]; [auto|]. destruct (extensions_of tb c) as [l|]; [|destruct H]. right. exists l. auto. }
  destruct (existsb is_preferred cands) eqn:E.
  - left. apply existsb_exists in E as (s & Hs & R). exists s. split; [|now apply I]. unfold is_preferred in R. unfold real.
    destruct (N.eqb_spec s sc_invalid), (N.eqb_spec s sc_common), (N.eqb_spec s sc_inherited); cbn in R; try discriminate. auto.
  - right. intros (s & (A & B & C) & U). apply I in U. apply not_true_iff_false in E. apply E. apply existsb_exists. exists s. split; [exact U|].
    unfold is_preferred. apply N.eqb_neq in A, B, C. now rewrite A, B, C.
Qed.
Lemma real_in tb t a b : (exists i c, (a <= i < b)%nat /\ nth_error t i = Some c /\ has_real tb c) \/
  (forall i c, (a <= i < b)%nat -> nth_error t i = Some c -> ~ has_real tb c).
Proof.
  induction b as [|b IH]; [right; intros; lia|]. destruct IH as [(i & c & I & E & R)|No]; [left; exists i, c; split; [lia|auto]|].
  destruct (nth_error t b) as [c|] eqn:E.
  - destruct (has_real_dec tb c) as [R|R]; [destruct (le_lt_dec a b) as [L|L]|].
    + left. exists b, c. auto with arith.
    + right. intros; lia.
    + right. intros i d I Ei. destruct (Nat.eq_dec i b) as [->|]; [replace d with c by congruence; exact R|]. apply (No i d); [lia|exact Ei].
  - right. intros i d I Ei. destruct (Nat.eq_dec i b) as [->|]; [congruence|]. apply (No i d); [lia|exact Ei].
Qed.
(** C119 (full, for texts in which no code point lists a real script beside Common or Inherited). *)
Theorem C119_plain_partial : forall F num tb, script_files_ok F -> compiled_scripts F num tb -> script_facts F -> numbering num -> numbered num ->
  forall t calls rs, (forall c n, In c t -> file_has_real F c -> file_used_with F c n -> real_script n) ->
  script_runs tb calls (sseg_new t) = Ok rs -> forall a b s, is_run rs a b s ->
    (exists n, s = num n /\ file_shared F t a b n) /\ ((b < length t)%nat -> ~ exists n, file_shared F t a (S b) n).
Proof.
  intros F num tb Hok Hc Hf Hi Hn t calls rs Hp E a b s R.
  pose proof (link_data F num tb Hok Hc Hf Hi Hn) as D. pose proof (link_shared F num tb Hok Hc Hf Hi Hn) as Sh. pose proof (link_has_real F num tb Hok Hc Hf Hi Hn) as Hr.
  assert (Hp' : forall c s, In c t -> has_real tb c -> used_with tb c s -> real s).
  { intros c s' Ic Rc Uc. destruct (used_out F num tb Hok Hc c s' Uc) as (n & -> & Un). apply (num_real num Hi Hn); [exact (used_valid F Hf c n Un)|].
    apply (Hp c n Ic); [now apply Hr|exact Un]. }
  destruct (C55_plain_partial tb t calls rs D E Hp' a b s R) as [H1 H2]. split.
  - destruct (C55_sound_partial tb t calls rs D E a b s R) as [G1 G2].
    destruct (real_in tb t a b) as [(i & c & Ic & Ec & Rc)|No].
    + destruct (used_out F num tb Hok Hc c s (H1 i c Ic Ec Rc)) as (n & -> & _). exists n. split; [reflexivity|now apply Sh].
    + pose proof (G2 No) as Es. exists (lit "Common"). destruct Hn as (_ & N1 & _). rewrite N1. split; [exact Es|]. intros i c Ic Ec Rc. destruct (No i c Ic Ec). now apply Hr.
  - intros Hb (n & X). apply (H2 Hb). exists (num n). now apply Sh.
Qed.
Print Assumptions C119_plain_partial.

(** C119 (exactly when a run is sound): the script named is one the run's code points share by the files if and only if they share any
    script of its kind, a real one where a real one is named. *)
Theorem C119_exact_partial : forall F num tb, script_files_ok F -> compiled_scripts F num tb -> script_facts F -> numbering num -> numbered num ->
  forall t calls rs, script_runs tb calls (sseg_new t) = Ok rs -> forall a b n, is_run rs a b (num n) ->
    (file_shared F t a b n <-> exists x, file_shared F t a b x /\ (real_script n -> real_script x)).
Proof.
  intros F num tb Hok Hc Hf Hi Hn t calls rs E a b n R.
  pose proof (link_data F num tb Hok Hc Hf Hi Hn) as D. pose proof (link_shared F num tb Hok Hc Hf Hi Hn) as Sh.
  split; [intros H; exists n; auto|]. intros (x & Hx & Hk).
  destruct (real_in tb t a b) as [(i & c & Ic & Ec & Rc)|No].
  - apply Sh. apply (C55_exact_partial tb t calls rs D E a b _ R). exists (num x). split; [now apply Sh|]. intros Rn.
    assert (Vx : x <> lit "Invalid") by (apply (used_valid F Hf c x); apply (Hx i c Ic Ec); now apply (link_has_real F num tb Hok Hc Hf Hi Hn)).
    apply (num_real num Hi Hn x Vx), Hk. destruct (list_eq_dec N.eq_dec n (lit "Invalid")) as [->|Vn].
    + exfalso. destruct Hn as (N0 & _ & _). rewrite N0 in Rn. now apply (proj1 Rn).
    + now apply (num_real num Hi Hn n Vn).
  - intros i c Ic Ec Rc. destruct (No i c Ic Ec). now apply (link_has_real F num tb Hok Hc Hf Hi Hn).
Qed.
Print Assumptions C119_exact_partial.

(** C119 (refuted).  IDEOGRAPHIC COMMA, ARABIC COMMA, 'a' become one Latin run, with the lines of the database for these characters. *)
Lemma demo_tables : exists tb, compiled_scripts SF_demo enum_demo tb /\ tb = linked_scripts enum_demo
    (rsort (load_generic (file_text st_text false (sf_scripts SF_demo))))
    (match api_script_extensions (load_pva (pva_text false [] (sf_aliases SF_demo))) (rsort (load_sce (file_text st_text false (sf_extensions SF_demo)))) with Some g => g | None => fun _ => UB end).
Proof.
  destruct SF_demo_ok as [(H1 & H2 & H3 & H4 & H5 & H6 & H7 & H8) _].
  pose proof (rsort_ok (load_generic (file_text st_text false (sf_scripts SF_demo)))) as S1. pose proof (rsort_ok (load_sce (file_text st_text false (sf_extensions SF_demo)))) as S2.
  destruct (C90_script_extensions false [] (sf_aliases SF_demo) (sf_extensions SF_demo) _ H4 H5 H6 H7 H8 S2) as (g & Eg & _).
  eexists. split; [|reflexivity]. exists false, [], (rsort (load_generic (file_text st_text false (sf_scripts SF_demo)))), (rsort (load_sce (file_text st_text false (sf_extensions SF_demo)))), g.
  split; [exact S1|]. split; [exact S2|]. split; [exact Eg|]. now rewrite Eg.
Qed.
Lemma demo_numbered : numbering enum_demo /\ numbered enum_demo.
Proof.
  split; [|split; [|split]; reflexivity]. exact enum_demo_inj.
Qed.
Theorem C119_sound_refuted : ~ C119_statement.
Proof.
  intros H. destruct demo_tables as (tb & Hc & E). destruct SF_demo_ok as [Hok Hf]. destruct demo_numbered as [Hi Hn].
  assert (R : script_runs tb 4 (sseg_new [0x3001; 0x60C; 0x61]) = Ok [(enum_demo (lit "Latin"), 3%nat)]) by (rewrite E; vm_compute; reflexivity).
  destruct (H SF_demo enum_demo tb Hok Hc Hf Hi Hn _ _ _ R 0%nat 3%nat _ (run_here _ _ _ _)) as [(n & En & Hs) _]. apply Hi in En. subst n.
  assert (U : used_with tb 0x3001 (enum_demo (lit "Latin"))).
  { apply (link_used SF_demo enum_demo tb Hok Hc Hi), (Hs 0%nat 0x3001); [lia|reflexivity|]. apply (link_has_real SF_demo enum_demo tb Hok Hc Hf Hi Hn).
    exists (enum_demo (lit "Han")). split; [repeat split; vm_compute; discriminate|]. right. rewrite E. eexists. split; [vm_compute; reflexivity|]. vm_compute. tauto. }
  destruct U as [U|(l & El & U)].
  - rewrite E in U. vm_compute in U. discriminate.
  - rewrite E in El. vm_compute in El. injection El as <-. vm_compute in U. repeat (destruct U as [U|U]; [discriminate U|]). destruct U.
Qed.
Print Assumptions C119_sound_refuted.
Example C119_demo : exists tb, compiled_scripts SF_demo enum_demo tb /\
  script_runs tb 8 (sseg_new [0x20; 0x3042; 0x30FC; 0x3001; 0x61; 0x62; 0x627]) = Ok [(enum_demo (lit "Hiragana"), 4%nat); (enum_demo (lit "Latin"), 6%nat); (enum_demo (lit "Arabic"), 7%nat)].
Proof. destruct demo_tables as (tb & Hc & E). exists tb. split; [exact Hc|]. rewrite E. vm_compute. reflexivity. Qed.
(** a text that meets the hypothesis of C119_plain_partial *)
Example C119_plain_demo : forall c n, In c [0x3042; 0x20; 0x61; 0x627] -> file_has_real SF_demo c -> file_used_with SF_demo c n -> real_script n.
Proof.
  destruct demo_tables as (tb & Hc & E). destruct SF_demo_ok as [Hok Hf]. destruct demo_numbered as [Hi Hn]. intros c n I R U.
  apply (link_has_real SF_demo enum_demo tb Hok Hc Hf Hi Hn) in R. pose proof (used_valid SF_demo Hf c n U) as V. apply (num_real enum_demo Hi Hn n V).
  apply (used_in SF_demo enum_demo tb Hok Hc) in U. rewrite E in *. destruct I as [<-|[<-|[<-|[<-|[]]]]].
  1,3,4: (destruct U as [->|(l & El & _)]; [|vm_compute in El; discriminate]; repeat split; vm_compute; discriminate).
  exfalso. destruct R as (s & (_ & Rs & _) & [->|(l & El & _)]); [apply Rs; vm_compute; reflexivity|vm_compute in El; discriminate].
Qed.

(** C119.  Runs: of every text, the common refinement of these script runs and of the emoji segments by the categories of the files. *)
Theorem C119_runs : forall F num tb G crlf u e, script_files_ok F -> compiled_scripts F num tb -> files_ok G -> compiled crlf G u e ->
  forall t efuel fuel calls, (length t < efuel)%nat -> (1 <= fuel)%nat -> (length t < calls)%nat ->
  exists scripts ts runs, script_runs tb calls (sseg_new t) = Ok scripts /\ describes_ecat G e /\ Spec_Emoji.tokens (map e t) ts /\
    run_segments tb e efuel fuel calls t = Ok runs /\
    common_refinement (length t) [map (fun r => (snd r, PScript (fst r))) scripts; map (fun r => (fst r, PEmoji (snd r))) (groups 0 ts)] runs.
Proof.
  intros F num tb G crlf u e Hok Hc Hg Hcu t efuel fuel calls He Hf Hl.
  destruct (C58_run_segmenter tb e t efuel fuel calls He Hf Hl) as (scripts & e0 & emojis & runs & E1 & E2 & E3 & E4 & R).
  destruct (C57_segments (map e t)) as (st & ts & E5 & T & A). rewrite E5 in E2. injection E2 as <-. rewrite (A efuel calls) in E3 by (now rewrite map_length).
  injection E3 as <-. exists scripts, ts, runs. split; [exact E1|]. split; [apply (C116_library_reads_files crlf G u e Hg Hcu)|]. auto.
Qed.
Print Assumptions C119_runs.
