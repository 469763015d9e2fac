(** Theorems about multistage tables: C53, C68. *)
From Verif Require Import Base M_Multistage Spec_Multistage P_Multistage.
Require Import Lia.
Open Scope N_scope.

(** C53.  generate() terminates without undefined behaviour and get(i) returns the i-th input value, for every element type, every
    block hash, every block size and index widths that can number the different blocks and values.  Entry 0 answers out of range. *)
Theorem C53_lookup : forall T eqb hash BS W1 W2 sz (input : list (cell T)) n,
  (0 < BS)%nat -> (0 < n)%nat -> length input = (n * BS)%nat -> objects sz input -> eq_ok eqb ->
  few_values W2 input -> few_blocks BS W1 input ->
  exists g, generate T eqb hash BS W1 W2 input = Ok g /\
    (forall i v b, nth_error input i = Some (v, b) -> unsafe_get BS g (N.of_nat i) = Ok v) /\
    (forall max i v b, N.of_nat (length input) = max + 1 -> i <= max -> nth_error input (N.to_nat i) = Some (v, b) ->
       get BS max g i = Ok v) /\
    (forall max i v b, max < i -> nth_error input 0 = Some (v, b) -> get BS max g i = Ok v).
Proof.
  intros T eqb hash BS W1 W2 sz input n HB Hn L HO HE HV HF.
  destruct (lookup_ok T eqb hash BS W1 W2 input sz HB HO HE HV n L Hn HF) as (g & E & _ & H). exists g. split; [exact E|]. split.
  - intros i v b Hi. apply (H i (v, b) Hi).
  - split.
    + intros max i v b Lm Hi Hv. unfold get. destruct (N.leb_spec i max) as [_|C]; [|clear - Hi C; lia].
      pose proof (H _ _ Hv) as Q. rewrite Nnat.N2Nat.id in Q. exact Q.
    + intros max i v b Hi Hv. unfold get. destruct (N.leb_spec i max) as [C|_]; [clear - Hi C; lia|]. apply (H 0%nat _ Hv).
Qed.
Print Assumptions C53_lookup.

(** C53.  Every distinct value is stored once. *)
Theorem C53_values_once : forall T eqb hash BS W1 W2 (input : list (cell T)) n,
  (0 < BS)%nat -> (0 < n)%nat -> length input = (n * BS)%nat -> eq_ok eqb -> few_values W2 input ->
  exists g, generate T eqb hash BS W1 W2 input = Ok g /\ NoDup (g3 g) /\ (forall v, In v (g3 g) -> exists c, In c input /\ fst c = v).
Proof.
  intros T eqb hash BS W1 W2 input n HB Hn L HE HV.
  destruct (generate_inv T eqb hash BS W1 W2 input HB HE HV n L Hn) as (g & cr & E & I & _). exists g. split; [exact E|].
  split; apply (iV _ _ _ _ _ _ _ _ I).
Qed.
Print Assumptions C53_values_once.

(** C53.  verify() accepts exactly the tables whose every lookup equals the input, whatever produced them; in particular it accepts
    what generate() makes under the bounds of C53_lookup. *)
Theorem C53_verify_exact : forall T eqb BS (input : list (cell T)) (g : gen T), eq_ok eqb ->
  (verify T eqb BS g input = Ok true <->
   forall i v b, nth_error input i = Some (v, b) -> unsafe_get BS g (N.of_nat i) = Ok v).
Proof.
  intros T eqb BS input g HE. unfold verify. split.
  - intros H i v b Hi. exact (verify_from_sound T eqb BS HE g input 0 H i (v, b) Hi).
  - intros H. apply verify_from_ok; auto. intros i [v b] Hi. exact (H i v b Hi).
Qed.
Print Assumptions C53_verify_exact.

(** a small table with a repeated block, a repeated value and a colliding hash *)
Definition mt_demo : list (cell N) := map (fun v => (v, [v])) [7; 8; 7; 8; 8; 9; 7; 8].
Example C53_demo : objects 1 mt_demo /\ eq_ok N.eqb /\ few_values 3 mt_demo /\ few_blocks 2 2 mt_demo /\ length mt_demo = (4 * 2)%nat.
Proof.
  split; [|split; [exact N.eqb_eq|split; [|split; [|reflexivity]]]].
  - split; [apply Forall_forall; intros c Hc; apply in_map_iff in Hc as (v & <- & _); reflexivity|].
    intros a b Ha Hb. apply in_map_iff in Ha as (x & <- & _). apply in_map_iff in Hb as (y & <- & _). cbn. congruence.
  - exists [7; 8; 9]. split; [cbn; lia|]. intros c Hc. apply in_map_iff in Hc as (v & <- & Hv). cbn in *. tauto.
  - exists [[[7]; [8]]; [[8]; [9]]]. split; [cbn; lia|]. intros b Hb. cbn in Hb.
    destruct b as [|[|[|[|b]]]]; cbn; auto. lia.
Qed.
Example C53_demo_run : exists g, generate N N.eqb (fun _ => 5) 2 2 3 mt_demo = Ok g /\ g1 g = [0; 0; 1; 0] /\ g2 g = [0; 1; 1; 2] /\ g3 g = [7; 8; 9].
Proof. eexists. split; [vm_compute; reflexivity|]. vm_compute. auto. Qed.

(** C68.  codepoint_properties::name(cp) is the name of cp. *)
Definition C68_statement : Prop := forall eqb hash sz value rep g,
  eq_ok eqb -> string_objects sz rep -> few_values 65536 (name_cells value rep) ->
  generate (list N) eqb hash 256 256 65536 (name_cells value rep) = Ok g ->
  forall cp, cp <= 0x10FFFF -> get 256 0x10FFFF g cp = Ok (value cp).

Definition cells_of (value rep : N -> list N) (n : nat) : list (cell (list N)) := map (fun i => (value (N.of_nat i), rep (N.of_nat i))) (seq 0 n).
Lemma cells_nth value rep n i : (i < n)%nat -> nth_error (cells_of value rep n) i = Some (value (N.of_nat i), rep (N.of_nat i)).
Proof.
  intros H. unfold cells_of. rewrite nth_error_map, (nth_error_nth' _ 0%nat) by now rewrite seq_length. now rewrite seq_nth.
Qed.
Lemma cells_len value rep n : length (cells_of value rep n) = n.
Proof. unfold cells_of. now rewrite map_length, seq_length. Qed.
Lemma cells_objects sz value rep n : string_objects sz rep -> objects sz (cells_of value rep n).
Proof.
  intros [A B]. split.
  - apply Forall_forall. intros c Hc. apply in_map_iff in Hc as (i & <- & _). apply A.
  - intros a b Ha Hb. apply in_map_iff in Ha as (i & <- & _). apply in_map_iff in Hb as (j & <- & _). cbn [fst snd]. intros E.
    now rewrite (B _ _ E).
Qed.
Lemma head_eq {A} (l m : list A) : l = m -> nth_error l 0 = nth_error m 0. Proof. now intros ->. Qed.
Lemma cells_differ sz value rep n : string_objects sz rep -> blocks_differ 256 (cells_of value rep n).
Proof.
  intros [_ B] a b. rewrite (cells_len value rep). intros Ha Hb E. apply head_eq in E. unfold block_reps in E. rewrite !nth_error_map in E.
  rewrite !nth_firstn, !nth_skipn in E by lia. rewrite !cells_nth in E by lia. cbn [option_map snd] in E. injection E as E.
  apply B in E. lia.
Qed.
Definition ncp : nat := N.to_nat 0x110000.
Lemma name_cells_eq value rep : name_cells value rep = cells_of value rep ncp.
Proof. unfold name_cells, cells_of, ncp. exact eq_refl. Qed.
Definition nblk : nat := N.to_nat 4352.
Lemma nblk_eq : ncp = (nblk * 256)%nat.
Proof. unfold ncp, nblk. change 256%nat with (N.to_nat 256). rewrite <- Nnat.N2Nat.inj_mul. f_equal. Qed.
Lemma ncp_N : N.of_nat ncp = 0x110000. Proof. unfold ncp. now rewrite Nnat.N2Nat.id. Qed.
Lemma nblk_N : N.of_nat nblk = 4352. Proof. unfold nblk. now rewrite Nnat.N2Nat.id. Qed.
Global Opaque ncp nblk.

(** C68 (what happens instead).  The name of every code point is that of the code point with the same low 16 bits. *)
Theorem C68_names_wrap_partial : forall eqb hash sz value rep,
  eq_ok eqb -> string_objects sz rep -> few_values 65536 (name_cells value rep) ->
  exists g, generate (list N) eqb hash 256 256 65536 (name_cells value rep) = Ok g /\
    forall cp, cp <= 0x10FFFF -> get 256 0x10FFFF g cp = Ok (value (cp mod 65536)).
Proof.
  intros eqb hash sz value rep HE HS HV. rewrite name_cells_eq in *. pose proof ncp_N as NC. pose proof nblk_N as NB.
  assert (L0 : length (cells_of value rep ncp) = (nblk * 256)%nat) by (rewrite cells_len; apply nblk_eq).
  destruct (lookup_wrapped (list N) eqb hash 256 256 65536 (cells_of value rep ncp) sz ltac:(lia) (cells_objects sz value rep ncp HS) HE HV
    nblk L0 ltac:(lia) ltac:(lia) (cells_differ sz value rep ncp HS)) as (g & E & H).
  exists g. split; [exact E|]. intros cp Hcp. unfold get. destruct (N.leb_spec cp 0x10FFFF) as [_|C]; [|clear - Hcp C; lia].
  assert (L : (N.to_nat cp < length (cells_of value rep ncp))%nat) by (rewrite cells_len; clear - Hcp NC; lia).
  rewrite <- (Nnat.N2Nat.id cp) at 1.
  assert (K : (N.to_nat (N.of_nat (N.to_nat cp / 256) mod 256) * 256 + N.to_nat cp mod 256)%nat = N.to_nat (cp mod 65536)).
  { rewrite Nnat.Nat2N.inj_div, Nnat.N2Nat.id. change (N.of_nat 256) with 256. change 256%nat with (N.to_nat 256).
    rewrite <- Nnat.N2Nat.inj_mod, <- Nnat.N2Nat.inj_mul, <- Nnat.N2Nat.inj_add. f_equal.
    change 65536 with (256 * 256). rewrite N.mod_mul_r by lia. rewrite N.add_comm. f_equal. apply N.mul_comm. }
  refine (H (N.to_nat cp) (value (cp mod 65536), rep (cp mod 65536)) L _). rewrite K.
  assert (cp mod 65536 < 65536) by (apply N.mod_lt; discriminate).
  rewrite cells_nth by (revert H0; generalize (cp mod 65536); clear - NC; intros m Hm; lia). now rewrite Nnat.N2Nat.id.
Qed.
Print Assumptions C68_names_wrap_partial.

(** C68 (refuted).  U+10000 gets the name of U+0000. *)
Definition rep_demo (c : N) : list N := [c].
Definition value_demo (c : N) : list N := if c =? 0x10000 then [76; 73; 78] else [].
Lemma rep_demo_ok : string_objects 1 rep_demo. Proof. split; [reflexivity|]. unfold rep_demo. intros c d. congruence. Qed.
Definition name_eqb (a b : list N) : bool := if list_eq_dec N.eq_dec a b then true else false.
Lemma name_eqb_ok : eq_ok name_eqb. Proof. intros a b. unfold name_eqb. destruct (list_eq_dec _ a b); split; auto; discriminate. Qed.
Lemma value_demo_few : few_values 65536 (name_cells value_demo rep_demo).
Proof.
  rewrite name_cells_eq.
  exists [[]; [76; 73; 78]]. split; [cbn; lia|]. intros c Hc. apply in_map_iff in Hc as (i & <- & _). cbn [fst]. unfold value_demo.
  destruct (_ =? _); cbn; auto.
Qed.
Theorem C68_names_refuted : ~ C68_statement.
Proof.
  intros S.
  destruct (C68_names_wrap_partial name_eqb (fun _ => 0) 1 value_demo rep_demo name_eqb_ok rep_demo_ok value_demo_few) as (g & E & H).
  pose proof (S name_eqb (fun _ => 0) 1%nat value_demo rep_demo g name_eqb_ok rep_demo_ok value_demo_few E 0x10000 ltac:(lia)) as Q.
  rewrite (H 0x10000 ltac:(lia)) in Q. vm_compute in Q. discriminate.
Qed.
Print Assumptions C68_names_refuted.

(** C68.  In the first plane every name is right. *)
Theorem C68_names_bmp_partial : forall eqb hash sz value rep,
  eq_ok eqb -> string_objects sz rep -> few_values 65536 (name_cells value rep) ->
  exists g, generate (list N) eqb hash 256 256 65536 (name_cells value rep) = Ok g /\
    forall cp, cp <= 0xFFFF -> get 256 0x10FFFF g cp = Ok (value cp).
Proof.
  intros eqb hash sz value rep HE HS HV. destruct (C68_names_wrap_partial eqb hash sz value rep HE HS HV) as (g & E & H).
  exists g. split; [exact E|]. intros cp Hcp. rewrite (H cp) by (clear - Hcp; lia). rewrite N.mod_small by (clear - Hcp; lia). reflexivity.
Qed.
Print Assumptions C68_names_bmp_partial.

(** C68.  With an index type for stage 1 that can number all blocks, every name is right (the repair: uint16_t). *)
Theorem C68_names_wide_partial : forall eqb hash sz value rep,
  eq_ok eqb -> string_objects sz rep -> few_values 65536 (name_cells value rep) ->
  exists g, generate (list N) eqb hash 256 65536 65536 (name_cells value rep) = Ok g /\
    forall cp, cp <= 0x10FFFF -> get 256 0x10FFFF g cp = Ok (value cp).
Proof.
  intros eqb hash sz value rep HE HS HV. rewrite name_cells_eq in *. pose proof ncp_N as NC. pose proof nblk_N as NB.
  assert (L0 : length (cells_of value rep ncp) = (nblk * 256)%nat) by (rewrite cells_len; apply nblk_eq).
  assert (FB : few_blocks 256 65536 (cells_of value rep ncp)).
  { exists (map (block_reps (list N) 256 (cells_of value rep ncp)) (seq 0 nblk)). rewrite map_length, seq_length. split; [lia|].
    intros b Hb. rewrite L0 in Hb. apply in_map, in_seq. lia. }
  destruct (C53_lookup (list N) eqb hash 256 65536 65536 sz (cells_of value rep ncp) nblk ltac:(lia) ltac:(lia) L0
    (cells_objects sz value rep ncp HS) HE HV FB) as (g & E & _ & H & _).
  exists g. split; [exact E|]. intros cp Hcp. apply (H 0x10FFFF cp (value cp) (rep cp)).
  - rewrite cells_len, NC. reflexivity.
  - exact Hcp.
  - rewrite cells_nth by (clear - Hcp NC; lia). now rewrite Nnat.N2Nat.id.
Qed.
Print Assumptions C68_names_wide_partial.
