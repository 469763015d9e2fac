(** The ranges of the stages that the generator computes (C133). *)
From Coq Require Import Lia.
From Verif Require Import Base M_Multistage Spec_Multistage P_Multistage.
Open Scope N_scope.

Section stages.
  Variables (T : Type) (eqb : T -> T -> bool) (hash : list N -> N) (BS : nat) (W1 W2 : N) (input : list (cell T)) (sz n : nat).
  Hypothesis HB : (0 < BS)%nat.
  Hypothesis Hn : (0 < n)%nat.
  Hypothesis L : length input = (n * BS)%nat.
  Hypothesis HO : objects sz input.
  Hypothesis HE : eq_ok eqb.
  Hypothesis HV : few_values W2 input.
  Hypothesis HF : few_blocks BS W1 input.
  Lemma stage_ranges : exists g, generate T eqb hash BS W1 W2 input = Ok g /\
    (length (g1 g) = n /\ Forall (fun x => x < W1) (g1 g)) /\
    (g2 g <> [] /\ N.of_nat (length (g2 g)) <= W1 * N.of_nat BS /\ Forall (fun x => x < W2) (g2 g)) /\
    (N.of_nat (length (g3 g)) <= W2 /\ forall v, In v (g3 g) -> exists c, In c input /\ fst c = v).
  Proof.
    destruct (generate_inv T eqb hash BS W1 W2 input HB HE HV n L Hn) as (g & cr & E & I & _). exists g. split; [exact E|].
    pose proof (cr_small T eqb hash BS W1 W2 input HB HE HV n g cr L HF I) as Cs || pose proof (cr_small T hash BS W1 input n g cr L HF I) as Cs.
    assert (L3 : N.of_nat (length (g3 g)) <= W2).
    { destruct (iV _ _ _ _ _ _ _ _ I) as (_ & _ & ND & Inc). destruct HV as (vs & Hl & Hi).
      assert (K : (length (g3 g) <= length vs)%nat).
      { apply NoDup_incl_length; [exact ND|]. intros x Hx. destruct (Inc x Hx) as (d & Hd & <-). auto. }
      clear - K Hl. lia. }
    split; [split; [exact (iL1 _ _ _ _ _ _ _ _ I)|]|split; [split; [|split]|split; [exact L3|apply (iV _ _ _ _ _ _ _ _ I)]]].
    - apply Forall_forall. intros x Hx. apply In_nth_error in Hx as [i Hi].
      assert (Hin : (i < n)%nat). { rewrite <- (iL1 _ _ _ _ _ _ _ _ I). apply nth_error_Some. congruence. }
      destruct (iB _ _ _ _ _ _ _ _ I i Hin) as (j & c & A1 & _ & A3). rewrite A3 in Hi. injection Hi as <-. apply N.mod_lt.
      assert (Hj : (j < length cr)%nat) by (apply nth_error_Some; congruence). clear - Hj Cs. lia.
    - destruct (iB _ _ _ _ _ _ _ _ I 0%nat Hn) as (j & c & A1 & _). intros Z. pose proof (iL2 _ _ _ _ _ _ _ _ I) as L2. rewrite Z in L2. cbn [length] in L2.
      assert (Hj : (j < length cr)%nat) by (apply nth_error_Some; congruence). clear - Hj L2 HB. nia.
    - rewrite (iL2 _ _ _ _ _ _ _ _ I). rewrite Nnat.Nat2N.inj_mul. apply N.mul_le_mono_r. exact Cs.
    - apply Forall_forall. intros x Hx. apply In_nth_error in Hx as [i Hi].
      assert (Hil : (i < length cr * BS)%nat). { rewrite <- (iL2 _ _ _ _ _ _ _ _ I). apply nth_error_Some. congruence. }
      assert (Hj : (i / BS < length cr)%nat) by (apply Nat.div_lt_upper_bound; [lia|]; clear - Hil; lia).
      destruct (nth_error cr (i / BS)) as [c|] eqn:Ec; [|apply nth_error_None in Ec; lia].
      destruct (iC _ _ _ _ _ _ _ _ I _ _ Ec) as [Hc _].
      assert (Lb : length (blk T BS input c) = BS). { apply blk_len. rewrite L. clear - Hc. nia. }
      assert (Ho : (i mod BS < BS)%nat) by (apply Nat.mod_upper_bound; lia).
      destruct (nth_error (blk T BS input c) (i mod BS)) as [v|] eqn:Ev; [|apply nth_error_None in Ev; lia].
      destruct (iS _ _ _ _ _ _ _ _ I _ _ Ec _ _ Ev) as (k & A1 & A2).
      replace (i / BS * BS + i mod BS)%nat with i in A1 by (pose proof (Nat.div_mod i BS); lia).
      rewrite A1 in Hi. injection Hi as <-.
      assert (Hk : (N.to_nat k < length (g3 g))%nat) by (apply nth_error_Some; congruence). clear - Hk L3. lia.
  Qed.
End stages.
