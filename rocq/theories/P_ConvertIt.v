(** Exactly when iterator conversion leaves its input. *)
From Verif Require Import Base Spec_Utf Spec_ConvertIt M_Utf8 M_Convert P_Utf8 P_Convert.
Open Scope N_scope.

(** reading up to [n] continuation bytes: the rest, or the end was passed *)
Fixpoint conts (n : nat) (l : list N) : option (list N) :=
  match n with O => Some l | S n' => match l with [] => None | x :: r => if not_cont x then Some r else conts n' r end end.
Lemma decoder_conts b l : match conts (announced b) l with Some r => exists o, decoder_char_it (b :: l) = Ok (o, r) | None => decoder_char_it (b :: l) = UB end.
Proof.
  unfold decoder_char_it, announced. cbn [next_it bindR].
  destruct (N.ltb_spec b 0x80); [destruct (N.ltb_spec b 0xC0); [|lia]; cbn [conts]; eexists; reflexivity|].
  destruct (b <? 0xC0); [cbn [conts]; eexists; reflexivity|].
  Ltac cstep := match goal with |- context [next_it ?l] => destruct l as [|? ?]; cbn [next_it bindR conts]; [reflexivity|];
    match goal with |- context [not_cont ?x] => destruct (not_cont x); [eexists; reflexivity|] end end.
  destruct (b <? 0xE0); [cstep; eexists; reflexivity|].
  destruct (b <? 0xF0); [do 2 cstep; eexists; reflexivity|].
  destruct (b <? 0xF8); [do 3 cstep; eexists; reflexivity|].
  destruct (b <? 0xFC); [do 4 cstep; eexists; reflexivity|].
  destruct (b <? 0xFE); [do 5 cstep; eexists; reflexivity|].
  cbn [conts]. eexists. reflexivity.
Qed.
Lemma cont_iff b : byte b -> not_cont b = false <-> continuation b.
Proof. intros H. rewrite not_cont_spec by exact H. unfold continuation. lia. Qed.
Lemma conts_full cs rest : Forall byte cs -> Forall continuation cs -> conts (length cs) (cs ++ rest) = Some rest.
Proof.
  induction cs as [|c cs IH]; intros B H; [reflexivity|]. inversion B; inversion H; subst. cbn [length app conts].
  destruct (not_cont c) eqn:E; [|auto]. exfalso. assert (not_cont c = false) by (now apply cont_iff). congruence.
Qed.
Lemma conts_stop cs x rest : Forall byte (cs ++ [x]) -> Forall continuation cs -> ~ continuation x -> forall n, (length cs < n)%nat ->
  conts n ((cs ++ [x]) ++ rest) = Some rest.
Proof.
  induction cs as [|c cs IH]; intros B H NC n L; cbn [app] in *; inversion B; subst; (destruct n as [|n]; [cbn in L; lia|]); cbn [conts].
  - destruct (not_cont x) eqn:E; [reflexivity|]. apply cont_iff in E; [contradiction|assumption].
  - inversion H; subst. destruct (not_cont c) eqn:E; [exfalso; assert (not_cont c = false) by (now apply cont_iff); congruence|].
    apply IH; auto. cbn in L. lia.
Qed.
Lemma conts_trunc cs : Forall byte cs -> Forall continuation cs -> forall n, (length cs < n)%nat -> conts n cs = None.
Proof.
  induction cs as [|c cs IH]; intros B H [|n] L; cbn [length] in L; try lia; cbn [conts]; [reflexivity|]. inversion B; inversion H; subst.
  destruct (not_cont c) eqn:E; [exfalso; assert (not_cont c = false) by (now apply cont_iff); congruence|]. apply IH; auto. lia.
Qed.
Lemma conts_cases n : forall l, Forall byte l ->
  (exists cs rest, l = cs ++ rest /\ Forall continuation cs /\ length cs = n) \/
  (exists cs x rest, l = cs ++ x :: rest /\ Forall continuation cs /\ (length cs < n)%nat /\ ~ continuation x) \/
  (Forall continuation l /\ (length l < n)%nat).
Proof.
  induction n as [|n IH]; intros l B; [left; exists [], l; auto|].
  destruct l as [|x l]; [right; right; split; [constructor|cbn; lia]|]. inversion B; subst.
  assert (D : continuation x \/ ~ continuation x) by (unfold continuation; destruct (N.leb_spec 0x80 x); destruct (N.ltb_spec x 0xC0); (left; lia) || (right; lia)).
  destruct D as [D|D]; [|right; left; exists [], x, l; repeat split; auto; cbn; lia].
  destruct (IH l) as [(cs & rest & -> & F & L)|[(cs & y & rest & -> & F & L & NC)|(F & L)]]; [assumption| | |].
  - left. exists (x :: cs), rest. repeat split; auto. cbn. lia.
  - right. left. exists (x :: cs), y, rest. repeat split; auto. cbn. lia.
  - right. right. split; [now constructor|cbn; lia].
Qed.

(** what the loop needs to know about sequences *)
Section Loop.
  Variables (read : list N -> Res (option N * list N)) (w : N -> list N) (V : list N -> Prop) (sq tr : list N -> Prop).
  Hypothesis V_app : forall a b, V (a ++ b) -> V b.
  Hypothesis seq_read : forall c rest, V (c ++ rest) -> sq c -> exists o, read (c ++ rest) = Ok (o, rest).
  Hypothesis seq_ne : forall c, sq c -> c <> [].
  Hypothesis tr_read : forall c, V c -> tr c -> read c = UB.
  Hypothesis tr_ne : forall c, tr c -> c <> [].
  Hypothesis cases : forall l, V l -> l <> [] -> (exists c rest, l = c ++ rest /\ sq c) \/ tr l.
  Lemma loop_seqs cs : forall rest fuel, V (concat cs ++ rest) -> Forall sq cs -> (length (concat cs ++ rest) <= fuel)%nat ->
    exists fuel' pre, (length rest <= fuel')%nat /\ convert_loop read w fuel (concat cs ++ rest) = do o <- convert_loop read w fuel' rest; Ok (pre ++ o).
  Proof.
    induction cs as [|c cs IH]; intros rest fuel HV H L.
    - exists fuel, []. split; [exact L|]. cbn [concat app]. destruct (convert_loop read w fuel rest); reflexivity.
    - inversion H as [|c' cs' Hc Hcs]; subst. cbn [concat] in *. rewrite <- app_assoc in *.
      destruct (seq_read c (concat cs ++ rest) HV Hc) as (o & E). pose proof (seq_ne c Hc) as NE.
      assert (LC : (1 <= length c)%nat) by (destruct c; [congruence|cbn; lia]). rewrite app_length in L.
      destruct fuel as [|fuel]; [lia|]. destruct (IH rest fuel (V_app _ _ HV) Hcs ltac:(lia)) as (fuel' & pre & L' & E').
      exists fuel', (match o with Some c => w c | None => [] end ++ pre). split; [exact L'|].
      destruct c as [|x c]; [congruence|]. cbn [app convert_loop] in *. rewrite E. cbn [bindR]. rewrite E'.
      destruct (convert_loop read w fuel' rest); cbn [bindR]; try reflexivity. destruct o; [now rewrite app_assoc|reflexivity].
  Qed.
  Lemma split_text l : V l -> (exists cs, l = concat cs /\ Forall sq cs) \/ (exists cs t, l = concat cs ++ t /\ Forall sq cs /\ tr t).
  Proof.
    remember (length l) as n eqn:E. assert (L : (length l <= n)%nat) by lia. clear E. revert l L. induction n as [|n IH]; intros l L HV.
    - destruct l; [|cbn in L; lia]. left. exists []. split; [reflexivity|constructor].
    - destruct l as [|x l]; [left; exists []; split; [reflexivity|constructor]|].
      destruct (cases (x :: l) HV ltac:(discriminate)) as [(c & rest & E & Hc)|T].
      + rewrite E in HV, L. pose proof (seq_ne c Hc) as NE. rewrite app_length in L. destruct (IH rest) as [(cs & -> & F)|(cs & t & -> & F & T)].
        * destruct c; [congruence|cbn in L; lia].
        * exact (V_app _ _ HV).
        * left. exists (c :: cs). split; [exact E|now constructor].
        * right. exists (c :: cs), t. split; [cbn [concat]; rewrite <- app_assoc; exact E|]. split; [now constructor|exact T].
      + right. exists [], (x :: l). auto.
  Qed.
  Lemma loop_exact l : V l ->
    ((exists out, convert_loop read w (length l) l = Ok out) <-> exists cs, l = concat cs /\ Forall sq cs) /\
    (convert_loop read w (length l) l = UB <-> exists cs t, l = concat cs ++ t /\ Forall sq cs /\ tr t).
  Proof.
    intros HV.
    assert (A : (exists cs, l = concat cs /\ Forall sq cs) -> exists out, convert_loop read w (length l) l = Ok out).
    { intros (cs & -> & F). rewrite <- (app_nil_r (concat cs)) in *. destruct (loop_seqs cs [] _ HV F (le_n _)) as (f & pre & _ & E). rewrite E.
      exists (pre ++ []). destruct f; reflexivity. }
    assert (B : (exists cs t, l = concat cs ++ t /\ Forall sq cs /\ tr t) -> convert_loop read w (length l) l = UB).
    { intros (cs & t & -> & F & T). destruct (loop_seqs cs t _ HV F (le_n _)) as (f & pre & Lf & E). rewrite E. pose proof (tr_ne t T) as NE.
      destruct t as [|x t]; [congruence|]. destruct f as [|f]; [cbn in Lf; lia|]. cbn [convert_loop]. rewrite (tr_read (x :: t) (V_app _ _ HV) T). reflexivity. }
    destruct (split_text l HV) as [S1|S1].
    - split; [split; [auto|auto]|]. split; [intros E; destruct (A S1) as (o & E'); congruence|auto].
    - split; [|split; auto]. split; [intros (o & E); rewrite (B S1) in E; discriminate|auto].
  Qed.
End Loop.

Lemma exact8 w l : Forall byte l ->
    ((exists out, convert_loop decoder_char_it w (length l) l = Ok out) <-> exists cs, l = concat cs /\ Forall sequence8 cs) /\
    (convert_loop decoder_char_it w (length l) l = UB <-> exists cs t, l = concat cs ++ t /\ Forall sequence8 cs /\ truncated8 t).
Proof.
  apply loop_exact.
  - intros a b H. apply Forall_app in H. tauto.
  - intros c rest HV (b & cs & F & [(-> & L)|(x & -> & L & NC)]); cbn [app] in *; inversion HV; subst.
    + pose proof (decoder_conts b (cs ++ rest)) as D. rewrite <- L in D. apply Forall_app in H2. rewrite conts_full in D by tauto. exact D.
    + pose proof (decoder_conts b ((cs ++ [x]) ++ rest)) as D. apply Forall_app in H2. rewrite conts_stop in D by tauto. exact D.
  - intros c (b & cs & F & [(-> & _)|(x & -> & _)]); discriminate.
  - intros c HV (b & cs & F & -> & L). inversion HV; subst. pose proof (decoder_conts b cs) as D. rewrite conts_trunc in D by assumption. exact D.
  - intros c (b & cs & _ & -> & _). discriminate.
  - intros l' HV NE. destruct l' as [|b l']; [congruence|]. inversion HV; subst.
    destruct (conts_cases (announced b) l' H2) as [(cs & rest & -> & F & L)|[(cs & x & rest & -> & F & L & NC)|(F & L)]].
    + left. exists (b :: cs), rest. split; [reflexivity|]. exists b, cs. auto.
    + left. exists (b :: cs ++ [x]), rest. split; [cbn [app]; rewrite <- app_assoc; reflexivity|]. exists b, cs. split; [exact F|]. right. eauto.
    + right. exists b, l'. auto.
Qed.
Lemma exact16 w l :
    ((exists out, convert_loop decoder_char16 w (length l) l = Ok out) <-> exists cs, l = concat cs /\ Forall sequence16 cs) /\
    (convert_loop decoder_char16 w (length l) l = UB <-> exists cs t, l = concat cs ++ t /\ Forall sequence16 cs /\ truncated16 t).
Proof.
  apply (loop_exact decoder_char16 w (fun _ => True)); auto.
  - intros c rest _ [(u & -> & NH)|(h & x & -> & H)]; unfold decoder_char16, high_surrogate in *; cbn [app next_it bindR].
    + destruct (N.ltb_spec u 0xD800); [eexists; reflexivity|]. destruct (N.ltb_spec u 0xDC00); [lia|]. destruct (u <? 0xE000); eexists; reflexivity.
    + destruct (N.ltb_spec h 0xD800); [lia|]. destruct (N.ltb_spec h 0xDC00); [|lia]. destruct (negb _); eexists; reflexivity.
  - intros c [(u & -> & _)|(h & x & -> & _)]; discriminate.
  - intros c _ (h & -> & H). unfold decoder_char16, high_surrogate in *. cbn [next_it bindR]. destruct (N.ltb_spec h 0xD800); [lia|]. destruct (N.ltb_spec h 0xDC00); [reflexivity|lia].
  - intros c (h & -> & _). discriminate.
  - intros l' _ NE. destruct l' as [|h l']; [congruence|].
    assert (D : high_surrogate h \/ ~ high_surrogate h) by (unfold high_surrogate; destruct (N.leb_spec 0xD800 h); destruct (N.ltb_spec h 0xDC00); (left; lia) || (right; lia)).
    destruct D as [D|D].
    + destruct l' as [|x l']; [right; exists h; auto|left; exists [h; x], l'; split; [reflexivity|]; right; eauto].
    + left. exists [h], l'. split; [reflexivity|]. left. eauto.
Qed.
Lemma exact32 w l :
    ((exists out, convert_loop decoder_char32 w (length l) l = Ok out) <-> exists cs, l = concat cs /\ Forall (fun us => length us = 1%nat) cs) /\
    (convert_loop decoder_char32 w (length l) l = UB <-> exists cs t, l = concat cs ++ t /\ Forall (fun us : list N => length us = 1%nat) cs /\ False).
Proof.
  apply (loop_exact decoder_char32 w (fun _ => True)); try tauto.
  - intros [|c [|]] rest _ H; cbn in H; try lia. eexists. reflexivity.
  - intros [|] H; cbn in H; [lia|discriminate].
  - intros [|c l'] _ NE; [congruence|]. left. exists [c], l'. auto.
Qed.
Lemma convert_exact t s l : s <> t -> Forall (fun x => x < match s with T8 => 0x100 | T16 | TW true => 0x10000 | _ => 2^32 end) l ->
    ((exists out, convert_it t s l = Ok out) <-> exists cs, l = concat cs /\ Forall (sequence s) cs) /\
    (convert_it t s l = UB <-> exists cs q, l = concat cs ++ q /\ Forall (sequence s) cs /\ truncated s q).
Proof.
  intros NE B. unfold convert_it. destruct (elem_eqb s t) eqn:E; [apply elem_eqb_eq in E; congruence|].
  destruct s as [| | |[|]]; cbn [decoder_it sequence truncated].
  - apply exact8. exact B.
  - apply exact16.
  - apply exact32.
  - apply exact16.
  - apply exact32.
Qed.
