(** Proofs about the emoji scanner and segmenter. *)
From Verif Require Import Base M_Emoji Spec_Emoji.
Require Import Lia ZArith.

Definition ecat_eq_dec (a b : ecat) : {a = b} + {a <> b}. Proof. decide equality. Defined.
Definition re_eq_dec (a b : re) : {a = b} + {a <> b}. Proof. decide equality. apply (list_eq_dec ecat_eq_dec). Defined.
Definition stack := list re.
Definition stack_eq_dec : forall a b : stack, {a = b} + {a <> b} := list_eq_dec re_eq_dec.
Definition sset := list stack.
Definition sset_eq_dec : forall a b : sset, {a = b} + {a <> b} := list_eq_dec stack_eq_dec.

(** residuals *)
Fixpoint pdr (c : ecat) (r : re) : sset :=
  match r with
  | RSym l => if in_dec ecat_eq_dec c l then [[]] else []
  | RAlt a b => pdr c a ++ pdr c b
  | RCat a b => map (fun k => k ++ [b]) (pdr c a)
  | RPlus a => pdr c a ++ map (fun k => k ++ [RPlus a]) (pdr c a)
  end.
Definition pds (c : ecat) (s : stack) : sset := match s with [] => [] | r :: k => map (fun t => t ++ k) (pdr c r) end.
Definition deriv (c : ecat) (S : sset) : sset := nodup stack_eq_dec (flat_map (pds c) S).
Definition nullable (S : sset) : bool := existsb (fun s => match s with [] => true | _ => false end) S.

Fixpoint matchesS (s : stack) (w : list ecat) : Prop :=
  match s with [] => w = [] | r :: k => exists u v, w = u ++ v /\ matches r u /\ matchesS k v end.
Lemma matchesS_app s t w : matchesS (s ++ t) w <-> exists u v, w = u ++ v /\ matchesS s u /\ matchesS t v.
Proof.
  revert w. induction s as [|r s IH]; intros w; cbn [app matchesS].
  - split; [intros H; exists [], w; auto|intros (u & v & -> & -> & H); auto].
  - split.
    + intros (u & v & -> & Hr & H). apply IH in H as (u' & v' & -> & Hs & Ht). exists (u ++ u'), v'. rewrite app_assoc. split; auto. split; auto. eauto.
    + intros (u & v & -> & (u1 & u2 & -> & Hr & Hs) & Ht). exists u1, (u2 ++ v). rewrite app_assoc. split; auto. split; auto. apply IH. eauto.
Qed.
Lemma matches_ne r w : matches r w -> w <> [].
Proof. induction 1; auto; try discriminate. all: destruct u; auto; discriminate. Qed.
Lemma matchesS_one r w : matchesS [r] w <-> matches r w.
Proof. cbn. split; [intros (u & v & -> & H & ->); now rewrite app_nil_r|]. intros H. exists w, []. now rewrite app_nil_r. Qed.

Lemma pdr_complete r w0 : matches r w0 -> forall c w, w0 = c :: w -> exists k, In k (pdr c r) /\ matchesS k w.
Proof.
  induction 1 as [l c0 Hc|a b w0 H IH|a b w0 H IH|a b u v H IH H' IH'|a w0 H IH|a u v H IH H' IH']; intros c w E; cbn [pdr].
  - injection E as -> <-. exists []. destruct (in_dec ecat_eq_dec c l); cbn; auto; tauto.
  - destruct (IH c w E) as (k & Hk & M). exists k. rewrite in_app_iff. auto.
  - destruct (IH c w E) as (k & Hk & M). exists k. rewrite in_app_iff. auto.
  - destruct u as [|c' u]; [now apply matches_ne in H|]. injection E as -> <-. destruct (IH c u eq_refl) as (k & Hk & M).
    exists (k ++ [b]). split; [now apply (in_map (fun k => k ++ [b]))|]. apply matchesS_app. exists u, v. split; auto. split; auto. now apply matchesS_one.
  - destruct (IH c w E) as (k & Hk & M). exists k. rewrite in_app_iff. auto.
  - destruct u as [|c' u]; [now apply matches_ne in H|]. injection E as -> <-. destruct (IH c u eq_refl) as (k & Hk & M).
    exists (k ++ [RPlus a]). split; [rewrite in_app_iff; right; now apply (in_map (fun k => k ++ [RPlus a]))|].
    apply matchesS_app. exists u, v. split; auto. split; auto. now apply matchesS_one.
Qed.
Lemma pdr_sound r : forall c w k, In k (pdr c r) -> matchesS k w -> matches r (c :: w).
Proof.
  induction r as [l|a IHa b IHb|a IHa b IHb|a IHa]; intros c w k Hk M; cbn [pdr] in Hk.
  - destruct (in_dec ecat_eq_dec c l); [|destruct Hk]. destruct Hk as [<-|[]]. cbn in M. subst w. now constructor.
  - apply in_app_or in Hk as [Hk|Hk]; [apply m_altl|apply m_altr]; eauto.
  - apply in_map_iff in Hk as (k' & <- & Hk). apply matchesS_app in M as (u & v & -> & M1 & M2). apply matchesS_one in M2.
    change (c :: u ++ v) with ((c :: u) ++ v). constructor; eauto.
  - apply in_app_or in Hk as [Hk|Hk]; [apply m_one; eauto|]. apply in_map_iff in Hk as (k' & <- & Hk).
    apply matchesS_app in M as (u & v & -> & M1 & M2). apply matchesS_one in M2.
    change (c :: u ++ v) with ((c :: u) ++ v). apply m_plus; eauto.
Qed.
Definition inS (S : sset) (w : list ecat) : Prop := exists s, In s S /\ matchesS s w.
Lemma inS_deriv S c w : inS (deriv c S) w <-> inS S (c :: w).
Proof.
  unfold inS, deriv. split.
  - intros (s & Hs & M). apply nodup_In, in_flat_map in Hs as (t & Ht & Hs). exists t. split; auto.
    destruct t as [|r k]; [destruct Hs|]. cbn [pds] in Hs. apply in_map_iff in Hs as (k' & <- & Hk).
    apply matchesS_app in M as (u & v & -> & M1 & M2). cbn [matchesS]. exists (c :: u), v. split; auto. split; auto. now apply (pdr_sound r c u k').
  - intros (s & Hs & M). destruct s as [|r k]; [discriminate|]. cbn [matchesS] in M. destruct M as (u & v & E & M1 & M2).
    destruct u as [|c' u]; [now apply matches_ne in M1|]. injection E as -> ->. destruct (pdr_complete r _ M1 c' u eq_refl) as (k' & Hk & Mk).
    exists (k' ++ k). split; [|apply matchesS_app; eauto]. apply nodup_In, in_flat_map. exists (r :: k). split; auto. cbn [pds].
    now apply (in_map (fun t => t ++ k)).
Qed.
Lemma inS_nil S : inS S [] <-> nullable S = true.
Proof.
  unfold inS, nullable. rewrite existsb_exists. split.
  - intros (s & Hs & M). exists s. split; auto. destruct s as [|r k]; auto. cbn in M. destruct M as (u & v & E & M & _).
    destruct u; [now apply matches_ne in M|discriminate].
  - intros (s & Hs & E). exists s. destruct s; [|discriminate]. split; auto. reflexivity.
Qed.
Lemma inS_init r w : inS [[r]] w <-> matches r w.
Proof. unfold inS. split; [intros (s & [<-|[]] & M); now apply matchesS_one|]. intros H. exists [r]. split; [now left|now apply matchesS_one]. Qed.
Lemma inS_empty w : ~ inS [] w. Proof. intros (s & [] & _). Qed.

(** ---- the reference scanner ----
    [best] is the last match among the prefixes read so far *)
Fixpoint ref (e t : sset) (p : nat) (best : nat * bool) (l : list ecat) : nat * bool :=
  match l with
  | [] => best
  | c :: r =>
      let e' := deriv c e in let t' := deriv c t in
      let best' := if nullable t' then ((p + 1)%nat, false) else if nullable e' then ((p + 1)%nat, true)
                   else if (p =? 0)%nat then (1%nat, false) else best in
      ref e' t' (p + 1) best' r
  end.

(** [l0] was read before; [e], [t] are the residuals after it *)
Definition rule_at (l : list ecat) (n : nat) (b : bool) : Prop :=
  some_rule (firstn n l) /\ (b = true <-> matches emoji_run (firstn n l) /\ ~ matches text_presentation (firstn n l)).
Lemma firstn_snoc {A} (l0 : list A) c r : firstn (length l0 + 1) (l0 ++ c :: r) = l0 ++ [c].
Proof. rewrite firstn_app, firstn_all2 by lia. replace (length l0 + 1 - length l0)%nat with 1%nat by lia. reflexivity. Qed.
Lemma ref_spec l : forall l0 e t best,
  (forall w, inS e w <-> matches emoji_run (l0 ++ w)) -> (forall w, inS t w <-> matches text_presentation (l0 ++ w)) ->
  (l0 <> [] -> (1 <= fst best <= length l0)%nat /\ rule_at (l0 ++ l) (fst best) (snd best) /\
               (forall m, (fst best < m <= length l0)%nat -> ~ some_rule (firstn m (l0 ++ l)))) ->
  l0 ++ l <> [] -> let r := ref e t (length l0) best l in token (l0 ++ l) (fst r) (snd r).
Proof.
  induction l as [|c r IH]; intros l0 e t best He Ht Hb Hne; cbn [ref].
  - rewrite app_nil_r in *. destruct (Hb Hne) as (B1 & (B2 & B3) & B4). split; [|split; [|split]]; auto.
  - cbv zeta. replace (length l0 + 1)%nat with (length (l0 ++ [c])) by (rewrite app_length; cbn; lia).
    replace (l0 ++ c :: r) with ((l0 ++ [c]) ++ r) by now rewrite <- app_assoc.
    assert (He' : forall w, inS (deriv c e) w <-> matches emoji_run ((l0 ++ [c]) ++ w)).
    { intros w. rewrite inS_deriv, He, <- app_assoc. reflexivity. }
    assert (Ht' : forall w, inS (deriv c t) w <-> matches text_presentation ((l0 ++ [c]) ++ w)).
    { intros w. rewrite inS_deriv, Ht, <- app_assoc. reflexivity. }
    apply IH; auto; [|destruct l0; discriminate]. intros _.
    assert (Fl : firstn (length (l0 ++ [c])) ((l0 ++ [c]) ++ r) = l0 ++ [c]).
    { rewrite firstn_app, firstn_all, Nat.sub_diag. cbn. apply app_nil_r. }
    assert (Ll : length (l0 ++ [c]) = (length l0 + 1)%nat) by (rewrite app_length; reflexivity).
    pose proof (inS_nil (deriv c t)) as Nt. rewrite Ht', app_nil_r in Nt.
    pose proof (inS_nil (deriv c e)) as Ne. rewrite He', app_nil_r in Ne.
    destruct (nullable (deriv c t)) eqn:Et; [|destruct (nullable (deriv c e)) eqn:Ee; [|destruct (Nat.eqb_spec (length l0) 0) as [Z|Z]]].
    + cbn [fst snd]. split; [lia|]. unfold rule_at. rewrite Fl. split; [|intros m Hm; lia].
      split; [left; now apply Nt|]. split; [discriminate|]. intros [_ H]. exfalso. apply H. now apply Nt.
    + cbn [fst snd]. split; [lia|]. unfold rule_at. rewrite Fl. split; [|intros m Hm; lia].
      split; [right; left; now apply Ne|]. split; [|auto]. intros _. split; [now apply Ne|]. intros H. apply Nt in H. discriminate.
    + destruct l0; [|discriminate]. cbn [app length fst snd] in *. split; [lia|]. unfold rule_at. rewrite Fl. split; [|intros m Hm; lia].
      split; [right; right; reflexivity|]. split; [discriminate|]. intros [H _]. apply Ne in H. discriminate.
    + assert (l0 <> []) as Hn0 by (destruct l0; [cbn in Z; lia|discriminate]).
      destruct (Hb Hn0) as (B1 & B2 & B3). replace (l0 ++ c :: r) with ((l0 ++ [c]) ++ r) in * by now rewrite <- app_assoc.
      split; [lia|]. split; [exact B2|]. intros m Hm. destruct (Nat.eq_dec m (length l0 + 1)) as [->|Hne'].
      * rewrite <- Ll, Fl. intros [H|[H|H]]; [apply Nt in H; discriminate|apply Ne in H; discriminate|]. rewrite Ll in H. lia.
      * apply B3. lia.
Qed.
Lemma ref_token l : l <> [] -> let r := ref [[emoji_run]] [[text_presentation]] 0 (0%nat, false) l in token l (fst r) (snd r).
Proof.
  intros H. apply (ref_spec l [] [[emoji_run]] [[text_presentation]]); auto.
  - intros w. apply inS_init. - intros w. apply inS_init. - congruence.
Qed.

(** after the residuals are empty nothing changes *)
Lemma ref_dead l : forall p best, (0 < p)%nat -> ref [] [] p best l = best.
Proof. induction l as [|c r IH]; intros p best Hp; cbn [ref]; auto. change (deriv c []) with (@nil stack). cbn [nullable existsb].
  destruct (Nat.eqb_spec p 0); [lia|]. apply IH. lia. Qed.
Lemma ref_dead_step e t p best l : (0 < p)%nat -> (forall c, deriv c e = [] /\ deriv c t = []) -> ref e t p best l = best.
Proof.
  intros Hp H. destruct l as [|c r]; auto. cbn [ref]. destruct (H c) as [-> ->]. cbn [nullable existsb].
  destruct (Nat.eqb_spec p 0); [lia|]. apply ref_dead. lia.
Qed.

(** ---- simulation ---- *)
Definition all_cats : list ecat := [EInvalid; EEmoji; ETextPres; EEmojiPres; EModBase; EModifier; EVSBase; ERegional; EKeycapBase; EKeycap; EBackslash;
  EZwj; EVs15; EVs16; ETagBase; ETagSeq; ETagTerm].
Lemma all_cats_all c : In c all_cats. Proof. destruct c; cbn; tauto. Qed.

(** an abstract configuration: scanner state, residuals, whether nothing was read yet, whether the best match ends here, its presentation,
    whether te and act hold it *)
Record conf := mkConf { k_cs : Z; k_e : sset; k_t : sset; k_first : bool; k_here : bool; k_b : bool; k_tev : bool }.
Definition conf_eq_dec (a b : conf) : {a = b} + {a <> b}.
Proof. decide equality; try apply Bool.bool_dec; try apply sset_eq_dec. apply Z.eq_dec. Defined.
Definition dead (e t : sset) : bool := match e, t with [], [] => true | _, _ => false end.
Definition dead_next (e t : sset) : bool := forallb (fun c => dead (deriv c e) (deriv c t)) all_cats.
(** [None]: mismatch; [Some None]: the scanner returns, rightly; [Some (Some k')]: it goes on in k' *)
Definition astep (k : conf) (c : ecat) : option (option conf) :=
  match find_trans (k_cs k) (ecode c) with
  | Ok trans =>
      match at_z t_trans_targs trans, trans_acts trans with
      | Ok cs', Ok acts =>
          let e' := deriv c (k_e k) in let t' := deriv c (k_t k) in
          let new := nullable t' || nullable e' || k_first k in
          let b' := if nullable t' then false else if nullable e' then true else if k_first k then false else k_b k in
          match acts with
          | [] => Some (Some (mkConf cs' e' t' false new b' (k_tev k && negb new)))
          | [2; 3] => if new && b' then Some (Some (mkConf cs' e' t' false true true true)) else None
          | [2; 4] => if new && negb b' then Some (Some (mkConf cs' e' t' false true false true)) else None
          | [5] | [7] => if new && negb b' && dead_next e' t' then Some None else None
          | [6] => if new && b' && dead_next e' t' then Some None else None
          | [8] => if negb new && dead e' t' && k_here k && k_b k then Some None else None
          | [9] => if negb new && dead e' t' && k_here k && negb (k_b k) then Some None else None
          | [10] => if negb new && dead e' t' && k_tev k && k_b k then Some None else None
          | [11] => if negb new && dead e' t' && k_tev k then Some None else None
          | _ => None
          end%Z
      | _, _ => None
      end
  | _ => None
  end.
Definition aeof (k : conf) : bool :=
  k_first k ||
  match at_z t_eof_trans (k_cs k) with
  | Ok e => (0 <? e)%Z &&
      match trans_acts (e - 1) with
      | Ok [8%Z] => k_here k && k_b k
      | Ok [9%Z] => k_here k && negb (k_b k)
      | Ok [10%Z] => k_tev k && k_b k
      | Ok [11%Z] => k_tev k
      | _ => false
      end
  | _ => false
  end.
Definition mem_conf (k : conf) (R : list conf) : bool := if in_dec conf_eq_dec k R then true else false.
Fixpoint explore (fuel : nat) (R todo : list conf) : list conf :=
  match fuel with
  | O => R
  | S f =>
      match todo with
      | [] => R
      | k :: r =>
          if mem_conf k R then explore f R r
          else explore f (k :: R) (flat_map (fun c => match astep k c with Some (Some k') => [k'] | _ => [] end) all_cats ++ r)
      end
  end.
Definition start_conf : conf := mkConf e_start [[emoji_run]] [[text_presentation]] true false false false.
Definition reach : list conf := Eval vm_compute in explore 2000 [] [start_conf].
Definition closed_conf (k : conf) : bool :=
  aeof k && forallb (fun c => match astep k c with Some None => true | Some (Some k') => mem_conf k' reach | None => false end) all_cats.
Lemma reach_closed : forallb closed_conf reach = true. Proof. vm_compute. reflexivity. Qed.
Lemma reach_start : In start_conf reach.
Proof. assert (mem_conf start_conf reach = true) by (vm_compute; reflexivity). unfold mem_conf in H. destruct (in_dec conf_eq_dec start_conf reach); [auto|discriminate]. Qed.

(** a configuration describes the scanner's variables *)
Definition describes (k : conf) (p te : nat) (act : Z) (best : nat * bool) : Prop :=
  (k_first k = true <-> p = 0%nat) /\
  (k_first k = false -> snd best = k_b k) /\
  (k_here k = true -> fst best = p) /\
  (k_tev k = true -> te = fst best /\ act = if k_b k then 2%Z else 3%Z) /\
  (k_first k = true -> k_here k = false /\ k_tev k = false).

Lemma dead_eq e t : dead e t = true -> e = [] /\ t = [].
Proof. destruct e, t; cbn; try discriminate; auto. Qed.
Lemma dead_next_eq e t c : dead_next e t = true -> deriv c e = [] /\ deriv c t = [].
Proof. unfold dead_next. rewrite forallb_forall. intros H. apply dead_eq, H, all_cats_all. Qed.
Lemma reach_ok k : In k reach -> aeof k = true /\ forall c, match astep k c with Some None => True | Some (Some k') => In k' reach | None => False end.
Proof.
  intros Hk. pose proof reach_closed as R. rewrite forallb_forall in R. specialize (R k Hk). unfold closed_conf in R.
  apply andb_prop in R as [A B]. split; auto. intros c. rewrite forallb_forall in B. specialize (B c (all_cats_all c)).
  destruct (astep k c) as [[k'|]|]; auto; [|discriminate]. unfold mem_conf in B. destruct (in_dec conf_eq_dec k' reach); [auto|discriminate].
Qed.

Lemma sim l : forall k p te act best, In k reach -> describes k p te act best -> (p = 0%nat -> l <> []) ->
  scan_from (k_cs k) p te act l = Ok (ref (k_e k) (k_t k) p best l).
Proof.
  induction l as [|c r IH]; intros k p te act best Hk (D1 & D2 & D3 & D4 & D5) Hp; destruct (reach_ok k Hk) as [He Hs].
  - assert (Hf : k_first k = false). { destruct (k_first k); auto. destruct (proj1 D1 eq_refl). now destruct (Hp eq_refl). }
    cbn [scan_from ref]. unfold aeof in He. rewrite Hf in He. cbn [orb] in He.
    destruct (at_z t_eof_trans (k_cs k)) as [e| |]; try discriminate. apply andb_prop in He as [H0 He]. cbn [bindR]. rewrite H0.
    destruct (trans_acts (e - 1)) as [acts| |]; try discriminate. cbn [bindR].
    specialize (D2 Hf). destruct best as [n b]. cbn [fst snd] in *. subst b.
    assert (Q : match acts with
      | [8%Z] => k_here k && k_b k | [9%Z] => k_here k && negb (k_b k) | [10%Z] => k_tev k && k_b k | [11%Z] => k_tev k | _ => false end = true) by exact He.
    destruct acts as [|a [|? ?]]; try discriminate; [|destruct a as [|a|a]; try discriminate; repeat (destruct a as [a|a|]; try discriminate)].
    destruct a as [|a|a]; try discriminate; repeat (destruct a as [a|a|]; try discriminate); cbn [do_actions do_action].
    + destruct (D4 Q) as [-> ->]. destruct (k_b k); reflexivity.
    + apply andb_prop in Q as [Q1 Q2]. rewrite (D3 Q1). destruct (k_b k); [discriminate|reflexivity].
    + apply andb_prop in Q as [Q1 Q2]. destruct (D4 Q1) as [-> _]. now rewrite Q2.
    + apply andb_prop in Q as [Q1 Q2]. rewrite (D3 Q1). now rewrite Q2.
  - specialize (Hs c). unfold astep in Hs. cbn [scan_from ref].
    destruct (find_trans (k_cs k) (ecode c)) as [trans| |]; try destruct Hs. cbn [bindR].
    destruct (at_z t_trans_targs trans) as [cs'| |]; try destruct Hs. cbn [bindR].
    destruct (trans_acts trans) as [acts| |]; try destruct Hs. cbn [bindR].
    set (e' := deriv c (k_e k)) in *. set (t' := deriv c (k_t k)) in *.
    assert (Ef : (p =? 0)%nat = k_first k). { destruct (k_first k), (Nat.eqb_spec p 0); auto; intuition congruence. }
    rewrite Ef. replace (if k_first k then (1%nat, false) else best) with (if k_first k then ((p + 1)%nat, false) else best).
    2:{ destruct (k_first k); auto. now rewrite (proj1 D1 eq_refl). }
    set (best' := if nullable t' then _ else _).
    set (new := nullable t' || nullable e' || k_first k) in *.
    set (b' := if nullable t' then false else _) in *.
    assert (Bn : new = true -> best' = ((p + 1)%nat, b')).
    { subst new best' b'. destruct (nullable t'), (nullable e'), (k_first k); auto; discriminate. }
    assert (Bo : new = false -> best' = best /\ b' = k_b k /\ k_first k = false).
    { subst new best' b'. destruct (nullable t'), (nullable e'), (k_first k); auto; discriminate. }
    clearbody best' b' new. 
    assert (Stop : forall n b, negb new && dead e' t' = true -> best = (n, b) -> ref e' t' (p + 1) best' r = (n, b)).
    { intros n b Q ->. apply andb_prop in Q as [Q1 Q2]. destruct new; [discriminate|]. destruct (Bo eq_refl) as (-> & _).
      destruct (dead_eq _ _ Q2) as [-> ->]. apply ref_dead. lia. }
    assert (Here : forall b, new = true -> b' = b -> dead_next e' t' = true -> ref e' t' (p + 1) best' r = ((p + 1)%nat, b)).
    { intros b Q <- Q2. rewrite (Bn Q). apply ref_dead_step; [lia|]. intros c0. now apply dead_next_eq. }
    assert (Old : negb new = true -> best = (fst best, k_b k)).
    { destruct new; [discriminate|]. intros _. destruct (Bo eq_refl) as (_ & _ & Hf). rewrite <- (D2 Hf). now destruct best. }
    destruct acts as [|a acts].
    { (* no action *) cbn [do_actions].
      apply (IH _ (p + 1)%nat te act best' Hs); [|intros; lia].
      split; [cbn [k_first]; split; [discriminate|lia]|]. cbn [k_first k_b k_here k_tev]. destruct new.
      - rewrite (Bn eq_refl). cbn. rewrite andb_false_r. repeat split; auto; discriminate.
      - destruct (Bo eq_refl) as (-> & -> & Hf). cbn [negb]. rewrite andb_true_r. repeat split; auto; try discriminate; apply D4; auto. }
    destruct a as [|a|a]; [destruct Hs| |destruct Hs].
    repeat (destruct a as [a|a|]; try (now destruct Hs));
      (destruct acts as [|a2 acts]; [|try (now destruct Hs)]); try (now destruct Hs); cbn [do_actions do_action].
    + (* 11 *) destruct (negb new && dead e' t' && k_tev k) eqn:Q; [|destruct Hs]. apply andb_prop in Q as [Q Q3].
      destruct (D4 Q3) as [-> ->]. pose proof (andb_prop _ _ Q) as [Q1 _]. rewrite (Stop _ _ Q (Old Q1)). destruct (k_b k); reflexivity.
    + (* 7 *) destruct (new && negb b' && dead_next e' t') eqn:Q; [|destruct Hs]. apply andb_prop in Q as [Q Q3]. apply andb_prop in Q as [Q1 Q2].
      rewrite (Here false); auto. now destruct b'.
    + (* 9 *) destruct (negb new && dead e' t' && k_here k && negb (k_b k)) eqn:Q; [|destruct Hs]. apply andb_prop in Q as [Q Q4]. apply andb_prop in Q as [Q Q3].
      pose proof (andb_prop _ _ Q) as [Q1 _]. rewrite (Stop _ _ Q (Old Q1)), (D3 Q3). destruct (k_b k); [discriminate|reflexivity].
    + (* 5 *) destruct (new && negb b' && dead_next e' t') eqn:Q; [|destruct Hs]. apply andb_prop in Q as [Q Q3]. apply andb_prop in Q as [Q1 Q2].
      rewrite (Here false); auto. now destruct b'.
    + (* 10 *) destruct (negb new && dead e' t' && k_tev k && k_b k) eqn:Q; [|destruct Hs]. apply andb_prop in Q as [Q Q4]. apply andb_prop in Q as [Q Q3].
      pose proof (andb_prop _ _ Q) as [Q1 _]. destruct (D4 Q3) as [-> _]. rewrite (Stop _ _ Q (Old Q1)), Q4. reflexivity.
    + (* 6 *) destruct (new && b' && dead_next e' t') eqn:Q; [|destruct Hs]. apply andb_prop in Q as [Q Q3]. apply andb_prop in Q as [Q1 Q2].
      rewrite (Here true); auto.
    + (* 8 *) destruct (negb new && dead e' t' && k_here k && k_b k) eqn:Q; [|destruct Hs]. apply andb_prop in Q as [Q Q4]. apply andb_prop in Q as [Q Q3].
      pose proof (andb_prop _ _ Q) as [Q1 _]. rewrite (Stop _ _ Q (Old Q1)), (D3 Q3), Q4. reflexivity.
    + (* 2 :: *) destruct a2 as [|a2|a2]; [destruct Hs| |destruct Hs].
      repeat (destruct a2 as [a2|a2|]; try (now destruct Hs)); (destruct acts as [|? ?]; [|now destruct Hs]); cbn [do_actions do_action].
      * destruct (new && b') eqn:Q; [|destruct Hs]. apply andb_prop in Q as [Q1 Q2]. pose proof (Bn Q1) as Eb. rewrite Q2 in Eb.
        apply (IH _ (p + 1)%nat (p + 1)%nat 2%Z best' Hs); [|intros; lia]. rewrite Eb.
        repeat split; cbn; auto; try discriminate; lia.
      * destruct (new && negb b') eqn:Q; [|destruct Hs]. apply andb_prop in Q as [Q1 Q2]. pose proof (Bn Q1) as Eb.
        replace b' with false in Eb by now destruct b'.
        apply (IH _ (p + 1)%nat (p + 1)%nat 3%Z best' Hs); [|intros; lia]. rewrite Eb.
        repeat split; cbn; auto; try discriminate; lia.
Qed.

Lemma scan_token l : l <> [] -> exists n b, scan_emoji l = Ok (n, b) /\ token l n b.
Proof.
  intros H. unfold scan_emoji.
  change e_start with (k_cs start_conf). rewrite (sim l start_conf 0 0 0%Z (0%nat, false) reach_start); auto.
  - change (k_e start_conf) with [[emoji_run]]. change (k_t start_conf) with [[text_presentation]].
    pose proof (ref_token l H) as T. destruct (ref _ _ 0 _ l) as [n b]. eauto.
  - repeat split; auto; try discriminate. all: cbn; intros; auto; try discriminate.
Qed.

(** ---- the segmenter ---- *)
Lemma token_unique l n b n' b' : token l n b -> token l n' b' -> n = n' /\ b = b'.
Proof.
  intros (A1 & A2 & A3 & A4) (B1 & B2 & B3 & B4).
  assert (n = n'). { destruct (Nat.lt_trichotomy n n') as [H|[H|H]]; auto; exfalso; [apply (A3 n')|apply (B3 n)]; auto; lia. }
  subst n'. split; auto. destruct b, b'; auto; exfalso.
  - assert (false = true) by now apply B4, A4. discriminate. - assert (false = true) by now apply A4, B4. discriminate.
Qed.
Lemma tokens_exist l : exists ts, tokens l ts.
Proof.
  remember (length l) as m eqn:E. revert l E. induction m as [m IH] using lt_wf_ind. intros l E.
  destruct l as [|c r]; [exists []; constructor|]. destruct (scan_token (c :: r) ltac:(discriminate)) as (n & b & _ & T).
  destruct (IH (length (skipn n (c :: r)))) with (l := skipn n (c :: r)) as (ts & Hts); auto.
  - destruct T as (B & _). rewrite skipn_length. lia.
  - exists ((n, b) :: ts). now constructor.
Qed.
Definition total (ts : list (nat * bool)) : nat := fold_right (fun t a => (fst t + a)%nat) 0%nat ts.
Lemma total_app a b : total (a ++ b) = (total a + total b)%nat.
Proof. induction a as [|[n x] a IH]; auto. cbn [app total fold_right fst]. fold (total (a ++ b)) (total a). rewrite IH. lia. Qed.
Lemma skipn_skipn' {A} a b (l : list A) : skipn a (skipn b l) = skipn (b + a) l.
Proof. revert l. induction b as [|b IH]; cbn; auto. intros [|x l]; [destruct a; reflexivity|]. apply IH. Qed.
Lemma tokens_total l ts : tokens l ts -> total ts = length l.
Proof. induction 1 as [|l n b ts T _ IH]; auto. cbn [total fold_right fst]. fold (total ts). rewrite IH, skipn_length. destruct T as (B & _). lia. Qed.

Definition head_not (b : bool) (ts : list (nat * bool)) : Prop := match ts with [] => True | (_, b') :: _ => b' <> b end.
Lemma groups_split b ts2 : head_not b ts2 -> forall ts1 q, ts1 <> [] -> Forall (fun t => snd t = b) ts1 ->
  groups q (ts1 ++ ts2) = ((q + total ts1)%nat, b) :: groups (q + total ts1) ts2.
Proof.
  intros H2 ts1. induction ts1 as [|[n b1] ts1 IH]; intros q Hne F; [congruence|]. apply Forall_cons_iff in F as [F1 F]. cbn [snd] in F1. subst b1.
  cbn [app groups total fold_right fst]. fold (total ts1). destruct ts1 as [|t1 ts1].
  - cbn [app total fold_right]. rewrite Nat.add_0_r. destruct ts2 as [|[m b2] ts2]; cbn [groups]; auto. cbn in H2.
    destruct (groups (q + n + m) ts2) as [|[e b3] gs] eqn:G.
    + destruct (Bool.eqb b b2) eqn:X; auto. apply Bool.eqb_prop in X. congruence.
    + destruct (Bool.eqb b2 b3); destruct (Bool.eqb b b2) eqn:X; auto; apply Bool.eqb_prop in X; congruence.
  - rewrite (IH (q + n)%nat ltac:(discriminate) F). rewrite Bool.eqb_reflx. now rewrite !Nat.add_assoc.
Qed.

Lemma once_spec st n b ts : tokens (skipn (e_end st) (e_text st)) ((n, b) :: ts) ->
  consume_once st = Ok ((e_end st + n)%nat, mkEseg (e_text st) (e_begin st) (e_end st) (e_next st) (e_emoji st) b).
Proof.
  intros T. inversion T as [|l n0 b0 ts0 T1 T2]; subst. unfold consume_once.
  assert (NE : skipn (e_end st) (e_text st) <> []). { destruct T1 as (B & _). intros E. rewrite E in B. cbn in B. lia. }
  destruct (scan_token _ NE) as (n' & b' & E & T'). destruct (token_unique _ _ _ _ _ T1 T') as [<- <-]. rewrite E. reflexivity.
Qed.

Lemma loop_spec fuel : forall st ts, (length ts < fuel)%nat -> ts <> [] -> tokens (skipn (e_end st) (e_text st)) ts ->
  exists st' ts1 ts2, eseg_loop fuel st = Ok st' /\ ts = ts1 ++ ts2 /\ Forall (fun t => snd t = e_emoji st) ts1 /\ head_not (e_emoji st) ts2 /\
    e_text st' = e_text st /\ e_begin st' = e_begin st /\ e_emoji st' = e_emoji st /\ e_end st' = (e_end st + total ts1)%nat /\
    tokens (skipn (e_end st') (e_text st)) ts2 /\ match ts2 with [] => True | (_, b) :: _ => e_next_emoji st' = b end.
Proof.
  induction fuel as [|f IH]; intros st ts L NE T; [lia|]. destruct ts as [|[n b] r]; [congruence|]. cbn [eseg_loop].
  rewrite (once_spec st n b r T). cbn [bindR e_emoji e_next_emoji e_text e_begin e_end e_next].
  inversion T as [|l n0 b0 ts0 T1 T2]; subst. rewrite skipn_skipn' in T2.
  destruct (Bool.eqb (e_emoji st) b) eqn:X; cbn [negb].
  - apply Bool.eqb_prop in X. subst b. pose proof (tokens_total _ _ T) as Tt. cbn [total fold_right fst] in Tt. fold (total r) in Tt. rewrite skipn_length in Tt.
    destruct (Nat.ltb_spec (e_end st + n) (length (e_text st))) as [Hlt|Hge].
    + assert (Hr : r <> []). { intros ->. pose proof (tokens_total _ _ T2) as Q. rewrite skipn_length in Q. cbn in Q. lia. }
      set (st2 := mkEseg (e_text st) (e_begin st) (e_end st + n) (e_next st) (e_emoji st) (e_emoji st)).
      destruct (IH st2 r) as (st' & ts1 & ts2 & E & Er & F & Hh & A1 & A2 & A3 & A4 & A5 & A6); [cbn in L; lia|exact Hr|exact T2|].
      exists st', ((n, e_emoji st) :: ts1), ts2. split; [exact E|]. split; [now rewrite Er|]. split; [constructor; auto|]. split; [exact Hh|].
      cbn [st2 e_text e_begin e_end e_emoji] in *. repeat split; auto. cbn [total fold_right fst]. fold (total ts1). rewrite A4. lia.
    + exists (mkEseg (e_text st) (e_begin st) (e_end st + n) (e_next st) (e_emoji st) (e_emoji st)), ((n, e_emoji st) :: r), [].
      split; [reflexivity|]. rewrite app_nil_r. destruct T1 as (B & _). rewrite skipn_length in B.
      assert (Er : r = []). { inversion T2 as [E0|l' n' b' ts' T3 _ E0]; auto. destruct T3 as (B3 & _). rewrite skipn_length in B3. lia. }
      subst r. split; [reflexivity|]. split; [constructor; auto|]. cbn [e_text e_begin e_emoji e_end head_not total fold_right fst].
      repeat split; auto.
  - eexists _, [], ((n, b) :: r). split; [reflexivity|]. cbn [app e_text e_begin e_emoji e_end e_next_emoji total fold_right]. split; [reflexivity|].
    split; [constructor|]. split; [cbn; intros ->; now rewrite Bool.eqb_reflx in X|]. rewrite Nat.add_0_r. repeat split; auto.
Qed.

Definition ready (st : eseg) (ts : list (nat * bool)) : Prop :=
  (e_next st <= length (e_text st))%nat /\ e_end st = e_next st /\ tokens (skipn (e_next st) (e_text st)) ts /\
  match ts with [] => True | (_, b) :: _ => e_next_emoji st = b end.
Lemma consume_spec fuel st ts : ready st ts -> (length ts < fuel)%nat ->
  match ts with
  | [] => exists st', eseg_consume fuel st = Ok (None, st') /\ e_next st = length (e_text st)
  | _ => exists e b st' ts2, eseg_consume fuel st = Ok (Some (e, b), st') /\ groups (e_next st) ts = (e, b) :: groups e ts2 /\
      ready st' ts2 /\ (length ts2 < length ts)%nat /\ e_next st' = e /\ e_text st' = e_text st /\
      e_begin st' = e_end st /\ e_end st' = e /\ e_emoji st' = b /\ (e_next st < e)%nat
  end.
Proof.
  intros (R1 & R2 & R3 & R4) L. unfold eseg_consume. destruct ts as [|[n b] r].
  - pose proof (tokens_total _ _ R3) as T. rewrite skipn_length in T. cbn in T. destruct (Nat.leb_spec (length (e_text st)) (e_next st)); [|lia].
    eexists. split; [reflexivity|lia].
  - inversion R3 as [|l n0 b0 ts0 T1 T2]; subst. pose proof T1 as (B & _). rewrite skipn_length in B.
    destruct (Nat.leb_spec (length (e_text st)) (e_next st)); [lia|].
    set (st1 := mkEseg _ _ _ _ _ _).
    destruct (loop_spec fuel st1 ((n, e_next_emoji st) :: r) L ltac:(discriminate) R3) as (st' & ts1 & ts2 & E & Er & F & Hh & A1 & A2 & A3 & A4 & A5 & A6).
    rewrite E. cbn [bindR]. cbn [st1 e_text e_begin e_end e_emoji] in *.
    assert (N1 : ts1 <> []). { intros ->. cbn in Er. subst ts2. cbn in Hh. congruence. }
    assert (TL : length ((n, e_next_emoji st) :: r) = (length ts1 + length ts2)%nat) by now rewrite Er, app_length.
    assert (Bt : (e_next st < e_next st + total ts1)%nat).
    { destruct ts1 as [|[m b1] ts1]; [congruence|]. cbn in Er. injection Er as -> _ _. cbn. lia. }
    exists (e_end st'), (e_emoji st'). eexists. exists ts2. split; [reflexivity|]. rewrite Er, A3, A4.
    split; [now apply groups_split|]. cbn [e_next e_text e_begin e_end e_emoji]. rewrite <- A4, A1. repeat split; auto; cbn [e_next e_text e_begin e_end e_emoji e_next_emoji]; auto.
    + rewrite A4. pose proof (tokens_total _ _ R3) as T. rewrite skipn_length, Er in T.
      rewrite total_app in T. lia.
    + destruct ts1; [congruence|]. rewrite app_length. cbn. lia.
    + lia.
Qed.
Lemma new_ready text ts : tokens text ts -> exists st, eseg_new text = Ok st /\ ready st ts /\ e_next st = 0%nat /\ e_text st = text.
Proof.
  intros T. unfold eseg_new. destruct text as [|c r].
  - eexists. split; [reflexivity|]. inversion T as [|l n b ts0 T1]; subst.
    + repeat split; auto.
    + destruct T1 as (B & _). cbn in B. lia.
  - inversion T as [|l n b ts0 T1 T2]; subst. rewrite (once_spec (mkEseg (c :: r) 0 0 0 false false) n b ts0 T). cbn [bindR].
    eexists. split; [reflexivity|]. repeat split; auto. cbn. lia.
Qed.
Lemma all_spec fuel calls : forall st ts, ready st ts -> (length ts < fuel)%nat -> (length ts < calls)%nat ->
  eseg_all fuel calls st = Ok (groups (e_next st) ts).
Proof.
  induction calls as [|n IH]; intros st ts R L C; [lia|]. cbn [eseg_all]. pose proof (consume_spec fuel st ts R L) as H. destruct ts as [|t ts].
  - destruct H as (st' & E & _). rewrite E. reflexivity.
  - destruct H as (e & b & st' & ts2 & E & G & R' & L' & En & _). rewrite E. cbn [bindR]. rewrite (IH st' ts2 R') by lia. cbn [bindR]. now rewrite G, En.
Qed.
Lemma views_spec fuel calls : forall st ts, ready st ts -> (length ts < fuel)%nat -> (length ts < calls)%nat ->
  eseg_views fuel calls st = Ok (views (e_next st) (groups (e_next st) ts)).
Proof.
  induction calls as [|n IH]; intros st ts R L C; [lia|]. cbn [eseg_views]. pose proof (consume_spec fuel st ts R L) as H. destruct ts as [|t ts].
  - destruct H as (st' & E & _). rewrite E. reflexivity.
  - destruct H as (e & b & st' & ts2 & E & G & R' & L' & En & _ & A1 & A2 & A3 & _). rewrite E. cbn [bindR]. rewrite (IH st' ts2 R') by lia. cbn [bindR].
    rewrite G, En. cbn [views]. rewrite A1, A2, A3. destruct R as (_ & -> & _). reflexivity.
Qed.
Lemma tokens_len l ts : tokens l ts -> (length ts <= length l)%nat.
Proof. induction 1 as [|l n b ts T _ IH]; cbn; auto. rewrite skipn_length in IH. destruct T as (B & _). lia. Qed.
Lemma groups_ok l ts : tokens l ts -> forall q, segments_ok (q + length l) q None (groups q ts) /\
  (forall e b gs, groups q ts = (e, b) :: gs -> exists n r, ts = (n, b) :: r).
Proof.
  induction 1 as [|l n b ts T _ IH]; intros q; cbn [groups].
  - split; [cbn; lia|]. discriminate.
  - destruct T as (B & _). specialize (IH (q + n)%nat) as [I1 I2]. rewrite skipn_length in I1.
    replace (q + n + (length l - n))%nat with (q + length l)%nat in I1 by lia.
    destruct (groups (q + n) ts) as [|[e b'] gs] eqn:G.
    + cbn in I1 |- *. split; [repeat split; try lia; discriminate|]. intros e b0 gs [= <- <- <-]. eauto.
    + cbn [segments_ok] in I1. destruct I1 as (J1 & _ & J3). destruct (Bool.eqb b b') eqn:X.
      * apply Bool.eqb_prop in X. subst b'. cbn [segments_ok]. split; [repeat split; auto; try lia; discriminate|]. intros e0 b0 gs0 [= <- <- <-]. eauto.
      * cbn [segments_ok]. split; [repeat split; auto; try lia; try discriminate|].
        { intros [= ->]. now rewrite Bool.eqb_reflx in X. }
        { intros e0 b0 gs0 [= <- <- <-]. eauto. }
Qed.
