(** What the library returns is the text itself only for texts that are the Standard's composition of themselves. *)
From Verif Require Import Base M_Tables M_Normalize Spec_Tables P_Tables Spec_Normalize P_Order P_Normalize P_Hangul P_Compose P_Compose2.
From Coq Require Import Relations Sorted Permutation.
Open Scope N_scope.

Section Behind.
Variable tb : norm_tables.
Let ccc := canonical_combining_class tb.
Hypothesis Hready : comp_ready tb.
Hypothesis Hjamo : jamos_plain tb.
Hypothesis Hst : comp_starters tb.
Variable rank : N -> nat.
Hypothesis Hrank : forall c x, In x (compatibility_decomposition tb c) -> (rank x < rank c)%nat.
Variable k : bool.
Notation Dk := (D tb rank k).
Notation DD := (flat_map Dk).

(** starters, and pairs of a starter and a mark behind it *)
Fixpoint st (l : list N) : nat := match l with [] => O | c :: r => if ccc c =? 0 then S (st r) else st r end.
Fixpoint inv (a : nat) (l : list N) : nat := match l with [] => O | c :: r => if ccc c =? 0 then inv (S a) r else (a + inv a r)%nat end.
Lemma st_app l m : st (l ++ m) = (st l + st m)%nat.
Proof. induction l as [|c l IH]; [reflexivity|]. cbn [app st]. destruct (ccc c =? 0); lia. Qed.
Lemma inv_app l m : forall a, inv a (l ++ m) = (inv a l + inv (a + st l) m)%nat.
Proof.
  induction l as [|c l IH]; intros a; cbn [app inv st]; [rewrite Nat.add_0_r; reflexivity|]. destruct (ccc c =? 0); rewrite IH.
  - rewrite Nat.add_succ_r. reflexivity.
  - lia.
Qed.
Lemma reorders_inv l m : reorders ccc l m -> inv 0 l = inv 0 m.
Proof.
  induction 1 as [|l x m H _ IH]; [reflexivity|]. rewrite <- IH. destruct H as [p x y q H]. rewrite !inv_app. cbn [inv].
  destruct (N.eqb_spec (ccc x) 0); [lia|]. destruct (N.eqb_spec (ccc y) 0); lia.
Qed.
Definition good (c : N) : Prop := if ccc c =? 0 then (0 < st (Dk c))%nat else Dk c = [c].

(** moving starters behind marks removes pairs *)
Lemma displaced_inv t : Forall good t -> forall held a, (held = [] \/ exists h, held = [h] /\ (0 < st (Dk h))%nat) ->
  (inv a (DD (displaced_from tb held t)) <= inv a (DD (held ++ t)))%nat /\
  (inv a (DD (displaced_from tb held t)) = inv a (DD (held ++ t)) -> displaced_from tb held t = held ++ t).
Proof.
  induction t as [|c t IH]; intros Hg held a Hh; cbn [displaced_from]; [rewrite app_nil_r; split; [lia|reflexivity]|].
  inversion Hg as [|? ? Gc Gt]; subst. fold ccc. unfold good in Gc. destruct (ccc c =? 0) eqn:Ec.
  - rewrite !flat_map_app, !inv_app. destruct (IH Gt [c] (a + st (DD held))%nat) as [A B]; [right; exists c; auto|].
    change ([c] ++ t) with (c :: t) in *. split; [lia|]. intros E. f_equal. apply B. lia.
  - destruct (IH Gt held a Hh) as [A B]. cbn [flat_map]. rewrite Gc. cbn [app inv]. rewrite Ec.
    rewrite flat_map_app, inv_app in A, B. rewrite flat_map_app, inv_app. cbn [flat_map]. rewrite Gc. cbn [app inv]. rewrite Ec. split; [lia|].
    intros E. assert (Z : (st (DD held) = 0)%nat) by lia. destruct Hh as [->|(h & -> & Hh)].
    + cbn [app] in *. f_equal. apply B. cbn [flat_map st inv] in *. lia.
    + cbn [flat_map] in Z. rewrite app_nil_r in Z. lia.
Qed.

Lemma marks_inv m : Forall (fun x => ccc x <> 0) m -> forall a, inv a m = (length m * a)%nat.
Proof. induction 1 as [|x m Hx _ IH]; intros a; [reflexivity|]. cbn [inv length]. destruct (N.eqb_spec (ccc x) 0); [contradiction|]. rewrite IH. lia. Qed.
Lemma marks_st m : Forall (fun x => ccc x <> 0) m -> st m = O.
Proof. induction 1 as [|x m Hx _ IH]; [reflexivity|]. cbn [st]. destruct (N.eqb_spec (ccc x) 0); [contradiction|exact IH]. Qed.
Lemma marks_D m : Forall good m -> Forall (fun x => ccc x <> 0) m -> DD m = m.
Proof.
  intros G H. induction H as [|x m Hx _ IH]; [reflexivity|]. inversion G as [|? ? Gx Gm]; subst. cbn [flat_map]. unfold good in Gx.
  destruct (N.eqb_spec (ccc x) 0); [contradiction|]. rewrite Gx, IH by exact Gm. reflexivity.
Qed.

(** composing keeps them *)
Lemma recomposed_inv done rest r : recomposed tb done rest r -> ~ In TBase rest -> (forall x, In x rest -> step_of tb k x = []) -> Forall good done ->
  Forall good r /\ inv 0 (DD r) = inv 0 (DD (done ++ rest)).
Proof.
  assert (Hcons : comp_consistent tb) by (intros a b c H; apply (cr_entries tb Hready _ _ _ H)).
  induction 1 as [done|done p l m c x rest r Hreach Hprim _ IH|done c rest r _ _ IH]; intros Hb Hf Hg.
  - rewrite app_nil_r. split; [exact Hg|reflexivity].
  - assert (Hc7 : c <> TBase) by (intros ->; apply Hb; left; reflexivity). assert (Fc : step_of tb k c = []) by (apply Hf; left; reflexivity).
    destruct Hreach as (-> & Hl & Hm). destruct (proj2 (try_primary tb Hready l c x Hl Hc7) Hprim) as (T & Hx & _).
    pose proof (try_compose_D tb rank Hrank Hjamo Hcons k l c x T Hx Hc7 Fc) as ED. pose proof (try_compose_starter tb Hst l c x T Hx Hl) as Ex.
    apply Forall_app in Hg as [Gp Gl]. pose proof (Forall_inv Gl) as Gl0. pose proof (Forall_inv_tail Gl) as Gm.
    assert (Gx : good x). { unfold good in *. fold ccc in Ex. change (canonical_combining_class tb l) with (ccc l) in Hl. rewrite Ex. rewrite Hl in Gl0. change (0 =? 0) with true in *. cbv iota in *. rewrite ED, st_app. lia. }
    destruct IH as [G E]; [intros Q; apply Hb; right; exact Q|intros y Hy; apply Hf; right; exact Hy|apply Forall_app; split; [exact Gp|constructor; [exact Gx|exact Gm]]|].
    split; [exact G|]. rewrite E. 
    assert (Mm : Forall (fun y => ccc y <> 0) m) by (eapply Forall_impl; [|exact Hm]; intros y Hy; cbv beta in Hy; fold ccc in Hy; lia).
    rewrite <- !app_assoc. cbn [app]. rewrite !flat_map_app. cbn [flat_map]. rewrite !flat_map_app. cbn [flat_map].
    rewrite ED, (marks_D m Gm Mm), (D_fixed tb rank Hrank k c Fc). rewrite <- !app_assoc.
    rewrite (inv_app (DD p)), (inv_app (DD p)). f_equal. rewrite (inv_app (Dk l)), (inv_app (Dk l)). f_equal.
    rewrite !inv_app, ?st_app, ?(marks_st m Mm). cbn [st inv]. rewrite !Nat.add_0_r. destruct m as [|y m]; [cbn [inv]; rewrite Nat.add_0_l; reflexivity|].
    assert (Hc : ccc c <> 0) by (pose proof (Forall_inv Hm) as Hy; cbv beta in Hy; fold ccc in Hy; lia).
    destruct (N.eqb_spec (ccc c) 0); [contradiction|]. rewrite !Nat.add_0_r. lia.
  - assert (Fc : step_of tb k c = []) by (apply Hf; left; reflexivity).
    destruct IH as [G E]; [intros Q; apply Hb; right; exact Q|intros y Hy; apply Hf; right; exact Hy| |split; [exact G|rewrite E, <- app_assoc; reflexivity]].
    apply Forall_app. split; [exact Hg|]. constructor; [|constructor]. unfold good. rewrite (D_fixed tb rank Hrank k c Fc). cbn [st]. destruct (ccc c =? 0); [lia|reflexivity].
Qed.

(** a text whose composition, displaced, is the text itself is its own composition *)
Lemma displaced_self s n t : n = canonical_order tb (DD s) -> ~ In TBase n -> recomposed tb [] n t -> s = displaced tb t -> t = s.
Proof.
  intros En Hb R Es.
  assert (Fn : forall x, In x n -> step_of tb k x = []) by (intros x Hx; subst n; apply (proj1 (order_in tb _ _)) in Hx; exact (flat_D_elem tb rank Hrank Hjamo k s x Hx)).
  destruct (recomposed_inv [] n t R Hb Fn (Forall_nil _)) as [G E]. cbn [app] in E. rewrite (flat_D_fixed tb rank Hrank k n Fn) in E.
  assert (E2 : inv 0 (DD s) = inv 0 n) by (subst n; apply reorders_inv, canonical_order_reorders).
  destruct (displaced_inv t G [] 0%nat (or_introl eq_refl)) as [_ B]. unfold displaced in Es. cbn [app] in B. rewrite <- Es in B. symmetry. apply B. congruence.
Qed.
End Behind.
