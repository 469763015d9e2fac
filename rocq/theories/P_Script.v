(** Proofs about fs_array and the script segmenter. *)
From Verif Require Import Base M_Script Spec_Script.
Require Import Lia.
Open Scope N_scope.

(** ---- lists ---- *)
Lemma set_nth_ok {A} (l : list A) i v : (i < length l)%nat -> exists l', set_nth l i v = Ok l' /\ length l' = length l /\
  l' = firstn i l ++ v :: skipn (S i) l.
Proof.
  revert i. induction l as [|x l IH]; intros [|i] H; cbn [length] in *; try lia; cbn [set_nth].
  - eexists. split; [reflexivity|]. auto.
  - destruct (IH i ltac:(lia)) as (l' & E & L & F). rewrite E. cbn [bindR]. eexists. split; [reflexivity|]. cbn [length firstn skipn app]. rewrite L, F. auto.
Qed.
Lemma memb_In s l : memb s l = true <-> In s l.
Proof.
  unfold memb. rewrite existsb_exists. split.
  - intros (x & Hx & E). apply N.eqb_eq in E. now subst.
  - intros H. exists s. split; auto. apply N.eqb_refl.
Qed.
Lemma skipn_add {A} a b (l : list A) : skipn a (skipn b l) = skipn (b + a) l.
Proof. revert l. induction b as [|b IH]; cbn; auto. intros [|x l]; [destruct a; reflexivity|]. apply IH. Qed.
Lemma intersect_ok next n : forall arr r w, (w <= r)%nat -> (r + n = length arr)%nat ->
  exists arr' w', intersect arr r w n next = Ok (arr', w') /\ length arr' = length arr /\ (w' <= length arr)%nat /\
    firstn w' arr' = firstn w arr ++ filter (fun s => memb s next) (skipn r arr) /\ (w <= w')%nat /\ (w' = w -> arr' = arr).
Proof.
  induction n as [|n IH]; intros arr r w Hw Hl; cbn [intersect].
  - exists arr, w. rewrite skipn_all2 by lia. cbn [filter]. rewrite app_nil_r. repeat split; auto; lia.
  - destruct (nth_error arr r) as [sc|] eqn:E; [|apply nth_error_None in E; lia].
    assert (Sk : skipn r arr = sc :: skipn (S r) arr).
    { clear - E. revert r E. induction arr as [|y l IH]; intros [|r]; cbn; try discriminate. - now intros [= ->]. - apply IH. }
    destruct (memb sc next) eqn:M.
    + destruct (set_nth_ok arr w sc ltac:(lia)) as (a & Ea & La & Fa). rewrite Ea. cbn [bindR].
      destruct (IH a (S r) (S w) ltac:(lia) ltac:(lia)) as (arr' & w' & E' & L' & B' & F' & W' & S').
      exists arr', w'. split; [exact E'|]. split; [lia|]. split; [lia|]. split; [|split; lia]. rewrite F', Sk. cbn [filter]. rewrite M.
      assert (F1 : firstn (S w) a = firstn w arr ++ [sc]).
      { rewrite Fa. rewrite firstn_app, firstn_length, firstn_firstn. replace (S w - Nat.min w (length arr))%nat with 1%nat by lia.
        replace (Nat.min (S w) w) with w by lia. reflexivity. }
      assert (F2 : skipn (S r) a = skipn (S r) arr).
      { rewrite Fa. rewrite skipn_app, firstn_length, skipn_all2 by (rewrite firstn_length; lia).
        replace (S r - Nat.min w (length arr))%nat with (S (r - w))%nat by lia. cbn [app]. change (skipn (S (r - w)) (sc :: skipn (S w) arr)) with (skipn (r - w) (skipn (S w) arr)). rewrite skipn_add. f_equal. lia. }
      rewrite F1, F2, <- app_assoc. reflexivity.
    + destruct (IH arr (S r) w ltac:(lia) ltac:(lia)) as (arr' & w' & E' & L' & B' & F' & W' & S').
      exists arr', w'. split; [exact E'|]. repeat split; auto. rewrite F', Sk. cbn [filter]. now rewrite M.
Qed.

(** what mergeSets computes when both first scripts are preferred *)
Definition merged (n0 : N) (ntail : list N) (p : N) (ctail : list N) : list N :=
  if memb p (n0 :: ntail) then p :: filter (fun s => memb s (n0 :: ntail)) ctail
  else (if memb n0 ctail then [n0] else []) ++ filter (fun s => memb s ntail) ctail.

Lemma merged_In n0 ntail p ctail s : In s (merged n0 ntail p ctail) <-> In s (p :: ctail) /\ In s (n0 :: ntail).
Proof.
  unfold merged. destruct (memb p (n0 :: ntail)) eqn:M1.
  - cbn [In]. rewrite filter_In, memb_In. apply memb_In in M1. split.
    + intros [<-|[A B]]; auto.
    + intros [[<-|A] B]; auto.
  - assert (Np : ~ In p (n0 :: ntail)) by (rewrite <- memb_In; congruence).
    rewrite in_app_iff, filter_In, memb_In. cbn [In] in *. destruct (memb n0 ctail) eqn:M2.
    + apply memb_In in M2. cbn [In]. split.
      * intros [[<-|[]]|[A B]]; auto.
      * intros [[<-|A] [B|B]]; try tauto. all: subst; try tauto.
    + assert (Nn : ~ In n0 ctail) by (rewrite <- memb_In; congruence). split.
      * intros [[]|[A B]]; auto.
      * intros [[<-|A] [B|B]]; try tauto. subst. tauto.
Qed.

Lemma firstn_nil_len {A} n (l : list A) : firstn n l = [] -> (n <= length l)%nat -> n = 0%nat.
Proof. intros H L. pose proof (f_equal (@length A) H) as Q. rewrite firstn_length in Q. cbn in Q. lia. Qed.

Lemma merge_preferred n0 ntail p ctail pref : is_preferred n0 = true -> is_preferred p = true -> (length (p :: ctail) <= 32)%nat ->
  exists set', merge_sets (n0 :: ntail) (p :: ctail) pref = Ok (match merged n0 ntail p ctail with [] => false | _ => true end, set', pref) /\
    set' <> [] /\ (length set' <= 32)%nat /\ (merged n0 ntail p ctail <> [] -> set' = merged n0 ntail p ctail) /\
    (merged n0 ntail p ctail = [] -> set' = p :: ctail).
Proof.
  intros P0 P1 L. unfold merge_sets. rewrite P0, P1. cbn [negb].
  destruct ctail as [|c1 ctail]; [cbn [length Nat.eqb]|].
  { exists [p]. unfold merged. destruct (memb p (n0 :: ntail)) eqn:M; cbn [memb filter existsb app].
    - split; [reflexivity|]. split; [discriminate|]. split; [cbn; lia|]. split; [auto|discriminate].
    - split; [reflexivity|]. split; [discriminate|]. split; [cbn; lia|]. split; [congruence|auto]. }
  set (ct := c1 :: ctail) in *. change (length ct =? 0)%nat with false. cbv iota.
  destruct (memb p (n0 :: ntail)) eqn:M1.
  - cbn [set_nth bindR]. change (length (n0 :: ntail) =? 0)%nat with false. cbv iota.
    destruct (intersect_ok (n0 :: ntail) (length ct) (p :: ct) 1 1 ltac:(lia) ltac:(reflexivity)) as (arr & w & E & La & Bw & F & Ww & _).
    rewrite E. cbn [bindR]. cbn [firstn skipn app] in F.
    assert (Em : merged n0 ntail p ct = p :: filter (fun s => memb s (n0 :: ntail)) ct) by (unfold merged; now rewrite M1).
    rewrite Em, <- F in *. destruct (Nat.eqb_spec w 0); [lia|].
    destruct (firstn w arr) as [|f0 fr] eqn:Ef; [apply firstn_nil_len in Ef; lia|].
    destruct (Nat.ltb_spec w 32).
    + eexists. split; [reflexivity|]. split; [discriminate|]. split; [rewrite <- Ef, firstn_length; lia|]. split; [auto|discriminate].
    + rewrite firstn_all2 in Ef by lia. rewrite Ef. eexists. split; [reflexivity|]. split; [discriminate|].
      split; [rewrite <- Ef, La; cbn [length] in *; lia|]. split; [auto|discriminate].
  - assert (Em : merged n0 ntail p ct = (if memb n0 ct then [n0] else []) ++ filter (fun s => memb s ntail) ct) by (unfold merged; now rewrite M1).
    rewrite Em. clear Em.
    assert (Q : exists arr w, (if memb n0 ct then do a <- set_nth (p :: ct) 0 n0 ; Ok (a, 1%nat) else Ok (p :: ct, 0%nat)) = Ok (arr, w) /\
      length arr = length (p :: ct) /\ skipn 1 arr = ct /\ firstn w arr = (if memb n0 ct then [n0] else []) /\ (w <= 1)%nat /\ (w = 0%nat -> arr = p :: ct)).
    { destruct (memb n0 ct); cbn [set_nth bindR]; do 2 eexists; (split; [reflexivity|]); repeat split; auto; discriminate. }
    destruct Q as (arr & w & -> & La & Sk & Fw & Hw & Hz0). cbn [bindR].
    assert (Q : exists arr' w', (if (length ntail =? 0)%nat then Ok (arr, w) else intersect arr 1 w (length ct) ntail) = Ok (arr', w') /\
      length arr' = length (p :: ct) /\ (w' <= length (p :: ct))%nat /\
      firstn w' arr' = (if memb n0 ct then [n0] else []) ++ filter (fun s => memb s ntail) ct /\ (w' = 0%nat -> arr' = p :: ct)).
    { destruct ntail as [|m ntail]; cbn [length Nat.eqb].
      - exists arr, w. split; [reflexivity|]. split; auto. split; [cbn [length]; lia|].
        split; [|exact Hz0]. replace (filter (fun s => memb s []) ct) with (@nil N). { now rewrite app_nil_r. }
        clear. generalize ct. intros l. induction l; auto.
      - destruct (intersect_ok (m :: ntail) (length ct) arr 1 w Hw) as (arr' & w' & E & La' & Bw & F & Ww & Sw).
        { rewrite La. reflexivity. }
        exists arr', w'. split; [exact E|]. rewrite La' , La in *. split; auto. split; auto. split; [now rewrite F, Sk, Fw|]. intros Z. rewrite Sw by lia. apply Hz0. lia. }
    destruct Q as (arr' & w' & -> & La' & Bw & F & Hz1). cbn [bindR]. rewrite <- F.
    destruct (Nat.eqb_spec w' 0) as [->|Hz].
    + cbn [firstn]. exists arr'. split; [reflexivity|]. split; [destruct arr'; [discriminate La'|discriminate]|]. split; [lia|]. split; [congruence|intros _; now apply Hz1].
    + destruct (firstn w' arr') as [|f0 fr] eqn:Ef; [apply firstn_nil_len in Ef; lia|].
      destruct (Nat.ltb_spec w' 32).
      * eexists. split; [reflexivity|]. split; [discriminate|]. split; [rewrite <- Ef, firstn_length; lia|]. split; [auto|discriminate].
      * rewrite firstn_all2 in Ef by lia. rewrite Ef. eexists. split; [reflexivity|]. split; [discriminate|].
        split; [rewrite <- Ef, La'; lia|]. split; [auto|discriminate].
Qed.

(** ---- getScriptsFor ---- *)
Lemma replace_first_len s v l : length (replace_first s v l) = length l.
Proof. induction l as [|x l IH]; cbn; auto. destruct (s =? x); cbn; auto. Qed.
Lemma swap_front_len s l : length (swap_front s l) = length l.
Proof. destruct l as [|x r]; cbn; auto. destruct (s =? x); cbn; auto. now rewrite replace_first_len. Qed.
Lemma replace_first_In s v l : In s l -> forall y, In y (s :: replace_first s v l) <-> In y (v :: l).
Proof.
  intros Hs y. induction l as [|x l IH]; [destruct Hs|]. cbn [replace_first]. destruct (N.eqb_spec s x) as [->|Hn].
  - cbn. tauto.
  - destruct Hs as [->|Hs]; [congruence|]. specialize (IH Hs). cbn [In] in *. tauto.
Qed.
Lemma swap_front_In s l : In s l -> forall y, In y (swap_front s l) <-> In y l.
Proof.
  destruct l as [|x r]; [intros []|]. cbn [swap_front]. destruct (N.eqb_spec s x) as [->|Hn]; [tauto|].
  intros [->|H] y; [congruence|]. apply replace_first_In; auto.
Qed.
Lemma push_len l v : (length l <= 32)%nat -> (length (push l v) <= 32)%nat.
Proof. unfold push. destruct (Nat.eqb_spec (length l) 32); rewrite ?app_length; cbn; lia. Qed.
Lemma push_ne l v : push l v <> [].
Proof. unfold push. destruct (Nat.eqb_spec (length l) 32). - intros ->. discriminate. - now destruct l. Qed.
Lemma fold_push_len e : forall l, (length l <= 32)%nat -> (length (fold_left push e l) <= 32)%nat.
Proof. induction e; cbn; auto. intros l H. apply IHe, push_len, H. Qed.
Lemma fold_push_exact e : forall l, (length l + length e <= 32)%nat -> fold_left push e l = l ++ e.
Proof.
  induction e as [|x e IH]; cbn [fold_left length]; intros l H; [now rewrite app_nil_r|].
  assert (push l x = l ++ [x]) as ->. { unfold push. destruct (Nat.eqb_spec (length l) 32); [lia|auto]. }
  rewrite IH; [now rewrite <- app_assoc|]. rewrite app_length. cbn. lia.
Qed.
Lemma scripts_len tb c : (length (scripts_for tb c) <= 32)%nat /\ scripts_for tb c <> [].
Proof.
  unfold scripts_for. set (set := match extensions_of tb c with Some l => _ | None => _ end).
  assert (L : (length set <= 32)%nat). { subst set. destruct (extensions_of tb c); [apply fold_push_len|apply push_len]; cbn; lia. }
  destruct (memb (script_of tb c) set) eqn:M.
  - rewrite swap_front_len. split; auto. intros E. apply memb_In in M. rewrite <- swap_front_In in M by exact M. rewrite E in M. destruct M.
  - split; [now apply push_len|apply push_ne].
Qed.

Lemma real_preferred s : real s <-> is_preferred s = true.
Proof.
  unfold real, is_preferred. destruct (N.eqb_spec s sc_invalid), (N.eqb_spec s sc_common), (N.eqb_spec s sc_inherited); cbn; split; intros;
  try tauto; try discriminate; auto.
Qed.

(** only the last element may be Common, Inherited or Invalid *)
Definition ordered (l : list N) : Prop := exists r o, l = r ++ o /\ Forall real r /\ (length o <= 1)%nat.
Lemma ordered_head l s : ordered l -> In s l -> real s -> exists h t, l = h :: t /\ real h.
Proof.
  intros ([|h r] & o & -> & F & L) Hs Hr.
  - cbn [app length] in *. destruct o as [|x [|y o]]; [destruct Hs| |cbn in L; lia]. destruct Hs as [->|[]]. eauto.
  - apply Forall_cons_iff in F as [F _]. cbn. eauto.
Qed.
Lemma Forall_filter {A} (P : A -> Prop) f l : Forall P l -> Forall P (filter f l).
Proof. intros H. apply Forall_forall. intros x Hx. apply filter_In in Hx as [Hx _]. revert x Hx. now apply Forall_forall. Qed.
Lemma ordered_cons h l : real h -> ordered l -> ordered (h :: l).
Proof. intros H (r & o & -> & F & L). exists (h :: r), o. split; [reflexivity|]. split; auto. Qed.
Lemma ordered_filter f l : ordered l -> ordered (filter f l).
Proof.
  intros (r & o & -> & F & L). exists (filter f r), (filter f o). rewrite filter_app. split; auto. split; [now apply Forall_filter|].
  destruct o as [|x [|y o]]; cbn in *; try lia. destruct (f x); cbn; lia.
Qed.
Lemma ordered_tail h l : real h -> ordered (h :: l) -> ordered l.
Proof.
  intros Hh ([|x r] & o & E & F & L); cbn in E.
  - destruct o as [|y [|z o]]; [discriminate| |cbn in L; lia]. injection E as _ ->. exists [], []. repeat split; auto.
  - injection E as -> ->. apply Forall_cons_iff in F as [_ F]. exists r, o. auto.
Qed.
Lemma ordered_merged n0 ntail p ctail : real n0 -> real p -> ordered (p :: ctail) -> ordered (merged n0 ntail p ctail).
Proof.
  intros H0 Hp Ho. apply ordered_tail in Ho; auto. unfold merged. destruct (memb p (n0 :: ntail)).
  - apply ordered_cons; auto. now apply ordered_filter.
  - destruct (memb n0 ctail); cbn [app]; [apply ordered_cons; auto|]; now apply ordered_filter.
Qed.

Section Data.
Variable tb : script_tables.
Hypothesis D : script_data tb.

Lemma scripts_spec c : (forall s, In s (scripts_for tb c) <-> used_with tb c s) /\ ordered (scripts_for tb c) /\
  (has_real tb c -> exists h t, scripts_for tb c = h :: t /\ real h) /\
  (~ has_real tb c -> exists s, scripts_for tb c = [s] /\ ~ real s).
Proof.
  unfold scripts_for, used_with, has_real, used_with.
  assert (E : forall s, (exists l, extensions_of tb c = Some l /\ In s l) <-> In s (match extensions_of tb c with Some l => l | None => [] end)).
  { intros s. destruct (extensions_of tb c) as [l|]; split.
    - intros (l' & [= <-] & H); auto. - intros H. eauto. - intros (l' & H & _). discriminate. - intros []. }
  destruct (extensions_of tb c) as [l|] eqn:X.
  - destruct (D c l X) as [Ll Hl]. rewrite fold_push_exact by (cbn; lia). cbn [app].
    destruct (memb (script_of tb c) l) eqn:M.
    + apply memb_In in M. pose proof (swap_front_In _ _ M) as SI.
      assert (Fr : Forall real (swap_front (script_of tb c) l)). { apply Forall_forall. intros x Hx. apply SI in Hx. auto. }
      split. { intros s. rewrite SI, E. split; auto. intros [->|H]; auto. }
      split. { exists (swap_front (script_of tb c) l), []. rewrite app_nil_r. split; auto. }
      split.
      { intros _. pose proof (proj2 (SI _) M) as MI. destruct (swap_front (script_of tb c) l) as [|h t]; [destruct MI|].
        exists h, t. split; auto. now apply Forall_cons_iff in Fr. }
      { intros N0. exfalso. apply N0. exists (script_of tb c). auto. }
    + assert (push l (script_of tb c) = l ++ [script_of tb c]) as ->. { unfold push. destruct (Nat.eqb_spec (length l) 32); [lia|auto]. }
      split. { intros s. rewrite in_app_iff, E. cbn. intuition. }
      split. { exists l, [script_of tb c]. split; auto. split; [now apply Forall_forall|cbn; lia]. }
      split.
      { intros (s & Rs & Hs). destruct l as [|h t]; cbn [app].
        - exists (script_of tb c), []. split; auto. destruct Hs as [->|Hs]; auto. apply E in Hs. destruct Hs.
        - exists h, (t ++ [script_of tb c]). split; auto. apply Hl. now left. }
      { intros N0. destruct l as [|h t].
        - exists (script_of tb c). split; auto. intros R. apply N0. exists (script_of tb c). auto.
        - exfalso. apply N0. exists h. split; [apply Hl; now left|]. right. exists (h :: t). split; auto. now left. }
  - cbn [push app length Nat.eqb]. unfold push. cbn [app length Nat.eqb].
    assert (memb (script_of tb c) [script_of tb c] = true) as -> by (apply memb_In; now left).
    cbn [swap_front]. rewrite N.eqb_refl.
    split. { intros s. cbn [In]. split; [intros [->|[]]; auto|]. intros [->|(l & ? & _)]; [auto|discriminate]. }
    split. { exists [], [script_of tb c]. split; [reflexivity|]. split; [constructor|cbn; lia]. }
    split.
    { intros (s & Rs & [->|(l & ? & _)]); [|discriminate]. eauto. }
    { intros N0. exists (script_of tb c). split; auto. intros R. apply N0. exists (script_of tb c). auto. }
Qed.
Lemma has_real_dec c : has_real tb c \/ ~ has_real tb c.
Proof.
  destruct (scripts_spec c) as (A & B & _). pose proof (scripts_len tb c) as [_ NE].
  destruct (Exists_dec (fun s => is_preferred s = true) (scripts_for tb c)) as [Y|Nn].
  { intros x. destruct (is_preferred x); [left; reflexivity|right; discriminate]. }
  - left. apply Exists_exists in Y as (s & Hs & P). exists s. split; [now apply real_preferred|now apply A].
  - right. intros (s & R & U). apply Nn. apply Exists_exists. exists s. split; [now apply A|now apply real_preferred].
Qed.

(** scripts usable with every code point of [p] that has a real one *)
Definition common_to (p : list N) (s : N) : Prop := forall c, In c p -> has_real tb c -> used_with tb c s.
Definition no_real (p : list N) : Prop := forall c, In c p -> ~ has_real tb c.

(** what the current set means after the code points [p] of a run *)
Inductive J (p : list N) (cur : list N) : Prop :=
| J_common : no_real p -> cur = [sc_common] -> J p cur
| J_some : forall p1 p2, p = p1 ++ p2 -> (exists c, In c p2 /\ has_real tb c) ->
    (forall s, In s cur <-> common_to p2 s) -> ordered cur ->
    (no_real p1 \/ ((forall s, real s -> ~ common_to p1 s) /\ exists c h, In c p1 /\ has_real tb c /\ used_with tb c h /\ ~ real h)) -> J p cur.

Lemma common_app p q s : common_to (p ++ q) s <-> common_to p s /\ common_to q s.
Proof.
  unfold common_to. split.
  - intros H. split; intros c Hc; apply H, in_or_app; auto.
  - intros [A B] c Hc. apply in_app_or in Hc as [Hc|Hc]; auto.
Qed.
Lemma common_no p s : no_real p -> common_to p s. Proof. intros H c Hc R. now apply H in Hc. Qed.
Lemma common_one c s : has_real tb c -> (common_to [c] s <-> used_with tb c s).
Proof. intros R. unfold common_to. split; [intros H; apply H; auto; now left|]. intros U d [<-|[]] _. exact U. Qed.

(** one step *)
Lemma J_merge p cur c : J p cur -> cur <> [] -> (length cur <= 32)%nat ->
  exists b cur', merge_sets (scripts_for tb c) cur sc_common = Ok (b, cur', sc_common) /\ cur' <> [] /\ (length cur' <= 32)%nat /\
    (b = true -> J (p ++ [c]) cur') /\
    (b = false -> cur' = cur /\ has_real tb c /\ ~ exists s, common_to (p ++ [c]) s).
Proof.
  intros HJ NE LE. destruct (scripts_spec c) as (SA & SO & SR & SN). destruct cur as [|h t]; [congruence|].
  destruct (has_real_dec c) as [R|R].
  - destruct (SR R) as (n0 & nt & En & Rn). rewrite En in *. pose proof (proj1 (real_preferred _) Rn) as Pn.
    destruct (is_preferred h) eqn:Ph.
    + (* both preferred *)
      destruct HJ as [Nr Ec|p1 p2 Ep Ex Hc Ho Hd]; [injection Ec as -> ->; discriminate Ph|].
      destruct (merge_preferred n0 nt h t sc_common Pn Ph LE) as (set' & Em & Ne' & Le' & Eq & Ez). rewrite Em.
      do 2 eexists. split; [reflexivity|]. split; [exact Ne'|]. split; [exact Le'|]. split.
      * intros Hb. assert (Hne : merged n0 nt h t <> []) by (destruct (merged n0 nt h t); [discriminate|congruence]).
        rewrite (Eq Hne). apply (J_some _ _ p1 (p2 ++ [c])).
        { now rewrite Ep, app_assoc. }
        { destruct Ex as (d & Hd1 & Hd2). exists d. split; auto. apply in_or_app; auto. }
        { intros s. rewrite merged_In, Hc, SA, common_app, (common_one c s R). tauto. }
        { apply ordered_merged; auto. now apply real_preferred. }
        { exact Hd. }
      * intros Hb. assert (Hne : merged n0 nt h t = []) by (destruct (merged n0 nt h t); [auto|discriminate]).
        split; [now apply Ez|]. split; [exact R|].
        { intros (s & Hs). rewrite Ep, !common_app in Hs. destruct Hs as [[_ H2] H3]. apply common_one in H3; auto.
          assert (In s (merged n0 nt h t)) by (rewrite merged_In, Hc, SA; auto). rewrite Hne in H. destruct H. }
    + (* take the next set *)
      cbn [merge_sets]. rewrite Pn, Ph. cbn [negb]. do 2 eexists. split; [reflexivity|]. split; [discriminate|].
      split; [rewrite <- En; apply scripts_len|]. split; [intros _|discriminate].
      apply (J_some _ _ p [c]); auto.
      { exists c. split; auto. now left. }
      { intros s. now rewrite SA, common_one. }
      destruct HJ as [Nr Ec|p1 p2 Ep Ex Hc Ho Hd]; [left; exact Nr|right].
      split; [|destruct Ex as (d & Hd1 & Hd2); exists d, h; rewrite Ep, in_app_iff; split; [auto|]; split; [auto|];
        split; [apply (proj1 (Hc h) (or_introl eq_refl)); auto|rewrite real_preferred; congruence]].
      intros s Rs Hs.
      rewrite Ep, common_app in Hs. destruct Hs as [_ Hs]. apply Hc in Hs. destruct (ordered_head _ _ Ho Hs Rs) as (h' & t' & E' & R').
      injection E' as <- <-. apply real_preferred in R'. congruence.
  - destruct (SN R) as (s0 & En & Ns). rewrite En.
    assert (P0 : is_preferred s0 = false). { destruct (is_preferred s0) eqn:Q; auto. apply real_preferred in Q. tauto. }
    cbn [merge_sets length Nat.eqb]. rewrite P0. cbn [negb andb].
    do 2 eexists. split; [reflexivity|]. split; [discriminate|]. split; [exact LE|]. split; [intros _|discriminate].
    destruct HJ as [Nr Ec|p1 p2 Ep Ex Hc Ho Hd].
    + apply J_common; auto. intros d Hd. apply in_app_or in Hd as [Hd|[<-|[]]]; auto.
    + apply (J_some _ _ p1 (p2 ++ [c])).
      { now rewrite Ep, app_assoc. }
      { destruct Ex as (d & Hd1 & Hd2). exists d. split; auto. apply in_or_app; auto. }
      { intros s. rewrite Hc, common_app. split; [|tauto]. intros H. split; auto. apply common_no. intros d [<-|[]]. exact R. }
      { exact Ho. } { exact Hd. }
Qed.

Lemma loop_J rest : forall off p cur, J p cur -> cur <> [] -> (length cur <= 32)%nat ->
  exists u v s cur', rest = u ++ v /\ J (p ++ u) cur' /\ hd_error cur' = Some s /\
    ((v = [] /\ consume_loop tb rest off cur sc_common = Ok ((s, (off + length u)%nat), mkSseg [] (off + length u) [] sc_common)) \/
     (exists c v', v = c :: v' /\ consume_loop tb rest off cur sc_common =
        Ok ((s, (off + length u)%nat), mkSseg v (off + length u) (scripts_for tb c) sc_common) /\
      has_real tb c /\ ~ exists x, common_to (p ++ u ++ [c]) x)).
Proof.
  induction rest as [|c r IH]; intros off p cur HJ NE LE.
  - destruct cur as [|h t]; [congruence|]. exists [], [], h, (h :: t). rewrite (app_nil_r p). split; [reflexivity|]. split; auto. split; auto.
    left. cbn [length consume_loop resolve_script bindR]. rewrite Nat.add_0_r. split; auto.
    destruct (N.eqb_spec h sc_common) as [->|]; reflexivity.
  - destruct (J_merge p cur c HJ NE LE) as (b & cur1 & Em & Ne1 & Le1 & Ht & Hf). cbn [consume_loop]. rewrite Em. cbn [bindR].
    destruct b.
    + destruct (IH (S off) (p ++ [c]) cur1 (Ht eq_refl) Ne1 Le1) as (u & v & s & cur' & Er & HJ' & Ne' & Hd).
      exists (c :: u), v, s, cur'. split; [now rewrite Er|]. split; [rewrite <- app_assoc in HJ'; exact HJ'|]. split; auto.
      cbn [length]. replace (off + S (length u))%nat with (S off + length u)%nat by lia.
      destruct Hd as [H|(d & v' & Ev & H1 & HR & H2)]; [left; exact H|right]. exists d, v'. split; auto. split; auto. split; auto.
      rewrite <- !app_assoc in H2. exact H2.
    + destruct (Hf eq_refl) as (-> & HR & Hno). destruct cur as [|h t]; [congruence|].
      exists [], (c :: r), h, (h :: t). rewrite (app_nil_r p). split; [reflexivity|]. split; [exact HJ|]. split; [reflexivity|].
      right. exists c, r. split; auto. split; [|split; [exact HR|exact Hno]]. cbn [resolve_script bindR length]. rewrite Nat.add_0_r.
      destruct (N.eqb_spec h sc_common) as [->|]; reflexivity.
Qed.
End Data.

(** ---- every table: no undefined behaviour, progress, termination ---- *)
Lemma merge_total next cur pref : next <> [] -> cur <> [] -> (length next <= 32)%nat -> (length cur <= 32)%nat ->
  exists b cur' pref', merge_sets next cur pref = Ok (b, cur', pref') /\ cur' <> [] /\ (length cur' <= 32)%nat.
Proof.
  intros Nn Nc Ln Lc. destruct next as [|n0 nt]; [congruence|]. destruct cur as [|p ct]; [congruence|].
  destruct (is_preferred n0) eqn:P0.
  - destruct (is_preferred p) eqn:P1.
    + destruct (merge_preferred n0 nt p ct pref P0 P1 Lc) as (s & E & A & B & _). rewrite E. eauto 8.
    + cbn [merge_sets]. rewrite P0, P1. cbn [negb]. do 3 eexists. split; [reflexivity|]. split; auto.
  - cbn [merge_sets]. rewrite P0. cbn [negb]. do 3 eexists. split; [reflexivity|]. split; auto.
Qed.
Lemma merge_self l pref : l <> [] -> (length l <= 32)%nat -> exists cur', merge_sets l l pref = Ok (true, cur', pref) /\ True
  \/ exists pref', merge_sets l l pref = Ok (true, l, pref').
Proof.
  intros Nl Ll. destruct l as [|h t]; [congruence|]. destruct (is_preferred h) eqn:P.
  - destruct (merge_preferred h t h t pref P P Ll) as (s & E & _). rewrite E. exists s. left. split; auto.
    assert (In h (merged h t h t)) by (rewrite merged_In; cbn; auto). destruct (merged h t h t); [destruct H|reflexivity].
  - exists []. right. cbn [merge_sets]. rewrite P. cbn [negb]. eauto.
Qed.
Definition starts (tb : script_tables) (rest set : list N) : Prop :=
  match rest with
  | [] => True
  | c :: _ => set <> [] /\ (length set <= 32)%nat /\
      forall pref, exists cur' pref', merge_sets (scripts_for tb c) set pref = Ok (true, cur', pref') /\ cur' <> [] /\ (length cur' <= 32)%nat
  end.
Lemma starts_new tb rest : starts tb rest [sc_common].
Proof.
  destruct rest as [|c r]; cbn; auto. split; [discriminate|]. split; [lia|]. intros pref.
  destruct (scripts_len tb c) as [L NE]. destruct (scripts_for tb c) as [|n0 nt]; [congruence|]. cbn [merge_sets].
  destruct (is_preferred n0); cbn [negb].
  - change (negb (is_preferred sc_common)) with true. cbv iota. do 2 eexists. split; [reflexivity|]. auto.
  - do 2 eexists. split; [reflexivity|]. split; [discriminate|cbn; lia].
Qed.
Lemma starts_next tb c r : starts tb (c :: r) (scripts_for tb c).
Proof.
  cbn. destruct (scripts_len tb c) as [L NE]. split; auto. split; auto. intros pref.
  destruct (merge_total _ _ pref NE NE L L) as (b & cur' & pref' & E & A & B).
  destruct (merge_self _ pref NE L) as (x & [[E2 _]|(p2 & E2)]); rewrite E in E2; injection E2 as -> -> ->; eauto.
Qed.
Lemma loop_total tb rest : forall off set pref, set <> [] -> (length set <= 32)%nat ->
  exists s u v st', consume_loop tb rest off set pref = Ok ((s, (off + length u)%nat), st') /\ rest = u ++ v /\
    ss_rest st' = v /\ ss_offset st' = (off + length u)%nat /\ starts tb v (ss_set st').
Proof.
  induction rest as [|c r IH]; intros off set pref NE L; cbn [consume_loop].
  - destruct set as [|h t]; [congruence|]. cbn [resolve_script bindR]. eexists _, [], [], _. cbn [length app]. rewrite Nat.add_0_r.
    split; [reflexivity|]. cbn. repeat split; auto.
  - destruct (scripts_len tb c) as [Ls NEs]. destruct (merge_total _ _ pref NEs NE Ls L) as (b & cur' & pref' & E & A & B).
    rewrite E. cbn [bindR]. destruct b.
    + destruct (IH (S off) cur' pref' A B) as (s & u & v & st' & E' & Er & R). exists s, (c :: u), v, st'. cbn [length].
      replace (off + S (length u))%nat with (S off + length u)%nat by lia. split; [exact E'|]. split; [now rewrite Er|exact R].
    + destruct cur' as [|h t]; [congruence|]. cbn [resolve_script bindR]. eexists _, [], (c :: r), _. cbn [length app]. rewrite Nat.add_0_r.
      split; [reflexivity|]. cbn [ss_rest ss_offset ss_set]. split; [reflexivity|]. split; [reflexivity|]. split; [reflexivity|]. apply (starts_next tb c r).
Qed.
Lemma consume_progress tb st c r : ss_rest st = c :: r -> starts tb (c :: r) (ss_set st) ->
  exists s u v st', script_consume tb st = Ok (Some (s, (ss_offset st + S (length u))%nat), st') /\ r = u ++ v /\
    ss_rest st' = v /\ ss_offset st' = (ss_offset st + S (length u))%nat /\ starts tb v (ss_set st').
Proof.
  intros Er (NE & L & H). unfold script_consume. rewrite Er. destruct (H (ss_pref st)) as (cur' & pref' & E & A & B).
  cbn [consume_loop]. rewrite E. cbn [bindR].
  destruct (loop_total tb r (S (ss_offset st)) cur' pref' A B) as (s & u & v & st' & E' & R). rewrite E'. cbn [bindR].
  exists s, u, v, st'. replace (ss_offset st + S (length u))%nat with (S (ss_offset st) + length u)%nat by lia. auto.
Qed.
Lemma runs_total tb n : forall st, (length (ss_rest st) < n)%nat -> starts tb (ss_rest st) (ss_set st) ->
  exists rs, script_runs tb n st = Ok rs /\ ends_at (ss_offset st + length (ss_rest st)) (ss_offset st) (map snd rs).
Proof.
  induction n as [|n IH]; intros st L HS; [lia|]. cbn [script_runs]. destruct (ss_rest st) as [|c r] eqn:Er.
  - unfold script_consume. rewrite Er. cbn [bindR length]. rewrite Nat.add_0_r. exists []. split; auto. constructor.
  - destruct (consume_progress tb st c r Er HS) as (s & u & v & st' & E & Eu & Ev & Eo & S'). rewrite E. cbn [bindR].
    cbn [length] in *. assert (Lu : length r = (length u + length v)%nat) by now rewrite Eu, app_length.
    destruct (IH st') as (rs & Ers & Hends); rewrite Ev in *; [lia|auto|]. rewrite Ers. cbn [bindR]. eexists. split; [reflexivity|].
    cbn [map snd]. constructor; [lia|]. rewrite Eo in Hends.
    replace (ss_offset st + S (length r))%nat with (ss_offset st + S (length u) + length v)%nat by lia. exact Hends.
Qed.

(** ---- runs under [script_data] ---- *)
Section Runs.
Variable tb : script_tables.
Hypothesis D : script_data tb.
Definition slice {A} (t : list A) (a b : nat) : list A := firstn (b - a) (skipn a t).
Definition good (t : list N) (a b : nat) (s : N) : Prop :=
  (a < b <= length t)%nat /\ exists cur, J tb (slice t a b) cur /\ hd_error cur = Some s /\
    ((b < length t)%nat -> exists c, nth_error t b = Some c /\ ~ exists x, common_to tb (slice t a b ++ [c]) x).
Definition begin_state (first : bool) (rest set : list N) : Prop :=
  if first then set = [sc_common] else match rest with [] => True | c :: _ => set = scripts_for tb c /\ has_real tb c end.

Lemma J_self c : has_real tb c -> exists cur', merge_sets (scripts_for tb c) (scripts_for tb c) sc_common = Ok (true, cur', sc_common) /\
  cur' <> [] /\ (length cur' <= 32)%nat /\ J tb [c] cur'.
Proof.
  intros R. destruct (scripts_len tb c) as [L NE]. destruct (scripts_spec tb D c) as (SA & SO & SR & _).
  destruct (SR R) as (h & t & Eh & Rh).
  assert (J0 : J tb [c] (scripts_for tb c)).
  { apply (J_some _ _ _ [] [c]); auto. - exists c. split; auto. now left.
    - intros s. now rewrite SA, common_one. - left. intros d []. }
  destruct (J_merge tb D [c] _ c J0 NE L) as (b & cur' & E & A & B & Ht & Hf). destruct b.
  - exists cur'. split; auto. split; auto. split; auto. destruct (Ht eq_refl) as [Nr _|p1 p2 Ep Ex Hc Ho Hd].
    { exfalso. apply (Nr c); auto. now left. }
    assert (Hh : used_with tb c h). { apply SA. rewrite Eh. now left. }
    destruct p1 as [|x [|y p1]]; cbn in Ep.
    + apply (J_some _ _ _ [] [c]); auto. { exists c. split; auto. now left. }
      intros s. rewrite Hc. subst p2. change [c; c] with ([c] ++ [c]). rewrite common_app. tauto.
    + injection Ep as <- <-. exfalso. destruct Hd as [Nr|[Hd _]]; [apply (Nr c); auto; now left|].
      apply (Hd h Rh). now apply common_one.
    + injection Ep as <- <- Ep. destruct p1; [|discriminate]. cbn in Ep. subst p2. destruct Ex as (d & [] & _).
  - exfalso. destruct (Hf eq_refl) as (_ & _ & Hno). apply Hno. exists h.
    rewrite common_app, !common_one; auto. split; apply SA; rewrite Eh; now left.
Qed.

Lemma slice_app (p u v : list N) : slice (p ++ u ++ v) (length p) (length p + length u) = u.
Proof.
  unfold slice. replace (length p + length u - length p)%nat with (length u) by lia.
  rewrite skipn_app, skipn_all, Nat.sub_diag. cbn [skipn app]. rewrite firstn_app, firstn_all, Nat.sub_diag. cbn. apply app_nil_r.
Qed.

Lemma good_intro pre u v s cur : u <> [] -> J tb u cur -> hd_error cur = Some s ->
  (forall c v', v = c :: v' -> ~ exists x, common_to tb (u ++ [c]) x) -> good (pre ++ u ++ v) (length pre) (length pre + length u) s.
Proof.
  intros Nu HJ Hs Hv. split.
  - rewrite !app_length. destruct u; [congruence|]. cbn [length]. lia.
  - exists cur. rewrite slice_app. split; auto. split; auto. intros Lt. rewrite !app_length in Lt. destruct v as [|c v']; [cbn in Lt; lia|].
    exists c. split; [|now apply (Hv c v')]. rewrite app_assoc, nth_error_app2 by (rewrite app_length; lia).
    rewrite app_length, Nat.sub_diag. reflexivity.
Qed.

Lemma runs_good n : forall st first pre rs, script_runs tb n st = Ok rs ->
  begin_state first (ss_rest st) (ss_set st) -> ss_offset st = length pre -> ss_pref st = sc_common ->
  forall a b s, run_from (length pre) rs a b s -> good (pre ++ ss_rest st) a b s.
Proof.
  induction n as [|n IH]; intros st first pre rs E B Eo Ep a b s Hr; [discriminate|]. cbn [script_runs] in E.
  unfold script_consume in E. destruct st as [rest off set pref]. cbn [ss_rest ss_offset ss_set ss_pref] in *. subst off pref.
  destruct rest as [|c r]; [injection E as <-; inversion Hr|].
  assert (Q : exists u v s1 cur', c :: r = u ++ v /\ u <> [] /\ J tb u cur' /\ hd_error cur' = Some s1 /\
    exists st', consume_loop tb (c :: r) (length pre) set sc_common = Ok ((s1, (length pre + length u)%nat), st') /\
      ss_rest st' = v /\ ss_offset st' = (length pre + length u)%nat /\ ss_pref st' = sc_common /\
      begin_state false v (ss_set st') /\ (forall d v', v = d :: v' -> ~ exists x, common_to tb (u ++ [d]) x)).
  { assert (Q0 : exists cur1, merge_sets (scripts_for tb c) set sc_common = Ok (true, cur1, sc_common) /\ cur1 <> [] /\ (length cur1 <= 32)%nat /\ J tb [c] cur1).
    { destruct first; cbn [begin_state] in B.
      - subst set. assert (J0 : J tb [] [sc_common]) by (apply J_common; auto; intros d []).
        destruct (J_merge tb D [] _ c J0 ltac:(discriminate) ltac:(cbn; lia)) as (b1 & cur1 & E1 & A1 & B1 & Ht & Hf). destruct b1.
        + exists cur1. split; auto.
        + exfalso. destruct (Hf eq_refl) as (-> & HR & Hno). apply Hno. destruct HR as (x & Rx & Ux). exists x. cbn [app].
          intros d [<-|[]] _. exact Ux.
      - destruct B as [-> R]. now apply J_self. }
    destruct Q0 as (cur1 & E1 & A1 & B1 & J1). cbn [consume_loop]. rewrite E1. cbn [bindR].
    destruct (loop_J tb D r (S (length pre)) [c] cur1 J1 A1 B1) as (u & v & s1 & cur' & Er & HJ & Hs & Hd).
    exists (c :: u), v, s1, cur'. cbn [app]. split; [now rewrite Er|]. split; [discriminate|]. split; [exact HJ|]. split; [exact Hs|].
    cbn [length]. replace (length pre + S (length u))%nat with (S (length pre) + length u)%nat by lia.
    destruct Hd as [(-> & El)|(d & v' & -> & El & HR & Hno)].
    - eexists. split; [exact El|]. cbn. repeat split; auto. discriminate.
    - eexists. split; [exact El|]. cbn [ss_rest ss_offset ss_pref ss_set begin_state]. repeat split; auto.
      intros d' v'' [= <- <-]. exact Hno. }
  destruct Q as (u & v & s1 & cur' & Et & Nu & HJ & Hs & st' & El & Ev & Eo' & Ep' & B' & Hv).
  rewrite El in E. cbn [bindR] in E. destruct (script_runs tb n st') as [rs'| |] eqn:Er; try discriminate. cbn [bindR] in E. injection E as <-.
  rewrite Et. inversion Hr as [a0 s0 e0 rs0|a0 s0 e0 rs0 a' b' s' Hr']; subst.
  - now apply (good_intro pre u (ss_rest st') s cur').
  - rewrite app_assoc. apply (IH st' false (pre ++ u) rs' Er B'); auto; rewrite app_length; auto.
Qed.

Lemma slice_In (t : list N) a b c : In c (slice t a b) <-> exists i, (a <= i < b)%nat /\ nth_error t i = Some c.
Proof.
  unfold slice. split.
  - intros H. apply In_nth_error in H as [k Hk]. exists (a + k)%nat.
    assert (Lk : (k < b - a)%nat). { assert (k < length (firstn (b - a) (skipn a t)))%nat by (apply nth_error_Some; congruence). rewrite firstn_length in H. lia. }
    split; [lia|]. revert Hk. generalize (b - a)%nat as m, Lk. clear. intros m Lk Hk.
    assert (E : forall (l : list N) m k, (k < m)%nat -> nth_error (firstn m l) k = nth_error l k).
    { induction l as [|x l IH]; intros [|m'] [|k'] H; cbn; auto; try lia. apply IH. lia. }
    rewrite E in Hk by auto. rewrite <- Hk. clear. revert t. induction a as [|a IH]; intros [|x t]; cbn; auto. now destruct k.
  - intros (i & Hi & Hn). 
    assert (E : forall (l : list N) m k, (k < m)%nat -> nth_error (firstn m l) k = nth_error l k).
    { clear. induction l as [|x l IH]; intros [|m'] [|k'] H; cbn; auto; try lia. apply IH. lia. }
    apply (nth_error_In _ (i - a)). rewrite E by lia.
    assert (E2 : forall (l : list N) a k, nth_error (skipn a l) k = nth_error l (a + k)).
    { clear. intros l a. revert l. induction a as [|a IH]; intros [|x l] k; cbn; auto. now destruct k. }
    rewrite E2. replace (a + (i - a))%nat with i by lia. exact Hn.
Qed.
Lemma shared_common t a b s : shared tb t a b s <-> common_to tb (slice t a b) s.
Proof.
  unfold shared, common_to. split.
  - intros H c Hc. apply slice_In in Hc as (i & Hi & Hn). eauto.
  - intros H i c Hi Hn. apply H. apply slice_In. eauto.
Qed.
End Runs.
