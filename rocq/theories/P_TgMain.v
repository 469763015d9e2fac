(** Proofs about unicode_tablegen as a program. *)
From Coq Require Import String Ascii.
From Verif Require Import Base Spec_TgMain M_TgMain.
Open Scope string_scope.

Lemma parse_missing p dir fs : forall names acc, (exists f, In f names /\ fs f = None) -> exists w, parse_all p dir fs names acc = Threw w.
Proof.
  induction names as [|x r IH]; intros acc (f & Hf & E); [destruct Hf|]. cbn [parse_all]. destruct (before p acc) as [w|]; [eauto|].
  destruct (fs x) as [i|] eqn:Ex; [|eauto]. destruct (after p (acc ++ [delivered i])%list); [eauto|]. apply IH. destruct Hf as [->|Hf]; [congruence|eauto].
Qed.
Lemma parse_first p dir fs : (forall c, before p c = None) -> (forall c, after p c = None) ->
  forall names l f r acc, names = (l ++ f :: r)%list -> Forall (fun x => fs x <> None) l -> fs f = None ->
  parse_all p dir fs names acc = Threw (lits "Failed to open file: " ++ dir ++ lits "/" ++ lits f)%list.
Proof.
  intros Hb Ha names l. revert names. induction l as [|x l IH]; intros names f r acc -> Hl Hf; cbn [app parse_all]; rewrite Hb.
  - rewrite Hf. reflexivity.
  - pose proof (Forall_inv Hl) as Hx. cbv beta in Hx. destruct (fs x); [|congruence]. rewrite Ha. eapply IH; eauto. exact (Forall_inv_tail Hl).
Qed.
Lemma parse_ok p dir fs : forall names acc c, parse_all p dir fs names acc = Parsed c ->
  (forall f, In f names -> fs f <> None) /\ c = (acc ++ map (fun f => match fs f with Some i => delivered i | None => [] end) names)%list.
Proof.
  induction names as [|x r IH]; intros acc c H; cbn [parse_all] in H.
  - injection H as <-. split; [intros f []|]. cbn. rewrite app_nil_r. reflexivity.
  - destruct (before p acc); [discriminate|]. destruct (fs x) as [i|] eqn:Ex; [|discriminate]. destruct (after p (acc ++ [delivered i])%list); [discriminate|].
    destruct (IH _ _ H) as [H1 H2]. split.
    + intros f [<-|Hf]; [congruence|auto].
    + cbn [map]. rewrite Ex, H2, <- app_assoc. reflexivity.
Qed.
Lemma parse_quiet p dir fs : (forall c, before p c = None) -> (forall c, after p c = None) ->
  forall names acc, (forall f, In f names -> fs f <> None) -> exists c, parse_all p dir fs names acc = Parsed c.
Proof.
  intros Hb Ha. induction names as [|x r IH]; intros acc H; cbn [parse_all]; [eauto|]. rewrite Hb. destruct (fs x) eqn:E; [|exfalso; apply (H x); cbn; auto].
  rewrite Ha. apply IH. intros f Hf. apply H. cbn. auto.
Qed.
Lemma needed_order f : In f parse_order <-> In f needed.
Proof. cbn. tauto. Qed.

Lemma write_files_spec dev g : forall fs d x, NoDup fs ->
  write_files dev g fs d x = if in_dec string_dec x fs then match dev x with None => d x | Some n => Some (firstn n (g x)) end else d x.
Proof.
  induction fs as [|f r IH]; intros d x ND; cbn [write_files]; [reflexivity|]. apply NoDup_cons_iff in ND. destruct ND as [N1 N2].
  rewrite IH by exact N2. unfold write_file. destruct (in_dec string_dec x r) as [Hr|Hr]; destruct (in_dec string_dec x (f :: r)) as [H|H].
  - destruct (dev x); [reflexivity|]. destruct (dev f); [|reflexivity]. destruct (String.eqb_spec x f); [subst; contradiction|reflexivity].
  - exfalso. apply H. right. exact Hr.
  - destruct H as [<-|H]; [|contradiction]. destruct (dev f); [rewrite String.eqb_refl; reflexivity|reflexivity].
  - destruct (dev f); [|reflexivity]. destruct (String.eqb_spec x f); [subst; exfalso; apply H; left; reflexivity|reflexivity].
Qed.
Lemma write_files_app dev g a b d : write_files dev g (a ++ b) d = write_files dev g b (write_files dev g a d).
Proof. revert d. induction a as [|f a IH]; intros d; cbn [app write_files]; [reflexivity|]. apply IH. Qed.
Lemma nine_stages : (concat stage_enums ++ stage_api ++ stage_case ++ stage_multi)%list = nine.
Proof. reflexivity. Qed.
Lemma nine_nodup : NoDup nine.
Proof. repeat (constructor; [cbn; intros H; repeat (destruct H as [H|H]; [discriminate|]); exact H|]). constructor. Qed.

(** ** the reuse decision *)
Lemma all_exist_spec d fs : all_exist d fs = true <-> forall f, In f fs -> d f <> None.
Proof.
  induction fs as [|f r IH]; cbn [all_exist]; [split; [intros _ f []|reflexivity]|]. destruct (d f) eqn:E.
  - rewrite IH. split; [intros H x [<-|Hx]; [congruence|auto]|]. intros H x Hx. apply H. right. exact Hx.
  - split; [discriminate|]. intros H. exfalso. apply (H f); [left; reflexivity|exact E].
Qed.
Lemma fresh_for_spec s d fs : (forall f, In f fs -> d f <> None) ->
  (fresh_for (Some s) d fs = true <-> forall f c t, In f fs -> d f = Some (c, t) -> (s <= t)%N).
Proof.
  induction fs as [|f r IH]; intros Hd; cbn [fresh_for]; [split; [intros _ f c t []|reflexivity]|].
  specialize (IH ltac:(intros x Hx; apply Hd; right; exact Hx)).
  pose proof (Hd f (or_introl eq_refl)) as Hf. unfold mtime. destruct (d f) as [[c t]|] eqn:E; [|congruence]. cbn [option_map snd is_newer].
  destruct (N.leb_spec t s) as [L|L]; destruct (N.leb_spec s t) as [K|K]; cbn [andb negb]; try lia.
  - rewrite IH. split; [|intros H x c' t' Hx; apply H; right; exact Hx]. intros H x c' t' [<-|Hx] Ex; [rewrite E in Ex; injection Ex as _ <-; exact K|eauto].
  - split; [discriminate|]. intros H. specialize (H f c t (or_introl eq_refl) E). lia.
  - rewrite IH. split; [|intros H x c' t' Hx; apply H; right; exact Hx]. intros H x c' t' [<-|Hx] Ex; [rewrite E in Ex; injection Ex as _ <-; exact K|eauto].
Qed.
Lemma fresh_spec d srcs : (forall f, In f generated_files -> d f <> None) ->
  (fresh (map Some srcs) d = true <-> forall s f c t, In s srcs -> In f generated_files -> d f = Some (c, t) -> (s <= t)%N).
Proof.
  intros Hd. induction srcs as [|s r IH]; cbn [map fresh]; [split; [intros _ s f c t []|reflexivity]|].
  pose proof (fresh_for_spec s d generated_files Hd) as F. destruct (fresh_for (Some s) d generated_files).
  - rewrite IH. split.
    + intros H s' f c t [<-|Hs] Hf E; [exact (proj1 F eq_refl f c t Hf E)|exact (H s' f c t Hs Hf E)].
    + intros H s' f c t Hs. apply H. right. exact Hs.
  - split; [discriminate|]. intros H. apply F. intros f c t Hf E. exact (H s f c t (or_introl eq_refl) Hf E).
Qed.
Lemma generated_nine f : In f generated_files <-> In f nine.
Proof. cbn. tauto. Qed.
Lemma pregenerated_spec srcs d : has_pregenerated (map Some srcs) d = true <->
  forall f, In f nine -> exists c t, d f = Some (c, t) /\ forall s, In s srcs -> (s <= t)%N.
Proof.
  unfold has_pregenerated. pose proof (all_exist_spec d generated_files) as A. destruct (all_exist d generated_files).
  - pose proof (proj1 A eq_refl) as Hd. rewrite (fresh_spec d srcs Hd). split.
    + intros H f Hf. apply generated_nine in Hf. destruct (d f) as [[c t]|] eqn:E; [|exfalso; exact (Hd f Hf E)]. exists c, t. split; [reflexivity|]. intros s Hs. exact (H s f c t Hs Hf E).
    + intros H s f c t Hs Hf E. apply generated_nine in Hf. destruct (H f Hf) as (c' & t' & E' & K). rewrite E in E'. injection E' as _ <-. auto.
  - split; [discriminate|]. intros H. apply A. intros f Hf E. apply generated_nine in Hf. destruct (H f Hf) as (c & t & E' & _). congruence.
Qed.

(** ** interrupted runs *)
(** [f] after [l], if [f] is not touched before it is created *)
Lemma acts_app d a b : acts d (a ++ b) = acts (acts d a) b.
Proof. unfold acts. apply fold_left_app. Qed.
Lemma acts_untouched : forall l d f, (forall a, In a l -> touches (fst a) <> f) -> acts d l f = d f.
Proof.
  induction l as [|[a t] l IH]; intros d f H; [reflexivity|]. unfold acts. cbn [fold_left]. fold (acts (act d (a, t)) l). rewrite IH by (intros x Hx; apply H; right; exact Hx).
  pose proof (H (a, t) (or_introl eq_refl)) as N. cbn in N. destruct a as [g|g b]; cbn [act touches] in *; destruct (String.eqb_spec f g); congruence.
Qed.
(** once created a file stays, with the bytes put into it, not older than the first action *)
Lemma acts_puts t0 : forall l d f c t, d f = Some (c, t) -> (t0 <= t)%N -> Forall (fun a => (t0 <= snd a)%N) l -> ~ In (Create f) (map fst l) ->
  exists t', acts d l f = Some ((c ++ put_to f (map fst l))%list, t') /\ (t0 <= t')%N.
Proof.
  induction l as [|[a t1] l IH]; intros d f c t E Ht Hl Hn; [exists t; cbn; rewrite app_nil_r; auto|].
  unfold acts. cbn [fold_left]. fold (acts (act d (a, t1)) l). pose proof (Forall_inv Hl) as H1. pose proof (Forall_inv_tail Hl) as H2. cbn [snd] in H1.
  cbn [map fst] in *. destruct a as [g|g b]; cbn [put_to].
  - apply (IH (act d (Create g, t1)) f c t); auto; [|intros K; apply Hn; right; exact K]. cbn [act]. destruct (String.eqb_spec f g); [subst; exfalso; apply Hn; left; reflexivity|exact E].
  - destruct (String.eqb_spec g f).
    + subst g. rewrite app_assoc. apply (IH (act d (Put f b, t1)) f (c ++ b)%list t1); auto; [|intros K; apply Hn; right; exact K]. cbn [act]. rewrite String.eqb_refl, E. reflexivity.
    + apply (IH (act d (Put g b, t1)) f c t); auto; [|intros K; apply Hn; right; exact K]. cbn [act]. destruct (String.eqb_spec f g); [congruence|exact E].
Qed.
(** each file of a run: untouched, then created, then filled *)
Definition shape (txt : string -> text) (f : string) (l : list action) : Prop :=
  exists a b, l = (a ++ Create f :: b)%list /\ (forall x, In x a -> touches x <> f) /\ ~ In (Create f) b /\ put_to f b = txt f.
Lemma put_to_app f a b : put_to f (a ++ b) = (put_to f a ++ put_to f b)%list.
Proof. induction a as [|[g|g c] a IH]; cbn [app put_to]; auto. destruct (g =? f); [rewrite IH, app_assoc; reflexivity|exact IH]. Qed.
Lemma put_to_other f l : (forall x, In x l -> touches x <> f) -> put_to f l = [].
Proof.
  induction l as [|[g|g c] l IH]; intros H; cbn [put_to]; [reflexivity| |].
  - apply IH. intros x Hx. apply H. right. exact Hx.
  - destruct (String.eqb_spec g f); [exfalso; apply (H (Put g c)); [left; reflexivity|exact e]|]. apply IH. intros x Hx. apply H. right. exact Hx.
Qed.
Lemma create_touches f l : (forall x, In x l -> touches x <> f) -> ~ In (Create f) l.
Proof. intros H K. exact (H _ K eq_refl). Qed.
Lemma stage_touches txt fs l : stage_run txt fs l -> forall x, In x l -> In (touches x) fs.
Proof.
  intros (puts & -> & Hp & _) x Hx. apply in_app_or in Hx. destruct Hx as [Hx|Hx].
  - apply in_map_iff in Hx. destruct Hx as (f & <- & Hf). exact Hf.
  - destruct (Hp x Hx) as (f & b & -> & Hf). exact Hf.
Qed.
Lemma stage_shape txt fs l f : NoDup fs -> stage_run txt fs l -> In f fs -> shape txt f l.
Proof.
  intros ND (puts & -> & Hp & Ht) Hf. apply in_split in Hf. destruct Hf as (a & b & ->).
  exists (map Create a), (map Create b ++ puts)%list. rewrite map_app. cbn [map]. rewrite <- app_assoc. split; [reflexivity|].
  apply NoDup_remove_2 in ND. assert (Ha : forall x, In x (map Create a) -> touches x <> f).
  { intros x Hx E. apply in_map_iff in Hx. destruct Hx as (g & <- & Hg). cbn in E. subst g. apply ND. apply in_or_app. left. exact Hg. }
  assert (Hb : forall x, In x (map Create b) -> touches x <> f).
  { intros x Hx E. apply in_map_iff in Hx. destruct Hx as (g & <- & Hg). cbn in E. subst g. apply ND. apply in_or_app. right. exact Hg. }
  split; [exact Ha|]. split.
  - intros K. apply in_app_or in K. destruct K as [K|K]; [exact (Hb _ K eq_refl)|]. destruct (Hp _ K) as (g & c & Eg & _). discriminate.
  - rewrite put_to_app, (put_to_other f (map Create b)) by exact Hb. apply Ht. apply in_or_app. right. left. reflexivity.
Qed.
Lemma nodup_app_inv {A} (a b : list A) : NoDup (a ++ b) -> NoDup a /\ NoDup b.
Proof.
  induction a as [|x a IH]; cbn [app]; intros H; [split; [constructor|exact H]|]. apply NoDup_cons_iff in H. destruct H as [H1 H2]. destruct (IH H2). split; [|assumption].
  constructor; [|assumption]. intros K. apply H1. apply in_or_app. left. exact K.
Qed.
Lemma run_shape txt : forall sts parts, NoDup (concat sts) -> Forall2 (stage_run txt) sts parts -> forall f, In f (concat sts) -> shape txt f (concat parts).
Proof.
  intros sts parts ND H. revert ND. induction H as [|fs l sts parts Hs H IH]; intros ND f Hf; [destruct Hf|].
  cbn [concat] in *. assert (Hpart : forall x, In x (concat parts) -> In (touches x) (concat sts)).
  { clear IH ND Hf Hs. induction H as [|fs' l' sts parts Hs H IH]; intros x Hx; [destruct Hx|]. cbn [concat] in *. apply in_or_app. apply in_app_or in Hx.
    destruct Hx as [Hx|Hx]; [left; eapply stage_touches; eauto|right; auto]. }
  destruct (nodup_app_inv fs (concat sts) ND) as [ND1 ND2].
  assert (DJ : forall g, In g fs -> ~ In g (concat sts)).
  { clear -ND. intros g Hg K. apply in_split in Hg. destruct Hg as (a & b & ->). rewrite <- app_assoc in ND. cbn [app] in ND. apply NoDup_remove_2 in ND. apply ND. apply in_or_app. right. apply in_or_app. right. exact K. }
  apply in_app_or in Hf. destruct Hf as [Hf|Hf].
  - destruct (stage_shape txt fs l f ND1 Hs Hf) as (a & b & -> & S1 & S2 & S3). exists a, (b ++ concat parts)%list. rewrite <- app_assoc. cbn [app].
    assert (O : forall x, In x (concat parts) -> touches x <> f) by (intros x Hx <-; exact (DJ _ Hf (Hpart x Hx))).
    split; [reflexivity|]. split; [exact S1|]. split.
    + intros K. apply in_app_or in K. destruct K as [K|K]; [contradiction|]. exact (O _ K eq_refl).
    + rewrite put_to_app, (put_to_other f (concat parts)) by exact O. rewrite app_nil_r. exact S3.
  - destruct (IH ND2 f Hf) as (a & b & -> & S1 & S2 & S3). exists (l ++ a)%list, b. rewrite <- app_assoc. split; [reflexivity|]. split; [|auto].
    intros x Hx E. apply in_app_or in Hx. destruct Hx as [Hx|Hx]; [|exact (S1 x Hx E)]. pose proof (stage_touches txt fs l Hs x Hx) as K. rewrite E in K. exact (DJ _ K Hf).
Qed.
Lemma generator_shape txt l f : generator_run txt l -> In f nine -> shape txt f l.
Proof. intros (parts & H & ->) Hf. apply (run_shape txt stages); [exact nine_nodup|exact H|exact Hf]. Qed.

Lemma prefix_state txt t0 d f l done todo : shape txt f (map fst l) -> Forall (fun a => (t0 <= snd a)%N) l -> l = (done ++ todo)%list ->
  (~ In (Create f) (map fst done) /\ acts d done f = d f) \/
  (In (Create f) (map fst done) /\ exists c t rest, acts d done f = Some (c, t) /\ (t0 <= t)%N /\ txt f = (c ++ rest)%list /\ (todo = [] -> rest = [])).
Proof.
  intros (a & b & E & S1 & S2 & S3) Ht ->. rewrite map_app in E. apply Forall_app in Ht. destruct Ht as [Ht _].
  destruct (in_dec (fun x y : action => ltac:(decide equality; [apply string_dec|apply (list_eq_dec N.eq_dec)|apply string_dec])) (Create f) (map fst done)) as [I|I].
  - right. split; [exact I|]. apply in_split in I. destruct I as (a' & b' & E'). rewrite E' in E. rewrite <- app_assoc in E. cbn [app] in E.
    assert (EE : a' = a /\ (b' ++ map fst todo)%list = b).
    { clear -E S1 S2. revert a S1 E. induction a' as [|x a' IH]; intros [|y a] S1 E; cbn [app] in E.
      - injection E as E. auto.
      - injection E as E1 E2. exfalso. apply (S1 y); [left; reflexivity|rewrite <- E1; reflexivity].
      - injection E as E1 E2. subst x. exfalso. apply S2. rewrite <- E2. apply in_or_app. right. left. reflexivity.
      - injection E as E1 E2. destruct (IH a) as [-> ->]; auto; [intros z Hz; apply S1; right; exact Hz|]. subst. auto. }
    destruct EE as [-> Eb].
    apply map_eq_app in E'. destruct E' as (da & dr & -> & Ea & Er). apply map_eq_cons in Er. destruct Er as ([c tc] & db & -> & Ec & Eb'). cbn [fst] in Ec. subst c.
    apply Forall_app in Ht. destruct Ht as [_ Ht]. pose proof (Forall_inv Ht) as T1. pose proof (Forall_inv_tail Ht) as T2. cbn [snd] in T1.
    rewrite acts_app. change ((Create f, tc) :: db) with ([(Create f, tc)] ++ db)%list. rewrite acts_app.
    destruct (acts_puts t0 db (acts (acts d da) [(Create f, tc)]) f [] tc) as (t' & P1 & P2); auto.
    + unfold acts. cbn [fold_left act]. rewrite String.eqb_refl. reflexivity.
    + intros K. apply S2. rewrite <- Eb, <- Eb'. apply in_or_app. left. exact K.
    + exists (put_to f (map fst db)), t', (put_to f (map fst todo)). rewrite P1. split; [reflexivity|]. split; [exact P2|].
      rewrite <- S3, <- Eb, <- Eb', put_to_app. split; [reflexivity|]. intros ->. reflexivity.
  - left. split; [exact I|]. apply acts_untouched. intros x Hx K.
    assert (In (fst x) (map fst done)) as Hm by (apply in_map; exact Hx).
    clear -E I S1 Hm K. revert a S1 E. induction (map fst done) as [|y q IH]; intros [|z a] S1 E; cbn [app] in E; [destruct Hm|destruct Hm| |].
    + injection E as E _. apply I. left. exact E.
    + injection E as E1 E2. destruct Hm as [Hm|Hm].
      * apply (S1 z); [left; reflexivity|]. rewrite <- E1, Hm. exact K.
      * apply (IH ltac:(intros K2; apply I; right; exact K2) Hm a); auto; intros w Hw; apply S1; right; exact Hw.
Qed.
