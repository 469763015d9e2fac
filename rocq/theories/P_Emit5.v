(** Every number read from an array stands in the text. *)
From Coq Require Import String Lia.
From Verif Require Import Base M_TableGen Spec_Cpp.
Open Scope N_scope.

Fixpoint init_toks (i : init) : list tok := match i with IExpr ts => ts | IList h l => h ++ flat_map init_toks l end.
Definition frame_toks (f : list tok * list init) : list tok := fst f ++ flat_map init_toks (snd f).
Definition cur_toks (c : cursor) : list tok := match c with CNone => [] | CToks ts _ => ts | CDone i => init_toks i end.
Definition state_toks (st : pstate) : list tok := flat_map frame_toks (fst st) ++ cur_toks (snd st).
Lemma push_toks stack i s : push_elem stack i = Some s -> incl (flat_map frame_toks s) (flat_map frame_toks stack ++ init_toks i).
Proof.
  destruct stack as [|[h l] r]; [discriminate|]. intros E. injection E as <-. intros x. cbn [flat_map]. unfold frame_toks at 1 3. cbn [fst snd].
  rewrite flat_map_app. cbn [flat_map]. rewrite !in_app_iff. cbn [In]. tauto.
Qed.
Lemma close_toks stack st : close_list stack = Some st -> incl (state_toks st) (flat_map frame_toks stack).
Proof.
  destruct stack as [|[h l] r]; [discriminate|]. intros E. injection E as <-. intros x. unfold state_toks. cbn [fst snd cur_toks flat_map init_toks].
  unfold frame_toks at 2. cbn [fst snd]. rewrite !in_app_iff. tauto.
Qed.
Lemma step_toks st t st' : parse_step st t = Some st' -> incl (state_toks st') (state_toks st ++ [t]).
Proof.
  destruct st as [stack cur].
  assert (Other : forall st', match cur with CNone => Some (stack, add_tok [] 0 t) | CToks ts k => Some (stack, add_tok ts k t) | CDone _ => None end = Some st' ->
     incl (state_toks st') (state_toks (stack, cur) ++ [t])).
  { intros st1 E. destruct cur; try discriminate; injection E as <-; intros x; unfold state_toks, add_tok; cbn [fst snd cur_toks]; rewrite !in_app_iff; cbn [In]; tauto. }
  destruct t as [w|s|c]; [apply Other|apply Other|].
  assert (C : c = 123 \/ c = 125 \/ c = 44 \/ parse_step (stack, cur) (TPunct c)
     = match cur with CNone => Some (stack, add_tok [] 0 (TPunct c)) | CToks ts k => Some (stack, add_tok ts k (TPunct c)) | CDone _ => None end).
  { destruct c as [|p]; [tauto|]. do 7 (try (destruct p as [p|p|]; try tauto)). }
  destruct C as [-> |[-> |[-> |E0]]]; [| | |rewrite E0; apply Other]; clear Other; cbn [parse_step]; intros E.
  - destruct cur as [|ts [|k]|i]; try discriminate; injection E as <-; intros x; unfold state_toks; cbn [fst snd cur_toks flat_map]; unfold frame_toks at 1;
      cbn [fst snd flat_map]; rewrite !in_app_iff; cbn [In]; tauto.
  - destruct cur as [|ts [|k]|i]; try discriminate.
    + intros x Hx. apply (close_toks _ _ E) in Hx. unfold state_toks. cbn [fst snd cur_toks]. rewrite !in_app_iff. tauto.
    + destruct (push_elem stack (IExpr ts)) as [s|] eqn:P; [|discriminate]. intros x Hx. apply (close_toks _ _ E) in Hx. apply (push_toks _ _ _ P) in Hx.
      unfold state_toks. cbn [fst snd cur_toks init_toks] in *. rewrite !in_app_iff in *. tauto.
    + destruct (push_elem stack i) as [s|] eqn:P; [|discriminate]. intros x Hx. apply (close_toks _ _ E) in Hx. apply (push_toks _ _ _ P) in Hx.
      unfold state_toks. cbn [fst snd cur_toks init_toks] in *. rewrite !in_app_iff in *. tauto.
  - destruct cur as [|ts [|k]|i]; try discriminate.
    + destruct (push_elem stack (IExpr ts)) as [s|] eqn:P; [|discriminate]. injection E as <-. intros x Hx. unfold state_toks in *. cbn [fst snd cur_toks] in *.
      rewrite app_nil_r in Hx. apply (push_toks _ _ _ P) in Hx. cbn [init_toks] in Hx. rewrite !in_app_iff in *. tauto.
    + injection E as <-. intros x. unfold state_toks, add_tok. cbn [fst snd cur_toks]. rewrite !in_app_iff. tauto.
    + destruct (push_elem stack i) as [s|] eqn:P; [|discriminate]. injection E as <-. intros x Hx. unfold state_toks in *. cbn [fst snd cur_toks] in *.
      rewrite app_nil_r in Hx. apply (push_toks _ _ _ P) in Hx. rewrite !in_app_iff in *. tauto.
Qed.
Lemma run_toks ts : forall st st', parse_run st ts = Some st' -> incl (state_toks st') (state_toks st ++ ts).
Proof.
  induction ts as [|t r IH]; intros st st' H; cbn in H.
  - injection H as <-. rewrite app_nil_r. apply incl_refl.
  - destruct (parse_step st t) as [s1|] eqn:E; [|discriminate]. intros x Hx. apply (IH _ _ H) in Hx. rewrite in_app_iff in Hx. destruct Hx as [Hx|Hx].
    + apply (step_toks _ _ _ E) in Hx. rewrite !in_app_iff in *. cbn [In] in *. tauto.
    + rewrite in_app_iff. cbn [In]. tauto.
Qed.
Lemma init_in_text ts i : parse_init ts = Some i -> incl (init_toks i) ts.
Proof.
  unfold parse_init. destruct (parse_run ([], CNone) ts) as [[stack cur]|] eqn:E; [|discriminate].
  destruct stack; [|destruct cur; discriminate]. destruct cur; try discriminate. intros H. injection H as ->.
  apply run_toks in E. exact E.
Qed.
Lemma elements_toks i vals : elements i = Some vals -> incl (flat_map init_toks vals) (init_toks i).
Proof.
  destruct i as [ts|h l]; [discriminate|]. destruct h as [|t h]; [|discriminate].
  destruct l as [|a [|b r]]; cbn [elements].
  - intros E. injection E as <-. apply incl_refl.
  - destruct a as [ts|[|t h] l]; intros E; injection E as <-; cbn [init_toks flat_map app]; rewrite ?app_nil_r; apply incl_refl.
  - destruct a as [ts|[|t h] l]; intros E; injection E as <-; apply incl_refl.
Qed.
Lemma all_some_in {A B} (f : A -> option B) l r y : all_some f l = Some r -> In y r -> exists x, In x l /\ f x = Some y.
Proof.
  revert r. induction l as [|a l IH]; intros r H Hy; cbn in H.
  - injection H as <-. destruct Hy.
  - destruct (f a) as [b|] eqn:Fa; [|discriminate]. destruct (all_some f l) as [bs|] eqn:E; [|discriminate]. injection H as <-.
    destruct Hy as [<-|Hy]; [exists a; split; [left; reflexivity|exact Fa]|]. destruct (IH bs eq_refl Hy) as (x & Hx & Fx). exists x. split; [right; exact Hx|exact Fx].
Qed.
Lemma unsigned_tok b i n : unsigned b i = Some n -> exists v, In (TWord v) (init_toks i) /\ int_literal v = Some n.
Proof.
  destruct i as [ts|h l]; [|discriminate]. destruct ts as [|[v| |] [|t r]]; try discriminate. cbn. intros H.
  destruct (int_literal v) as [k|] eqn:E; [|discriminate]. destruct (k <? 2 ^ b); [|discriminate]. injection H as <-. exists v. split; [left; reflexivity|exact E].
Qed.
(** a source of a pair table stands in the text *)
Lemma table_in_text file f ty name bits l a b ts : has_table file f ty name (read_pair bits) l -> In (a, b) l -> lex file = Some ts ->
  exists v, In (TWord v) ts /\ int_literal v = Some a.
Proof.
  intros (vals & (pre & decl & body & post & i & L & _ & P & E) & R) Hab HL. rewrite HL in L. injection L as ->.
  destruct (all_some_in _ _ _ _ R Hab) as (x & Hx & Rx).
  destruct x as [|h [|u [|v [|]]]]; try discriminate. cbn in Rx. destruct (unsigned 32 u) as [p|] eqn:U; [|discriminate]. destruct (unsigned bits v); [|discriminate].
  injection Rx as -> _. destruct (unsigned_tok _ _ _ U) as (s & Hs & Is). exists s. split; [|exact Is].
  assert (X : In (TWord s) body).
  { apply (init_in_text _ _ P), (elements_toks _ _ E). apply in_flat_map. exists (IList h [u; v]). split; [exact Hx|]. cbn [init_toks flat_map].
    rewrite !in_app_iff. tauto. }
  rewrite !in_app_iff. tauto.
Qed.
