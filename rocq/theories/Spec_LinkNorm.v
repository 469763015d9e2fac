(** Normalization by the Unicode Standard (section 3.11), from the lines of UnicodeData.txt, CompositionExclusions.txt and
    DerivedNormalizationProps.txt alone: nothing here refers to the library's tables or functions. *)
From Coq Require Import String.
From Verif Require Import Base M_TableGen M_Normalize Spec_Normalize Spec_TableGen.
Open Scope N_scope.

(** the Hangul syllable with leading consonant [l], vowel [v] and trailing consonant [t] (0 for none) *)
Definition syllable (c l v t : N) : Prop := c = 0xAC00 + (l * 21 + v) * 28 + t /\ l < 19 /\ v < 21 /\ t < 28.
Definition file_ccc (ud : list (fline udline)) (c k : N) : Prop :=
  (exists u, has ud u /\ ul_cp u = c /\ ul_ccc u = k) \/ ((forall u, has ud u -> ul_cp u <> c) /\ k = 0).
(** the mapping a line gives: the tagged ones only for the compatibility forms *)
Definition line_step (compat : bool) (u : udline) : list N :=
  match ul_dec u with Some (None, l) => l | Some (Some _, l) => if compat then l else [] | None => [] end.
Definition file_step (ud : list (fline udline)) (compat : bool) (c : N) (m : list N) : Prop :=
  (exists l v t, syllable c l v t /\ m = [0x1100 + l; 0x1161 + v] ++ (if t =? 0 then [] else [0x11A7 + t])) \/
  (~ (0xAC00 <= c <= 0xD7A3) /\
     ((exists u, has ud u /\ ul_cp u = c /\ m = line_step compat u) \/ ((forall u, has ud u -> ul_cp u <> c) /\ m = []))).
(** [ccc] and [step] are the functions the files describe *)
Definition reads_ccc (ud : list (fline udline)) (ccc : N -> N) : Prop := forall c, file_ccc ud c (ccc c).
Definition reads_step (ud : list (fline udline)) (compat : bool) (step : N -> list N) : Prop := forall c, file_step ud compat c (step c).
(** primary composites: canonical decompositions into two that are not excluded, and Hangul *)
Definition file_primary (ud : list (fline udline)) (ex : list (fline exline)) (np : list (fline npline)) (a b c : N) : Prop :=
  ((exists u, has ud u /\ ul_cp u = c /\ ul_dec u = Some (None, [a; b])) /\ ~ listed ex c /\ ~ (exists v, assigns np FCE v c)) \/
  (exists l v, syllable c l v 0 /\ a = 0x1100 + l /\ b = 0x1161 + v) \/
  (exists l v t, 0 < t /\ syllable c l v t /\ syllable a l v 0 /\ b = 0x11A7 + t).

(** ** The decomposed forms *)
Definition standard_decomposed (ccc : N -> N) (step : N -> list N) (s n : list N) : Prop :=
  exists d, full_decompositions step s d /\ reorders ccc d n /\ ordered ccc n.
(** ** The composed forms: D115, D117 *)
Definition unblocked (ccc : N -> N) (done p : list N) (l : N) (m : list N) (c : N) : Prop :=
  done = p ++ l :: m /\ ccc l = 0 /\ Forall (fun x => 0 < ccc x < ccc c) m.
Inductive composed (ccc : N -> N) (primary : N -> N -> N -> Prop) : list N -> list N -> list N -> Prop :=
| C_end : forall done, composed ccc primary done [] done
| C_compose : forall done p l m c x rest r, unblocked ccc done p l m c -> primary l c x ->
    composed ccc primary (p ++ x :: m) rest r -> composed ccc primary done (c :: rest) r
| C_keep : forall done c rest r, (forall p l m x, unblocked ccc done p l m c -> ~ primary l c x) ->
    composed ccc primary (done ++ [c]) rest r -> composed ccc primary done (c :: rest) r.
Definition standard_composed (ccc : N -> N) (step : N -> list N) (primary : N -> N -> N -> Prop) (s r : list N) : Prop :=
  exists n, standard_decomposed ccc step s n /\ composed ccc primary [] n r.
(** what the library does differently: every starter is written behind the marks that follow it *)
Fixpoint behind (ccc : N -> N) (held t : list N) : list N :=
  match t with [] => held | c :: r => if ccc c =? 0 then held ++ behind ccc [c] r else c :: behind ccc held r end.

(** ** Facts of the database *)
(** U+11A7, which the library takes for a trailing consonant, is in no decomposition *)
Definition no_11A7 (ud : list (fline udline)) : Prop := forall u t l, has ud u -> ul_dec u = Some (t, l) -> ~ In 0x11A7 l.
(** NFD_QC and NFKD_QC are No exactly for what decomposes *)
Definition qc_decomposed_derived (ud : list (fline udline)) (np : list (fline npline)) : Prop := forall form c, decomposing form ->
  (assigns np (qc_prop form) (Some (lit "N")) c <-> exists m, m <> [] /\ file_step ud (use_compat form) c m).
(** what the absence of an NFC_QC / NFKC_QC line means *)
Definition qc_composed_derived (ud : list (fline udline)) (ex : list (fline exline)) (np : list (fline npline)) (form : nform) : Prop :=
  forall ccc step, reads_ccc ud ccc -> reads_step ud (use_compat form) step ->
  forall c, ~ assigns np (qc_prop form) (Some (lit "N")) c -> ~ assigns np (qc_prop form) (Some (lit "M")) c -> c <> 0x11A7 ->
    (ccc c <> 0 -> step c = [] /\ forall a x, ccc a = 0 -> ~ file_primary ud ex np a c x) /\
    (ccc c = 0 -> standard_composed ccc step (file_primary ud ex np) [c] [c] /\
       exists h l, full_decomposition step c (h :: l) /\ ccc h = 0 /\ forall a x, ccc a = 0 -> ~ file_primary ud ex np a h x).
