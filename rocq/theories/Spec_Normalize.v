(** Vocabulary for the normalization properties (C36-C45). *)
From Verif Require Import Base M_Normalize Spec_Tables.
From Coq Require Import Relations Sorted.
Open Scope N_scope.

(** ** Canonical ordering (UAX #15 / Unicode 3.11 D108-D109), for a combining-class function [ccc] *)
(** exchange one adjacent pair <x, y> with ccc x > ccc y > 0 *)
Inductive reorder (ccc : N -> N) : list N -> list N -> Prop :=
| Reorder : forall p x y q, 0 < ccc y < ccc x -> reorder ccc (p ++ x :: y :: q) (p ++ y :: x :: q).
Definition reorders (ccc : N -> N) : list N -> list N -> Prop := clos_refl_trans_1n _ (reorder ccc).
(** no reorderable pair is left *)
Definition ordered (ccc : N -> N) (t : list N) : Prop :=
  forall p x y q, t = p ++ x :: y :: q -> ~ (0 < ccc y < ccc x).

(** ** Full decomposition: the transitive closure of a one-step mapping *)
Inductive full_decomposition (step : N -> list N) : N -> list N -> Prop :=
| FD_done : forall c, step c = [] -> full_decomposition step c [c]
| FD_step : forall c l, step c <> [] -> full_decompositions step (step c) l -> full_decomposition step c l
with full_decompositions (step : N -> list N) : list N -> list N -> Prop :=
| FDs_nil : full_decompositions step [] []
| FDs_cons : forall c r x y, full_decomposition step c x -> full_decompositions step r y ->
    full_decompositions step (c :: r) (x ++ y).

(** The one-step mapping of a form, as the public functions report it. *)
Definition step_of (tb : norm_tables) (compat : bool) (c : N) : list N :=
  if compat then compatibility_decomposition tb c else canonical_decomposition tb c.

(** Acyclic decomposition tables: some rank decreases along every mapping. *)
Definition acyclic (tb : norm_tables) : Prop :=
  exists rank : N -> nat, forall c x, In x (compatibility_decomposition tb c) -> (rank x < rank c)%nat.
(** Conjoining jamos have no decomposition of their own (true in the UCD). *)
Definition jamos_plain (tb : norm_tables) : Prop :=
  forall c, is_hangul_l_jamo c = true \/ is_hangul_v_jamo c = true \/ is_hangul_t_jamo c = true ->
    compatibility_decomposition tb c = [].

(** [normalizes tb f s r]: normalize(s, f) terminates and returns r. *)
Definition normalizes (tb : norm_tables) (f : nform) (s r : list N) : Prop := exists fuel, normalize tb fuel s f = Ok r.
(** the two boolean queries terminate with the given answer *)
Definition canon_equiv (tb : norm_tables) (a b : list N) (r : bool) : Prop :=
  exists fuel, is_canonically_equivalent tb fuel a b = Ok r.
Definition compat_equiv (tb : norm_tables) (a b : list N) (r : bool) : Prop :=
  exists fuel, is_compatibility_equivalent tb fuel a b = Ok r.
Definition normalized_check (tb : norm_tables) (f : nform) (s : list N) (r : bool) : Prop :=
  exists fuel, is_normalized tb fuel s f = Ok r.
Definition streams (tb : norm_tables) (f : nform) (s r : list N) : Prop := exists fuel, stream_normalize tb fuel f s = Ok r.

(** ** Composition *)
(** Every entry of the composition table is a canonical decomposition of length two (what the generator emits). *)
Definition comp_consistent (tb : norm_tables) : Prop :=
  forall a b c, In (a, b, c) (t_comp tb) -> canonical_decomposition tb c = [a; b].
(** Composing a starter gives a starter; Hangul syllables are starters. *)
Definition comp_starters (tb : norm_tables) : Prop :=
  (forall a b c, In (a, b, c) (t_comp tb) -> canonical_combining_class tb a = 0 -> canonical_combining_class tb c = 0) /\
  (forall c, is_hangul_syllable c = true -> canonical_combining_class tb c = 0).
(** Code points that recomposition can produce: undecomposable ones, and non-excluded composites of a starter among them
    and an undecomposable one. *)
Inductive recomposes (tb : norm_tables) (compat : bool) : N -> Prop :=
| Rc_plain : forall c, step_of tb compat c = [] -> recomposes tb compat c
| Rc_pair : forall a b c, recomposes tb compat a -> canonical_combining_class tb a = 0 -> step_of tb compat b = [] ->
    try_compose tb a b = c -> c <> 0 ->
    is_composition_exclusion tb c = false -> recomposes tb compat c.
(** [c] never composes with anything before it. *)
Definition never_second (tb : norm_tables) (c : N) : Prop :=
  forall a, try_compose tb a c = 0 \/ is_composition_exclusion tb (try_compose tb a c) = true.
(** The full decomposition of [c] begins with a starter and, for the composing forms, one that never composes backwards. *)
Definition clean_start (tb : norm_tables) (form : nform) (c : N) : Prop :=
  exists h l, full_decomposition (step_of tb (use_compat form)) c (h :: l) /\ canonical_combining_class tb h = 0 /\
    (composes form = true -> never_second tb h).

(** ** Quick-check tables *)
(** NFD_QC / NFKD_QC = No records exactly the code points with a canonical / any decomposition. *)
Definition qc_decomp_exact (tb : norm_tables) : Prop :=
  (forall c, nfd_quick_check tb c = false <-> canonical_decomposition tb c <> []) /\
  (forall c, nfkd_quick_check tb c = false <-> compatibility_decomposition tb c <> []).
(** For a composing form: No code points cannot result from recomposition; the others are undecomposable marks, or
    starters whose full decomposition starts with a starter. *)
Definition qc_no_exact (tb : norm_tables) (form : nform) : Prop :=
  (forall c, cp_quick_check tb form c = No -> ~ recomposes tb (use_compat form) c) /\
  (forall c, cp_quick_check tb form c <> No ->
     (canonical_combining_class tb c <> 0 -> step_of tb (use_compat form) c = []) /\
     (canonical_combining_class tb c = 0 -> exists h l,
        full_decomposition (step_of tb (use_compat form)) c (h :: l) /\ canonical_combining_class tb h = 0)).
Definition decomposing (form : nform) : Prop := form = NFD \/ form = NFKD.
Definition composing (form : nform) : Prop := form = NFC \/ form = NFKC.

(** ** The composition algorithm of the Unicode Standard (3.11, D115 and D117) *)
(** Two code points compose to a code point that is not excluded and whose canonical decomposition they are; a Hangul LVT
    syllable decomposes into the LV syllable and the trailing consonant. *)
Definition primary_composite (tb : norm_tables) (a b c : N) : Prop :=
  is_composition_exclusion tb c = false /\
  (canonical_decomposition tb c = [a; b] \/
   (is_hangul_syllable c = true /\ exists l v, hangul_decompose a = [l; v] /\ hangul_decompose c = [l; v; b])).
(** In the text [done] processed so far, [p ++ l :: m], the last starter is [l], and the next character [c] is not blocked from it. *)
Definition reaches (tb : norm_tables) (done p : list N) (l : N) (m : list N) (c : N) : Prop :=
  done = p ++ l :: m /\ canonical_combining_class tb l = 0 /\
  Forall (fun x => 0 < canonical_combining_class tb x < canonical_combining_class tb c) m.
(** One character after the other: if it reaches the last starter and composes with it, it is removed and the starter replaced. *)
Inductive recomposed (tb : norm_tables) : list N -> list N -> list N -> Prop :=
| R_end : forall done, recomposed tb done [] done
| R_compose : forall done p l m c x rest r, reaches tb done p l m c -> primary_composite tb l c x ->
    recomposed tb (p ++ x :: m) rest r -> recomposed tb done (c :: rest) r
| R_keep : forall done c rest r, (forall p l m x, reaches tb done p l m c -> ~ primary_composite tb l c x) ->
    recomposed tb (done ++ [c]) rest r -> recomposed tb done (c :: rest) r.
(** The text with every starter moved behind the marks that follow it. *)
Fixpoint displaced_from (tb : norm_tables) (held : list N) (t : list N) : list N :=
  match t with
  | [] => held
  | c :: r => if canonical_combining_class tb c =? 0 then held ++ displaced_from tb [c] r else c :: displaced_from tb held r
  end.
Definition displaced (tb : norm_tables) (t : list N) : list N := displaced_from tb [] t.
(** The composition table lists the pairs a starter begins, and nothing that is algorithmic; Hangul syllables are not excluded. *)
Record comp_ready (tb : norm_tables) : Prop := {
  cr_sorted : StronglySorted pair_lt (t_comp tb);
  cr_entries : forall a b c, In (a, b, c) (t_comp tb) -> c <> 0 /\ is_hangul_syllable c = false /\ canonical_decomposition tb c = [a; b] /\
    (is_hangul_l_jamo a = true -> is_hangul_v_jamo b = false) /\ (is_hangul_syllable a = true -> is_hangul_t_jamo b = false);
  cr_listed : forall a b c, is_hangul_syllable c = false -> canonical_decomposition tb c = [a; b] -> canonical_combining_class tb a = 0 ->
    is_composition_exclusion tb c = false -> In (a, b, c) (t_comp tb);
  cr_hangul : forall c, is_hangul_syllable c = true -> is_composition_exclusion tb c = false
}.
(** No starter composes with [c] behind it. *)
Definition never_joins (tb : norm_tables) (c : N) : Prop :=
  forall a, canonical_combining_class tb a = 0 -> try_compose tb a c = 0 \/ is_composition_exclusion tb (try_compose tb a c) = true.
(** What the Standard's quick-check value Yes means for a composing form: a starter is its own normalization, and no starter composes
    with the first part of its decomposition; a combining mark has no decomposition, and no starter composes with it.  (U+11A7, which the
    code treats as a trailing consonant, is left out.) *)
Definition qc_yes_exact (tb : norm_tables) (form : nform) : Prop :=
  forall c, cp_quick_check tb form c = Yes -> c <> TBase ->
    (canonical_combining_class tb c <> 0 -> step_of tb (use_compat form) c = [] /\ never_joins tb c) /\
    (canonical_combining_class tb c = 0 -> normalizes tb form [c] [c] /\
       exists h l, full_decomposition (step_of tb (use_compat form)) c (h :: l) /\ canonical_combining_class tb h = 0 /\ never_joins tb h).
