(** What a partition is, and the grapheme cluster boundary rules of UAX #29, written from the annex.
    Nothing here mentions the model's functions. *)
From Verif Require Import Base M_Ucd.
Open Scope N_scope.

(** ** Partitions *)
Definition partition_of {A} (text : list A) (parts : list (list A)) : Prop :=
  concat parts = text /\ Forall (fun c => c <> []) parts.
(** position [k] is the start of a part, or the end of the text *)
Definition cut_at {A} (parts : list (list A)) (k : nat) : Prop :=
  exists l1 l2, parts = l1 ++ l2 /\ length (concat l1) = k.

(** ** UAX #29, grapheme clusters.  [before] is the text before the position, *reversed* (nearest code point first);
    [b] is the code point after it. *)
Section Rules.
  Variable u : ucd.
  Notation G c := (p_gcb (u c)).
  Definition ctl (g : gcb) : Prop := g = GControl \/ g = GCR \/ g = GLF.

  Definition GB3 (before : list N) (b : N) : Prop := exists a r, before = a :: r /\ G a = GCR /\ G b = GLF.
  Definition GB4 (before : list N) (b : N) : Prop := exists a r, before = a :: r /\ ctl (G a).
  Definition GB5 (before : list N) (b : N) : Prop := ctl (G b).
  Definition GB6 (before : list N) (b : N) : Prop := exists a r, before = a :: r /\
    G a = GL /\ (G b = GL \/ G b = GV \/ G b = GLV \/ G b = GLVT).
  Definition GB7 (before : list N) (b : N) : Prop := exists a r, before = a :: r /\
    (G a = GLV \/ G a = GV) /\ (G b = GV \/ G b = GT).
  Definition GB8 (before : list N) (b : N) : Prop := exists a r, before = a :: r /\
    (G a = GLVT \/ G a = GT) /\ G b = GT.
  Definition GB9 (before : list N) (b : N) : Prop := G b = GExtend \/ G b = GZWJ.
  Definition GB9a (before : list N) (b : N) : Prop := G b = GSpacingMark.
  Definition GB9b (before : list N) (b : N) : Prop := exists a r, before = a :: r /\ G a = GPrepend.
  (** Consonant [Extend Linker]* Linker [Extend Linker]* x Consonant *)
  Definition GB9c (before : list N) (b : N) : Prop := exists m2 l m1 c r,
    before = m2 ++ l :: m1 ++ c :: r /\
    Forall (fun x => p_incb (u x) = IExtend \/ p_incb (u x) = ILinker) m2 /\
    p_incb (u l) = ILinker /\
    Forall (fun x => p_incb (u x) = IExtend \/ p_incb (u x) = ILinker) m1 /\
    p_incb (u c) = IConsonant /\ p_incb (u b) = IConsonant.
  (** ExtPict Extend* ZWJ x ExtPict *)
  Definition GB11 (before : list N) (b : N) : Prop := exists z es e r,
    before = z :: es ++ e :: r /\ G z = GZWJ /\ Forall (fun x => G x = GExtend) es /\
    p_extpic (u e) = true /\ p_extpic (u b) = true.
  (** sot (RI RI)* RI x RI ;  [^RI] (RI RI)* RI x RI *)
  Definition GB12_13 (before : list N) (b : N) : Prop := exists ris r,
    before = ris ++ r /\ Forall (fun x => G x = GRI) ris /\ Nat.Odd (length ris) /\
    (forall x r', r = x :: r' -> G x <> GRI) /\ G b = GRI.

  (** GB3, then GB4/GB5, then the no-break rules, then GB999. *)
  Definition uax29_boundary (before : list N) (b : N) : Prop :=
    ~ GB3 before b /\
    (GB4 before b \/ GB5 before b \/
     ~ (GB6 before b \/ GB7 before b \/ GB8 before b \/ GB9 before b \/ GB9a before b \/ GB9b before b \/
        GB9c before b \/ GB11 before b \/ GB12_13 before b)).

  (** ** The rules the implementation follows instead of GB11 and GB12/13 (see C18). *)
  (** ExtPict [Extend ZWJ]* ZWJ x ExtPict *)
  Definition GB11_loose (before : list N) (b : N) : Prop := exists z es e r,
    before = z :: es ++ e :: r /\ G z = GZWJ /\ Forall (fun x => G x = GExtend \/ G x = GZWJ) es /\
    p_extpic (u e) = true /\ p_extpic (u b) = true.
  (** as GB12/13, but a regional indicator directly after a Prepend character is not counted *)
  Definition GB12_13_loose (before : list N) (b : N) : Prop := exists ris r,
    before = ris ++ r /\ Forall (fun x => G x = GRI) ris /\ Nat.Odd (length ris) /\
    (forall x r', r = x :: r' -> G x <> GPrepend /\
      (G x = GRI -> exists p r'', r' = p :: r'' /\ G p = GPrepend)) /\ G b = GRI.
  Definition loose_boundary (before : list N) (b : N) : Prop :=
    ~ GB3 before b /\
    (GB4 before b \/ GB5 before b \/
     ~ (GB6 before b \/ GB7 before b \/ GB8 before b \/ GB9 before b \/ GB9a before b \/ GB9b before b \/
        GB9c before b \/ GB11_loose before b \/ GB12_13_loose before b)).

  (** Texts on which the two agree: no ZWJ Extend* ZWJ, and no regional indicator directly after a Prepend. *)
  Definition no_double_zwj (t : list N) : Prop :=
    forall l z1 es z2 r, t = l ++ z1 :: es ++ z2 :: r -> G z1 = GZWJ -> G z2 = GZWJ ->
      Forall (fun x => G x = GExtend) es -> False.
  Definition no_prepend_ri (t : list N) : Prop :=
    forall l p x r, t = l ++ p :: x :: r -> G p = GPrepend -> G x = GRI -> False.

  (** Facts about the Unicode data the implementation relies on. *)
  Record ucd_grapheme_ok : Prop := {
    ok_ascii : forall c, c < 128 -> (G c = GOther \/ ctl (G c)) /\ p_incb (u c) = INone /\ p_extpic (u c) = false;
    ok_linker : forall c, p_incb (u c) = ILinker \/ p_incb (u c) = IExtend ->
                  G c = GExtend \/ G c = GZWJ \/ G c = GSpacingMark;
    ok_consonant : forall c, p_incb (u c) = IConsonant -> G c = GOther;
    ok_extpic : forall c, p_extpic (u c) = true -> G c = GOther
  }.
End Rules.

(** A boundary inside [text] at offset [k] (GB1/GB2 put one at both ends). *)
Definition boundary_in (rule : list N -> N -> Prop) (text : list N) (k : nat) : Prop :=
  k = O \/ k = length text \/
  exists b post, text = firstn k text ++ b :: post /\ (k < length text)%nat /\ rule (rev (firstn k text)) b.
