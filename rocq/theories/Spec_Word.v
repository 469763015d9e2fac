(** The word boundary rules of UAX #29, written from the annex; nothing here mentions the model's functions. *)
From Verif Require Import Base M_Ucd.
Open Scope N_scope.

Definition AHLetter (w : wbc) : Prop := w = WALetter \/ w = WHebrew.
Definition MidNumLetQ (w : wbc) : Prop := w = WMidNumLet \/ w = WSingleQuote.
Definition MidLetterQ (w : wbc) : Prop := w = WMidLetter \/ MidNumLetQ w.
Definition MidNumQ (w : wbc) : Prop := w = WMidNum \/ MidNumLetQ w.
Definition ignorable (w : wbc) : Prop := w = WExtend \/ w = WFormat \/ w = WZWJ.
Definition newline (w : wbc) : Prop := w = WNewline \/ w = WCR \/ w = WLF.

Section Rules.
  Variable u : ucd.
  Notation W c := (p_wb (u c)).

  (** WB4: "X (Extend | Format | ZWJ)* -> X", X not a newline class (and not the start of the text).
      [skips before e]: [e] is [before] (reversed text) with the ignored characters removed. *)
  Inductive skips : list N -> list N -> Prop :=
  | skips_nil : skips [] []
  | skips_drop c p r e : ignorable (W c) -> ~ newline (W p) -> skips (p :: r) e -> skips (c :: p :: r) e
  | skips_keep c r e : (~ ignorable (W c) \/ r = [] \/ exists p r', r = p :: r' /\ newline (W p)) ->
      skips r e -> skips (c :: r) (c :: e).

  (** the previous / the two previous / the next significant characters *)
  Definition prev1 (before : list N) (f : wbc -> Prop) : Prop := exists a e, skips before (a :: e) /\ f (W a).
  Definition prev2 (before : list N) (f2 f1 : wbc -> Prop) : Prop :=
    exists a2 a1 e, skips before (a1 :: a2 :: e) /\ f2 (W a2) /\ f1 (W a1).
  Definition next1 (rest : list N) (f : wbc -> Prop) : Prop :=
    exists ts b r, rest = ts ++ b :: r /\ Forall (fun c => ignorable (W c)) ts /\ ~ ignorable (W b) /\ f (W b).
  Definition raw1 (before : list N) (f : wbc -> Prop) : Prop := exists a r, before = a :: r /\ f (W a).
  Definition is (w : wbc) : wbc -> Prop := fun x => x = w.

  Definition WB3 before b (rest : list N) := raw1 before (is WCR) /\ W b = WLF.
  Definition WB3a before (b : N) (rest : list N) := raw1 before newline.
  Definition WB3b (before : list N) b (rest : list N) := newline (W b).
  Definition WB3c before b (rest : list N) := raw1 before (is WZWJ) /\ p_extpic (u b) = true.
  Definition WB3d before b (rest : list N) := raw1 before (is WWSegSpace) /\ W b = WWSegSpace.
  Definition WB4 (before : list N) b (rest : list N) := ignorable (W b).
  Definition WB5 before b (rest : list N) := prev1 before AHLetter /\ AHLetter (W b).
  Definition WB6 before b rest := prev1 before AHLetter /\ MidLetterQ (W b) /\ next1 rest AHLetter.
  Definition WB7 before b (rest : list N) := prev2 before AHLetter MidLetterQ /\ AHLetter (W b).
  Definition WB7a before b (rest : list N) := prev1 before (is WHebrew) /\ W b = WSingleQuote.
  Definition WB7b before b rest := prev1 before (is WHebrew) /\ W b = WDoubleQuote /\ next1 rest (is WHebrew).
  Definition WB7c before b (rest : list N) := prev2 before (is WHebrew) (is WDoubleQuote) /\ W b = WHebrew.
  Definition WB8 before b (rest : list N) := prev1 before (is WNumeric) /\ W b = WNumeric.
  Definition WB9 before b (rest : list N) := prev1 before AHLetter /\ W b = WNumeric.
  Definition WB10 before b (rest : list N) := prev1 before (is WNumeric) /\ AHLetter (W b).
  Definition WB11 before b (rest : list N) := prev2 before (is WNumeric) MidNumQ /\ W b = WNumeric.
  Definition WB12 before b rest := prev1 before (is WNumeric) /\ MidNumQ (W b) /\ next1 rest (is WNumeric).
  Definition WB13 before b (rest : list N) := prev1 before (is WKatakana) /\ W b = WKatakana.
  Definition WB13a before b (rest : list N) :=
    prev1 before (fun w => AHLetter w \/ w = WNumeric \/ w = WKatakana \/ w = WExtendNumLet) /\ W b = WExtendNumLet.
  Definition WB13b before b (rest : list N) :=
    prev1 before (is WExtendNumLet) /\ (AHLetter (W b) \/ W b = WNumeric \/ W b = WKatakana).
  (** an odd number of regional indicators directly before (ignored characters skipped) *)
  Definition WB15_16 before b (rest : list N) := exists ris e, skips before (ris ++ e) /\
    Forall (fun c => W c = WRI) ris /\ Nat.Odd (length ris) /\ (forall x e', e = x :: e' -> W x <> WRI) /\ W b = WRI.

  Definition no_break before b rest : Prop :=
    WB3c before b rest \/ WB3d before b rest \/ WB4 before b rest \/ WB5 before b rest \/ WB6 before b rest \/
    WB7 before b rest \/ WB7a before b rest \/ WB7b before b rest \/ WB7c before b rest \/ WB8 before b rest \/
    WB9 before b rest \/ WB10 before b rest \/ WB11 before b rest \/ WB12 before b rest \/ WB13 before b rest \/
    WB13a before b rest \/ WB13b before b rest \/ WB15_16 before b rest.

  Definition word_boundary (before : list N) (b : N) (rest : list N) : Prop :=
    ~ WB3 before b rest /\ (WB3a before b rest \/ WB3b before b rest \/ ~ no_break before b rest).

  (** The one fact about the data that is used: pictographs are not Extend/Format/ZWJ. *)
  Definition ucd_word_ok : Prop := forall c, p_extpic (u c) = true -> ~ ignorable (W c).
End Rules.

(** boundary at offset [k] of [text]; WB1/WB2: both ends are boundaries *)
Definition word_boundary_at (u : ucd) (text : list N) (k : nat) : Prop :=
  k = O \/ k = length text \/
  exists b post, text = firstn k text ++ b :: post /\ (k < length text)%nat /\ word_boundary u (rev (firstn k text)) b post.
