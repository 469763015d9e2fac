(** A small concrete property table used only as witness in examples and refutations.  The entries are those of the
    Unicode Character Database for the listed code points (everything else is treated as a plain narrow character). *)
From Verif Require Import Base M_Ucd.
Open Scope N_scope.

Definition entry := (N * N * props)%type.
Fixpoint table_get (t : list entry) (c : N) : props :=
  match t with
  | [] => plain
  | (lo, hi, p) :: t' => if (lo <=? c) && (c <=? hi) then p else table_get t' c
  end.

(*                        w  gcb       incb   wb    xpic  vir   vbase emod  emo   epres mc  *)
Definition pr w g i wb x := mkProps w g i wb x false false false false false false.
Definition demo_table : list entry :=
  [ (0x0A, 0x0A, pr 0 GLF INone WLF false);
    (0x0D, 0x0D, pr 0 GCR INone WCR false);
    (0x0B, 0x0C, pr 0 GControl INone WNewline false);
    (0x00, 0x1F, pr 0 GControl INone WOther false);
    (0x20, 0x20, pr 1 GOther INone WWSegSpace false);
    (0x22, 0x22, pr 1 GOther INone WDoubleQuote false);
    (0x27, 0x27, pr 1 GOther INone WSingleQuote false);
    (0x2C, 0x2C, pr 1 GOther INone WMidNum false);
    (0x2E, 0x2E, pr 1 GOther INone WMidNumLet false);
    (0x30, 0x39, mkProps 1 GOther INone WNumeric false false true false true false false);
    (0x3A, 0x3A, pr 1 GOther INone WMidLetter false);
    (0x3B, 0x3B, pr 1 GOther INone WMidNum false);
    (0x41, 0x5A, pr 1 GOther INone WALetter false);
    (0x5F, 0x5F, pr 1 GOther INone WExtendNumLet false);
    (0x61, 0x7A, pr 1 GOther INone WALetter false);
    (0x85, 0x85, pr 0 GControl INone WNewline false);
    (0x7F, 0x9F, pr 0 GControl INone WOther false);
    (0xA9, 0xA9, mkProps 1 GOther INone WOther true false true false true false false);
    (0xAD, 0xAD, pr 1 GControl INone WFormat false);
    (0x300, 0x34E, pr 0 GExtend IExtend WExtend false);
    (0x5D0, 0x5EA, pr 1 GOther INone WHebrew false);
    (0x600, 0x605, pr 1 GPrepend INone WNumeric false);
    (0x915, 0x939, pr 1 GOther IConsonant WALetter false);
    (0x93E, 0x940, mkProps 0 GSpacingMark INone WExtend false false false false false false true);
    (0x94D, 0x94D, mkProps 0 GExtend ILinker WExtend false true false false false false false);
    (0x1100, 0x115F, pr 2 GL INone WALetter false);
    (0x1160, 0x11A7, pr 0 GV INone WALetter false);
    (0x11A8, 0x11FF, pr 0 GT INone WALetter false);
    (0x200D, 0x200D, pr 0 GZWJ IExtend WZWJ false);
    (0x2028, 0x2029, pr 0 GControl INone WNewline false);
    (0x231A, 0x231B, mkProps 2 GOther INone WOther true false true false true true false);
    (0x2764, 0x2764, mkProps 1 GOther INone WOther true false true false true false false);
    (0x30A1, 0x30FA, pr 2 GOther INone WKatakana false);
    (0x4E00, 0x9FFF, pr 2 GOther INone WOther false);
    (0xAC00, 0xAC00, pr 2 GLV INone WALetter false);
    (0xAC01, 0xAC1B, pr 2 GLVT INone WALetter false);
    (0xFE00, 0xFE0F, pr 0 GExtend IExtend WExtend false);
    (0x1F1E6, 0x1F1FF, mkProps 2 GRI INone WRI false false false false true true false);
    (0x1F3FB, 0x1F3FF, mkProps 2 GExtend IExtend WExtend false false false true true true false);
    (0x1F466, 0x1F469, mkProps 2 GOther INone WOther true false false false true true false) ].
Definition demo : ucd := table_get demo_table.

(** A property of every entry (and of [plain]) holds of every code point. *)
Lemma table_all (P : props -> Prop) t : P plain -> Forall (fun e => P (snd e)) t -> forall c, P (table_get t c).
Proof.
  intros H0 HF c. induction t as [|[[lo hi] p] t IH]; cbn [table_get]; [exact H0|].
  inversion HF as [|? ? Hp HF']; subst. destruct ((lo <=? c) && (c <=? hi)); [exact Hp|apply IH, HF'].
Qed.
