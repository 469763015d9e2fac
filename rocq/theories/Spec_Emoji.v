(** The grammar of emoji_presentation_scanner.rl:29-88, as regular expressions over categories, and the vocabulary of C56 and C57. *)
From Verif Require Import Base M_Emoji.

Inductive re := RSym (l : list ecat) | RAlt (a b : re) | RCat (a b : re) | RPlus (a : re).
Inductive matches : re -> list ecat -> Prop :=
| m_sym : forall l c, In c l -> matches (RSym l) [c]
| m_altl : forall a b w, matches a w -> matches (RAlt a b) w
| m_altr : forall a b w, matches b w -> matches (RAlt a b) w
| m_cat : forall a b u v, matches a u -> matches b v -> matches (RCat a b) (u ++ v)
| m_one : forall a w, matches a w -> matches (RPlus a) w
| m_plus : forall a u v, matches a u -> matches (RPlus a) v -> matches (RPlus a) (u ++ v).

(* emoji_presentation_scanner.rl:46-47 *)
Definition any_emoji : re := RSym [ETextPres; EEmojiPres; EKeycapBase; EModBase; ETagBase; EEmoji].
(* rl:49-50 *)
Definition backslash_sequence : re := RCat any_emoji (RSym [EBackslash]).
(* rl:58 *)
Definition presentation_sequence : re := RCat any_emoji (RSym [EVs16]).
(* rl:60 *)
Definition modifier_sequence : re := RCat (RSym [EModBase]) (RSym [EModifier]).
(* rl:62 *)
Definition flag_sequence : re := RCat (RSym [ERegional]) (RSym [ERegional]).
(* rl:68 *)
Definition tag_sequence : re := RCat (RSym [ETagBase]) (RCat (RPlus (RSym [ETagSeq])) (RSym [ETagTerm])).
(* rl:70 *)
Definition keycap_sequence : re := RCat (RSym [EKeycapBase]) (RCat (RSym [EVs16]) (RSym [EKeycap])).
(* rl:72 *)
Definition zwj_element : re := RAlt presentation_sequence (RAlt modifier_sequence any_emoji).
(* rl:74 *)
Definition zwj_sequence : re := RCat zwj_element (RPlus (RCat (RSym [EZwj]) zwj_element)).
(* rl:76-79 *)
Definition emoji_run : re :=
  RAlt (RSym [EEmojiPres]) (RAlt (RSym [ETagBase]) (RAlt (RSym [EModBase]) (RAlt presentation_sequence (RAlt modifier_sequence
  (RAlt flag_sequence (RAlt tag_sequence (RAlt keycap_sequence (RAlt zwj_sequence backslash_sequence)))))))).
(* rl:83 *)
Definition text_presentation : re := RCat any_emoji (RSym [EVs15]).

(** The three scanner rules, rl:86-92 (text_run is any single code point). *)
Definition some_rule (w : list ecat) : Prop := matches text_presentation w \/ matches emoji_run w \/ length w = 1%nat.
(** [token l n b]: the scanner's next token of [l] has [n] code points and presentation [b] (true = emoji): it is the longest prefix that
    some rule matches, and the first rule that matches it decides. *)
Definition token (l : list ecat) (n : nat) (b : bool) : Prop :=
  (1 <= n <= length l)%nat /\ some_rule (firstn n l) /\
  (forall m, (n < m <= length l)%nat -> ~ some_rule (firstn m l)) /\
  (b = true <-> matches emoji_run (firstn n l) /\ ~ matches text_presentation (firstn n l)).

(** [tokens l ts]: the token stream of a text *)
Inductive tokens : list ecat -> list (nat * bool) -> Prop :=
| tokens_nil : tokens [] []
| tokens_cons : forall l n b ts, token l n b -> tokens (skipn n l) ts -> tokens l ((n, b) :: ts).
(** grouping a token stream into maximal runs of equal presentation, as (end offset, presentation) *)
Fixpoint groups (from : nat) (ts : list (nat * bool)) : list (nat * bool) :=
  match ts with
  | [] => []
  | (n, b) :: r =>
      match groups (from + n) r with
      | (e, b') :: gs => if Bool.eqb b b' then (e, b) :: gs else ((from + n)%nat, b) :: (e, b') :: gs
      | [] => [((from + n)%nat, b)]
      end
  end.
(** segment ends strictly increase from [from] to [n]; neighbours differ in presentation *)
Fixpoint segments_ok (n from : nat) (prev : option bool) (segs : list (nat * bool)) : Prop :=
  match segs with
  | [] => from = n
  | (e, b) :: r => (from < e)%nat /\ prev <> Some b /\ segments_ok n e (Some b) r
  end.
(** [calls] consume() calls on a segmenter, with what substr() and isEmoji() say after each *)
Fixpoint eseg_views (fuel calls : nat) (st : eseg) : Res (list (nat * nat * bool)) :=
  match calls with
  | O => NoFuel
  | S n =>
      do (o, st') <- eseg_consume fuel st ;
      match o with None => Ok [] | Some s => do r <- eseg_views fuel n st' ; Ok ((e_begin st', e_end st', e_emoji st') :: r) end
  end.
(** each segment with its start *)
Fixpoint views (from : nat) (segs : list (nat * bool)) : list (nat * nat * bool) :=
  match segs with [] => [] | (e, b) :: r => (from, e, b) :: views e r end.
