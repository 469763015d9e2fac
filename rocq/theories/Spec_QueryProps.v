(** Vocabulary for property C105: what the properties command of unicode-query prints about a code point. *)
From Coq Require Import Ascii String.
From Verif Require Import Base Spec_Utf M_TableGen Spec_Query M_Query.
Open Scope N_scope.

(** [s] is [n] in lower-case hexadecimal, without leading zeros *)
Inductive lower_hex : str -> N -> Prop :=
| lhex_one : forall d, d < 16 -> lower_hex [hex_char d] d
| lhex_more : forall s v d, lower_hex s v -> v <> 0 -> d < 16 -> lower_hex (s ++ [hex_char d]) (16 * v + d).

(** A line: the label in 28 columns, a colon, the value. *)
Definition line (label value : str) : str := label ++ repeat 32 (28 - length label) ++ lit ": " ++ value ++ [10].
Definition dots (v : str) : str := map (fun x => if x =? 95 then 46 else x) v.

(** [o] is the record of code point [c], first seen in version [v] of Unicode, with property values [p]: fourteen lines and an empty
    one, without the line that shows the character itself if that is a control character. *)
Definition shows_record (p : cpinfo) (v : str) (c : N) (o : str) : Prop :=
  exists h w, lower_hex h c /\ lower_hex w (ci_width p) /\
  o = line (lit "Name") (ci_name p) ++
      line (lit "Unicode Version") (dots v) ++
      line (lit "Codepoint") (lit "U+" ++ h) ++
      line (lit "UTF-8") ([34] ++ flat_map shows_escaped (utf8 c) ++ [34]) ++
      (if list_eq_dec N.eq_dec (ci_gc p) (lit "Control") then [] else line (lit "Display") (utf8 c)) ++
      line (lit "Plane") (ci_plane p) ++
      line (lit "Block") (ci_block p) ++
      line (lit "Script") (ci_script p) ++
      line (lit "General Category") (ci_gc p) ++
      line (lit "East Asian Width") (ci_eaw p) ++
      line (lit "Character width") w ++
      line (lit "Emoji Segmentation Category") (ci_esc p) ++
      line (lit "Emoji Presentation") (if ci_emoji p then lit "emoji" else lit "text") ++
      line (lit "Grapheme Cluster Break") (ci_gcb p) ++ [10].
