(** The files read for ucd.h and their meaning, for the theorems about the generated query functions. *)
From Coq Require Import Ascii String Permutation Sorted.
From Verif Require Import Base M_TableGen M_PropGen M_UcdApi Spec_TableGen Spec_PropGen.
Open Scope N_scope.

Definition data {A} (f : list (fline A)) : list A := flat_map (fun l => match l with Data a => [a] | _ => [] end) f.
(** no two data lines cover a common code point *)
Definition apart (a b : stline) : Prop := forall c, covers (st_span a) c -> ~ covers (st_span b) c.
Definition separate (f : list (fline stline)) : Prop := ForallOrdPairs apart (data f).
(** no two data lines with the same property do *)
Definition separate_values (f : list (fline stline)) : Prop := ForallOrdPairs (fun a b => st_prop a = st_prop b -> apart a b) (data f).
(** the lines are in code point order *)
Definition ascending (f : list (fline stline)) : Prop := StronglySorted (fun a b => span_last (st_span a) < span_first (st_span b)) (data f).
Definition nonempty {A} (f : list (fline A)) : Prop := exists a, has f a.

(** what std::sort leaves of the ranges [l], sorted by their first code point *)
Definition sorted_by_first {V} (l l' : list (N * N * V)) : Prop :=
  Permutation l l' /\ StronglySorted (fun a b => (fst (fst b) <? fst (fst a)) = false) l'.
Definition groups_sorted (m m' : list (str * list prange)) : Prop := Forall2 (fun g g' => fst g = fst g' /\ sorted_by_first (snd g) (snd g')) m m'.

(** DerivedGeneralCategory.txt: sections "# General_Category=Uppercase_Letter" *)
Record gsection := mkGs { gs_name : str; gs_body : list (fline stline) }.
Definition gc_header : str := lit " General_Category=".
Definition gc_file (pre : list (fline stline)) (secs : list gsection) : list (fline stline) :=
  pre ++ flat_map (fun s => Comment (gc_header ++ gs_name s) :: gs_body s) secs.
Definition no_gc_header (f : list (fline stline)) : Prop := forall q, In (Comment q) f -> forall r, q <> gc_header ++ r.
(** the sections are named by the long names of the values of their lines, are not empty and list the code points in order *)
Definition gc_sections_ok (aliases : list section) (pre : list (fline stline)) (secs : list gsection) : Prop :=
  data pre = [] /\ no_gc_header pre /\ NoDup (map gs_name secs) /\
  forall s, In s secs -> word (gs_name s) /\ no_gc_header (gs_body s) /\ ascending (gs_body s) /\ nonempty (gs_body s) /\
    forall l, has (gs_body s) l -> alias aliases GC (st_prop l) (gs_name s).

(** GraphemeBreakProperty.txt: all lines follow the comment "# Property:  Grapheme_Cluster_Break" *)
Definition mentions (p s : str) : Prop := exists u v, s = u ++ p ++ v.
Definition grouped_file (name : str) (f : list (fline stline)) : Prop :=
  exists pre sep body, f = pre ++ Comment (lit " Property:" ++ sep ++ name) :: body /\ data pre = [] /\ Forall white sep /\ word name /\
    forall q, In (Comment q) (pre ++ body) -> ~ mentions (lit "Property:") q.

(** ScriptExtensions.txt: "1CD0 ; Beng Deva Gran Knda # Mn VEDIC TONE KARSHANA" *)
Definition sce_line (l : stline) (ws : list str) : Prop := st_ok l /\ ws <> [] /\ st_prop l = join (spaces 1) ws /\
  Forall (fun w => word w /\ without 95 w /\ Forall (fun c => is_space c = false) w) ws.
Definition lists (f : list (fline stline)) (c : N) (ws : list str) : Prop := exists l, has f l /\ covers (st_span l) c /\ sce_line l ws.
Definition SC : str := lit "Script".

(** Blocks.txt: "0000..007F; Basic Latin"; enumerators have underscores instead of blanks and hyphens *)
Definition identifier (s : str) : str := map (fun c => if (c =? 32) || (c =? 45) then 95 else c) s.
Definition is_span (r : span) : Prop := match r with Span _ _ => True | One _ => False end.

(** BidiMirroring.txt: "0028; 0029 # LEFT PARENTHESIS" *)
Definition mirror_line (l : stline) (c t : N) : Prop := st_ok l /\ st_span l = One c /\ t <= 0x10FFFF /\ st_prop l = hexs t.
Definition mirror_file (f : list (fline stline)) : Prop := lines_ok (fun l => exists c t, mirror_line l c t) f.
Definition one_mirror_each (f : list (fline stline)) : Prop := NoDup (map (fun l => span_first (st_span l)) (data f)).
Definition mirrors (f : list (fline stline)) (c t : N) : Prop := exists l, has f l /\ mirror_line l c t.

(** UnicodeData.txt: field 9 is Bidi_Mirrored, "Y" or "N"; one line per code point *)
Definition flag_line (u : udline) : Prop := ud_ok u /\ (ul_f9 u = lit "Y" \/ ul_f9 u = lit "N").
Definition one_line_each (f : list (fline udline)) : Prop := NoDup (map ul_cp (data f)).
Definition mirrored (f : list (fline udline)) (c : N) : Prop := exists u, has f u /\ ul_cp u = c /\ ul_f9 u = lit "Y".

(** the short names of East_Asian_Width and the enumerators of EastAsianWidth *)
Definition width_names : list (string * string) :=
  [("A", "Ambiguous"); ("F", "FullWidth"); ("H", "HalfWidth"); ("N", "Neutral"); ("Na", "Narrow"); ("W", "Wide")]%string.
(** the same values in PropertyValueAliases.txt *)
Definition width_aliases : list (string * string) :=
  [("A", "Ambiguous"); ("F", "Fullwidth"); ("H", "Halfwidth"); ("N", "Neutral"); ("Na", "Narrow"); ("W", "Wide")]%string.
(** the enumerators of EastAsianWidth (ucd.h) and East_Asian_Width (codepoint_properties.h) for the same value *)
Definition same_width (v u : str) : Prop := exists a e e', In (a, e) width_names /\ In (a, e') width_aliases /\ v = lit e /\ u = lit e'.
Definition width_enum (w v : str) : Prop := exists a e, In (a, e) width_names /\ w = lit a /\ v = lit e.
