(** Model of the enumeration generator, src/libunicode/tablegen/enum_generator.cpp: ucd_enums.h, ucd_ostream.h and ucd_fmt.h.  A generated
    enumeration is modelled by its enumerators and the values the generator prints for them, a generated switch by its list of cases; M_EmitEnums
    models the printed text of the headers. *)
From Coq Require Import Ascii String.
From Verif Require Import Base M_TableGen M_PropGen M_UcdApi.
Open Scope N_scope.

(** EnumDef, enum_generator.cpp:44-48 *)
Record enum_def := mkE { e_name : str; e_members : list str }.
(** minimalUint, enum_generator.cpp:32-41, as a number of bits *)
Definition minimal_uint (max_value : N) : N :=
  if max_value <? 2 ^ 8 then 8 else if max_value <? 2 ^ 16 then 16 else if max_value <? 2 ^ 32 then 32 else 64.
(** writeEnumClass, enum_generator.cpp:50-56: the underlying type and the enumerators with their values *)
Definition e_bits (e : enum_def) : N := minimal_uint (N.of_nat (length (e_members e))).
Definition declared (e : enum_def) : list (str * N) := combine (map sanitize (e_members e)) (map N.of_nat (seq 0 (length (e_members e)))).
(** the value of an enumerator; a second enumerator of the same name would be rejected by the compiler *)
Definition enum_value (e : enum_def) (id : str) : option N := smap_get id (declared e).
(** the cases of writeEnumOstream, enum_generator.cpp:58-70, and writeEnumFormatter, 74-93: enumerator and text *)
Definition switch_cases (e : enum_def) : list (str * str) := map (fun m => (sanitize m, m)) (e_members e).
(** switch (value): the text of the case whose enumerator has this value (a second one would be rejected by the compiler) *)
Fixpoint switch (e : enum_def) (cases : list (str * str)) (v : N) : option str :=
  match cases with
  | [] => None
  | (id, text) :: r => match enum_value e id with Some i => if i =? v then Some text else switch e r v | None => switch e r v end
  end.
(** os << unsigned: decimal digits; twenty are enough for 64 bits *)
Fixpoint put_unsigned (fuel : nat) (v : N) : str :=
  match fuel with O => [] | S f => if v <? 10 then [48 + v] else put_unsigned f (v / 10) ++ [48 + v mod 10] end.
(** operator<<: the name, or the value in parentheses; static_cast<unsigned> *)
Definition enum_ostream (e : enum_def) (v : N) : str :=
  match switch e (switch_cases e) v with Some s => s | None => lit "(" ++ put_unsigned 20 (v mod 2 ^ 32) ++ lit ")" end.
(** std::formatter::format without width or precision: the name, or the empty string_view *)
Definition enum_format (e : enum_def) (v : N) : str := match switch e (switch_cases e) v with Some s => s | None => [] end.

(** collectEnums, enum_generator.cpp:94-229 *)
(** 130-138: "Skip boolean properties" *)
Definition is_boolean (values : list (str * str)) : bool :=
  (length values =? 2)%nat && existsb (str_eqb (lit "Yes")) (map snd values) && existsb (str_eqb (lit "No")) (map snd values).
(** 141-142: "Skip properties generated elsewhere" *)
Definition elsewhere (prop : str) : bool := existsb (str_eqb prop) (map lit ["Script"; "General_Category"; "EastAsianWidth"; "Age"]%string).
(** 125-161 *)
Definition pva_enum (e : str * list (str * str)) : list enum_def :=
  let '(prop, values) := e in
  match values with
  | [] => []
  | _ => if is_boolean values || elsewhere prop then []
         else [mkE prop ((if str_eqb prop (lit "Grapheme_Cluster_Break") then [lit "Undefined"] else []) ++ ssort (map snd values))]
  end.
(** None: std::stoi throws in buildAgeEnumMembers *)
Definition collect_enums (m : pva) (core : list (str * list prange)) (gcs scripts blocks : list prange) : option (list enum_def) :=
  let age := match smap_get (lit "Age") m with
             | Some ((_ :: _) as values) => match age_members values with Some l => Some [mkE (lit "Age") l] | None => None end
             | _ => Some []
             end in
  match age with
  | None => None
  | Some age =>
      Some ([mkE (lit "Plane") (map sanitize (sset_of (map r_prop planes)))] ++ age ++ flat_map pva_enum m ++
            [mkE (lit "Core_Property") (map fst core);
             mkE (lit "General_Category") (lit "Unspecified" :: sset_of (map r_prop gcs));
             mkE (lit "Script") (map lit ["Invalid"; "Unknown"; "Common"]%string ++ filter (fun s => negb (str_eqb s (lit "Common"))) (sset_of (map r_prop scripts)));
             mkE (lit "Block") (lit "Unspecified" :: map sanitize (sset_of (map r_prop blocks)));
             mkE (lit "EastAsianWidth") (map lit ["Ambiguous"; "FullWidth"; "HalfWidth"; "Neutral"; "Narrow"; "Wide"; "Unspecified"]%string)])
  end.

(** ** The enumerators the other generated sources name: pairs of enumeration and enumerator *)
Definition refs (ty : string) (ids : list str) : list (str * str) := map (fun i => (lit ty, i)) ids.
(** multistage_generator.cpp:685-701: one record of the properties table *)
Definition record_refs (r : orec) : list (str * str) :=
  refs "Script" [o_script r] ++ refs "Grapheme_Cluster_Break" [o_gcb r] ++ refs "East_Asian_Width" [o_eaw r] ++ refs "General_Category" [o_gc r] ++
  refs "Age" [o_age r] ++ refs "Indic_Conjunct_Break" [o_incb r] ++ refs "Word_Break" [o_wb r].
(** ucd_api_generator.cpp:104-617, in ucd.h and ucd.cpp: planes, core properties, general categories (table, per-category switch), scripts,
    script extensions, blocks, grapheme break properties, east asian widths (table and to_string) and make_age.  [al]: the aliases of Script,
    [ages]: those of Age. *)
Definition ucd_refs (core : list (str * list prange)) (gcs : list prange) (cats : list (str * list prange)) (scripts : list prange)
    (al : list (str * str)) (sces : list sce_range) (blocks : list prange) (gcbs : list (str * list prange)) (eaws : list prange) (ages : list (str * str)) : list (str * str) :=
  refs "Plane" (lit "Unassigned" :: map (fun p => sanitize (r_prop p)) planes) ++
  refs "Core_Property" (map fst core) ++
  refs "General_Category" (lit "Unspecified" :: map r_prop gcs ++ map fst cats) ++
  refs "Script" (lit "Unknown" :: map r_prop scripts ++ flat_map snd (sce_arrays al sces)) ++
  refs "Block" (lit "Unspecified" :: map (fun b => sanitize (r_prop b)) blocks) ++
  flat_map (fun g => (fst g, lit "Undefined") :: map (fun r => (fst g, r_prop r)) (snd g)) gcbs ++
  refs "EastAsianWidth" (map lit ["Ambiguous"; "FullWidth"; "HalfWidth"; "Neutral"; "Narrow"; "Wide"; "Unspecified"]%string ++
                         map (fun r => width_name (r_prop r)) (merge_ranges None eaws)) ++
  refs "Age" (filter (fun v => negb (str_eqb v (lit "Unassigned"))) (map snd ages)).
