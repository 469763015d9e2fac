(** What the theorems about the generated enumerations say. *)
From Coq Require Import Ascii String Permutation.
From Verif Require Import Base M_TableGen M_PropGen M_UcdApi M_Enums Spec_TableGen Spec_PropGen Spec_UcdApi.
Open Scope N_scope.

(** C++ accepts the declaration and the switches: no enumerator is declared twice *)
Definition compiles (e : enum_def) : Prop := NoDup (map fst (declared e)).
(** the enumeration [ty] has the enumerator [id] *)
Definition declares (enums : list enum_def) (ty id : str) : Prop := exists e, In e enums /\ e_name e = ty /\ In id (map fst (declared e)).
(** the value of an enumerator *)
Definition enumerator (enums : list enum_def) (ty id : str) (v : N) : Prop := exists e, In e enums /\ e_name e = ty /\ In (id, v) (declared e).

(** the enumerations generated from the files [F] and the blocks [B] *)
Definition generated_enums (crlf : bool) (F : ucd_files) (B : list (fline stline)) (d : pdata) (enums : list enum_def) : Prop :=
  parsed crlf F d /\
  collect_enums (pd_pva d) (pd_core d) (pd_gc d) (pd_scripts d) (load_blocks (file_text st_text crlf B)) = Some enums.

(** the names of scripts and property values are usable as identifiers as they are *)
Definition plain_names (F : ucd_files) : Prop :=
  (forall c w, gives (f_scripts F) c w -> without 45 w) /\
  (forall c w, gives (f_core F) c w -> without 45 w) /\
  (forall prop a v, In prop [GC; GCB; EAW; INCB; WB] -> alias (f_pva F) prop a v -> without 45 v).
(** no two values of a property are written the same, and none like the enumerators the generator adds *)
Definition same_id (s t : str) : Prop := identifier s = identifier t.
Definition distinct_names (F : ucd_files) (B : list (fline stline)) : Prop :=
  (forall prop a a' v v', prop <> lit "Block" -> alias (f_pva F) prop a v -> alias (f_pva F) prop a' v' -> same_id v v' -> a = a') /\
  (forall c w, gives (f_scripts F) c w -> ~ same_id w (lit "Invalid") /\ ~ same_id w (lit "Unknown") /\ (same_id w (lit "Common") -> w = lit "Common")) /\
  (forall c w c' w', gives (f_scripts F) c w -> gives (f_scripts F) c' w' -> same_id w w' -> w = w') /\
  (forall a v, alias (f_pva F) GC a v -> ~ same_id v (lit "Unspecified")) /\
  (forall a v, alias (f_pva F) GCB a v -> ~ same_id v (lit "Undefined")) /\
  (forall l, has B l -> ~ same_id (st_prop l) (lit "Unspecified")) /\
  (forall l l', has B l -> has B l' -> same_id (st_prop l) (st_prop l') -> st_prop l = st_prop l') /\
  (forall c w c' w', gives (f_core F) c w -> gives (f_core F) c' w' -> same_id w w' -> w = w') /\
  (forall s, In s (f_pva F) -> ~ In (sec_name s) (map lit ["Plane"; "Core_Property"; "EastAsianWidth"]%string)).
(** versions in order *)
Definition earlier (x y x' y' : N) : Prop := x < x' \/ (x = x' /\ y < y').
(** what ucd.h and ucd.cpp need: GraphemeBreakProperty.txt has the long names of the values, and ScriptExtensions.txt lists scripts that
    Scripts.txt gives to some code point *)
Definition uses_names (F : ucd_files) (X : list (fline stline)) : Prop :=
  grouped_file GCB (f_gcb F) /\ (forall c w, gives (f_gcb F) c w -> has_value (f_pva F) GCB w) /\
  lines_ok (fun l => exists ws, sce_line l ws) X /\
  (forall c ws w, lists X c ws -> In w ws -> exists v c', alias (f_pva F) SC w v /\ gives (f_scripts F) c' v).
