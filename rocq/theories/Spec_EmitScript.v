(** Spec for C141: the script lookups of a library compiled from the printed ucd.cpp. *)
From Coq Require Import String.
From Verif Require Import Base M_TableGen M_PropGen M_UcdApi M_Tables M_Script Spec_Cpp Spec_EmitUcd.
Open Scope N_scope.

(** [source] is the text of ucd.cpp, [num] the value of an enumerator of Script.  script() searches the array Script of [source], with
    Script::Unknown for code points that are not in it; script_extensions() searches the array sce, whose elements name further arrays of
    [source].  [tb] is what these two functions answer. *)
Definition script_library (num : str -> N) (source : str) (tb : script_tables) : Prop :=
  exists scripts lists_table,
    enum_table source (lit "Script") (lit "Prop<unicode::Script>") (lit "unicode::Script") scripts /\
    contains_text source (fun_text (lit "Script") (lit "script") (search_text (lit "Script") (lit "Script::Unknown"))) /\
    has_table source (Direct false) sce_type (lit "sce") (read_view sce_type) lists_table /\ contains_text source sce_fun /\
    forall c, (exists v, value_or (search scripts c) (lit "Unknown") = Ok v /\ script_of tb c = num v) /\
      exists r, search lists_table c = Ok r /\
        match r with
        | Some array => exists vs, has_table source Assigned (lit "unicode::Script") array (read_enum (lit "unicode::Script")) vs /\ extensions_of tb c = Some (map num vs)
        | None => extensions_of tb c = None
        end.
