(** The general category case_mapping.cpp reads: the enumerators it names, from the two tables it asks. *)
From Coq Require Import String.
From Verif Require Import Base M_TableGen M_PropGen M_Multistage M_UcdApi M_Case M_Link.
Open Scope N_scope.

(** General_Category:: enumerators named in case_mapping.cpp:351-365 *)
Definition gencat_of (s : str) : gencat :=
  if is_named s "Uppercase_Letter" then Lu else if is_named s "Lowercase_Letter" then Ll else if is_named s "Titlecase_Letter" then Lt
  else if is_named s "Nonspacing_Mark" then Mn else if is_named s "Enclosing_Mark" then Me else if is_named s "Format" then Cf
  else if is_named s "Modifier_Letter" then Lm else if is_named s "Modifier_Symbol" then Sk else GCother.
(** general_category::get, case_mapping.cpp:350 (is_cased) *)
Definition api_gencat (tbl : list prange) : N -> gencat := fun c => match api_gc_get tbl c with Ok s => gencat_of s | _ => GCother end.
(** codepoint_properties::get(...).general_category, case_mapping.cpp:360-361 (is_case_ignorable) *)
Definition runtime_gencat (members : list str) (d : pdata) (g : gen crec) : N -> gencat :=
  fun c => match get 256 0x10FFFF g c with Ok r => gencat_of (o_gc (print_rec members d r)) | _ => GCother end.
