(** Spec for C138: the enumerators that ucd.cpp names.  [a]: the contents of its tables (Spec_EmitUcd). *)
From Coq Require Import String.
From Verif Require Import Base M_TableGen M_PropGen M_UcdApi Spec_UcdApi Spec_EmitUcd.
Open Scope N_scope.

(** [names_in a ty id]: a table, a case label or a fall-back value of ucd.cpp names [ty::id] *)
Definition names_in (a : api_tables) (ty id : str) : Prop :=
  (ty = lit "Plane" /\ (id = lit "Unassigned" \/ exists b e p, In (b, e, p) planes /\ id = Spec_UcdApi.identifier p)) \/
  (ty = lit "Core_Property" /\ exists l, In (id, l) (a_core a)) \/
  (ty = lit "General_Category" /\ (id = lit "Unspecified" \/ (exists b e, In (b, e, id) (a_gcs a)) \/ exists l, In (id, l) (a_cats a))) \/
  (ty = lit "Script" /\ (id = lit "Unknown" \/ (exists b e, In (b, e, id) (a_scripts a)) \/ exists array vs, In (array, vs) (a_sce_arrays a) /\ In id vs)) \/
  (ty = lit "Block" /\ (id = lit "Unspecified" \/ exists b e, In (b, e, id) (a_blocks a))) \/
  (exists l, In (ty, l) (a_breaks a) /\ (id = lit "Undefined" \/ exists b e, In (b, e, id) l)) \/
  (ty = lit "EastAsianWidth" /\ (id = lit "Unspecified" \/ exists b e, In (b, e, id) (a_widths a))) \/
  (ty = lit "Age" /\ exists l s, a_ages a = Some l /\ In (s, id) l).
