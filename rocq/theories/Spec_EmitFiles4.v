(** Spec for C139: the interface of ucd.h, from the files it was generated from. *)
From Coq Require Import String.
From Verif Require Import Base M_TableGen M_PropGen Spec_TableGen Spec_PropGen Spec_UcdApi Spec_Cpp Spec_EmitUcd Spec_EmitUcdH.
Open Scope N_scope.

(** The signatures of the API for the files [F]: the fixed functions, grapheme_cluster_break, make_age, and is_x for every emoji property x of emoji-data.txt *)
Definition file_signature (F : ucd_files) (s : str) : Prop :=
  In s (signatures [GCB] [] true) \/ exists name c, gives (f_emoji F) c name /\ s = lookup_sig (lit "bool") (lit "is_" ++ map down name).
(** [cats]: the long names of the general categories of DerivedGeneralCategory.txt, each of them once *)
Definition file_categories (F : ucd_files) (cats : list str) : Prop :=
  NoDup cats /\ forall name, In name cats <-> exists c a, gives (f_gc F) c a /\ alias (f_pva F) GC a name.
