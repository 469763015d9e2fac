(** Vocabulary for the UTF-8 side of normalization (C45, C47, C65). *)
From Verif Require Import Base Spec_Utf M_Utf8 M_Convert M_Normalize M_NormUtf8.
Open Scope N_scope.

(** The text a byte stream stands for, from what from_utf8 reports per byte: completed characters as themselves, rejected
    bytes as U+FFFD, everything still incomplete as nothing. *)
Fixpoint replaced (rs : list cres) : list N :=
  match rs with
  | [] => []
  | Success v :: rs' => v :: replaced rs'
  | Invalid :: rs' => 0xFFFD :: replaced rs'
  | Incomplete :: rs' => replaced rs'
  end.
(** The tables mention scalar values only (true of the UCD). *)
Definition scalar_tables (tb : norm_tables) : Prop :=
  (forall c x, In x (canonical_decomposition tb c) \/ In x (compatibility_decomposition tb c) -> scalar x) /\
  (forall a b c, In (a, b, c) (t_comp tb) -> scalar c).

(** [history tb form st h os]: the calls [h] on a utf8_normalizer in state [st] terminate and return the outputs [os]. *)
Definition history (tb : norm_tables) (form : nform) (st : unorm) (h : list uop) (os : list (list N)) : Prop :=
  exists fuel st', urun tb fuel form st h = Ok (os, st').
(** normalize(string_view, form) terminates and returns r *)
Definition normalizes8 (tb : norm_tables) (i : impl) (form : nform) (s r : list N) : Prop :=
  exists fuel, normalize8 tb i fuel s form = Ok r.
