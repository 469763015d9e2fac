(** Vocabulary for the convenience functions of normalization.h (C144, C145). *)
From Coq Require Import String.
From Verif Require Import Base Spec_Utf M_TableGen Spec_TableGen Spec_LinkNorm.
Open Scope N_scope.

(** [returns f r]: the call, given enough steps, terminates and returns [r] *)
Definition returns {A} (f : nat -> Res A) (r : A) : Prop := exists fuel, f fuel = Ok r.
(** surrogates have no decomposition and are in none (true of the UCD) *)
Definition scalar_data (ud : list (fline udline)) : Prop :=
  forall u t l, has ud u -> ul_dec u = Some (t, l) -> scalar (ul_cp u) /\ scalars l.
(** [f] on UTF-32 text and [f8] on UTF-8 text compute the form [std] of the Standard *)
Definition computes (f : nat -> list N -> Res (list N)) (f8 : nat -> list N -> Res (list N)) (std : list N -> list N -> Prop) : Prop :=
  (forall s, exists r, returns (fun k => f k s) r) /\
  (forall s r, returns (fun k => f k s) r <-> std s r) /\
  (forall s, scalars s -> exists r, returns (fun k => f8 k (utf8_text s)) r) /\
  (forall s r8, scalars s -> (returns (fun k => f8 k (utf8_text s)) r8 <-> exists r, std s r /\ r8 = utf8_text r)).
(** [f] on UTF-32 text and [f8] on UTF-8 text decide [P] *)
Definition decides (f : nat -> list N -> Res bool) (f8 : nat -> list N -> Res bool) (P : list N -> Prop) : Prop :=
  (forall s, exists b, returns (fun k => f k s) b /\ (b = true <-> P s)) /\
  (forall s b, returns (fun k => f k s) b -> (b = true <-> P s)) /\
  (forall s, scalars s -> exists b, returns (fun k => f8 k (utf8_text s)) b /\ (b = true <-> P s)) /\
  (forall s b, scalars s -> returns (fun k => f8 k (utf8_text s)) b -> (b = true <-> P s)).
