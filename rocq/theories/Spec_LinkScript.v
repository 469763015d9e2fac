(** Scripts by the files Scripts.txt, ScriptExtensions.txt and PropertyValueAliases.txt: by name, without the library's tables or numbers. *)
From Coq Require Import String.
From Verif Require Import Base M_TableGen M_PropGen Spec_TableGen Spec_PropGen Spec_UcdApi.
Open Scope N_scope.

Record script_files := mkSF { sf_scripts : list (fline stline); sf_extensions : list (fline stline); sf_aliases : list section }.
(** the Script property of [c] *)
Definition file_script (F : script_files) (c : N) (n : str) : Prop :=
  gives (sf_scripts F) c n \/ ((forall w, ~ gives (sf_scripts F) c w) /\ n = lit "Unknown").
(** [n] is the Script of [c] or one of its Script_Extensions *)
Definition file_used_with (F : script_files) (c : N) (n : str) : Prop :=
  file_script F c n \/ exists ws w, lists (sf_extensions F) c ws /\ In w ws /\ alias (sf_aliases F) SC w n.
(** a real script is neither Common nor Inherited *)
Definition real_script (n : str) : Prop := n <> lit "Common" /\ n <> lit "Inherited".
Definition file_has_real (F : script_files) (c : N) : Prop := exists n, real_script n /\ file_used_with F c n.
(** every code point at positions a..b-1 of [t] that has a real script may be used with script [n] *)
Definition file_shared (F : script_files) (t : list N) (a b : nat) (n : str) : Prop :=
  forall i c, (a <= i < b)%nat -> nth_error t i = Some c -> file_has_real F c -> file_used_with F c n.

(** what the generator needs of the files *)
Definition script_files_ok (F : script_files) : Prop :=
  lines_ok word_line (sf_scripts F) /\ separate (sf_scripts F) /\ nonempty (sf_scripts F) /\
  pva_ok (sf_aliases F) /\ lines_ok (fun l => exists ws, sce_line l ws) (sf_extensions F) /\ separate (sf_extensions F) /\ nonempty (sf_extensions F) /\
  (forall c ws w, lists (sf_extensions F) c ws -> In w ws -> exists v, alias (sf_aliases F) SC w v).
(** facts of the database: no script is called Invalid; at most 31 extensions per line, all of them real scripts *)
Definition script_facts (F : script_files) : Prop :=
  (forall c n, gives (sf_scripts F) c n -> n <> lit "Invalid") /\
  (forall c ws, lists (sf_extensions F) c ws -> (length ws <= 31)%nat) /\
  (forall c ws w n, lists (sf_extensions F) c ws -> In w ws -> alias (sf_aliases F) SC w n -> real_script n /\ n <> lit "Invalid").
(** the values of the enumerators: different names have different values *)
Definition numbering (num : str -> N) : Prop := forall a b, num a = num b -> a = b.
