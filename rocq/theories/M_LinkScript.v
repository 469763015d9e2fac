(** The script tables the segmenter reads, script() and script_extensions() of the generated ucd.cpp (M_UcdApi) with the enumerators of Script
    as numbers. *)
From Coq Require Import String.
From Verif Require Import Base M_TableGen M_PropGen M_UcdApi M_Script.
Open Scope N_scope.

(** script_segmenter.cpp:125-146 calls script(codepoint) and script_extensions(codepoint).  [num] is the value of an enumerator; M_Script
    writes 0, 1 and 2 for the three that isPreferred (26-35) singles out.  UB of a lookup, which C83 and C90 exclude, is Invalid here. *)
Definition numbered (num : str -> N) : Prop :=
  num (lit "Invalid") = sc_invalid /\ num (lit "Common") = sc_common /\ num (lit "Inherited") = sc_inherited.
Definition linked_scripts (num : str -> N) (tbl : list prange) (ext : N -> Res (option (list str))) : script_tables :=
  mkScripts (fun c => match api_script tbl c with Ok n => num n | _ => sc_invalid end)
            (fun c => match ext c with Ok (Some l) => Some (map num l) | _ => None end).
