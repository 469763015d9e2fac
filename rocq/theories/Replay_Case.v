(** Assertions of case_mapping_test.cpp, replayed on the model.  Written by tools/gen_replay.py.  These are tests of the model, not theorems. *)
From Verif Require Import Base M_Ucd M_Utf8 M_Convert M_Word M_Case Replay_Table.
Require Import ZArith List.
Import ListNotations.
Open Scope Z_scope.

(** The UCD entries of the code points used. *)
Definition rcase : case_tables := {|
  s_upper := [(0xE0, 0xC0); (0xE9, 0xC9); (0x1C6, 0x1C4); (0x3B1, 0x391); (0x3C9, 0x3A9)];
  s_lower := [(0xC0, 0xE0); (0xC9, 0xE9); (0x1C4, 0x1C6); (0x391, 0x3B1); (0x3A9, 0x3C9)];
  s_title := [(0xE0, 0xC0); (0xE9, 0xC9); (0x1C4, 0x1C5); (0x1C5, 0x1C5); (0x1C6, 0x1C5); (0x3B1, 0x391); (0x3C9, 0x3A9)];
  s_fold := [(0xC0, 0xE0); (0xC9, 0xE9); (0x1C4, 0x1C6); (0x391, 0x3B1); (0x3A9, 0x3C9)];
  f_upper := [(0xDF, [0x53; 0x53])]; f_lower := [(0x130, [0x69; 0x307])]; f_title := [(0xDF, [0x53; 0x73])]; f_fold := [(0xDF, [0x73; 0x73])] |}%N.
Definition rgc (c : N) : gencat :=
  (if (0x41 <=? c) && (c <=? 0x5A) || (0xC0 <=? c) && (c <=? 0xDE) then Lu else if (0x61 <=? c) && (c <=? 0x7A) || (0xDF <=? c) && (c <=? 0xFF) then Ll else GCother)%N.
(** case_mapping_test.cpp:21 *)
Example case_21 : map (simple_uppercase rcase) [0x61; 0x7A; 0x41; 0x30; 0xE0; 0xE9; 0x3B1; 0x3C9]%N = [0x41; 0x5A; 0x41; 0x30; 0xC0; 0xC9; 0x391; 0x3A9]%N.
Proof. vm_compute. repeat split; reflexivity. Qed.
(** case_mapping_test.cpp:38 *)
Example case_38 : map (simple_lowercase rcase) [0x41; 0x5A; 0x61; 0x30; 0xC0; 0xC9; 0x391; 0x3A9]%N = [0x61; 0x7A; 0x61; 0x30; 0xE0; 0xE9; 0x3B1; 0x3C9]%N.
Proof. vm_compute. repeat split; reflexivity. Qed.
(** case_mapping_test.cpp:55 *)
Example case_55 : map (simple_titlecase rcase) [0x61; 0x7A; 0x1C4; 0x1C6]%N = [0x41; 0x5A; 0x1C5; 0x1C5]%N.
Proof. vm_compute. repeat split; reflexivity. Qed.
(** case_mapping_test.cpp:66 *)
Example case_66 : map (simple_casefold rcase) [0x41; 0x5A; 0x61; 0x391]%N = [0x61; 0x7A; 0x61; 0x3B1]%N.
Proof. vm_compute. repeat split; reflexivity. Qed.
(** case_mapping_test.cpp:77 *)
Example case_77 : full_uppercase rcase 0xDF = Ok [0x53; 0x53]%N /\ full_uppercase rcase 0x61 = Ok [0x41]%N.
Proof. vm_compute. repeat split; reflexivity. Qed.
(** case_mapping_test.cpp:90 *)
Example case_90 : full_casefold rcase 0xDF = Ok [0x73; 0x73]%N.
Proof. vm_compute. repeat split; reflexivity. Qed.
(** case_mapping_test.cpp:99, every vector unit *)
Example case_99 : Forall (fun i => to_uppercase8 rcase i [0x68; 0x65; 0x6C; 0x6C; 0x6F]%N = Ok [0x48; 0x45; 0x4C; 0x4C; 0x4F]%N /\ to_uppercase8 rcase i [0x48; 0x65; 0x6C; 0x6C; 0x6F; 0x20; 0x57; 0x6F; 0x72; 0x6C; 0x64]%N = Ok [0x48; 0x45; 0x4C; 0x4C; 0x4F; 0x20; 0x57; 0x4F; 0x52; 0x4C; 0x44]%N /\ to_uppercase8 rcase i [0x31; 0x32; 0x33]%N = Ok [0x31; 0x32; 0x33]%N /\ to_uppercase8 rcase i [0x73; 0x74; 0x72; 0x61; 0xC3; 0x9F; 0x65]%N = Ok [0x53; 0x54; 0x52; 0x41; 0x53; 0x53; 0x45]%N /\ to_uppercase8 rcase i [0x63; 0x61; 0x66; 0xC3; 0xA9]%N = Ok [0x43; 0x41; 0x46; 0xC3; 0x89]%N) impls.
Proof. repeat (apply Forall_cons; [vm_compute; repeat split; reflexivity|]). apply Forall_nil. Qed.
(** case_mapping_test.cpp:112, every vector unit *)
Example case_112 : Forall (fun i => to_lowercase8 rcase i [0x48; 0x45; 0x4C; 0x4C; 0x4F]%N = Ok [0x68; 0x65; 0x6C; 0x6C; 0x6F]%N /\ to_lowercase8 rcase i [0x48; 0x65; 0x6C; 0x6C; 0x6F; 0x20; 0x57; 0x6F; 0x72; 0x6C; 0x64]%N = Ok [0x68; 0x65; 0x6C; 0x6C; 0x6F; 0x20; 0x77; 0x6F; 0x72; 0x6C; 0x64]%N /\ to_lowercase8 rcase i [0x31; 0x32; 0x33]%N = Ok [0x31; 0x32; 0x33]%N /\ to_lowercase8 rcase i [0x43; 0x41; 0x46; 0xC3; 0x89]%N = Ok [0x63; 0x61; 0x66; 0xC3; 0xA9]%N) impls.
Proof. repeat (apply Forall_cons; [vm_compute; repeat split; reflexivity|]). apply Forall_nil. Qed.
(** case_mapping_test.cpp:122, every vector unit *)
Example case_122 : Forall (fun i => to_titlecase8 rcase rt rgc i [0x68; 0x65; 0x6C; 0x6C; 0x6F; 0x20; 0x77; 0x6F; 0x72; 0x6C; 0x64]%N = Ok [0x48; 0x65; 0x6C; 0x6C; 0x6F; 0x20; 0x57; 0x6F; 0x72; 0x6C; 0x64]%N /\ to_titlecase8 rcase rt rgc i [0x48; 0x45; 0x4C; 0x4C; 0x4F; 0x20; 0x57; 0x4F; 0x52; 0x4C; 0x44]%N = Ok [0x48; 0x65; 0x6C; 0x6C; 0x6F; 0x20; 0x57; 0x6F; 0x72; 0x6C; 0x64]%N /\ to_titlecase8 rcase rt rgc i [0x68; 0x65; 0x6C; 0x6C; 0x6F; 0x2D; 0x77; 0x6F; 0x72; 0x6C; 0x64]%N = Ok [0x48; 0x65; 0x6C; 0x6C; 0x6F; 0x2D; 0x57; 0x6F; 0x72; 0x6C; 0x64]%N) impls.
Proof. repeat (apply Forall_cons; [vm_compute; repeat split; reflexivity|]). apply Forall_nil. Qed.
(** case_mapping_test.cpp:129, every vector unit *)
Example case_129 : Forall (fun i => casefold8 rcase i [0x48; 0x45; 0x4C; 0x4C; 0x4F]%N = Ok [0x68; 0x65; 0x6C; 0x6C; 0x6F]%N /\ casefold8 rcase i [0x48; 0x65; 0x6C; 0x6C; 0x6F]%N = Ok [0x68; 0x65; 0x6C; 0x6C; 0x6F]%N /\ casefold8 rcase i [0x53; 0x54; 0x52; 0x41; 0x53; 0x53; 0x45]%N = Ok [0x73; 0x74; 0x72; 0x61; 0x73; 0x73; 0x65]%N /\ casefold8 rcase i [0x73; 0x74; 0x72; 0x61; 0xC3; 0x9F; 0x65]%N = Ok [0x73; 0x74; 0x72; 0x61; 0x73; 0x73; 0x65]%N) impls.
Proof. repeat (apply Forall_cons; [vm_compute; repeat split; reflexivity|]). apply Forall_nil. Qed.
(** case_mapping_test.cpp:139, every vector unit *)
Example case_139 : Forall (fun i => casefold_compare8 rcase i [0x68; 0x65; 0x6C; 0x6C; 0x6F]%N [0x48; 0x45; 0x4C; 0x4C; 0x4F]%N = Ok (0) /\ casefold_compare8 rcase i [0x48; 0x65; 0x6C; 0x6C; 0x6F]%N [0x68; 0x65; 0x6C; 0x6C; 0x6F]%N = Ok (0) /\ casefold_compare8 rcase i [0x61; 0x62; 0x63]%N [0x61; 0x62; 0x64]%N = Ok (-1) /\ casefold_compare8 rcase i [0x61; 0x62; 0x64]%N [0x61; 0x62; 0x63]%N = Ok (1) /\ casefold_compare8 rcase i [0x73; 0x74; 0x72; 0x61; 0xC3; 0x9F; 0x65]%N [0x53; 0x54; 0x52; 0x41; 0x53; 0x53; 0x45]%N = Ok (0)) impls.
Proof. repeat (apply Forall_cons; [vm_compute; repeat split; reflexivity|]). apply Forall_nil. Qed.
(** case_mapping_test.cpp:150, every vector unit *)
Example case_150 : Forall (fun i => casefold_equals8 rcase i [0x68; 0x65; 0x6C; 0x6C; 0x6F]%N [0x48; 0x45; 0x4C; 0x4C; 0x4F]%N = Ok true /\ casefold_equals8 rcase i [0x48; 0x65; 0x6C; 0x6C; 0x6F]%N [0x68; 0x45; 0x6C; 0x4C; 0x6F]%N = Ok true /\ casefold_equals8 rcase i [0x68; 0x65; 0x6C; 0x6C; 0x6F]%N [0x77; 0x6F; 0x72; 0x6C; 0x64]%N = Ok false /\ casefold_equals8 rcase i [0x73; 0x74; 0x72; 0x61; 0xC3; 0x9F; 0x65]%N [0x53; 0x54; 0x52; 0x41; 0x53; 0x53; 0x45]%N = Ok true) impls.
Proof. repeat (apply Forall_cons; [vm_compute; repeat split; reflexivity|]). apply Forall_nil. Qed.
(** case_mapping_test.cpp:160 *)
Example case_160 : map (is_cased rgc) [0x41; 0x61; 0xC0; 0x30; 0x20; 0x21]%N = [true; true; true; false; false; false].
Proof. vm_compute. repeat split; reflexivity. Qed.
(** case_mapping_test.cpp:170 *)
Example case_170 : map (changes_when_uppercased rcase) [0x61; 0x7A; 0x41; 0x30; 0xDF]%N = [Ok true; Ok true; Ok false; Ok false; Ok true].
Proof. vm_compute. repeat split; reflexivity. Qed.
(** case_mapping_test.cpp:181 *)
Example case_181 : map (changes_when_lowercased rcase) [0x41; 0x5A; 0x61; 0x30]%N = [Ok true; Ok true; Ok false; Ok false].
Proof. vm_compute. repeat split; reflexivity. Qed.
