(** Assertions of scan_test.cpp, replayed on the model.  Written by tools/gen_replay.py.  These are tests of the model, not theorems. *)
From Verif Require Import Base M_Ucd Ucd_Demo M_Utf8 M_Convert M_AsciiScan M_Grapheme M_Width M_Scan Spec_Scan Replay_Table.
Require Import ZArith List.
Import ListNotations.
Open Scope Z_scope.

(** scan_test.cpp:105, every vector unit, plain char signed or not *)
Example ascii_0 : Forall (fun i => Forall (fun uc => scan_for_text_ascii false uc i []%N 0 = Ok 0%nat) [true; false]) impls.
Proof. repeat (apply Forall_cons; [repeat (apply Forall_cons; [vm_compute; reflexivity|]); apply Forall_nil|]). apply Forall_nil. Qed.
(** scan_test.cpp:106, every vector unit, plain char signed or not *)
Example ascii_1 : Forall (fun i => Forall (fun uc => scan_for_text_ascii false uc i []%N 1 = Ok 0%nat) [true; false]) impls.
Proof. repeat (apply Forall_cons; [repeat (apply Forall_cons; [vm_compute; reflexivity|]); apply Forall_nil|]). apply Forall_nil. Qed.
(** scan_test.cpp:109, every vector unit, plain char signed or not *)
Example ascii_2 : Forall (fun i => Forall (fun uc => scan_for_text_ascii false uc i [0x30; 0x31; 0x32; 0x33; 0x34; 0x35; 0x36; 0x37; 0x38; 0x39; 0x41; 0x42; 0x43; 0x44; 0x45; 0x46; 0x30; 0x31; 0x32; 0x33; 0x34; 0x35; 0x36; 0x37; 0x38; 0x39; 0x41; 0x42; 0x43; 0x44; 0x45; 0x46]%N 32 = Ok 32%nat) [true; false]) impls.
Proof. repeat (apply Forall_cons; [repeat (apply Forall_cons; [vm_compute; reflexivity|]); apply Forall_nil|]). apply Forall_nil. Qed.
(** scan_test.cpp:110, every vector unit, plain char signed or not *)
Example ascii_3 : Forall (fun i => Forall (fun uc => scan_for_text_ascii false uc i [0x30; 0x31; 0x32; 0x33; 0x34; 0x35; 0x36; 0x37; 0x38; 0x39; 0x41; 0x42; 0x43; 0x44; 0x45; 0x46; 0x30; 0x31; 0x32; 0x33; 0x34; 0x35; 0x36; 0x37; 0x38; 0x39; 0x41; 0x42; 0x43; 0x44; 0x45; 0x46]%N 16 = Ok 16%nat) [true; false]) impls.
Proof. repeat (apply Forall_cons; [repeat (apply Forall_cons; [vm_compute; reflexivity|]); apply Forall_nil|]). apply Forall_nil. Qed.
(** scan_test.cpp:111, every vector unit, plain char signed or not *)
Example ascii_4 : Forall (fun i => Forall (fun uc => scan_for_text_ascii false uc i [0x30; 0x31; 0x32; 0x33; 0x34; 0x35; 0x36; 0x37; 0x38; 0x39; 0x41; 0x42; 0x43; 0x44; 0x45; 0x46; 0x30; 0x31; 0x32; 0x33; 0x34; 0x35; 0x36; 0x37; 0x38; 0x39; 0x41; 0x42; 0x43; 0x44; 0x45; 0x46]%N 8 = Ok 8%nat) [true; false]) impls.
Proof. repeat (apply Forall_cons; [repeat (apply Forall_cons; [vm_compute; reflexivity|]); apply Forall_nil|]). apply Forall_nil. Qed.
(** scan_test.cpp:112, every vector unit, plain char signed or not *)
Example ascii_5 : Forall (fun i => Forall (fun uc => scan_for_text_ascii false uc i [0x30; 0x31; 0x32; 0x33; 0x34; 0x35; 0x36; 0x37; 0x38; 0x39; 0x41; 0x42; 0x43; 0x44; 0x45; 0x46; 0x30; 0x31; 0x32; 0x33; 0x34; 0x35; 0x36; 0x37; 0x38; 0x39; 0x41; 0x42; 0x43; 0x44; 0x45; 0x46]%N 1 = Ok 1%nat) [true; false]) impls.
Proof. repeat (apply Forall_cons; [repeat (apply Forall_cons; [vm_compute; reflexivity|]); apply Forall_nil|]). apply Forall_nil. Qed.
(** scan_test.cpp:118, every vector unit, plain char signed or not *)
Example ascii_6 : Forall (fun i => Forall (fun uc => scan_for_text_ascii false uc i [0x30; 0x31; 0x32; 0x33; 0x34; 0x35; 0x36; 0x37; 0x38; 0x39; 0x41; 0x42; 0x43; 0x44; 0x45; 0x46; 0x30; 0x31; 0x32; 0x33; 0x34; 0x35; 0x36; 0x37; 0x38; 0x39; 0x41; 0x42; 0x43; 0x44; 0x45; 0x46; 0x30; 0x31; 0x32; 0x33; 0x34; 0x35; 0x36; 0x37; 0x38; 0x39; 0x41; 0x42; 0x43; 0x44; 0x45; 0x46; 0x30; 0x31; 0x32; 0x33; 0x34; 0x35; 0x36; 0x37; 0x38; 0x39; 0x41; 0x42; 0x43; 0x44; 0x45; 0x46]%N 64 = Ok 64%nat) [true; false]) impls.
Proof. repeat (apply Forall_cons; [repeat (apply Forall_cons; [vm_compute; reflexivity|]); apply Forall_nil|]). apply Forall_nil. Qed.
(** scan_test.cpp:119, every vector unit, plain char signed or not *)
Example ascii_7 : Forall (fun i => Forall (fun uc => scan_for_text_ascii false uc i [0x30; 0x31; 0x32; 0x33; 0x34; 0x35; 0x36; 0x37; 0x38; 0x39; 0x41; 0x42; 0x43; 0x44; 0x45; 0x46; 0x30; 0x31; 0x32; 0x33; 0x34; 0x35; 0x36; 0x37; 0x38; 0x39; 0x41; 0x42; 0x43; 0x44; 0x45; 0x46; 0x30; 0x31; 0x32; 0x33; 0x34; 0x35; 0x36; 0x37; 0x38; 0x39; 0x41; 0x42; 0x43; 0x44; 0x45; 0x46; 0x30; 0x31; 0x32; 0x33; 0x34; 0x35; 0x36; 0x37; 0x38; 0x39; 0x41; 0x42; 0x43; 0x44; 0x45; 0x46]%N 32 = Ok 32%nat) [true; false]) impls.
Proof. repeat (apply Forall_cons; [repeat (apply Forall_cons; [vm_compute; reflexivity|]); apply Forall_nil|]). apply Forall_nil. Qed.
(** scan_test.cpp:120, every vector unit, plain char signed or not *)
Example ascii_8 : Forall (fun i => Forall (fun uc => scan_for_text_ascii false uc i [0x30; 0x31; 0x32; 0x33; 0x34; 0x35; 0x36; 0x37; 0x38; 0x39; 0x41; 0x42; 0x43; 0x44; 0x45; 0x46; 0x30; 0x31; 0x32; 0x33; 0x34; 0x35; 0x36; 0x37; 0x38; 0x39; 0x41; 0x42; 0x43; 0x44; 0x45; 0x46; 0x30; 0x31; 0x32; 0x33; 0x34; 0x35; 0x36; 0x37; 0x38; 0x39; 0x41; 0x42; 0x43; 0x44; 0x45; 0x46; 0x30; 0x31; 0x32; 0x33; 0x34; 0x35; 0x36; 0x37; 0x38; 0x39; 0x41; 0x42; 0x43; 0x44; 0x45; 0x46]%N 16 = Ok 16%nat) [true; false]) impls.
Proof. repeat (apply Forall_cons; [repeat (apply Forall_cons; [vm_compute; reflexivity|]); apply Forall_nil|]). apply Forall_nil. Qed.
(** scan_test.cpp:121, every vector unit, plain char signed or not *)
Example ascii_9 : Forall (fun i => Forall (fun uc => scan_for_text_ascii false uc i [0x30; 0x31; 0x32; 0x33; 0x34; 0x35; 0x36; 0x37; 0x38; 0x39; 0x41; 0x42; 0x43; 0x44; 0x45; 0x46; 0x30; 0x31; 0x32; 0x33; 0x34; 0x35; 0x36; 0x37; 0x38; 0x39; 0x41; 0x42; 0x43; 0x44; 0x45; 0x46; 0x30; 0x31; 0x32; 0x33; 0x34; 0x35; 0x36; 0x37; 0x38; 0x39; 0x41; 0x42; 0x43; 0x44; 0x45; 0x46; 0x30; 0x31; 0x32; 0x33; 0x34; 0x35; 0x36; 0x37; 0x38; 0x39; 0x41; 0x42; 0x43; 0x44; 0x45; 0x46]%N 8 = Ok 8%nat) [true; false]) impls.
Proof. repeat (apply Forall_cons; [repeat (apply Forall_cons; [vm_compute; reflexivity|]); apply Forall_nil|]). apply Forall_nil. Qed.
(** scan_test.cpp:122, every vector unit, plain char signed or not *)
Example ascii_10 : Forall (fun i => Forall (fun uc => scan_for_text_ascii false uc i [0x30; 0x31; 0x32; 0x33; 0x34; 0x35; 0x36; 0x37; 0x38; 0x39; 0x41; 0x42; 0x43; 0x44; 0x45; 0x46; 0x30; 0x31; 0x32; 0x33; 0x34; 0x35; 0x36; 0x37; 0x38; 0x39; 0x41; 0x42; 0x43; 0x44; 0x45; 0x46; 0x30; 0x31; 0x32; 0x33; 0x34; 0x35; 0x36; 0x37; 0x38; 0x39; 0x41; 0x42; 0x43; 0x44; 0x45; 0x46; 0x30; 0x31; 0x32; 0x33; 0x34; 0x35; 0x36; 0x37; 0x38; 0x39; 0x41; 0x42; 0x43; 0x44; 0x45; 0x46]%N 1 = Ok 1%nat) [true; false]) impls.
Proof. repeat (apply Forall_cons; [repeat (apply Forall_cons; [vm_compute; reflexivity|]); apply Forall_nil|]). apply Forall_nil. Qed.
(** scan_test.cpp:129, every vector unit, plain char signed or not *)
Example ascii_11 : Forall (fun i => Forall (fun uc => scan_for_text_ascii false uc i [0x30; 0x31; 0x32; 0x33; 0x34; 0x35; 0x36; 0x37; 0x38; 0x39; 0x41; 0x42; 0x43; 0x44; 0x45; 0x46; 0x30; 0x31; 0x32; 0x33; 0x34; 0x35; 0x36; 0x37; 0x38; 0x39; 0x41; 0x42; 0x43; 0x44; 0x45; 0x46; 0x30; 0x31; 0x32; 0x33; 0x34; 0x35; 0x36; 0x37; 0x38; 0x39; 0x41; 0x42; 0x43; 0x44; 0x45; 0x46; 0x30; 0x31; 0x32; 0x33; 0x34; 0x35; 0x36; 0x37; 0x38; 0x39; 0x41; 0x42; 0x43; 0x44; 0x45; 0x46; 0x30; 0x31; 0x32; 0x33; 0x34; 0x35; 0x36; 0x37; 0x38; 0x39; 0x41; 0x42; 0x43; 0x44; 0x45; 0x46; 0x30; 0x31; 0x32; 0x33; 0x34; 0x35; 0x36; 0x37; 0x38; 0x39; 0x41; 0x42; 0x43; 0x44; 0x45; 0x46; 0x30; 0x31; 0x32; 0x33; 0x34; 0x35; 0x36; 0x37; 0x38; 0x39; 0x41; 0x42; 0x43; 0x44; 0x45; 0x46; 0x30; 0x31; 0x32; 0x33; 0x34; 0x35; 0x36; 0x37; 0x38; 0x39; 0x41; 0x42; 0x43; 0x44; 0x45; 0x46]%N 128 = Ok 128%nat) [true; false]) impls.
Proof. repeat (apply Forall_cons; [repeat (apply Forall_cons; [vm_compute; reflexivity|]); apply Forall_nil|]). apply Forall_nil. Qed.
(** scan_test.cpp:130, every vector unit, plain char signed or not *)
Example ascii_12 : Forall (fun i => Forall (fun uc => scan_for_text_ascii false uc i [0x30; 0x31; 0x32; 0x33; 0x34; 0x35; 0x36; 0x37; 0x38; 0x39; 0x41; 0x42; 0x43; 0x44; 0x45; 0x46; 0x30; 0x31; 0x32; 0x33; 0x34; 0x35; 0x36; 0x37; 0x38; 0x39; 0x41; 0x42; 0x43; 0x44; 0x45; 0x46; 0x30; 0x31; 0x32; 0x33; 0x34; 0x35; 0x36; 0x37; 0x38; 0x39; 0x41; 0x42; 0x43; 0x44; 0x45; 0x46; 0x30; 0x31; 0x32; 0x33; 0x34; 0x35; 0x36; 0x37; 0x38; 0x39; 0x41; 0x42; 0x43; 0x44; 0x45; 0x46; 0x30; 0x31; 0x32; 0x33; 0x34; 0x35; 0x36; 0x37; 0x38; 0x39; 0x41; 0x42; 0x43; 0x44; 0x45; 0x46; 0x30; 0x31; 0x32; 0x33; 0x34; 0x35; 0x36; 0x37; 0x38; 0x39; 0x41; 0x42; 0x43; 0x44; 0x45; 0x46; 0x30; 0x31; 0x32; 0x33; 0x34; 0x35; 0x36; 0x37; 0x38; 0x39; 0x41; 0x42; 0x43; 0x44; 0x45; 0x46; 0x30; 0x31; 0x32; 0x33; 0x34; 0x35; 0x36; 0x37; 0x38; 0x39; 0x41; 0x42; 0x43; 0x44; 0x45; 0x46]%N 64 = Ok 64%nat) [true; false]) impls.
Proof. repeat (apply Forall_cons; [repeat (apply Forall_cons; [vm_compute; reflexivity|]); apply Forall_nil|]). apply Forall_nil. Qed.
(** scan_test.cpp:131, every vector unit, plain char signed or not *)
Example ascii_13 : Forall (fun i => Forall (fun uc => scan_for_text_ascii false uc i [0x30; 0x31; 0x32; 0x33; 0x34; 0x35; 0x36; 0x37; 0x38; 0x39; 0x41; 0x42; 0x43; 0x44; 0x45; 0x46; 0x30; 0x31; 0x32; 0x33; 0x34; 0x35; 0x36; 0x37; 0x38; 0x39; 0x41; 0x42; 0x43; 0x44; 0x45; 0x46; 0x30; 0x31; 0x32; 0x33; 0x34; 0x35; 0x36; 0x37; 0x38; 0x39; 0x41; 0x42; 0x43; 0x44; 0x45; 0x46; 0x30; 0x31; 0x32; 0x33; 0x34; 0x35; 0x36; 0x37; 0x38; 0x39; 0x41; 0x42; 0x43; 0x44; 0x45; 0x46; 0x30; 0x31; 0x32; 0x33; 0x34; 0x35; 0x36; 0x37; 0x38; 0x39; 0x41; 0x42; 0x43; 0x44; 0x45; 0x46; 0x30; 0x31; 0x32; 0x33; 0x34; 0x35; 0x36; 0x37; 0x38; 0x39; 0x41; 0x42; 0x43; 0x44; 0x45; 0x46; 0x30; 0x31; 0x32; 0x33; 0x34; 0x35; 0x36; 0x37; 0x38; 0x39; 0x41; 0x42; 0x43; 0x44; 0x45; 0x46; 0x30; 0x31; 0x32; 0x33; 0x34; 0x35; 0x36; 0x37; 0x38; 0x39; 0x41; 0x42; 0x43; 0x44; 0x45; 0x46]%N 32 = Ok 32%nat) [true; false]) impls.
Proof. repeat (apply Forall_cons; [repeat (apply Forall_cons; [vm_compute; reflexivity|]); apply Forall_nil|]). apply Forall_nil. Qed.
(** scan_test.cpp:132, every vector unit, plain char signed or not *)
Example ascii_14 : Forall (fun i => Forall (fun uc => scan_for_text_ascii false uc i [0x30; 0x31; 0x32; 0x33; 0x34; 0x35; 0x36; 0x37; 0x38; 0x39; 0x41; 0x42; 0x43; 0x44; 0x45; 0x46; 0x30; 0x31; 0x32; 0x33; 0x34; 0x35; 0x36; 0x37; 0x38; 0x39; 0x41; 0x42; 0x43; 0x44; 0x45; 0x46; 0x30; 0x31; 0x32; 0x33; 0x34; 0x35; 0x36; 0x37; 0x38; 0x39; 0x41; 0x42; 0x43; 0x44; 0x45; 0x46; 0x30; 0x31; 0x32; 0x33; 0x34; 0x35; 0x36; 0x37; 0x38; 0x39; 0x41; 0x42; 0x43; 0x44; 0x45; 0x46; 0x30; 0x31; 0x32; 0x33; 0x34; 0x35; 0x36; 0x37; 0x38; 0x39; 0x41; 0x42; 0x43; 0x44; 0x45; 0x46; 0x30; 0x31; 0x32; 0x33; 0x34; 0x35; 0x36; 0x37; 0x38; 0x39; 0x41; 0x42; 0x43; 0x44; 0x45; 0x46; 0x30; 0x31; 0x32; 0x33; 0x34; 0x35; 0x36; 0x37; 0x38; 0x39; 0x41; 0x42; 0x43; 0x44; 0x45; 0x46; 0x30; 0x31; 0x32; 0x33; 0x34; 0x35; 0x36; 0x37; 0x38; 0x39; 0x41; 0x42; 0x43; 0x44; 0x45; 0x46]%N 16 = Ok 16%nat) [true; false]) impls.
Proof. repeat (apply Forall_cons; [repeat (apply Forall_cons; [vm_compute; reflexivity|]); apply Forall_nil|]). apply Forall_nil. Qed.
(** scan_test.cpp:133, every vector unit, plain char signed or not *)
Example ascii_15 : Forall (fun i => Forall (fun uc => scan_for_text_ascii false uc i [0x30; 0x31; 0x32; 0x33; 0x34; 0x35; 0x36; 0x37; 0x38; 0x39; 0x41; 0x42; 0x43; 0x44; 0x45; 0x46; 0x30; 0x31; 0x32; 0x33; 0x34; 0x35; 0x36; 0x37; 0x38; 0x39; 0x41; 0x42; 0x43; 0x44; 0x45; 0x46; 0x30; 0x31; 0x32; 0x33; 0x34; 0x35; 0x36; 0x37; 0x38; 0x39; 0x41; 0x42; 0x43; 0x44; 0x45; 0x46; 0x30; 0x31; 0x32; 0x33; 0x34; 0x35; 0x36; 0x37; 0x38; 0x39; 0x41; 0x42; 0x43; 0x44; 0x45; 0x46; 0x30; 0x31; 0x32; 0x33; 0x34; 0x35; 0x36; 0x37; 0x38; 0x39; 0x41; 0x42; 0x43; 0x44; 0x45; 0x46; 0x30; 0x31; 0x32; 0x33; 0x34; 0x35; 0x36; 0x37; 0x38; 0x39; 0x41; 0x42; 0x43; 0x44; 0x45; 0x46; 0x30; 0x31; 0x32; 0x33; 0x34; 0x35; 0x36; 0x37; 0x38; 0x39; 0x41; 0x42; 0x43; 0x44; 0x45; 0x46; 0x30; 0x31; 0x32; 0x33; 0x34; 0x35; 0x36; 0x37; 0x38; 0x39; 0x41; 0x42; 0x43; 0x44; 0x45; 0x46]%N 8 = Ok 8%nat) [true; false]) impls.
Proof. repeat (apply Forall_cons; [repeat (apply Forall_cons; [vm_compute; reflexivity|]); apply Forall_nil|]). apply Forall_nil. Qed.
(** scan_test.cpp:134, every vector unit, plain char signed or not *)
Example ascii_16 : Forall (fun i => Forall (fun uc => scan_for_text_ascii false uc i [0x30; 0x31; 0x32; 0x33; 0x34; 0x35; 0x36; 0x37; 0x38; 0x39; 0x41; 0x42; 0x43; 0x44; 0x45; 0x46; 0x30; 0x31; 0x32; 0x33; 0x34; 0x35; 0x36; 0x37; 0x38; 0x39; 0x41; 0x42; 0x43; 0x44; 0x45; 0x46; 0x30; 0x31; 0x32; 0x33; 0x34; 0x35; 0x36; 0x37; 0x38; 0x39; 0x41; 0x42; 0x43; 0x44; 0x45; 0x46; 0x30; 0x31; 0x32; 0x33; 0x34; 0x35; 0x36; 0x37; 0x38; 0x39; 0x41; 0x42; 0x43; 0x44; 0x45; 0x46; 0x30; 0x31; 0x32; 0x33; 0x34; 0x35; 0x36; 0x37; 0x38; 0x39; 0x41; 0x42; 0x43; 0x44; 0x45; 0x46; 0x30; 0x31; 0x32; 0x33; 0x34; 0x35; 0x36; 0x37; 0x38; 0x39; 0x41; 0x42; 0x43; 0x44; 0x45; 0x46; 0x30; 0x31; 0x32; 0x33; 0x34; 0x35; 0x36; 0x37; 0x38; 0x39; 0x41; 0x42; 0x43; 0x44; 0x45; 0x46; 0x30; 0x31; 0x32; 0x33; 0x34; 0x35; 0x36; 0x37; 0x38; 0x39; 0x41; 0x42; 0x43; 0x44; 0x45; 0x46]%N 1 = Ok 1%nat) [true; false]) impls.
Proof. repeat (apply Forall_cons; [repeat (apply Forall_cons; [vm_compute; reflexivity|]); apply Forall_nil|]). apply Forall_nil. Qed.
(** scan_test.cpp:145, every vector unit, plain char signed or not *)
Example ascii_17 : Forall (fun i => Forall (fun uc => scan_for_text_ascii false uc i [0x1B; 0x31; 0x32; 0x33; 0x34]%N 80 = Ok 0%nat) [true; false]) impls.
Proof. repeat (apply Forall_cons; [repeat (apply Forall_cons; [vm_compute; reflexivity|]); apply Forall_nil|]). apply Forall_nil. Qed.
(** scan_test.cpp:146, every vector unit, plain char signed or not *)
Example ascii_18 : Forall (fun i => Forall (fun uc => scan_for_text_ascii false uc i [0x31; 0x32; 0x33; 0x34; 0x1B]%N 80 = Ok 4%nat) [true; false]) impls.
Proof. repeat (apply Forall_cons; [repeat (apply Forall_cons; [vm_compute; reflexivity|]); apply Forall_nil|]). apply Forall_nil. Qed.
(** scan_test.cpp:147, every vector unit, plain char signed or not *)
Example ascii_19 : Forall (fun i => Forall (fun uc => scan_for_text_ascii false uc i [0x31; 0x32; 0x33; 0x34; 0x35; 0x36; 0x37; 0x38; 0x1B]%N 80 = Ok 8%nat) [true; false]) impls.
Proof. repeat (apply Forall_cons; [repeat (apply Forall_cons; [vm_compute; reflexivity|]); apply Forall_nil|]). apply Forall_nil. Qed.
(** scan_test.cpp:148, every vector unit, plain char signed or not *)
Example ascii_20 : Forall (fun i => Forall (fun uc => scan_for_text_ascii false uc i [0x30; 0x31; 0x32; 0x33; 0x34; 0x35; 0x36; 0x37; 0x38; 0x39; 0x41; 0x42; 0x43; 0x44; 0x45; 0x46; 0x1B]%N 80 = Ok 16%nat) [true; false]) impls.
Proof. repeat (apply Forall_cons; [repeat (apply Forall_cons; [vm_compute; reflexivity|]); apply Forall_nil|]). apply Forall_nil. Qed.
(** scan_test.cpp:149, every vector unit, plain char signed or not *)
Example ascii_21 : Forall (fun i => Forall (fun uc => scan_for_text_ascii false uc i [0x30; 0x31; 0x32; 0x33; 0x34; 0x35; 0x36; 0x37; 0x38; 0x39; 0x41; 0x42; 0x43; 0x44; 0x45; 0x46; 0x31; 0x1B]%N 80 = Ok 17%nat) [true; false]) impls.
Proof. repeat (apply Forall_cons; [repeat (apply Forall_cons; [vm_compute; reflexivity|]); apply Forall_nil|]). apply Forall_nil. Qed.
(** scan_test.cpp:154, every vector unit, plain char signed or not *)
Example ascii_22 : Forall (fun i => Forall (fun uc => scan_for_text_ascii false uc i [0x30; 0x31; 0x32; 0x33; 0x34; 0x35; 0x36; 0x37; 0x38; 0x39; 0x41; 0x42; 0x43; 0x44; 0x45; 0x46; 0x30; 0x1B; 0x31; 0x32; 0x33; 0x34; 0x35; 0x36; 0x37; 0x38; 0x39; 0x41; 0x42; 0x43; 0x44; 0x45; 0x46; 0x30; 0x31; 0x32; 0x33; 0x34; 0x35; 0x36; 0x37; 0x38; 0x39; 0x41; 0x42; 0x43; 0x44; 0x45; 0x46; 0x30; 0x31; 0x32; 0x33; 0x34; 0x35; 0x36; 0x37; 0x38; 0x39; 0x41; 0x42; 0x43; 0x44; 0x45; 0x46; 0x30; 0x31; 0x32; 0x33; 0x34; 0x35; 0x36; 0x37; 0x38; 0x39; 0x41; 0x42; 0x43; 0x44; 0x45; 0x46; 0x30; 0x31; 0x32; 0x33; 0x34; 0x35; 0x36; 0x37; 0x38; 0x39; 0x41; 0x42; 0x43; 0x44; 0x45; 0x46; 0x30; 0x31; 0x32; 0x33; 0x34; 0x35; 0x36; 0x37; 0x38; 0x39; 0x41; 0x42; 0x43; 0x44; 0x45; 0x46; 0x30; 0x31; 0x32; 0x33; 0x34; 0x35; 0x36; 0x37; 0x38; 0x39; 0x41; 0x42; 0x43; 0x44; 0x45; 0x46]%N 80 = Ok 17%nat) [true; false]) impls.
Proof. repeat (apply Forall_cons; [repeat (apply Forall_cons; [vm_compute; reflexivity|]); apply Forall_nil|]). apply Forall_nil. Qed.
(** scan_test.cpp:159, every vector unit, plain char signed or not *)
Example ascii_23 : Forall (fun i => Forall (fun uc => scan_for_text_ascii false uc i [0x30; 0x31; 0x32; 0x33; 0x34; 0x35; 0x36; 0x37; 0x38; 0x39; 0x41; 0x42; 0x43; 0x44; 0x45; 0x46; 0x30; 0x31; 0x32; 0x33; 0x34; 0x35; 0x36; 0x37; 0x38; 0x39; 0x41; 0x42; 0x43; 0x44; 0x45; 0x46; 0x30; 0x31; 0x32; 0x33; 0x34; 0x35; 0x36; 0x37; 0x38; 0x39; 0x41; 0x42; 0x43; 0x44; 0x45; 0x46; 0x30; 0x31; 0x32; 0x33; 0x34; 0x35; 0x36; 0x37; 0x38; 0x39; 0x41; 0x42; 0x43; 0x44; 0x45; 0x46; 0x30; 0x31; 0x32; 0x33; 0x34; 0x35; 0x36; 0x37; 0x38; 0x39; 0x41; 0x42; 0x43; 0x44; 0x45; 0x46; 0x30; 0x31; 0x32; 0x33; 0x34; 0x35; 0x36; 0x37; 0x38; 0x39; 0x41; 0x42; 0x43; 0x44; 0x45; 0x46; 0x30; 0x31; 0x32; 0x33; 0x34; 0x35; 0x36; 0x37; 0x38; 0x39; 0x41; 0x42; 0x43; 0x44; 0x45; 0x46; 0x1B; 0x30; 0x31; 0x32; 0x33; 0x34; 0x35; 0x36; 0x37; 0x38; 0x39; 0x41; 0x42; 0x43; 0x44; 0x45; 0x46]%N 128 = Ok 112%nat) [true; false]) impls.
Proof. repeat (apply Forall_cons; [repeat (apply Forall_cons; [vm_compute; reflexivity|]); apply Forall_nil|]). apply Forall_nil. Qed.
(** scan_test.cpp:164, every vector unit, plain char signed or not *)
Example ascii_24 : Forall (fun i => Forall (fun uc => scan_for_text_ascii false uc i [0x31; 0x32; 0x33; 0x34; 0x80]%N 80 = Ok 4%nat) [true; false]) impls.
Proof. repeat (apply Forall_cons; [repeat (apply Forall_cons; [vm_compute; reflexivity|]); apply Forall_nil|]). apply Forall_nil. Qed.
(** scan_test.cpp:165 *)
Example ascii_complex_0 : Forall (fun i => Forall (fun uc => scan_for_text_ascii false uc i [0x30; 0x31; 0x32; 0x33; 0x34; 0x35; 0x36; 0x37; 0x38; 0x39; 0x7B; 0xE2; 0x94; 0x80; 0x7D; 0x41; 0x42; 0x43; 0x44; 0x45; 0x46]%N 80 = Ok 11%nat) [true; false]) impls.
Proof. repeat (apply Forall_cons; [repeat (apply Forall_cons; [vm_compute; reflexivity|]); apply Forall_nil|]). apply Forall_nil. Qed.
(** scan_test.cpp:170 *)
Example ascii_complex_1 : Forall (fun i => Forall (fun uc => scan_for_text_ascii false uc i [0x30; 0x31; 0x32; 0x33; 0x34; 0x35; 0x36; 0x37; 0x38; 0x39; 0x7B; 0xE2; 0x94; 0x80; 0x7D; 0x41; 0x42; 0x43; 0x44; 0x45; 0x46; 0x30; 0x33; 0x32; 0x33; 0x34; 0x35; 0x36; 0x37; 0x38; 0x39; 0x41; 0x42; 0x43; 0x44; 0x45; 0x46; 0x30; 0x31; 0x32; 0x33; 0x34; 0x35; 0x36; 0x37; 0x38; 0x39; 0x41; 0x42; 0x43; 0x44; 0x45; 0x46; 0x30; 0x31; 0x32; 0x33; 0x34; 0x35; 0x36; 0x37; 0x38; 0x39; 0x41; 0x42; 0x43; 0x44; 0x45; 0x46; 0x30; 0x31; 0x32; 0x33; 0x34; 0x35; 0x36; 0x37; 0x38; 0x39; 0x41; 0x42; 0x43; 0x44; 0x45; 0x46; 0x30; 0x31; 0x32; 0x33; 0x34; 0x35; 0x36; 0x37; 0x38; 0x39; 0x41; 0x42; 0x43; 0x44; 0x45; 0x46; 0x30; 0x31; 0x32; 0x33; 0x34; 0x35; 0x36; 0x37; 0x38; 0x39; 0x41; 0x42; 0x43; 0x44; 0x45; 0x46; 0x30; 0x31; 0x32; 0x33; 0x34; 0x35; 0x36; 0x37; 0x38; 0x39; 0x41; 0x42; 0x43; 0x44; 0x45; 0x46]%N 80 = Ok 11%nat) [true; false]) impls.
Proof. repeat (apply Forall_cons; [repeat (apply Forall_cons; [vm_compute; reflexivity|]); apply Forall_nil|]). apply Forall_nil. Qed.
(** scan_test.cpp:174 *)
Example nonascii_174_80 : let '((c, _, _), st, _) := nonascii rt (sstate0 rt) 0 [0xF0; 0x9F; 0x91; 0xA8; 0xE2; 0x80; 0x8D; 0xF0; 0x9F; 0x91; 0xA9; 0xE2; 0x80; 0x8D; 0xF0; 0x9F; 0x91; 0xA7; 0xE2; 0x80; 0x8D; 0xF0; 0x9F; 0x91; 0xA6]%N 80 [] in c = 2 /\ s_next st = Some 25.
Proof. vm_compute. split; reflexivity. Qed.
(** scan_test.cpp:183 *)
Example nonascii_183_80 : let '((c, _, _), st, _) := nonascii rt (sstate0 rt) 0 [0xF0; 0x9F; 0x91; 0xA8; 0xE2; 0x80; 0x8D; 0xF0; 0x9F; 0x91; 0xA9; 0xE2; 0x80; 0x8D; 0xF0; 0x9F; 0x91; 0xA7; 0xE2; 0x80; 0x8D; 0xF0; 0x9F; 0x91; 0xA6; 0xF0; 0x9F; 0x91; 0xA8; 0xE2; 0x80; 0x8D; 0xF0; 0x9F; 0x91; 0xA9; 0xE2; 0x80; 0x8D; 0xF0; 0x9F; 0x91; 0xA7; 0xE2; 0x80; 0x8D; 0xF0; 0x9F; 0x91; 0xA6]%N 80 [] in c = 4 /\ s_next st = Some 50.
Proof. vm_compute. split; reflexivity. Qed.
(** scan_test.cpp:192 *)
Example nonascii_192_80 : let '((c, _, _), st, _) := nonascii rt (sstate0 rt) 0 [0xF0; 0x9F; 0x91; 0xA8; 0xE2; 0x80; 0x8D; 0xF0; 0x9F; 0x91; 0xA9; 0xE2; 0x80; 0x8D; 0xF0; 0x9F; 0x91; 0xA7; 0xE2; 0x80; 0x8D; 0xF0; 0x9F; 0x91; 0xA6; 0x41; 0x42; 0x43; 0xF0; 0x9F; 0x91; 0xA8; 0xE2; 0x80; 0x8D; 0xF0; 0x9F; 0x91; 0xA9; 0xE2; 0x80; 0x8D; 0xF0; 0x9F; 0x91; 0xA7; 0xE2; 0x80; 0x8D; 0xF0; 0x9F; 0x91; 0xA6]%N 80 [] in c = 2 /\ s_next st = Some 25.
Proof. vm_compute. split; reflexivity. Qed.
(** scan_test.cpp:201 *)
Example nonascii_201_2 : let '((c, _, _), st, _) := nonascii rt (sstate0 rt) 0 [0xF0; 0x9F; 0x98; 0x80; 0xF0; 0x9F; 0x98; 0x80; 0xF0; 0x9F; 0x98; 0x80]%N 2 [] in c = 2 /\ s_next st = Some 4.
Proof. vm_compute. split; reflexivity. Qed.
(** scan_test.cpp:201-222: the same state is used for all three calls *)
Example nonascii_half : let x := [0xF0; 0x9F; 0x98; 0x80; 0xF0; 0x9F; 0x98; 0x80; 0xF0; 0x9F; 0x98; 0x80]%N in
  let '((c2, _, _), st2, _) := nonascii rt (sstate0 rt) 0 x 2 [] in let '((c3, _, _), st3, _) := nonascii rt st2 0 x 3 [] in
  let '((c4, _, _), st4, _) := nonascii rt st3 0 x 4 [] in
  c2 = 2 /\ s_next st2 = Some 4 /\ c3 = 2 /\ s_next st3 = Some 4 /\ c4 = 4 /\ s_next st4 = Some 8.
Proof. vm_compute. repeat split; reflexivity. Qed.
(** scan_test.cpp:224 *)
Example scan_224 : Forall (fun i => exists r st ev, scan_text rt true i (sstate0 rt) [0x58]%N 80 = Ok (r, st, ev) /\ r_count r = 1 /\ s_next st = Some 1) impls.
Proof. repeat (apply Forall_cons; [do 3 eexists; split; [vm_compute; reflexivity|vm_compute; repeat split; congruence]|]). apply Forall_nil. Qed.
(** scan_test.cpp:264 *)
Example scan_264_1 : Forall (fun i => exists r st ev, scan_text rt true i (sstate0 rt) [0x30; 0x31; 0x32; 0x33; 0x34; 0x35; 0x36; 0x37; 0x38; 0x39; 0x41; 0x42; 0x43; 0x44; 0x45; 0x46; 0x30; 0x31; 0x32; 0x33; 0x0D; 0x0A]%N 80 = Ok (r, st, ev) /\ r_count r = 20 /\ s_next st = Some 20) impls.
Proof. repeat (apply Forall_cons; [do 3 eexists; split; [vm_compute; reflexivity|vm_compute; repeat split; congruence]|]). apply Forall_nil. Qed.
(** scan_test.cpp:296 *)
Example scan_296_1 : Forall (fun i => exists r st ev, scan_text rt true i (sstate0 rt) [0xF0; 0x9F; 0x98; 0x80; 0x0D; 0x0A]%N 80 = Ok (r, st, ev) /\ r_count r = 2 /\ s_next st = Some 4) impls.
Proof. repeat (apply Forall_cons; [do 3 eexists; split; [vm_compute; reflexivity|vm_compute; repeat split; congruence]|]). apply Forall_nil. Qed.
(** scan_test.cpp:264 *)
Example scan_264_2 : Forall (fun i => exists r st ev, scan_text rt true i (sstate0 rt) [0x30; 0x31; 0x32; 0x33; 0x34; 0x35; 0x36; 0x37; 0x38; 0x39; 0x41; 0x42; 0x43; 0x44; 0x45; 0x46; 0x30; 0x31; 0x32; 0x33; 0xF0; 0x9F; 0x98; 0x80; 0x0D; 0x0A]%N 80 = Ok (r, st, ev) /\ r_count r = 22 /\ s_next st = Some 24) impls.
Proof. repeat (apply Forall_cons; [do 3 eexists; split; [vm_compute; reflexivity|vm_compute; repeat split; congruence]|]). apply Forall_nil. Qed.
(** scan_test.cpp:296 *)
Example scan_296_2 : Forall (fun i => exists r st ev, scan_text rt true i (sstate0 rt) [0xF0; 0x9F; 0x98; 0x80; 0x30; 0x31; 0x32; 0x33; 0x34; 0x35; 0x36; 0x37; 0x38; 0x39; 0x41; 0x42; 0x43; 0x44; 0x45; 0x46; 0x30; 0x31; 0x32; 0x33; 0x0D; 0x0A]%N 80 = Ok (r, st, ev) /\ r_count r = 22 /\ s_next st = Some 24) impls.
Proof. repeat (apply Forall_cons; [do 3 eexists; split; [vm_compute; reflexivity|vm_compute; repeat split; congruence]|]). apply Forall_nil. Qed.
(** scan_test.cpp:264 *)
Example scan_264_3 : Forall (fun i => exists r st ev, scan_text rt true i (sstate0 rt) [0x30; 0x31; 0x32; 0x33; 0x34; 0x35; 0x36; 0x37; 0x38; 0x39; 0x41; 0x42; 0x43; 0x44; 0x45; 0x46; 0x30; 0x31; 0x32; 0x33; 0xF0; 0x9F; 0x98; 0x80; 0x30; 0x31; 0x32; 0x33; 0x34; 0x35; 0x36; 0x37; 0x38; 0x39; 0x41; 0x42; 0x43; 0x44; 0x45; 0x46; 0x30; 0x31; 0x32; 0x33; 0x0D; 0x0A]%N 80 = Ok (r, st, ev) /\ r_count r = 42 /\ s_next st = Some 44) impls.
Proof. repeat (apply Forall_cons; [do 3 eexists; split; [vm_compute; reflexivity|vm_compute; repeat split; congruence]|]). apply Forall_nil. Qed.
(** scan_test.cpp:296 *)
Example scan_296_3 : Forall (fun i => exists r st ev, scan_text rt true i (sstate0 rt) [0xF0; 0x9F; 0x98; 0x80; 0x30; 0x31; 0x32; 0x33; 0x34; 0x35; 0x36; 0x37; 0x38; 0x39; 0x41; 0x42; 0x43; 0x44; 0x45; 0x46; 0x30; 0x31; 0x32; 0x33; 0xF0; 0x9F; 0x98; 0x80; 0x0D; 0x0A]%N 80 = Ok (r, st, ev) /\ r_count r = 24 /\ s_next st = Some 28) impls.
Proof. repeat (apply Forall_cons; [do 3 eexists; split; [vm_compute; reflexivity|vm_compute; repeat split; congruence]|]). apply Forall_nil. Qed.
(** scan_test.cpp:264 *)
Example scan_264_4 : Forall (fun i => exists r st ev, scan_text rt true i (sstate0 rt) [0x30; 0x31; 0x32; 0x33; 0x34; 0x35; 0x36; 0x37; 0x38; 0x39; 0x41; 0x42; 0x43; 0x44; 0x45; 0x46; 0x30; 0x31; 0x32; 0x33; 0xF0; 0x9F; 0x98; 0x80; 0x30; 0x31; 0x32; 0x33; 0x34; 0x35; 0x36; 0x37; 0x38; 0x39; 0x41; 0x42; 0x43; 0x44; 0x45; 0x46; 0x30; 0x31; 0x32; 0x33; 0xF0; 0x9F; 0x98; 0x80; 0x0D; 0x0A]%N 80 = Ok (r, st, ev) /\ r_count r = 44 /\ s_next st = Some 48) impls.
Proof. repeat (apply Forall_cons; [do 3 eexists; split; [vm_compute; reflexivity|vm_compute; repeat split; congruence]|]). apply Forall_nil. Qed.
(** scan_test.cpp:296 *)
Example scan_296_4 : Forall (fun i => exists r st ev, scan_text rt true i (sstate0 rt) [0xF0; 0x9F; 0x98; 0x80; 0x30; 0x31; 0x32; 0x33; 0x34; 0x35; 0x36; 0x37; 0x38; 0x39; 0x41; 0x42; 0x43; 0x44; 0x45; 0x46; 0x30; 0x31; 0x32; 0x33; 0xF0; 0x9F; 0x98; 0x80; 0x30; 0x31; 0x32; 0x33; 0x34; 0x35; 0x36; 0x37; 0x38; 0x39; 0x41; 0x42; 0x43; 0x44; 0x45; 0x46; 0x30; 0x31; 0x32; 0x33; 0x0D; 0x0A]%N 80 = Ok (r, st, ev) /\ r_count r = 44 /\ s_next st = Some 48) impls.
Proof. repeat (apply Forall_cons; [do 3 eexists; split; [vm_compute; reflexivity|vm_compute; repeat split; congruence]|]). apply Forall_nil. Qed.
(** scan_test.cpp:264 *)
Example scan_264_5 : Forall (fun i => exists r st ev, scan_text rt true i (sstate0 rt) [0x30; 0x31; 0x32; 0x33; 0x34; 0x35; 0x36; 0x37; 0x38; 0x39; 0x41; 0x42; 0x43; 0x44; 0x45; 0x46; 0x30; 0x31; 0x32; 0x33; 0xF0; 0x9F; 0x98; 0x80; 0x30; 0x31; 0x32; 0x33; 0x34; 0x35; 0x36; 0x37; 0x38; 0x39; 0x41; 0x42; 0x43; 0x44; 0x45; 0x46; 0x30; 0x31; 0x32; 0x33; 0xF0; 0x9F; 0x98; 0x80; 0x30; 0x31; 0x32; 0x33; 0x34; 0x35; 0x36; 0x37; 0x38; 0x39; 0x41; 0x42; 0x43; 0x44; 0x45; 0x46; 0x30; 0x31; 0x32; 0x33; 0x0D; 0x0A]%N 80 = Ok (r, st, ev) /\ r_count r = 64 /\ s_next st = Some 68) impls.
Proof. repeat (apply Forall_cons; [do 3 eexists; split; [vm_compute; reflexivity|vm_compute; repeat split; congruence]|]). apply Forall_nil. Qed.
(** scan_test.cpp:296 *)
Example scan_296_5 : Forall (fun i => exists r st ev, scan_text rt true i (sstate0 rt) [0xF0; 0x9F; 0x98; 0x80; 0x30; 0x31; 0x32; 0x33; 0x34; 0x35; 0x36; 0x37; 0x38; 0x39; 0x41; 0x42; 0x43; 0x44; 0x45; 0x46; 0x30; 0x31; 0x32; 0x33; 0xF0; 0x9F; 0x98; 0x80; 0x30; 0x31; 0x32; 0x33; 0x34; 0x35; 0x36; 0x37; 0x38; 0x39; 0x41; 0x42; 0x43; 0x44; 0x45; 0x46; 0x30; 0x31; 0x32; 0x33; 0xF0; 0x9F; 0x98; 0x80; 0x0D; 0x0A]%N 80 = Ok (r, st, ev) /\ r_count r = 46 /\ s_next st = Some 52) impls.
Proof. repeat (apply Forall_cons; [do 3 eexists; split; [vm_compute; reflexivity|vm_compute; repeat split; congruence]|]). apply Forall_nil. Qed.
(** scan_test.cpp:264 *)
Example scan_264_6 : Forall (fun i => exists r st ev, scan_text rt true i (sstate0 rt) [0x30; 0x31; 0x32; 0x33; 0x34; 0x35; 0x36; 0x37; 0x38; 0x39; 0x41; 0x42; 0x43; 0x44; 0x45; 0x46; 0x30; 0x31; 0x32; 0x33; 0xF0; 0x9F; 0x98; 0x80; 0x30; 0x31; 0x32; 0x33; 0x34; 0x35; 0x36; 0x37; 0x38; 0x39; 0x41; 0x42; 0x43; 0x44; 0x45; 0x46; 0x30; 0x31; 0x32; 0x33; 0xF0; 0x9F; 0x98; 0x80; 0x30; 0x31; 0x32; 0x33; 0x34; 0x35; 0x36; 0x37; 0x38; 0x39; 0x41; 0x42; 0x43; 0x44; 0x45; 0x46; 0x30; 0x31; 0x32; 0x33; 0xF0; 0x9F; 0x98; 0x80; 0x0D; 0x0A]%N 80 = Ok (r, st, ev) /\ r_count r = 66 /\ s_next st = Some 72) impls.
Proof. repeat (apply Forall_cons; [do 3 eexists; split; [vm_compute; reflexivity|vm_compute; repeat split; congruence]|]). apply Forall_nil. Qed.
(** scan_test.cpp:296 *)
Example scan_296_6 : Forall (fun i => exists r st ev, scan_text rt true i (sstate0 rt) [0xF0; 0x9F; 0x98; 0x80; 0x30; 0x31; 0x32; 0x33; 0x34; 0x35; 0x36; 0x37; 0x38; 0x39; 0x41; 0x42; 0x43; 0x44; 0x45; 0x46; 0x30; 0x31; 0x32; 0x33; 0xF0; 0x9F; 0x98; 0x80; 0x30; 0x31; 0x32; 0x33; 0x34; 0x35; 0x36; 0x37; 0x38; 0x39; 0x41; 0x42; 0x43; 0x44; 0x45; 0x46; 0x30; 0x31; 0x32; 0x33; 0xF0; 0x9F; 0x98; 0x80; 0x30; 0x31; 0x32; 0x33; 0x34; 0x35; 0x36; 0x37; 0x38; 0x39; 0x41; 0x42; 0x43; 0x44; 0x45; 0x46; 0x30; 0x31; 0x32; 0x33; 0x0D; 0x0A]%N 80 = Ok (r, st, ev) /\ r_count r = 66 /\ s_next st = Some 72) impls.
Proof. repeat (apply Forall_cons; [do 3 eexists; split; [vm_compute; reflexivity|vm_compute; repeat split; congruence]|]). apply Forall_nil. Qed.
(** scan_test.cpp:321 *)
Example scan_321 : Forall (fun i => exists r st ev, scan_text rt true i (sstate0 rt) [0xC2; 0xA9]%N 80 = Ok (r, st, ev) /\ r_count r = 1 /\ s_next st = Some 2) impls.
Proof. repeat (apply Forall_cons; [do 3 eexists; split; [vm_compute; reflexivity|vm_compute; repeat split; congruence]|]). apply Forall_nil. Qed.
(** scan_test.cpp:328 *)
Example scan_328 : Forall (fun i => exists r st ev, scan_text rt true i (sstate0 rt) [0xC2; 0xA9; 0xEF; 0xB8; 0x8F]%N 80 = Ok (r, st, ev) /\ r_count r = 2 /\ s_next st = Some 5) impls.
Proof. repeat (apply Forall_cons; [do 3 eexists; split; [vm_compute; reflexivity|vm_compute; repeat split; congruence]|]). apply Forall_nil. Qed.
(** scan_test.cpp:334 *)
Example scan_334 : Forall (fun i => exists r st ev, scan_text rt true i (sstate0 rt) [0xC2; 0xA9; 0xEF; 0xB8; 0x8F]%N 1 = Ok (r, st, ev) /\ r_count r = 0 /\ s_next st = Some 0) impls.
Proof. repeat (apply Forall_cons; [do 3 eexists; split; [vm_compute; reflexivity|vm_compute; repeat split; congruence]|]). apply Forall_nil. Qed.
(** scan_test.cpp:338 *)
Example scan_338_0 : Forall (fun i => exists r st ev, scan_text rt true i (sstate0 rt) [0xE0; 0xA4; 0x95; 0xE0; 0xA4; 0xBE]%N 80 = Ok (r, st, ev) /\ utf8_width i rt [0xE0; 0xA4; 0x95; 0xE0; 0xA4; 0xBE]%N = Ok (r_count r)) impls.
Proof. repeat (apply Forall_cons; [do 3 eexists; split; [vm_compute; reflexivity|vm_compute; repeat split; congruence]|]). apply Forall_nil. Qed.
(** scan_test.cpp:338 *)
Example scan_338_1 : Forall (fun i => exists r st ev, scan_text rt true i (sstate0 rt) [0xE0; 0xA4; 0x95; 0xE0; 0xA5; 0x8D; 0xE0; 0xA4; 0xA8]%N 80 = Ok (r, st, ev) /\ utf8_width i rt [0xE0; 0xA4; 0x95; 0xE0; 0xA5; 0x8D; 0xE0; 0xA4; 0xA8]%N = Ok (r_count r)) impls.
Proof. repeat (apply Forall_cons; [do 3 eexists; split; [vm_compute; reflexivity|vm_compute; repeat split; congruence]|]). apply Forall_nil. Qed.
(** scan_test.cpp:338 *)
Example scan_338_2 : Forall (fun i => exists r st ev, scan_text rt true i (sstate0 rt) [0xE0; 0xB8; 0x81; 0xE0; 0xB8; 0xB3]%N 80 = Ok (r, st, ev) /\ utf8_width i rt [0xE0; 0xB8; 0x81; 0xE0; 0xB8; 0xB3]%N = Ok (r_count r)) impls.
Proof. repeat (apply Forall_cons; [do 3 eexists; split; [vm_compute; reflexivity|vm_compute; repeat split; congruence]|]). apply Forall_nil. Qed.
(** scan_test.cpp:338 *)
Example scan_338_3 : Forall (fun i => exists r st ev, scan_text rt true i (sstate0 rt) [0xE0; 0xBA; 0xA0; 0xE0; 0xBA; 0xB3]%N 80 = Ok (r, st, ev) /\ utf8_width i rt [0xE0; 0xBA; 0xA0; 0xE0; 0xBA; 0xB3]%N = Ok (r_count r)) impls.
Proof. repeat (apply Forall_cons; [do 3 eexists; split; [vm_compute; reflexivity|vm_compute; repeat split; congruence]|]). apply Forall_nil. Qed.
(** scan_test.cpp:338 *)
Example scan_338_4 : Forall (fun i => exists r st ev, scan_text rt true i (sstate0 rt) [0xE1; 0x9E; 0x80; 0xE1; 0x9F; 0x92; 0xE1; 0x9E; 0x9A]%N 80 = Ok (r, st, ev) /\ utf8_width i rt [0xE1; 0x9E; 0x80; 0xE1; 0x9F; 0x92; 0xE1; 0x9E; 0x9A]%N = Ok (r_count r)) impls.
Proof. repeat (apply Forall_cons; [do 3 eexists; split; [vm_compute; reflexivity|vm_compute; repeat split; congruence]|]). apply Forall_nil. Qed.
(** scan_test.cpp:338 *)
Example scan_338_5 : Forall (fun i => exists r st ev, scan_text rt true i (sstate0 rt) [0xC2; 0xA9; 0xEF; 0xB8; 0x8F]%N 80 = Ok (r, st, ev) /\ utf8_width i rt [0xC2; 0xA9; 0xEF; 0xB8; 0x8F]%N = Ok (r_count r)) impls.
Proof. repeat (apply Forall_cons; [do 3 eexists; split; [vm_compute; reflexivity|vm_compute; repeat split; congruence]|]). apply Forall_nil. Qed.
(** scan_test.cpp:338 *)
Example scan_338_6 : Forall (fun i => exists r st ev, scan_text rt true i (sstate0 rt) [0xE2; 0x9C; 0x93; 0xEF; 0xB8; 0x8F]%N 80 = Ok (r, st, ev) /\ utf8_width i rt [0xE2; 0x9C; 0x93; 0xEF; 0xB8; 0x8F]%N = Ok (r_count r)) impls.
Proof. repeat (apply Forall_cons; [do 3 eexists; split; [vm_compute; reflexivity|vm_compute; repeat split; congruence]|]). apply Forall_nil. Qed.
(** scan_test.cpp:338 *)
Example scan_338_7 : Forall (fun i => exists r st ev, scan_text rt true i (sstate0 rt) [0xE2; 0x8C; 0x9A; 0xEF; 0xB8; 0x8E]%N 80 = Ok (r, st, ev) /\ utf8_width i rt [0xE2; 0x8C; 0x9A; 0xEF; 0xB8; 0x8E]%N = Ok (r_count r)) impls.
Proof. repeat (apply Forall_cons; [do 3 eexists; split; [vm_compute; reflexivity|vm_compute; repeat split; congruence]|]). apply Forall_nil. Qed.
(** scan_test.cpp:338 *)
Example scan_338_8 : Forall (fun i => exists r st ev, scan_text rt true i (sstate0 rt) [0xE6; 0xBC; 0xA2; 0xEF; 0xB8; 0x8E]%N 80 = Ok (r, st, ev) /\ utf8_width i rt [0xE6; 0xBC; 0xA2; 0xEF; 0xB8; 0x8E]%N = Ok (r_count r)) impls.
Proof. repeat (apply Forall_cons; [do 3 eexists; split; [vm_compute; reflexivity|vm_compute; repeat split; congruence]|]). apply Forall_nil. Qed.
(** scan_test.cpp:338 *)
Example scan_338_9 : Forall (fun i => exists r st ev, scan_text rt true i (sstate0 rt) [0xE2; 0x9D; 0xA4; 0xF0; 0x9F; 0x8F; 0xBB]%N 80 = Ok (r, st, ev) /\ utf8_width i rt [0xE2; 0x9D; 0xA4; 0xF0; 0x9F; 0x8F; 0xBB]%N = Ok (r_count r)) impls.
Proof. repeat (apply Forall_cons; [do 3 eexists; split; [vm_compute; reflexivity|vm_compute; repeat split; congruence]|]). apply Forall_nil. Qed.
(** scan_test.cpp:338 *)
Example scan_338_10 : Forall (fun i => exists r st ev, scan_text rt true i (sstate0 rt) [0xE2; 0x9D; 0xA4; 0xE2; 0x80; 0x8D; 0xF0; 0x9F; 0x94; 0xA5]%N 80 = Ok (r, st, ev) /\ utf8_width i rt [0xE2; 0x9D; 0xA4; 0xE2; 0x80; 0x8D; 0xF0; 0x9F; 0x94; 0xA5]%N = Ok (r_count r)) impls.
Proof. repeat (apply Forall_cons; [do 3 eexists; split; [vm_compute; reflexivity|vm_compute; repeat split; congruence]|]). apply Forall_nil. Qed.
(** scan_test.cpp:338 *)
Example scan_338_11 : Forall (fun i => exists r st ev, scan_text rt true i (sstate0 rt) [0xF0; 0x9F; 0x87; 0xA9; 0xF0; 0x9F; 0x87; 0xAA]%N 80 = Ok (r, st, ev) /\ utf8_width i rt [0xF0; 0x9F; 0x87; 0xA9; 0xF0; 0x9F; 0x87; 0xAA]%N = Ok (r_count r)) impls.
Proof. repeat (apply Forall_cons; [do 3 eexists; split; [vm_compute; reflexivity|vm_compute; repeat split; congruence]|]). apply Forall_nil. Qed.
(** scan_test.cpp:338 *)
Example scan_338_12 : Forall (fun i => exists r st ev, scan_text rt true i (sstate0 rt) [0xE4; 0xB8; 0xAD; 0xC3; 0xA9]%N 80 = Ok (r, st, ev) /\ utf8_width i rt [0xE4; 0xB8; 0xAD; 0xC3; 0xA9]%N = Ok (r_count r)) impls.
Proof. repeat (apply Forall_cons; [do 3 eexists; split; [vm_compute; reflexivity|vm_compute; repeat split; congruence]|]). apply Forall_nil. Qed.
(** scan_test.cpp:338 *)
Example scan_338_13 : Forall (fun i => exists r st ev, scan_text rt true i (sstate0 rt) [0xE4; 0xB8; 0xAD; 0xC3; 0xA9; 0xC3; 0xA9]%N 80 = Ok (r, st, ev) /\ utf8_width i rt [0xE4; 0xB8; 0xAD; 0xC3; 0xA9; 0xC3; 0xA9]%N = Ok (r_count r)) impls.
Proof. repeat (apply Forall_cons; [do 3 eexists; split; [vm_compute; reflexivity|vm_compute; repeat split; congruence]|]). apply Forall_nil. Qed.
(** scan_test.cpp:338 *)
Example scan_338_14 : Forall (fun i => exists r st ev, scan_text rt true i (sstate0 rt) [0xF0; 0x9F; 0x98; 0x80; 0xC3; 0xA9]%N 80 = Ok (r, st, ev) /\ utf8_width i rt [0xF0; 0x9F; 0x98; 0x80; 0xC3; 0xA9]%N = Ok (r_count r)) impls.
Proof. repeat (apply Forall_cons; [do 3 eexists; split; [vm_compute; reflexivity|vm_compute; repeat split; congruence]|]). apply Forall_nil. Qed.
(** scan_test.cpp:338 *)
Example scan_338_15 : Forall (fun i => exists r st ev, scan_text rt true i (sstate0 rt) [0xE4; 0xB8; 0xAD; 0xCE; 0xB1]%N 80 = Ok (r, st, ev) /\ utf8_width i rt [0xE4; 0xB8; 0xAD; 0xCE; 0xB1]%N = Ok (r_count r)) impls.
Proof. repeat (apply Forall_cons; [do 3 eexists; split; [vm_compute; reflexivity|vm_compute; repeat split; congruence]|]). apply Forall_nil. Qed.
(** scan_test.cpp:338 *)
Example scan_338_16 : Forall (fun i => exists r st ev, scan_text rt true i (sstate0 rt) [0xE2; 0x9D; 0xA4; 0xE2; 0x80; 0x8D; 0x41]%N 80 = Ok (r, st, ev) /\ utf8_width i rt [0xE2; 0x9D; 0xA4; 0xE2; 0x80; 0x8D; 0x41]%N = Ok (r_count r)) impls.
Proof. repeat (apply Forall_cons; [do 3 eexists; split; [vm_compute; reflexivity|vm_compute; repeat split; congruence]|]). apply Forall_nil. Qed.
(** scan_test.cpp:401 *)
Example scan_401 : Forall (fun i => exists r st ev, scan_text rt true i (sstate0 rt) [0xE4; 0xB8; 0xAD; 0xE0; 0xA4; 0x95; 0xE0; 0xA4; 0xBE; 0x61; 0x62]%N 3 = Ok (r, st, ev) /\ r_start r <= r_end r /\ r_end r <= 3 /\ r_count r = 2 /\ r_end r = 3 /\ s_next st = Some 3) impls.
Proof. repeat (apply Forall_cons; [do 3 eexists; split; [vm_compute; reflexivity|vm_compute; repeat split; congruence]|]). apply Forall_nil. Qed.
(** scan_test.cpp:422 *)
Example scan_422_0 : Forall (fun i => exists r st ev, scan_text rt true i (sstate0 rt) [0x61; 0xE0; 0xA4; 0x83]%N 80 = Ok (r, st, ev) /\ r_count r = 2 /\ utf8_width i rt [0x61; 0xE0; 0xA4; 0x83]%N = Ok 2) impls.
Proof. repeat (apply Forall_cons; [do 3 eexists; split; [vm_compute; reflexivity|vm_compute; repeat split; congruence]|]). apply Forall_nil. Qed.
(** scan_test.cpp:422 *)
Example scan_422_1 : Forall (fun i => exists r st ev, scan_text rt true i (sstate0 rt) [0x61; 0xE0; 0xAE; 0xBE]%N 80 = Ok (r, st, ev) /\ r_count r = 2 /\ utf8_width i rt [0x61; 0xE0; 0xAE; 0xBE]%N = Ok 2) impls.
Proof. repeat (apply Forall_cons; [do 3 eexists; split; [vm_compute; reflexivity|vm_compute; repeat split; congruence]|]). apply Forall_nil. Qed.
(** scan_test.cpp:422 *)
Example scan_422_2 : Forall (fun i => exists r st ev, scan_text rt true i (sstate0 rt) [0x61; 0x62; 0xE0; 0xA4; 0x83]%N 80 = Ok (r, st, ev) /\ r_count r = 3 /\ utf8_width i rt [0x61; 0x62; 0xE0; 0xA4; 0x83]%N = Ok 3) impls.
Proof. repeat (apply Forall_cons; [do 3 eexists; split; [vm_compute; reflexivity|vm_compute; repeat split; congruence]|]). apply Forall_nil. Qed.
(** scan_test.cpp:422 *)
Example scan_422_3 : Forall (fun i => exists r st ev, scan_text rt true i (sstate0 rt) [0x61; 0x62; 0x63]%N 80 = Ok (r, st, ev) /\ r_count r = 3 /\ utf8_width i rt [0x61; 0x62; 0x63]%N = Ok 3) impls.
Proof. repeat (apply Forall_cons; [do 3 eexists; split; [vm_compute; reflexivity|vm_compute; repeat split; congruence]|]). apply Forall_nil. Qed.
(** scan_test.cpp:422 *)
Example scan_422_4 : Forall (fun i => exists r st ev, scan_text rt true i (sstate0 rt) [0x61; 0x62; 0xE4; 0xB8; 0xAD]%N 80 = Ok (r, st, ev) /\ r_count r = 4 /\ utf8_width i rt [0x61; 0x62; 0xE4; 0xB8; 0xAD]%N = Ok 4) impls.
Proof. repeat (apply Forall_cons; [do 3 eexists; split; [vm_compute; reflexivity|vm_compute; repeat split; congruence]|]). apply Forall_nil. Qed.
(** scan_test.cpp:453 *)
Example scan_453_0 : Forall (fun i => exists r st ev, scan_text rt true i (sstate0 rt) [0x65; 0xCC; 0x81; 0x78]%N 80 = Ok (r, st, ev) /\ r_count r = 2 /\ Some (r_end r) = s_next st /\ s_next st = Some 4) impls.
Proof. repeat (apply Forall_cons; [do 3 eexists; split; [vm_compute; reflexivity|vm_compute; repeat split; congruence]|]). apply Forall_nil. Qed.
(** scan_test.cpp:453 *)
Example scan_453_1 : Forall (fun i => exists r st ev, scan_text rt true i (sstate0 rt) [0x65; 0xCC; 0x81]%N 80 = Ok (r, st, ev) /\ r_count r = 1 /\ Some (r_end r) = s_next st /\ s_next st = Some 3) impls.
Proof. repeat (apply Forall_cons; [do 3 eexists; split; [vm_compute; reflexivity|vm_compute; repeat split; congruence]|]). apply Forall_nil. Qed.
(** scan_test.cpp:453 *)
Example scan_453_2 : Forall (fun i => exists r st ev, scan_text rt true i (sstate0 rt) [0x61; 0x62; 0x63; 0xCC; 0x81; 0x64]%N 80 = Ok (r, st, ev) /\ r_count r = 4 /\ Some (r_end r) = s_next st /\ s_next st = Some 6) impls.
Proof. repeat (apply Forall_cons; [do 3 eexists; split; [vm_compute; reflexivity|vm_compute; repeat split; congruence]|]). apply Forall_nil. Qed.
(** scan_test.cpp:453 *)
Example scan_453_3 : Forall (fun i => exists r st ev, scan_text rt true i (sstate0 rt) [0x65; 0xEF; 0xB8; 0x8F]%N 80 = Ok (r, st, ev) /\ r_count r = 1 /\ Some (r_end r) = s_next st /\ s_next st = Some 4) impls.
Proof. repeat (apply Forall_cons; [do 3 eexists; split; [vm_compute; reflexivity|vm_compute; repeat split; congruence]|]). apply Forall_nil. Qed.
(** scan_test.cpp:453 *)
Example scan_453_4 : Forall (fun i => exists r st ev, scan_text rt true i (sstate0 rt) [0x31; 0xEF; 0xB8; 0x8F]%N 80 = Ok (r, st, ev) /\ r_count r = 2 /\ Some (r_end r) = s_next st /\ s_next st = Some 4) impls.
Proof. repeat (apply Forall_cons; [do 3 eexists; split; [vm_compute; reflexivity|vm_compute; repeat split; congruence]|]). apply Forall_nil. Qed.
(** scan_test.cpp:491 *)
Example scan_491_0 : Forall (fun i => exists r st ev, scan_text rt true i (sstate0 rt) [0x65; 0xCC; 0x81; 0x78]%N 80 = Ok (r, st, ev) /\ d_exp (s_utf8 st) = 0%N /\ r_start r <= r_end r /\ Some (r_end r) = s_next st) impls.
Proof. repeat (apply Forall_cons; [do 3 eexists; split; [vm_compute; reflexivity|vm_compute; repeat split; congruence]|]). apply Forall_nil. Qed.
(** scan_test.cpp:491 *)
Example scan_491_1 : Forall (fun i => exists r st ev, scan_text rt true i (sstate0 rt) [0x61; 0xE0; 0xA4; 0x83]%N 80 = Ok (r, st, ev) /\ d_exp (s_utf8 st) = 0%N /\ r_start r <= r_end r /\ Some (r_end r) = s_next st) impls.
Proof. repeat (apply Forall_cons; [do 3 eexists; split; [vm_compute; reflexivity|vm_compute; repeat split; congruence]|]). apply Forall_nil. Qed.
(** scan_test.cpp:491 *)
Example scan_491_2 : Forall (fun i => exists r st ev, scan_text rt true i (sstate0 rt) [0x61; 0x62; 0x63]%N 80 = Ok (r, st, ev) /\ d_exp (s_utf8 st) = 0%N /\ r_start r <= r_end r /\ Some (r_end r) = s_next st) impls.
Proof. repeat (apply Forall_cons; [do 3 eexists; split; [vm_compute; reflexivity|vm_compute; repeat split; congruence]|]). apply Forall_nil. Qed.
(** scan_test.cpp:491 *)
Example scan_491_3 : Forall (fun i => exists r st ev, scan_text rt true i (sstate0 rt) [0xE4; 0xB8; 0xAD; 0xC3; 0xA9; 0xC3; 0xA9]%N 80 = Ok (r, st, ev) /\ d_exp (s_utf8 st) = 0%N /\ r_start r <= r_end r /\ Some (r_end r) = s_next st) impls.
Proof. repeat (apply Forall_cons; [do 3 eexists; split; [vm_compute; reflexivity|vm_compute; repeat split; congruence]|]). apply Forall_nil. Qed.
(** scan_test.cpp:491 *)
Example scan_491_4 : Forall (fun i => exists r st ev, scan_text rt true i (sstate0 rt) [0x61; 0xE4; 0xB8; 0xAD; 0x62]%N 80 = Ok (r, st, ev) /\ d_exp (s_utf8 st) = 0%N /\ r_start r <= r_end r /\ Some (r_end r) = s_next st) impls.
Proof. repeat (apply Forall_cons; [do 3 eexists; split; [vm_compute; reflexivity|vm_compute; repeat split; congruence]|]). apply Forall_nil. Qed.
(** scan_test.cpp:491 *)
Example scan_491_5 : Forall (fun i => exists r st ev, scan_text rt true i (sstate0 rt) [0x65; 0xCC; 0x81; 0x65; 0xCC; 0x81]%N 80 = Ok (r, st, ev) /\ d_exp (s_utf8 st) = 0%N /\ r_start r <= r_end r /\ Some (r_end r) = s_next st) impls.
Proof. repeat (apply Forall_cons; [do 3 eexists; split; [vm_compute; reflexivity|vm_compute; repeat split; congruence]|]). apply Forall_nil. Qed.
(** scan_test.cpp:491 *)
Example scan_491_6 : Forall (fun i => exists r st ev, scan_text rt true i (sstate0 rt) [0x61; 0xE2; 0x80; 0x8D; 0x62]%N 80 = Ok (r, st, ev) /\ d_exp (s_utf8 st) = 0%N /\ r_start r <= r_end r /\ Some (r_end r) = s_next st) impls.
Proof. repeat (apply Forall_cons; [do 3 eexists; split; [vm_compute; reflexivity|vm_compute; repeat split; congruence]|]). apply Forall_nil. Qed.
(** scan_test.cpp:491 *)
Example scan_491_7 : Forall (fun i => exists r st ev, scan_text rt true i (sstate0 rt) [0xE2; 0x8C; 0x9A; 0xEF; 0xB8; 0x8E; 0x78]%N 80 = Ok (r, st, ev) /\ d_exp (s_utf8 st) = 0%N /\ r_start r <= r_end r /\ Some (r_end r) = s_next st) impls.
Proof. repeat (apply Forall_cons; [do 3 eexists; split; [vm_compute; reflexivity|vm_compute; repeat split; congruence]|]). apply Forall_nil. Qed.
(** scan_test.cpp:491 *)
Example scan_491_8 : Forall (fun i => exists r st ev, scan_text rt true i (sstate0 rt) [0xF0; 0x9F; 0x91; 0xA8; 0xE2; 0x80; 0x8D; 0xF0; 0x9F; 0x91; 0xA9; 0xE2; 0x80; 0x8D; 0xF0; 0x9F; 0x91; 0xA7; 0xE2; 0x80; 0x8D; 0xF0; 0x9F; 0x91; 0xA6]%N 80 = Ok (r, st, ev) /\ d_exp (s_utf8 st) = 0%N /\ r_start r <= r_end r /\ Some (r_end r) = s_next st) impls.
Proof. repeat (apply Forall_cons; [do 3 eexists; split; [vm_compute; reflexivity|vm_compute; repeat split; congruence]|]). apply Forall_nil. Qed.
(** scan_test.cpp:491 *)
Example scan_491_9 : Forall (fun i => exists r st ev, scan_text rt true i (sstate0 rt) [0x61; 0xF0; 0x9F; 0x87; 0xA9; 0xF0; 0x9F; 0x87; 0xAA; 0x62]%N 80 = Ok (r, st, ev) /\ d_exp (s_utf8 st) = 0%N /\ r_start r <= r_end r /\ Some (r_end r) = s_next st) impls.
Proof. repeat (apply Forall_cons; [do 3 eexists; split; [vm_compute; reflexivity|vm_compute; repeat split; congruence]|]). apply Forall_nil. Qed.
(** scan_test.cpp:551 *)
Example scan_551 : Forall (fun i => exists r st ev, scan_text rt true i (sstate0 rt) [0xE4; 0xB8; 0xAD; 0xC3; 0xA9]%N 80 = Ok (r, st, ev) /\ r_count r = 3 /\ ev = [ECluster 0 3 2; ECluster 3 5 1]) impls.
Proof. repeat (apply Forall_cons; [do 3 eexists; split; [vm_compute; reflexivity|vm_compute; repeat split; congruence]|]). apply Forall_nil. Qed.
(** scan_test.cpp:571 *)
Example scan_571 : Forall (fun i => exists r st ev, scan_text rt true i (sstate0 rt) [0x61; 0x62; 0x96; 0x63; 0x64]%N 80 = Ok (r, st, ev) /\ r_count r = 2 /\ r_end r = 2 /\ s_next st = Some 2) impls.
Proof. repeat (apply Forall_cons; [do 3 eexists; split; [vm_compute; reflexivity|vm_compute; repeat split; congruence]|]). apply Forall_nil. Qed.
(** scan_test.cpp:587 *)
Example scan_587 : Forall (fun i => exists r st ev, scan_text rt true i (sstate0 rt) [0xE2; 0x80; 0x98; 0x0A]%N 80 = Ok (r, st, ev) /\ r_count r = 1 /\ s_next st = Some 3) impls.
Proof. repeat (apply Forall_cons; [do 3 eexists; split; [vm_compute; reflexivity|vm_compute; repeat split; congruence]|]). apply Forall_nil. Qed.
(** scan_test.cpp:235-262: a character split over two buffers; offsets of the second result are relative to the second buffer, which starts
    at byte 3, so -3 is byte 0 and 1 is byte 4 *)
Example sliced_calls : Forall (fun i => exists r st ev r2 st2 ev2,
  scan_text rt true i (sstate0 rt) [0xF0; 0x9F; 0x98]%N 80 = Ok (r, st, ev) /\ d_exp (s_utf8 st) = 4%N /\ d_cur (s_utf8 st) = 3%N /\
  r_count r = 0 /\ r_start r = 0 /\ r_end r = 0 /\ s_next st = Some 3 /\
  scan_text rt true i (next_buffer st) [0x80; 0x1B; 0x5C; 0x30; 0x31; 0x32; 0x33; 0x34; 0x35; 0x36; 0x37; 0x38; 0x39; 0x41; 0x42; 0x43; 0x44; 0x45; 0x46]%N 80 = Ok (r2, st2, ev2) /\ d_exp (s_utf8 st2) = 0%N /\ r_count r2 = 2 /\ r_start r2 = -3 /\ r_end r2 = 1 /\
  s_next st2 = Some 1) impls.
Proof. repeat (apply Forall_cons; [do 6 eexists; split; [vm_compute; reflexivity|]; do 6 (split; [vm_compute; reflexivity|]); split; [vm_compute; reflexivity|]; vm_compute; repeat split; reflexivity|]). apply Forall_nil. Qed.
(** scan_test.cpp:379-399: a cluster split over two buffers *)
Example split_cluster : Forall (fun i => exists r st ev r2 st2 ev2,
  scan_text rt true i (sstate0 rt) [0xC2; 0xA9]%N 80 = Ok (r, st, ev) /\ scan_text rt true i (next_buffer st) [0xEF; 0xB8; 0x8F]%N 80 = Ok (r2, st2, ev2) /\
  r_count r + r_count r2 = 2 /\ utf8_width i rt [0xC2; 0xA9; 0xEF; 0xB8; 0x8F]%N = Ok 2 /\ s_next st2 = Some 3) impls.
Proof. repeat (apply Forall_cons; [do 6 eexists; split; [vm_compute; reflexivity|]; split; [vm_compute; reflexivity|]; vm_compute; repeat split; reflexivity|]). apply Forall_nil. Qed.
