(** Assertions of convert_test.cpp, utf8_test.cpp and capi_test.cpp, replayed on the model.  Written by tools/gen_replay.py.  These are tests of the model, not theorems. *)
From Verif Require Import Base Spec_Utf M_Ucd M_Utf8 M_Convert M_CApi Replay_Table.
Require Import ZArith List.
Import ListNotations.
Open Scope Z_scope.

(** convert_test.cpp:27-43 *)
Example convert_same : convert_it T8 T8 [0x48; 0x65; 0x6C; 0x6C; 0x6F; 0x2C; 0x20; 0xF0; 0x9F; 0x98; 0x80]%N = Ok [0x48; 0x65; 0x6C; 0x6C; 0x6F; 0x2C; 0x20; 0xF0; 0x9F; 0x98; 0x80]%N /\ convert_it T16 T16 [0x48; 0x65; 0x6C; 0x6C; 0x6F; 0x2C; 0x20; 0xD83D; 0xDE00]%N = Ok [0x48; 0x65; 0x6C; 0x6C; 0x6F; 0x2C; 0x20; 0xD83D; 0xDE00]%N /\ convert_it T32 T32 [0x48; 0x65; 0x6C; 0x6C; 0x6F; 0x2C; 0x20; 0x1F600]%N = Ok [0x48; 0x65; 0x6C; 0x6C; 0x6F; 0x2C; 0x20; 0x1F600]%N.
Proof. vm_compute. repeat split; reflexivity. Qed.
(** convert_test.cpp:45 *)
Example convert_45 : convert_it T16 T8 [0x5B; 0xC3; 0xB6; 0xE2; 0x82; 0xAC; 0xF0; 0x9F; 0x98; 0x80]%N = Ok [0x5B; 0xF6; 0x20AC; 0xD83D; 0xDE00]%N.
Proof. vm_compute. repeat split; reflexivity. Qed.
(** convert_test.cpp:45, string-returning overload, every vector unit *)
Example convert_to_45 : Forall (fun i => convert_to false i T16 T8 [0x5B; 0xC3; 0xB6; 0xE2; 0x82; 0xAC; 0xF0; 0x9F; 0x98; 0x80]%N = Ok [0x5B; 0xF6; 0x20AC; 0xD83D; 0xDE00]%N) impls.
Proof. repeat (apply Forall_cons; [vm_compute; repeat split; reflexivity|]). apply Forall_nil. Qed.
(** convert_test.cpp:60 *)
Example convert_60 : convert_it T32 T8 [0x5B; 0xC3; 0xB6; 0xE2; 0x82; 0xAC; 0xF0; 0x9F; 0x98; 0x80]%N = Ok [0x5B; 0xF6; 0x20AC; 0x1F600]%N.
Proof. vm_compute. repeat split; reflexivity. Qed.
(** convert_test.cpp:60, string-returning overload, every vector unit *)
Example convert_to_60 : Forall (fun i => convert_to false i T32 T8 [0x5B; 0xC3; 0xB6; 0xE2; 0x82; 0xAC; 0xF0; 0x9F; 0x98; 0x80]%N = Ok [0x5B; 0xF6; 0x20AC; 0x1F600]%N) impls.
Proof. repeat (apply Forall_cons; [vm_compute; repeat split; reflexivity|]). apply Forall_nil. Qed.
(** convert_test.cpp:75 *)
Example convert_75 : convert_it T8 T16 [0x5B; 0xF6; 0x20AC; 0xD83D; 0xDE00]%N = Ok [0x5B; 0xC3; 0xB6; 0xE2; 0x82; 0xAC; 0xF0; 0x9F; 0x98; 0x80]%N.
Proof. vm_compute. repeat split; reflexivity. Qed.
(** convert_test.cpp:75, string-returning overload, every vector unit *)
Example convert_to_75 : Forall (fun i => convert_to false i T8 T16 [0x5B; 0xF6; 0x20AC; 0xD83D; 0xDE00]%N = Ok [0x5B; 0xC3; 0xB6; 0xE2; 0x82; 0xAC; 0xF0; 0x9F; 0x98; 0x80]%N) impls.
Proof. repeat (apply Forall_cons; [vm_compute; repeat split; reflexivity|]). apply Forall_nil. Qed.
(** convert_test.cpp:84 *)
Example convert_84 : convert_it T32 T16 [0x5B; 0xF6; 0x20AC; 0xD83D; 0xDE00]%N = Ok [0x5B; 0xF6; 0x20AC; 0x1F600]%N.
Proof. vm_compute. repeat split; reflexivity. Qed.
(** convert_test.cpp:84, string-returning overload, every vector unit *)
Example convert_to_84 : Forall (fun i => convert_to false i T32 T16 [0x5B; 0xF6; 0x20AC; 0xD83D; 0xDE00]%N = Ok [0x5B; 0xF6; 0x20AC; 0x1F600]%N) impls.
Proof. repeat (apply Forall_cons; [vm_compute; repeat split; reflexivity|]). apply Forall_nil. Qed.
(** convert_test.cpp:93 *)
Example convert_93 : convert_it T8 T32 [0x5B; 0xF6; 0x20AC; 0x1F600]%N = Ok [0x5B; 0xC3; 0xB6; 0xE2; 0x82; 0xAC; 0xF0; 0x9F; 0x98; 0x80]%N.
Proof. vm_compute. repeat split; reflexivity. Qed.
(** convert_test.cpp:93, string-returning overload, every vector unit *)
Example convert_to_93 : Forall (fun i => convert_to false i T8 T32 [0x5B; 0xF6; 0x20AC; 0x1F600]%N = Ok [0x5B; 0xC3; 0xB6; 0xE2; 0x82; 0xAC; 0xF0; 0x9F; 0x98; 0x80]%N) impls.
Proof. repeat (apply Forall_cons; [vm_compute; repeat split; reflexivity|]). apply Forall_nil. Qed.
(** convert_test.cpp:102 *)
Example convert_102 : convert_it T16 T32 [0x5B; 0xF6; 0x20AC; 0x1F600]%N = Ok [0x5B; 0xF6; 0x20AC; 0xD83D; 0xDE00]%N.
Proof. vm_compute. repeat split; reflexivity. Qed.
(** convert_test.cpp:102, string-returning overload, every vector unit *)
Example convert_to_102 : Forall (fun i => convert_to false i T16 T32 [0x5B; 0xF6; 0x20AC; 0x1F600]%N = Ok [0x5B; 0xF6; 0x20AC; 0xD83D; 0xDE00]%N) impls.
Proof. repeat (apply Forall_cons; [vm_compute; repeat split; reflexivity|]). apply Forall_nil. Qed.
(** convert_test.cpp:111-159 *)
Example surrogates_0 : convert_it T16 T32 [0x10000]%N = Ok [0xD800; 0xDC00]%N /\ convert_it T32 T16 [0xD800; 0xDC00]%N = Ok [0x10000]%N.
Proof. vm_compute. repeat split; reflexivity. Qed.
(** convert_test.cpp:111-159 *)
Example surrogates_1 : convert_it T16 T32 [0x10FFFF]%N = Ok [0xDBFF; 0xDFFF]%N /\ convert_it T32 T16 [0xDBFF; 0xDFFF]%N = Ok [0x10FFFF]%N.
Proof. vm_compute. repeat split; reflexivity. Qed.
(** convert_test.cpp:111-159 *)
Example surrogates_2 : convert_it T16 T32 [0x1F600]%N = Ok [0xD83D; 0xDE00]%N /\ convert_it T32 T16 [0xD83D; 0xDE00]%N = Ok [0x1F600]%N.
Proof. vm_compute. repeat split; reflexivity. Qed.
(** convert_test.cpp:161-189 *)
Example bad_surrogates : convert_it T32 T16 [0xD800; 0x41]%N = Ok [] /\ convert_it T32 T16 [0xDC00]%N = Ok [] /\ convert_it T16 T32 [0xD800]%N = Ok [].
Proof. vm_compute. repeat split; reflexivity. Qed.
(** convert_test.cpp:193-217, every vector unit *)
Example ascii_lengths : Forall (fun i => map (fun n => (convert_to false i T32 T8 (repeat 0x41%N n), convert_to false i T16 T8 (repeat 0x42%N n)))
    [0; 1; 7; 15; 16; 17; 31; 32; 33; 63; 64; 65; 127; 128; 255; 256; 1000]%nat =
  map (fun n => (Ok (repeat 0x41%N n), Ok (repeat 0x42%N n))) [0; 1; 7; 15; 16; 17; 31; 32; 33; 63; 64; 65; 127; 128; 255; 256; 1000]%nat) impls.
Proof. repeat (apply Forall_cons; [vm_compute; reflexivity|]). apply Forall_nil. Qed.
(** convert_test.cpp:219-243, every vector unit *)
Example ascii_then_0 : Forall (fun i => convert_to false i T32 T8 (repeat 0x78%N 16 ++ [0xC3; 0xB6]%N) = Ok (repeat 0x78%N 16 ++ [0xF6]%N)) impls.
Proof. repeat (apply Forall_cons; [vm_compute; repeat split; reflexivity|]). apply Forall_nil. Qed.
(** convert_test.cpp:219-243, every vector unit *)
Example ascii_then_1 : Forall (fun i => convert_to false i T32 T8 (repeat 0x79%N 32 ++ [0xE2; 0x82; 0xAC]%N) = Ok (repeat 0x79%N 32 ++ [0x20AC]%N)) impls.
Proof. repeat (apply Forall_cons; [vm_compute; repeat split; reflexivity|]). apply Forall_nil. Qed.
(** convert_test.cpp:219-243, every vector unit *)
Example ascii_then_2 : Forall (fun i => convert_to false i T32 T8 (repeat 0x7A%N 64 ++ [0xF0; 0x9F; 0x98; 0x80]%N) = Ok (repeat 0x7A%N 64 ++ [0x1F600]%N)) impls.
Proof. repeat (apply Forall_cons; [vm_compute; repeat split; reflexivity|]). apply Forall_nil. Qed.
(** convert_test.cpp:245-255, every vector unit *)
Example ascii_then_pair : Forall (fun i => convert_to false i T16 T8 (repeat 0x77%N 32 ++ [0xF0; 0x9F; 0x98; 0x80]%N) = Ok (repeat 0x77%N 32 ++ [0xD83D; 0xDE00]%N)) impls.
Proof. repeat (apply Forall_cons; [vm_compute; repeat split; reflexivity|]). apply Forall_nil. Qed.
(** convert_test.cpp:257-278, every vector unit *)
Example non_ascii_0 : Forall (fun i => convert_to false i T32 T8 [0xC3; 0xB6; 0xC3; 0xBC; 0xC3; 0xA4]%N = Ok [0xF6; 0xFC; 0xE4]%N) impls.
Proof. repeat (apply Forall_cons; [vm_compute; repeat split; reflexivity|]). apply Forall_nil. Qed.
(** convert_test.cpp:257-278, every vector unit *)
Example non_ascii_1 : Forall (fun i => convert_to false i T32 T8 [0xE4; 0xB8; 0xAD; 0xE6; 0x96; 0x87]%N = Ok [0x4E2D; 0x6587]%N) impls.
Proof. repeat (apply Forall_cons; [vm_compute; repeat split; reflexivity|]). apply Forall_nil. Qed.
(** convert_test.cpp:257-278, every vector unit *)
Example non_ascii_2 : Forall (fun i => convert_to false i T32 T8 [0xF0; 0x9F; 0x98; 0x80; 0xF0; 0x9F; 0x98; 0x82]%N = Ok [0x1F600; 0x1F602]%N) impls.
Proof. repeat (apply Forall_cons; [vm_compute; repeat split; reflexivity|]). apply Forall_nil. Qed.
(** convert_test.cpp:280-289, every vector unit *)
Example interleaved : Forall (fun i => convert_to false i T32 T8 [0x41; 0x41; 0x41; 0x41; 0x41; 0x41; 0x41; 0x41; 0x41; 0x41; 0x41; 0x41; 0x41; 0x41; 0x41; 0x41; 0x41; 0x41; 0x41; 0x41; 0xF0; 0x9F; 0x98; 0x80; 0x42; 0x42; 0x42; 0x42; 0x42; 0x42; 0x42; 0x42; 0x42; 0x42; 0x42; 0x42; 0x42; 0x42; 0x42; 0x42; 0x42; 0x42; 0x42; 0x42; 0xF0; 0x9F; 0x98; 0x82; 0x43; 0x43; 0x43; 0x43; 0x43; 0x43; 0x43; 0x43; 0x43; 0x43; 0x43; 0x43; 0x43; 0x43; 0x43; 0x43; 0x43; 0x43; 0x43; 0x43]%N = Ok [0x41; 0x41; 0x41; 0x41; 0x41; 0x41; 0x41; 0x41; 0x41; 0x41; 0x41; 0x41; 0x41; 0x41; 0x41; 0x41; 0x41; 0x41; 0x41; 0x41; 0x1F600; 0x42; 0x42; 0x42; 0x42; 0x42; 0x42; 0x42; 0x42; 0x42; 0x42; 0x42; 0x42; 0x42; 0x42; 0x42; 0x42; 0x42; 0x42; 0x42; 0x42; 0x1F602; 0x43; 0x43; 0x43; 0x43; 0x43; 0x43; 0x43; 0x43; 0x43; 0x43; 0x43; 0x43; 0x43; 0x43; 0x43; 0x43; 0x43; 0x43; 0x43; 0x43]%N) impls.
Proof. repeat (apply Forall_cons; [vm_compute; repeat split; reflexivity|]). apply Forall_nil. Qed.
(** convert_test.cpp:291-306, every vector unit *)
Example roundtrip : Forall (fun i => (do x <- convert_to false i T32 T8 [0x48; 0x65; 0x6C; 0x6C; 0x6F; 0x20; 0xC3; 0xB6; 0x20; 0x57; 0x6F; 0x72; 0x6C; 0x64; 0x20; 0xE2; 0x82; 0xAC; 0x20; 0xF0; 0x9F; 0x98; 0x80; 0x20; 0x65; 0x6E; 0x64]%N ; convert_to false i T8 T32 x) = Ok [0x48; 0x65; 0x6C; 0x6C; 0x6F; 0x20; 0xC3; 0xB6; 0x20; 0x57; 0x6F; 0x72; 0x6C; 0x64; 0x20; 0xE2; 0x82; 0xAC; 0x20; 0xF0; 0x9F; 0x98; 0x80; 0x20; 0x65; 0x6E; 0x64]%N /\ (do x <- convert_to false i T16 T8 [0x48; 0x65; 0x6C; 0x6C; 0x6F; 0x20; 0xC3; 0xB6; 0x20; 0x57; 0x6F; 0x72; 0x6C; 0x64; 0x20; 0xE2; 0x82; 0xAC; 0x20; 0xF0; 0x9F; 0x98; 0x80; 0x20; 0x65; 0x6E; 0x64]%N ; convert_to false i T8 T16 x) = Ok [0x48; 0x65; 0x6C; 0x6C; 0x6F; 0x20; 0xC3; 0xB6; 0x20; 0x57; 0x6F; 0x72; 0x6C; 0x64; 0x20; 0xE2; 0x82; 0xAC; 0x20; 0xF0; 0x9F; 0x98; 0x80; 0x20; 0x65; 0x6E; 0x64]%N) impls.
Proof. repeat (apply Forall_cons; [vm_compute; repeat split; reflexivity|]). apply Forall_nil. Qed.
(** convert_test.cpp:308-315, every vector unit *)
Example consistency : Forall (fun i => convert_to false i T32 T8 [0x41; 0x42; 0x43; 0x44; 0x45; 0x46; 0x47; 0x48; 0x49; 0x4A; 0x4B; 0x4C; 0x4D; 0x4E; 0x4F; 0x50; 0xC3; 0xB6; 0xE2; 0x82; 0xAC; 0xF0; 0x9F; 0x98; 0x80; 0x20; 0x74; 0x61; 0x69; 0x6C]%N = Ok (successes (snd (from_utf8_run dinit [0x41; 0x42; 0x43; 0x44; 0x45; 0x46; 0x47; 0x48; 0x49; 0x4A; 0x4B; 0x4C; 0x4D; 0x4E; 0x4F; 0x50; 0xC3; 0xB6; 0xE2; 0x82; 0xAC; 0xF0; 0x9F; 0x98; 0x80; 0x20; 0x74; 0x61; 0x69; 0x6C]%N)))) impls.
Proof. repeat (apply Forall_cons; [vm_compute; repeat split; reflexivity|]). apply Forall_nil. Qed.
(** convert_test.cpp:317-335, every vector unit *)
Example printable : Forall (fun i => convert_to false i T32 T8 [0x20; 0x21; 0x22; 0x23; 0x24; 0x25; 0x26; 0x27; 0x28; 0x29; 0x2A; 0x2B; 0x2C; 0x2D; 0x2E; 0x2F; 0x30; 0x31; 0x32; 0x33; 0x34; 0x35; 0x36; 0x37; 0x38; 0x39; 0x3A; 0x3B; 0x3C; 0x3D; 0x3E; 0x3F; 0x40; 0x41; 0x42; 0x43; 0x44; 0x45; 0x46; 0x47; 0x48; 0x49; 0x4A; 0x4B; 0x4C; 0x4D; 0x4E; 0x4F; 0x50; 0x51; 0x52; 0x53; 0x54; 0x55; 0x56; 0x57; 0x58; 0x59; 0x5A; 0x5B; 0x5C; 0x5D; 0x5E; 0x5F; 0x60; 0x61; 0x62; 0x63; 0x64; 0x65; 0x66; 0x67; 0x68; 0x69; 0x6A; 0x6B; 0x6C; 0x6D; 0x6E; 0x6F; 0x70; 0x71; 0x72; 0x73; 0x74; 0x75; 0x76; 0x77; 0x78; 0x79; 0x7A; 0x7B; 0x7C; 0x7D; 0x7E]%N = Ok [0x20; 0x21; 0x22; 0x23; 0x24; 0x25; 0x26; 0x27; 0x28; 0x29; 0x2A; 0x2B; 0x2C; 0x2D; 0x2E; 0x2F; 0x30; 0x31; 0x32; 0x33; 0x34; 0x35; 0x36; 0x37; 0x38; 0x39; 0x3A; 0x3B; 0x3C; 0x3D; 0x3E; 0x3F; 0x40; 0x41; 0x42; 0x43; 0x44; 0x45; 0x46; 0x47; 0x48; 0x49; 0x4A; 0x4B; 0x4C; 0x4D; 0x4E; 0x4F; 0x50; 0x51; 0x52; 0x53; 0x54; 0x55; 0x56; 0x57; 0x58; 0x59; 0x5A; 0x5B; 0x5C; 0x5D; 0x5E; 0x5F; 0x60; 0x61; 0x62; 0x63; 0x64; 0x65; 0x66; 0x67; 0x68; 0x69; 0x6A; 0x6B; 0x6C; 0x6D; 0x6E; 0x6F; 0x70; 0x71; 0x72; 0x73; 0x74; 0x75; 0x76; 0x77; 0x78; 0x79; 0x7A; 0x7B; 0x7C; 0x7D; 0x7E]%N) impls.
Proof. repeat (apply Forall_cons; [vm_compute; repeat split; reflexivity|]). apply Forall_nil. Qed.
(** convert_test.cpp:338-380 *)
Example incremental : snd (decoder_run dinit [0x5B; 0xC3; 0xB6; 0xE2; 0x82; 0xAC; 0xF0; 0x9F; 0x98; 0x80]%N) = [0x5B; 0xF6; 0x20AC; 0x1F600]%N.
Proof. vm_compute. repeat split; reflexivity. Qed.
(** utf8_test.cpp:41-58 *)
Example bytes_1 : to_utf8_char 0x5B = [0x5B]%N /\ snd (from_utf8 dinit 0x5B) = Success 0x5B.
Proof. vm_compute. repeat split; reflexivity. Qed.
(** utf8_test.cpp:60-81 *)
Example bytes_2 : to_utf8_char 0xF6 = [0xC3; 0xB6]%N /\ from_utf8_buf [0xC3; 0xB6]%N = Ok (Success 0xF6, 2%N, 2%nat).
Proof. vm_compute. repeat split; reflexivity. Qed.
(** utf8_test.cpp:83-103 *)
Example bytes_3 : to_utf8_char 0x20AC = [0xE2; 0x82; 0xAC]%N /\ from_utf8_buf [0xE2; 0x82; 0xAC; 0]%N = Ok (Success 0x20AC, 3%N, 3%nat).
Proof. vm_compute. repeat split; reflexivity. Qed.
(** utf8_test.cpp:105-127 *)
Example bytes_3_dash : to_utf8_char 0x251C = [0xE2; 0x94; 0x9C]%N /\ from_utf8_buf [0xE2; 0x94; 0x9C; 0x61]%N = Ok (Success 0x251C, 3%N, 3%nat).
Proof. vm_compute. repeat split; reflexivity. Qed.
(** utf8_test.cpp:129-138 *)
Example from_utf8_0 : successes (snd (from_utf8_run dinit [0x48; 0x65; 0x6C; 0x6C; 0x6F; 0x2C; 0x20; 0x57; 0x6F; 0x72; 0x6C; 0x64; 0x21]%N)) = [0x48; 0x65; 0x6C; 0x6C; 0x6F; 0x2C; 0x20; 0x57; 0x6F; 0x72; 0x6C; 0x64; 0x21]%N.
Proof. vm_compute. repeat split; reflexivity. Qed.
(** utf8_test.cpp:129-138 *)
Example from_utf8_1 : successes (snd (from_utf8_run dinit [0xF0; 0x9F; 0x98; 0x96; 0x3A; 0x2D; 0x29]%N)) = [0x1F616; 0x3A; 0x2D; 0x29]%N.
Proof. vm_compute. repeat split; reflexivity. Qed.
(** utf8_test.cpp:140-146 *)
Example from_utf8_invalid : successes (snd (from_utf8_run dinit [0x48; 0x69; 0xB1; 0x48; 0x6F]%N)) = [0x48; 0x69; 0x48; 0x6F]%N.
Proof. vm_compute. repeat split; reflexivity. Qed.
(** utf8_test.cpp:148-164 *)
Example incomplete_2 : snd (from_utf8_run dinit [0xC7; 0xC7; 0x8E]%N) = [Incomplete; Invalid; Success 0x1CE].
Proof. vm_compute. repeat split; reflexivity. Qed.
(** utf8_test.cpp:166-186 *)
Example incomplete_3 : snd (from_utf8_run dinit [0xE2; 0x82; 0xE2; 0x82; 0xAC]%N) = [Incomplete; Incomplete; Invalid; Incomplete; Success 0x20AC].
Proof. vm_compute. repeat split; reflexivity. Qed.
(** utf8_test.cpp:188-217 *)
Example incomplete_4 : snd (from_utf8_run dinit [0xF0; 0x9F; 0x8D; 0xF0; 0x9F; 0x8D; 0xA3]%N) = [Incomplete; Incomplete; Incomplete; Invalid; Incomplete; Incomplete; Success 0x1F363].
Proof. vm_compute. repeat split; reflexivity. Qed.
(** utf8_test.cpp:219-261 *)
Example iter : snd (from_utf8_run dinit [0x5B; 0xC3; 0xB6; 0xE2; 0x82; 0xAC; 0xF0; 0x9F; 0x98; 0x80]%N) = [Success 0x5B; Incomplete; Success 0xF6; Incomplete; Incomplete; Success 0x20AC; Incomplete; Incomplete; Incomplete; Success 0x1F600].
Proof. vm_compute. repeat split; reflexivity. Qed.
(** capi_test.cpp:25-34 *)
Example gc_count_0 : u32_gc_count rt []%N = Ok 0.
Proof. vm_compute. repeat split; reflexivity. Qed.
(** capi_test.cpp:25-34 *)
Example gc_count_1 : u32_gc_count rt [0x1F600; 0xFE0E]%N = Ok 1.
Proof. vm_compute. repeat split; reflexivity. Qed.
(** capi_test.cpp:25-34 *)
Example gc_count_2 : u32_gc_count rt [0x1F600; 0xFE0E; 0x1F600]%N = Ok 2.
Proof. vm_compute. repeat split; reflexivity. Qed.
(** capi_test.cpp:25-34 *)
Example gc_count_3 : u32_gc_count rt [0x59; 0x65; 0x6F]%N = Ok 3.
Proof. vm_compute. repeat split; reflexivity. Qed.
(** capi_test.cpp:25-34 *)
Example gc_count_4 : u32_gc_count rt [0x48; 0x69; 0x20; 0x1F600; 0xFE0E]%N = Ok 4.
Proof. vm_compute. repeat split; reflexivity. Qed.
(** capi_test.cpp:25-34 *)
Example gc_count_5 : u32_gc_count rt [0x31; 0x32; 0x33; 0x34]%N = Ok 4.
Proof. vm_compute. repeat split; reflexivity. Qed.
(** capi_test.cpp:25-34 *)
Example gc_count_6 : u32_gc_count rt [0x1F468; 0x1F3FE; 0x200D; 0x1F9B3]%N = Ok 1.
Proof. vm_compute. repeat split; reflexivity. Qed.
(** capi_test.cpp:36-58 *)
Example stream_convert : snd (stream_chunk dinit [0x5B; 0xC3; 0xB6; 0xE2; 0x82; 0xAC; 0xF0; 0x9F; 0x98; 0x80]%N) = [0x5B; 0xF6; 0x20AC; 0x1F600]%N /\ u32u8_convert [0x5B; 0xF6; 0x20AC; 0x1F600]%N (repeat 0%N 32) = Ok (10, [0x5B; 0xC3; 0xB6; 0xE2; 0x82; 0xAC; 0xF0; 0x9F; 0x98; 0x80]%N ++ repeat 0%N 22).
Proof. vm_compute. repeat split; reflexivity. Qed.
