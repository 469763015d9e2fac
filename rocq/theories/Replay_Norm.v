(** Assertions of normalization_test.cpp (decomposition_type: C72), replayed on the model.  Written by tools/gen_replay.py.  These are tests of the model, not theorems. *)
From Verif Require Import Base M_Ucd M_Utf8 M_Convert M_Normalize M_NormUtf8 Norm_Demo Replay_Table.
Require Import ZArith List.
Import ListNotations.
Open Scope Z_scope.

(** The UCD entries of the code points used. *)
Definition rnorm : norm_tables := {|
  t_ccc := [(0x300, 230); (0x301, 230); (0x303, 230); (0x308, 230); (0x327, 202); (0x328, 202)];
  t_canon := [(0xE9, [0x65; 0x301]); (0xEF, [0x69; 0x308]); (0xF1, [0x6E; 0x303])];
  t_compat := [(0xB2, [0x32]); (0xFB01, [0x66; 0x69]); (0xFF21, [0x41])];
  t_comp := [(0x65, 0x301, 0xE9); (0x69, 0x308, 0xEF); (0x6E, 0x303, 0xF1)];
  t_excl := [0x958]; t_nfc_no := [0x340; 0x344; 0x958]; t_nfc_maybe := [0x300; 0x301; 0x303; 0x308; 0x327; 0x328] ++ nrange 0x1161 21 ++ nrange 0x11A8 27;
  t_nfkc_no := [0xB2; 0x340; 0x344; 0x958; 0xFB01; 0xFF21]; t_nfkc_maybe := [0x300; 0x301; 0x303; 0x308; 0x327; 0x328] ++ nrange 0x1161 21 ++ nrange 0x11A8 27;
  t_nfd_no := [0xE9; 0xEF; 0xF1] ++ nrange 0xAC00 11172; t_nfkd_no := [0xB2; 0xE9; 0xEF; 0xF1] ++ nrange 0xAC00 11172 ++ [0xFB01; 0xFF21] |}%N.
Notation "f ~ x => y" := (normalize rnorm 10 x f = Ok y) (at level 70, x at next level).
(** normalization_test.cpp:21 *)
Example norm_21 : map (canonical_combining_class rnorm) [0x41; 0x61; 0x20; 0x300; 0x301; 0x327; 0x328]%N = [0; 0; 0; 230; 230; 202; 202]%N.
Proof. vm_compute. repeat split; reflexivity. Qed.
(** normalization_test.cpp:35 *)
Example norm_35 : is_hangul_syllable 0xAC00 = true /\ is_hangul_syllable 0x41 = false /\ is_hangul_syllable 0x1100 = false /\ is_hangul_l_jamo 0x1100 = true /\ is_hangul_v_jamo 0x1161 = true /\ is_hangul_t_jamo 0x11A8 = true.
Proof. vm_compute. repeat split; reflexivity. Qed.
(** normalization_test.cpp:47 *)
Example norm_47 : hangul_decompose 0xAC00 = [0x1100; 0x1161]%N /\ hangul_decompose 0xAC01 = [0x1100; 0x1161; 0x11A8]%N.
Proof. vm_compute. repeat split; reflexivity. Qed.
(** normalization_test.cpp:64 *)
Example norm_64 : hangul_compose 0x1100 0x1161 0 = 0xAC00%N /\ hangul_compose 0x1100 0x1161 0x11A8 = 0xAC01%N.
Proof. vm_compute. repeat split; reflexivity. Qed.
(** normalization_test.cpp:73 *)
Example norm_73 : canonical_decomposition rnorm 0xE9 = [0x65; 0x301]%N /\ canonical_decomposition rnorm 0xF1 = [0x6E; 0x303]%N /\ canonical_decomposition rnorm 0x41 = [].
Proof. vm_compute. repeat split; reflexivity. Qed.
(** normalization_test.cpp:92 *)
Example norm_92 : NFD ~ [0xE9]%N => [0x65; 0x301]%N /\ NFD ~ [0x65; 0x301]%N => [0x65; 0x301]%N /\ NFD ~ [0x68; 0x65; 0x6C; 0x6C; 0x6F]%N => [0x68; 0x65; 0x6C; 0x6C; 0x6F]%N.
Proof. vm_compute. repeat split; reflexivity. Qed.
(** normalization_test.cpp:107 *)
Example norm_107 : NFC ~ [0x65; 0x301]%N => [0xE9]%N /\ NFC ~ [0xE9]%N => [0xE9]%N /\ NFC ~ [0x68; 0x65; 0x6C; 0x6C; 0x6F]%N => [0x68; 0x65; 0x6C; 0x6C; 0x6F]%N.
Proof. vm_compute. repeat split; reflexivity. Qed.
(** normalization_test.cpp:122-136, every vector unit *)
Example norm_122 : Forall (fun i => normalize8 rnorm i 10 [0x63; 0x61; 0x66; 0xC3; 0xA9]%N NFD = Ok [0x63; 0x61; 0x66; 0x65; 0xCC; 0x81]%N /\ normalize8 rnorm i 10 [0x63; 0x61; 0x66; 0x65; 0xCC; 0x81]%N NFC = Ok [0x63; 0x61; 0x66; 0xC3; 0xA9]%N) impls.
Proof. repeat (apply Forall_cons; [vm_compute; repeat split; reflexivity|]). apply Forall_nil. Qed.
(** normalization_test.cpp:138 *)
Example norm_138 : quick_check rnorm [0x68; 0x65; 0x6C; 0x6C; 0x6F]%N NFC = Yes /\ quick_check rnorm [0x68; 0x65; 0x6C; 0x6C; 0x6F]%N NFD = Yes /\ quick_check rnorm [0xE9]%N NFC = Yes.
Proof. vm_compute. repeat split; reflexivity. Qed.
(** normalization_test.cpp:149 *)
Example norm_149 : is_normalized rnorm 10 [0x68; 0x65; 0x6C; 0x6C; 0x6F]%N NFC = Ok true /\ is_normalized rnorm 10 [0x68; 0x65; 0x6C; 0x6C; 0x6F]%N NFD = Ok true /\ is_normalized rnorm 10 [0xE9]%N NFC = Ok true /\ is_normalized rnorm 10 [0x65; 0x301]%N NFD = Ok true.
Proof. vm_compute. repeat split; reflexivity. Qed.
(** normalization_test.cpp:162 *)
Example norm_162 : is_canonically_equivalent rnorm 10 [0xE9]%N [0x65; 0x301]%N = Ok true /\ is_canonically_equivalent rnorm 10 [0x68; 0x65; 0x6C; 0x6C; 0x6F]%N [0x68; 0x65; 0x6C; 0x6C; 0x6F]%N = Ok true /\ is_canonically_equivalent rnorm 10 [0x68; 0x65; 0x6C; 0x6C; 0x6F]%N [0x77; 0x6F; 0x72; 0x6C; 0x64]%N = Ok false.
Proof. vm_compute. repeat split; reflexivity. Qed.
(** normalization_test.cpp:174-179, every vector unit *)
Example norm_174 : Forall (fun i => is_canonically_equivalent8 rnorm i 10 [0x68; 0x65; 0x6C; 0x6C; 0x6F]%N [0x68; 0x65; 0x6C; 0x6C; 0x6F]%N = Ok true /\ is_canonically_equivalent8 rnorm i 10 [0x68; 0x65; 0x6C; 0x6C; 0x6F]%N [0x77; 0x6F; 0x72; 0x6C; 0x64]%N = Ok false) impls.
Proof. repeat (apply Forall_cons; [vm_compute; repeat split; reflexivity|]). apply Forall_nil. Qed.
(** normalization_test.cpp:181 *)
Example norm_181 : NFD ~ [0x61; 0x327; 0x301]%N => [0x61; 0x327; 0x301]%N /\ NFD ~ [0x61; 0x301; 0x327]%N => [0x61; 0x327; 0x301]%N.
Proof. vm_compute. repeat split; reflexivity. Qed.
(** normalization_test.cpp:200 *)
Example norm_200 : is_composition_exclusion rnorm 0x344 = false.
Proof. vm_compute. repeat split; reflexivity. Qed.
(** normalization_test.cpp:225 *)
Example norm_225 : NFKD ~ [0xFB01]%N => [0x66; 0x69]%N /\ NFKD ~ [0xB2]%N => [0x32]%N /\ NFKD ~ [0xFF21]%N => [0x41]%N /\ NFKD ~ [0xE9]%N => [0x65; 0x301]%N /\ NFKD ~ [0x68; 0x65; 0x6C; 0x6C; 0x6F]%N => [0x68; 0x65; 0x6C; 0x6C; 0x6F]%N.
Proof. vm_compute. repeat split; reflexivity. Qed.
(** normalization_test.cpp:248 *)
Example norm_248 : NFKC ~ [0xFB01]%N => [0x66; 0x69]%N /\ NFKC ~ [0xB2]%N => [0x32]%N /\ NFKC ~ [0xFF21]%N => [0x41]%N /\ NFKC ~ [0xE9]%N => [0xE9]%N /\ NFKC ~ [0x65; 0x301]%N => [0xE9]%N /\ NFKC ~ [0x68; 0x65; 0x6C; 0x6C; 0x6F]%N => [0x68; 0x65; 0x6C; 0x6C; 0x6F]%N.
Proof. vm_compute. repeat split; reflexivity. Qed.
(** normalization_test.cpp:275 *)
Example norm_275 : NFD ~ [0xFB01]%N => [0xFB01]%N.
Proof. vm_compute. repeat split; reflexivity. Qed.
(** normalization_test.cpp:282 *)
Example norm_282 : is_compatibility_equivalent rnorm 10 [0xFB01]%N [0x66; 0x69]%N = Ok true /\ is_compatibility_equivalent rnorm 10 [0xB2]%N [0x32]%N = Ok true /\ is_compatibility_equivalent rnorm 10 [0xFF21]%N [0x41]%N = Ok true.
Proof. vm_compute. repeat split; reflexivity. Qed.
(** normalization_test.cpp:293 *)
Example norm_293 : nfd_quick_check rnorm 0xE9 = false /\ nfd_quick_check rnorm 0x41 = true /\ nfd_quick_check rnorm 0x301 = true.
Proof. vm_compute. repeat split; reflexivity. Qed.
(** normalization_test.cpp:305 *)
Example norm_305 : nfc_quick_check rnorm 0x301 = Maybe /\ nfc_quick_check rnorm 0x41 = Yes.
Proof. vm_compute. repeat split; reflexivity. Qed.
(** normalization_test.cpp:314 *)
Example norm_314 : nfkd_quick_check rnorm 0xFB01 = false /\ nfkd_quick_check rnorm 0xE9 = false /\ nfkd_quick_check rnorm 0x41 = true.
Proof. vm_compute. repeat split; reflexivity. Qed.
(** normalization_test.cpp:326 *)
Example norm_326 : nfkc_quick_check rnorm 0xFB01 = No /\ nfkc_quick_check rnorm 0x41 = Yes.
Proof. vm_compute. repeat split; reflexivity. Qed.
(** normalization_test.cpp:335 *)
Example norm_335 : map (quick_check rnorm [0xFB01]%N) [NFC; NFKC; NFD; NFKD] = [Yes; No; Yes; No].
Proof. vm_compute. repeat split; reflexivity. Qed.
(** normalization_test.cpp:370 *)
Example norm_370 : nfeed rnorm 10 NFC [] 0x65 = Ok ([], [0x65]%N) /\ nfeed rnorm 10 NFC [0x65]%N 0x301 = Ok ([], [0x65; 0x301]%N) /\ nfeed rnorm 10 NFC [0x65; 0x301]%N 0x78 = Ok ([0xE9], [0x78])%N /\ emit_pending rnorm 10 NFC [0x78]%N = Ok [0x78]%N.
Proof. vm_compute. repeat split; reflexivity. Qed.
(** normalization_test.cpp:389 *)
Example norm_389 : nfeed rnorm 10 NFD [] 0xE9 = Ok ([], [0xE9]%N) /\ emit_pending rnorm 10 NFD [0xE9]%N = Ok [0x65; 0x301]%N.
Proof. vm_compute. repeat split; reflexivity. Qed.
(** normalization_test.cpp:400 *)
Example norm_400 : emit_pending rnorm 10 NFC [] = Ok [].
Proof. vm_compute. repeat split; reflexivity. Qed.
(** normalization_test.cpp:408 *)
Example norm_408 : stream_normalize rnorm 10 NFC [0x68; 0x65; 0x6C; 0x6C; 0x6F]%N = Ok [0x68; 0x65; 0x6C; 0x6C; 0x6F]%N.
Proof. vm_compute. repeat split; reflexivity. Qed.
(** normalization_test.cpp:423 *)
Example norm_423 : stream_normalize rnorm 10 NFD [0x301; 0x327]%N = Ok [0x327; 0x301]%N.
Proof. vm_compute. repeat split; reflexivity. Qed.
(** normalization_test.cpp:438 *)
Example norm_438 : stream_normalize rnorm 10 NFC [0x1100; 0x1161]%N = Ok [0xAC00]%N.
Proof. vm_compute. repeat split; reflexivity. Qed.
(** normalization_test.cpp:484 *)
Example norm_484 : stream_normalize rnorm 10 NFC [0x63; 0x61; 0x66; 0x65; 0x301]%N = Ok [0x63; 0x61; 0x66; 0xE9]%N.
Proof. vm_compute. repeat split; reflexivity. Qed.
(** normalization_test.cpp:451 *)
Example norm_451 : stream_normalize rnorm 10 NFC [0x63; 0x61; 0x66; 0xE9; 0x20; 0x6E; 0x61; 0xEF; 0x76; 0x65; 0x20; 0x72; 0xE9; 0x73; 0x75; 0x6D; 0xE9]%N = normalize rnorm 10 [0x63; 0x61; 0x66; 0xE9; 0x20; 0x6E; 0x61; 0xEF; 0x76; 0x65; 0x20; 0x72; 0xE9; 0x73; 0x75; 0x6D; 0xE9]%N NFC /\ stream_normalize rnorm 10 NFD [0x63; 0x61; 0x66; 0xE9; 0x20; 0x6E; 0x61; 0xEF; 0x76; 0x65; 0x20; 0x72; 0xE9; 0x73; 0x75; 0x6D; 0xE9]%N = normalize rnorm 10 [0x63; 0x61; 0x66; 0xE9; 0x20; 0x6E; 0x61; 0xEF; 0x76; 0x65; 0x20; 0x72; 0xE9; 0x73; 0x75; 0x6D; 0xE9]%N NFD /\ stream_normalize rnorm 10 NFKC [0x63; 0x61; 0x66; 0xE9; 0x20; 0x6E; 0x61; 0xEF; 0x76; 0x65; 0x20; 0x72; 0xE9; 0x73; 0x75; 0x6D; 0xE9]%N = normalize rnorm 10 [0x63; 0x61; 0x66; 0xE9; 0x20; 0x6E; 0x61; 0xEF; 0x76; 0x65; 0x20; 0x72; 0xE9; 0x73; 0x75; 0x6D; 0xE9]%N NFKC /\ stream_normalize rnorm 10 NFKD [0x63; 0x61; 0x66; 0xE9; 0x20; 0x6E; 0x61; 0xEF; 0x76; 0x65; 0x20; 0x72; 0xE9; 0x73; 0x75; 0x6D; 0xE9]%N = normalize rnorm 10 [0x63; 0x61; 0x66; 0xE9; 0x20; 0x6E; 0x61; 0xEF; 0x76; 0x65; 0x20; 0x72; 0xE9; 0x73; 0x75; 0x6D; 0xE9]%N NFKD.
Proof. vm_compute. repeat split; reflexivity. Qed.
(** normalization_test.cpp:504 *)
Example norm_504 : (do (o, _) <- urun rnorm 10 NFC unorm_init [Feed [0x63; 0x61; 0x66; 0x65; 0xCC; 0x81; 0x21]%N; Flush] ; Ok (concat o)) = Ok [0x63; 0x61; 0x66; 0xC3; 0xA9; 0x21]%N.
Proof. vm_compute. repeat split; reflexivity. Qed.
(** normalization_test.cpp:516 *)
Example norm_516 : (do (o, _) <- urun rnorm 10 NFC unorm_init [Feed [0xC3]%N; Feed [0xA9]%N; Feed [0x78]%N; Flush] ; Ok (concat o)) = Ok [0xC3; 0xA9; 0x78]%N.
Proof. vm_compute. repeat split; reflexivity. Qed.
(** normalization_test.cpp:530 *)
Example norm_530 : (do (o, _) <- urun rnorm 10 NFC unorm_init [Feed [0x68; 0x65; 0x6C; 0x6C; 0x6F]%N; Reset; Flush] ; Ok (last o [0%N])) = Ok [].
Proof. vm_compute. repeat split; reflexivity. Qed.
(** normalization_test.cpp:545-585 *)
Example norm_545_0 : NFC ~ [0xE9]%N => [0xE9]%N /\ NFD ~ [0xE9]%N => [0x65; 0x301]%N /\ NFKC ~ [0xE9]%N => [0xE9]%N /\ NFKD ~ [0xE9]%N => [0x65; 0x301]%N.
Proof. vm_compute. repeat split; reflexivity. Qed.
(** normalization_test.cpp:545-585 *)
Example norm_545_1 : NFC ~ [0x65; 0x301]%N => [0xE9]%N /\ NFD ~ [0x65; 0x301]%N => [0x65; 0x301]%N /\ NFKC ~ [0x65; 0x301]%N => [0xE9]%N /\ NFKD ~ [0x65; 0x301]%N => [0x65; 0x301]%N.
Proof. vm_compute. repeat split; reflexivity. Qed.
(** normalization_test.cpp:545-585 *)
Example norm_545_2 : NFC ~ [0xFB01]%N => [0xFB01]%N /\ NFD ~ [0xFB01]%N => [0xFB01]%N /\ NFKC ~ [0xFB01]%N => [0x66; 0x69]%N /\ NFKD ~ [0xFB01]%N => [0x66; 0x69]%N.
Proof. vm_compute. repeat split; reflexivity. Qed.
(** normalization_test.cpp:545-585 *)
Example norm_545_3 : NFC ~ [0xFF21]%N => [0xFF21]%N /\ NFD ~ [0xFF21]%N => [0xFF21]%N /\ NFKC ~ [0xFF21]%N => [0x41]%N /\ NFKD ~ [0xFF21]%N => [0x41]%N.
Proof. vm_compute. repeat split; reflexivity. Qed.
(** normalization_test.cpp:545-585 *)
Example norm_545_4 : NFC ~ [0xB2]%N => [0xB2]%N /\ NFD ~ [0xB2]%N => [0xB2]%N /\ NFKC ~ [0xB2]%N => [0x32]%N /\ NFKD ~ [0xB2]%N => [0x32]%N.
Proof. vm_compute. repeat split; reflexivity. Qed.
(** normalization_test.cpp:545-585 *)
Example norm_545_5 : NFC ~ [0xAC00]%N => [0xAC00]%N /\ NFD ~ [0xAC00]%N => [0x1100; 0x1161]%N /\ NFKC ~ [0xAC00]%N => [0xAC00]%N /\ NFKD ~ [0xAC00]%N => [0x1100; 0x1161]%N.
Proof. vm_compute. repeat split; reflexivity. Qed.
(** normalization_test.cpp:545-585 *)
Example norm_545_6 : NFC ~ [0xAC01]%N => [0xAC01]%N /\ NFD ~ [0xAC01]%N => [0x1100; 0x1161; 0x11A8]%N /\ NFKC ~ [0xAC01]%N => [0xAC01]%N /\ NFKD ~ [0xAC01]%N => [0x1100; 0x1161; 0x11A8]%N.
Proof. vm_compute. repeat split; reflexivity. Qed.
(** normalization_test.cpp:545-585 *)
Example norm_545_7 : NFC ~ [0x1100; 0x1161]%N => [0xAC00]%N /\ NFD ~ [0x1100; 0x1161]%N => [0x1100; 0x1161]%N /\ NFKC ~ [0x1100; 0x1161]%N => [0xAC00]%N /\ NFKD ~ [0x1100; 0x1161]%N => [0x1100; 0x1161]%N.
Proof. vm_compute. repeat split; reflexivity. Qed.
(** normalization_test.cpp:545-585 *)
Example norm_545_8 : NFC ~ [0x1100; 0x1161; 0x11A8]%N => [0xAC01]%N /\ NFD ~ [0x1100; 0x1161; 0x11A8]%N => [0x1100; 0x1161; 0x11A8]%N /\ NFKC ~ [0x1100; 0x1161; 0x11A8]%N => [0xAC01]%N /\ NFKD ~ [0x1100; 0x1161; 0x11A8]%N => [0x1100; 0x1161; 0x11A8]%N.
Proof. vm_compute. repeat split; reflexivity. Qed.
