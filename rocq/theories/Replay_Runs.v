(** Assertions of emoji_segmenter_test.cpp, script_segmenter_test.cpp and run_segmenter_test.cpp, replayed on the model.  Written by tools/gen_replay.py.  These are tests of the model, not theorems. *)
From Verif Require Import Base M_Emoji M_Script M_Run.
Require Import ZArith List.
Import ListNotations.
Open Scope Z_scope.

(** EmojiSegmentationCategory of the code points used (multistage_generator.cpp:180-215 applied to the UCD) *)
Definition rcat (c : N) : ecat :=
  match c with
  | 0x31 => EKeycapBase
  | 0x200D => EZwj
  | 0x2626 => ETextPres
  | 0x262A => ETextPres
  | 0x2638 => ETextPres
  | 0x2642 => ETextPres
  | 0x26F9 => EModBase
  | 0x270A => EModBase
  | 0x270C => EModBase
  | 0x270D => EModBase
  | 0x271D => ETextPres
  | 0x2721 => ETextPres
  | 0x2764 => ETextPres
  | 0xFE0E => EVs15
  | 0xFE0F => EVs16
  | 0x1F331 => EEmojiPres
  | 0x1F332 => EEmojiPres
  | 0x1F333 => EEmojiPres
  | 0x1F334 => EEmojiPres
  | 0x1F3F4 => ETagBase
  | 0x1F3FB => EModifier
  | 0x1F3FC => EModifier
  | 0x1F466 => EModBase
  | 0x1F467 => EModBase
  | 0x1F468 => EModBase
  | 0x1F469 => EModBase
  | 0x1F48B => EEmojiPres
  | 0x1F600 => EEmojiPres
  | 0x1F926 => EModBase
  | 0xE0062 => ETagSeq
  | 0xE0063 => ETagSeq
  | 0xE0065 => ETagSeq
  | 0xE0067 => ETagSeq
  | 0xE006C => ETagSeq
  | 0xE006E => ETagSeq
  | 0xE0073 => ETagSeq
  | 0xE0074 => ETagSeq
  | 0xE0077 => ETagSeq
  | 0xE007F => ETagTerm
  | _ => EInvalid
  end%N.
(** Script and Script_Extensions of the code points used *)
Definition rscripts : script_tables := mkScripts (fun c => match c with
  | 0x41 => 4
  | 0x42 => 4
  | 0x43 => 4
  | 0x44 => 4
  | 0x48 => 4
  | 0x58 => 4
  | 0x61 => 4
  | 0x62 => 4
  | 0x63 => 4
  | 0x64 => 4
  | 0x65 => 4
  | 0x66 => 4
  | 0x67 => 4
  | 0x6C => 4
  | 0x6F => 4
  | 0x79 => 4
  | 0x7A => 4
  | 0x300 => 2
  | 0x301 => 2
  | 0x302 => 2
  | 0x304 => 2
  | 0x308 => 2
  | 0x30A => 2
  | 0x3B1 => 5
  | 0x3B2 => 5
  | 0x3B3 => 5
  | 0x3BB => 5
  | 0x531 => 11
  | 0x532 => 11
  | 0x533 => 11
  | 0x561 => 11
  | 0x562 => 11
  | 0x563 => 11
  | 0x635 => 7
  | 0x646 => 7
  | 0x902 => 9
  | 0x90B => 9
  | 0x915 => 9
  | 0x92F => 9
  | 0x937 => 9
  | 0x93F => 9
  | 0x947 => 9
  | 0x94B => 9
  | 0x200D => 2
  | 0x3044 => 10
  | 0x3068 => 10
  | 0x306B => 10
  | 0x306F => 10
  | 0x3078 => 10
  | 0x307B => 10
  | 0x308D => 10
  | 0x5408 => 6
  | 0x59D3 => 6
  | 0x5BB6 => 6
  | 0x6C17 => 6
  | 0x767E => 6
  | 0x9053 => 6
  | 0xC2A4 => 8
  | 0xC758 => 8
  | 0xD0A4 => 8
  | 0xE0B0 => 3
  | 0xFE0E => 2
  | 0xFE0F => 2
  | _ => 1
  end%N)
  (fun c => match c with
  | 0x300 => Some [12; 13; 14; 5; 4; 15; 16; 17]
  | 0x301 => Some [12; 14; 5; 4; 18; 16; 17; 19]
  | 0x302 => Some [12; 14; 4; 20]
  | 0x304 => Some [21; 12; 13; 14; 22; 5; 4; 18; 23; 20; 19]
  | 0x308 => Some [11; 14; 24; 22; 5; 25; 4; 15; 23; 17]
  | 0x30A => Some [24; 4; 23]
  | _ => None
  end%N).
(** emoji_segmenter_test.cpp:71 *)
Example emoji_71 : (do s <- eseg_new (map rcat [0x1F600]%N) ; eseg_all 40 40 s) = Ok [(1%nat, true)].
Proof. vm_compute. reflexivity. Qed.
(** emoji_segmenter_test.cpp:76 *)
Example emoji_76 : (do s <- eseg_new (map rcat [0x1F600; 0xFE0E]%N) ; eseg_all 40 40 s) = Ok [(2%nat, false)].
Proof. vm_compute. reflexivity. Qed.
(** emoji_segmenter_test.cpp:81 *)
Example emoji_81 : (do s <- eseg_new (map rcat [0x41; 0x42; 0x1F600]%N) ; eseg_all 40 40 s) = Ok [(2%nat, false); (3%nat, true)].
Proof. vm_compute. reflexivity. Qed.
(** emoji_segmenter_test.cpp:86 *)
Example emoji_86 : (do s <- eseg_new (map rcat [0x1F600; 0x41]%N) ; eseg_all 40 40 s) = Ok [(1%nat, true); (2%nat, false)].
Proof. vm_compute. reflexivity. Qed.
(** emoji_segmenter_test.cpp:95 *)
Example emoji_95 : (do s <- eseg_new (map rcat [0x1F600; 0x1F600]%N) ; eseg_all 40 40 s) = Ok [(2%nat, true)].
Proof. vm_compute. reflexivity. Qed.
(** emoji_segmenter_test.cpp:103 *)
Example emoji_103 : (do s <- eseg_new (map rcat [0x41; 0x42; 0x20; 0x1F600]%N) ; eseg_all 40 40 s) = Ok [(3%nat, false); (4%nat, true)].
Proof. vm_compute. reflexivity. Qed.
(** emoji_segmenter_test.cpp:112 *)
Example emoji_112 : (do s <- eseg_new (map rcat [0x270C; 0xFE0E]%N) ; eseg_all 40 40 s) = Ok [(2%nat, false)].
Proof. vm_compute. reflexivity. Qed.
(** emoji_segmenter_test.cpp:120 *)
Example emoji_120 : (do s <- eseg_new (map rcat [0x270C; 0x270C; 0xFE0E; 0x270C]%N) ; eseg_all 40 40 s) = Ok [(1%nat, true); (3%nat, false); (4%nat, true)].
Proof. vm_compute. reflexivity. Qed.
(** emoji_segmenter_test.cpp:130 *)
Example emoji_130 : (do s <- eseg_new (map rcat [0x48; 0x65; 0x6C; 0x6C; 0x6F; 0x28; 0x270C; 0x1F926; 0x1F3FC; 0x200D; 0x2642; 0xFE0F; 0x270C; 0xFE0E; 0x20; 0x3A; 0x2D; 0x29; 0x270C; 0x29; 0x5408; 0x21]%N) ; eseg_all 40 40 s) = Ok [(6%nat, false); (12%nat, true); (18%nat, false); (19%nat, true); (22%nat, false)].
Proof. vm_compute. reflexivity. Qed.
(** script_segmenter_test.cpp:22 *)
Example script_22 : script_runs rscripts 40 (sseg_new [0xE0B0]%N) = Ok [(3%N, 1%nat)].
Proof. vm_compute. reflexivity. Qed.
(** script_segmenter_test.cpp:34 *)
Example script_34 : script_runs rscripts 40 (sseg_new [0x31; 0x61]%N) = Ok [(4%N, 2%nat)].
Proof. vm_compute. reflexivity. Qed.
(** script_segmenter_test.cpp:51 *)
Example script_51 : script_runs rscripts 40 (sseg_new [0x3BB; 0x20; 0x5408; 0x6C17; 0x9053; 0x20; 0x3BB; 0x3B]%N) = Ok [(5%N, 2%nat); (6%N, 6%nat); (5%N, 8%nat)].
Proof. vm_compute. reflexivity. Qed.
(** script_segmenter_test.cpp:82 *)
Example script_82 : script_runs rscripts 40 (sseg_new [0x41; 0x42; 0x20; 0x3BB; 0x3B]%N) = Ok [(4%N, 3%nat); (5%N, 5%nat)].
Proof. vm_compute. reflexivity. Qed.
(** run_segmenter_test.cpp:71 *)
Example runs_71 : run_segments rscripts rcat 60 60 60 []%N = Ok [].
Proof. vm_compute. reflexivity. Qed.
(** run_segmenter_test.cpp:83 *)
Example runs_83 : run_segments rscripts rcat 60 60 60 [0x1F600; 0xFE0E]%N = Ok [(0%nat, 2%nat, [PScript 1; PEmoji false])].
Proof. vm_compute. reflexivity. Qed.
(** run_segmenter_test.cpp:91 *)
Example runs_91 : run_segments rscripts rcat 60 60 60 [0x41; 0x1F600]%N = Ok [(0%nat, 1%nat, [PScript 4; PEmoji false]); (1%nat, 2%nat, [PScript 4; PEmoji true])].
Proof. vm_compute. reflexivity. Qed.
(** run_segmenter_test.cpp:100 *)
Example runs_100 : run_segments rscripts rcat 60 60 60 [0x41; 0x20; 0x1F600]%N = Ok [(0%nat, 2%nat, [PScript 4; PEmoji false]); (2%nat, 3%nat, [PScript 4; PEmoji true])].
Proof. vm_compute. reflexivity. Qed.
(** run_segmenter_test.cpp:109 *)
Example runs_109 : run_segments rscripts rcat 60 60 60 [0x41; 0x42; 0x1F600; 0x43; 0x44]%N = Ok [(0%nat, 2%nat, [PScript 4; PEmoji false]); (2%nat, 3%nat, [PScript 4; PEmoji true]); (3%nat, 5%nat, [PScript 4; PEmoji false])].
Proof. vm_compute. reflexivity. Qed.
(** run_segmenter_test.cpp:119 *)
Example runs_119 : run_segments rscripts rcat 60 60 60 [0x41; 0x62; 0x63; 0x2E; 0x3B; 0x3F; 0x58; 0x79; 0x7A]%N = Ok [(0%nat, 9%nat, [PScript 4; PEmoji false])].
Proof. vm_compute. reflexivity. Qed.
(** run_segmenter_test.cpp:124 *)
Example runs_124 : run_segments rscripts rcat 60 60 60 [0x20]%N = Ok [(0%nat, 1%nat, [PScript 1; PEmoji false])].
Proof. vm_compute. reflexivity. Qed.
(** run_segmenter_test.cpp:129 *)
Example runs_129 : run_segments rscripts rcat 60 60 60 [0x646; 0x635; 0xD0A4; 0xC2A4; 0xC758]%N = Ok [(0%nat, 2%nat, [PScript 7; PEmoji false]); (2%nat, 5%nat, [PScript 8; PEmoji false])].
Proof. vm_compute. reflexivity. Qed.
(** run_segmenter_test.cpp:135 *)
Example runs_135 : run_segments rscripts rcat 60 60 60 [0x767E; 0x5BB6; 0x59D3; 0x90B; 0x937; 0x93F; 0x92F; 0x94B; 0x902; 0x1F331; 0x1F332; 0x1F333; 0x1F334; 0x767E; 0x5BB6; 0x59D3; 0x1F331; 0x1F332]%N = Ok [(0%nat, 3%nat, [PScript 6; PEmoji false]); (3%nat, 9%nat, [PScript 9; PEmoji false]); (9%nat, 13%nat, [PScript 9; PEmoji true]); (13%nat, 16%nat, [PScript 6; PEmoji false]); (16%nat, 18%nat, [PScript 6; PEmoji true])].
Proof. vm_compute. reflexivity. Qed.
(** run_segmenter_test.cpp:145 *)
Example runs_145 : run_segments rscripts rcat 60 60 60 [0x25CC; 0x301; 0x25CC; 0x300; 0x25CC; 0x308; 0x25CC; 0x302; 0x25CC; 0x304; 0x25CC; 0x30A]%N = Ok [(0%nat, 12%nat, [PScript 4; PEmoji false])].
Proof. vm_compute. reflexivity. Qed.
(** run_segmenter_test.cpp:169 *)
Example runs_169 : run_segments rscripts rcat 60 60 60 [0x2300; 0x2301; 0x2302]%N = Ok [(0%nat, 3%nat, [PScript 1; PEmoji false])].
Proof. vm_compute. reflexivity. Qed.
(** run_segmenter_test.cpp:177 *)
Example runs_177 : run_segments rscripts rcat 60 60 60 [0x2E; 0x2026; 0xA1]%N = Ok [(0%nat, 3%nat, [PScript 1; PEmoji false])].
Proof. vm_compute. reflexivity. Qed.
(** run_segmenter_test.cpp:192 *)
Example runs_192 : run_segments rscripts rcat 60 60 60 [0x3044; 0x308D; 0x306F; 0x306B; 0x2E; 0x2026; 0xA1; 0x307B; 0x3078; 0x3068]%N = Ok [(0%nat, 10%nat, [PScript 10; PEmoji false])].
Proof. vm_compute. reflexivity. Qed.
(** run_segmenter_test.cpp:200 *)
Example runs_200 : run_segments rscripts rcat 60 60 60 [0x915; 0x2B; 0x947]%N = Ok [(0%nat, 3%nat, [PScript 9; PEmoji false])].
Proof. vm_compute. reflexivity. Qed.
(** run_segmenter_test.cpp:208 *)
Example runs_208 : run_segments rscripts rcat 60 60 60 [0x1F469; 0x200D; 0x1F469; 0x200D; 0x1F467; 0x200D; 0x1F466; 0x1F469; 0x200D; 0x2764; 0xFE0F; 0x200D; 0x1F48B; 0x200D; 0x1F468; 0x61; 0x62; 0x63; 0x64; 0x1F469; 0x200D; 0x1F469; 0x200D; 0x200D; 0x65; 0x66; 0x67]%N = Ok [(0%nat, 15%nat, [PScript 4; PEmoji true]); (15%nat, 19%nat, [PScript 4; PEmoji false]); (19%nat, 22%nat, [PScript 4; PEmoji true]); (22%nat, 27%nat, [PScript 4; PEmoji false])].
Proof. vm_compute. reflexivity. Qed.
(** run_segmenter_test.cpp:239 *)
Example runs_239 : run_segments rscripts rcat 60 60 60 [0x26F9; 0x1F3FB; 0x270D; 0x1F3FB; 0x270A; 0x1F3FC]%N = Ok [(0%nat, 6%nat, [PScript 1; PEmoji true])].
Proof. vm_compute. reflexivity. Qed.
(** run_segmenter_test.cpp:244 *)
Example runs_244 : run_segments rscripts rcat 60 60 60 [0x561; 0x562; 0x563; 0x3B1; 0x3B2; 0x3B3; 0x531; 0x532; 0x533]%N = Ok [(0%nat, 3%nat, [PScript 11; PEmoji false]); (3%nat, 6%nat, [PScript 5; PEmoji false]); (6%nat, 9%nat, [PScript 11; PEmoji false])].
Proof. vm_compute. reflexivity. Qed.
(** run_segmenter_test.cpp:252 *)
Example runs_252 : run_segments rscripts rcat 60 60 60 [0x1F3F4; 0xE0067; 0xE0062; 0xE0077; 0xE006C; 0xE0073; 0xE007F; 0x1F3F4; 0xE0067; 0xE0062; 0xE0073; 0xE0063; 0xE0074; 0xE007F; 0x1F3F4; 0xE0067; 0xE0062; 0xE0065; 0xE006E; 0xE0067; 0xE007F]%N = Ok [(0%nat, 21%nat, [PScript 1; PEmoji true])].
Proof. vm_compute. reflexivity. Qed.
(** run_segmenter_test.cpp:261 *)
Example runs_261 : run_segments rscripts rcat 60 60 60 [0x2626; 0x262A; 0x2638; 0x271D; 0x2721; 0x2627; 0x2628; 0x2629; 0x262B; 0x262C; 0x2670; 0x2671; 0x271F; 0x2720]%N = Ok [(0%nat, 14%nat, [PScript 1; PEmoji false])].
Proof. vm_compute. reflexivity. Qed.
