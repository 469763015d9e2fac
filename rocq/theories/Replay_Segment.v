(** Assertions of grapheme_segmenter_test.cpp, utf8_grapheme_segmenter_test.cpp and the manual tests of word_segmenter_test.cpp, replayed on the model.  Written by tools/gen_replay.py.  These are tests of the model, not theorems. *)
From Verif Require Import Base M_Ucd Ucd_Demo M_Utf8 M_Grapheme M_Utf8Grapheme M_Word Replay_Table.
Require Import ZArith List.
Import ListNotations.
Open Scope Z_scope.

(** grapheme_segmenter_test.cpp:23-39 *)
Example graphemes_23 : grapheme_clusters rt [0x61; 0x62; 0x21; 0x2E]%N = Ok [[0x61]%N; [0x62]%N; [0x21]%N; [0x2E]%N].
Proof. vm_compute. reflexivity. Qed.
(** grapheme_segmenter_test.cpp:41-48 *)
Example graphemes_41 : grapheme_clusters rt [0x67; 0x308]%N = Ok [[0x67; 0x308]%N].
Proof. vm_compute. reflexivity. Qed.
(** grapheme_segmenter_test.cpp:50-57 *)
Example graphemes_50 : grapheme_clusters rt [0x1F441; 0xFE0F; 0x200D; 0x1F5E8; 0xFE0F]%N = Ok [[0x1F441; 0xFE0F; 0x200D; 0x1F5E8; 0xFE0F]%N].
Proof. vm_compute. reflexivity. Qed.
(** grapheme_segmenter_test.cpp:59-66 *)
Example graphemes_59 : grapheme_clusters rt [0x1F468; 0x200D; 0x1F9B0]%N = Ok [[0x1F468; 0x200D; 0x1F9B0]%N].
Proof. vm_compute. reflexivity. Qed.
(** grapheme_segmenter_test.cpp:68-72 *)
Example graphemes_68 : grapheme_clusters rt [0x1F468; 0x200D; 0x1F469; 0x200D; 0x1F467]%N = Ok [[0x1F468; 0x200D; 0x1F469; 0x200D; 0x1F467]%N].
Proof. vm_compute. reflexivity. Qed.
(** grapheme_segmenter_test.cpp:74-81 *)
Example graphemes_74 : grapheme_clusters rt [0x1F926; 0x1F3FC; 0x200D; 0x2642; 0xFE0F]%N = Ok [[0x1F926; 0x1F3FC; 0x200D; 0x2642; 0xFE0F]%N].
Proof. vm_compute. reflexivity. Qed.
(** grapheme_segmenter_test.cpp:85-93 *)
Example graphemes_85 : grapheme_clusters rt [0x1F6D1; 0x200D; 0x1F6D1]%N = Ok [[0x1F6D1; 0x200D; 0x1F6D1]%N].
Proof. vm_compute. reflexivity. Qed.
(** grapheme_segmenter_test.cpp:95-103 *)
Example graphemes_95 : grapheme_clusters rt [0x1F6D1; 0x308; 0x200D; 0x1F6D1]%N = Ok [[0x1F6D1; 0x308; 0x200D; 0x1F6D1]%N].
Proof. vm_compute. reflexivity. Qed.
(** grapheme_segmenter_test.cpp:105-116 *)
Example graphemes_105 : grapheme_clusters rt [0x200D; 0xA9]%N = Ok [[0x200D]%N; [0xA9]%N].
Proof. vm_compute. reflexivity. Qed.
(** grapheme_segmenter_test.cpp:118-129 *)
Example graphemes_118 : grapheme_clusters rt [0x61; 0x200D; 0x1F6D1]%N = Ok [[0x61; 0x200D]%N; [0x1F6D1]%N].
Proof. vm_compute. reflexivity. Qed.
(** grapheme_segmenter_test.cpp:131-145 *)
Example graphemes_131 : grapheme_clusters rt [0x1F6D1; 0x61; 0x200D; 0x1F6D1]%N = Ok [[0x1F6D1]%N; [0x61; 0x200D]%N; [0x1F6D1]%N].
Proof. vm_compute. reflexivity. Qed.
(** grapheme_segmenter_test.cpp:157-181 *)
Example graphemes_157 : grapheme_clusters rt [0x58; 0x1F926; 0x1F3FC; 0x200D; 0x2642; 0xFE0F; 0x35]%N = Ok [[0x58]%N; [0x1F926; 0x1F3FC; 0x200D; 0x2642; 0xFE0F]%N; [0x35]%N].
Proof. vm_compute. reflexivity. Qed.
(** grapheme_segmenter_test.cpp:183-207 *)
Example graphemes_183 : grapheme_clusters rt [0x1F1E9; 0x1F1E9; 0x1F1E9; 0x1F1E9; 0x1F1EF; 0x1F1F5]%N = Ok [[0x1F1E9; 0x1F1E9]%N; [0x1F1E9; 0x1F1E9]%N; [0x1F1EF; 0x1F1F5]%N].
Proof. vm_compute. reflexivity. Qed.
(** grapheme_segmenter_test.cpp:209-238 *)
Example graphemes_209 : grapheme_clusters rt [0x1F1E9; 0x1F1E9; 0x1F1E9; 0x1F1E9; 0x1F1EF; 0x50]%N = Ok [[0x1F1E9; 0x1F1E9]%N; [0x1F1E9; 0x1F1E9]%N; [0x1F1EF]%N; [0x50]%N].
Proof. vm_compute. reflexivity. Qed.
(** grapheme_segmenter_test.cpp:240-274 *)
Example graphemes_240 : grapheme_clusters rt [0x1F1E9; 0x1F1E9; 0x1F1E9; 0x1F1E9; 0x51; 0x1F1EF; 0x50]%N = Ok [[0x1F1E9; 0x1F1E9]%N; [0x1F1E9; 0x1F1E9]%N; [0x51]%N; [0x1F1EF]%N; [0x50]%N].
Proof. vm_compute. reflexivity. Qed.
(** grapheme_segmenter_test.cpp:278-285 *)
Example graphemes_278 : grapheme_clusters rt [0x915; 0x94D; 0x924]%N = Ok [[0x915; 0x94D; 0x924]%N].
Proof. vm_compute. reflexivity. Qed.
(** grapheme_segmenter_test.cpp:287-294 *)
Example graphemes_287 : grapheme_clusters rt [0x915; 0x94D; 0x924; 0x94D; 0x92F]%N = Ok [[0x915; 0x94D; 0x924; 0x94D; 0x92F]%N].
Proof. vm_compute. reflexivity. Qed.
(** grapheme_segmenter_test.cpp:296-303 *)
Example graphemes_296 : grapheme_clusters rt [0x915; 0x93C; 0x200D; 0x94D; 0x924]%N = Ok [[0x915; 0x93C; 0x200D; 0x94D; 0x924]%N].
Proof. vm_compute. reflexivity. Qed.
(** grapheme_segmenter_test.cpp:305-312 *)
Example graphemes_305 : grapheme_clusters rt [0x915; 0x94D; 0x94D; 0x924]%N = Ok [[0x915; 0x94D; 0x94D; 0x924]%N].
Proof. vm_compute. reflexivity. Qed.
(** grapheme_segmenter_test.cpp:314-321 *)
Example graphemes_314 : grapheme_clusters rt [0x915; 0x94D; 0x200D; 0x924]%N = Ok [[0x915; 0x94D; 0x200D; 0x924]%N].
Proof. vm_compute. reflexivity. Qed.
(** grapheme_segmenter_test.cpp:323-334 *)
Example graphemes_323 : grapheme_clusters rt [0x61; 0x94D; 0x924]%N = Ok [[0x61; 0x94D]%N; [0x924]%N].
Proof. vm_compute. reflexivity. Qed.
(** grapheme_segmenter_test.cpp:336-346 *)
Example graphemes_336 : grapheme_clusters rt [0x915; 0x924]%N = Ok [[0x915]%N; [0x924]%N].
Proof. vm_compute. reflexivity. Qed.
(** grapheme_segmenter_test.cpp:348-359 *)
Example graphemes_348 : grapheme_clusters rt [0x915; 0x94D; 0x61]%N = Ok [[0x915; 0x94D]%N; [0x61]%N].
Proof. vm_compute. reflexivity. Qed.
(** grapheme_segmenter_test.cpp:361-368 *)
Example graphemes_361 : grapheme_clusters rt [0x1019; 0x1039; 0x1018]%N = Ok [[0x1019; 0x1039; 0x1018]%N].
Proof. vm_compute. reflexivity. Qed.
(** grapheme_segmenter_test.cpp:370-377 *)
Example graphemes_370 : grapheme_clusters rt [0x179F; 0x17D2; 0x178F; 0x17D2; 0x179A]%N = Ok [[0x179F; 0x17D2; 0x178F; 0x17D2; 0x179A]%N].
Proof. vm_compute. reflexivity. Qed.
(** grapheme_segmenter_test.cpp:379-386 *)
Example graphemes_379 : grapheme_clusters rt [0xAB8; 0xAFB; 0xACD; 0xAB8; 0xAFB]%N = Ok [[0xAB8; 0xAFB; 0xACD; 0xAB8; 0xAFB]%N].
Proof. vm_compute. reflexivity. Qed.
(** grapheme_segmenter_test.cpp:177-180, 203-206, ...: incrementing beyond the end gives the empty cluster *)
Example graphemes_beyond : let s := seg_next rt (seg_next rt (seg_make rt [0x58; 0x50]%N)) in seg_value s = [] /\ seg_available s = false.
Proof. vm_compute. split; reflexivity. Qed.
(** utf8_grapheme_segmenter_test.cpp:67-77 *)
Example utf8_graphemes_67 : u8_grapheme_clusters rt (to_utf8 []%N) = Ok [].
Proof. vm_compute. reflexivity. Qed.
(** utf8_grapheme_segmenter_test.cpp:81 *)
Example utf8_graphemes_81 : u8_grapheme_clusters rt (to_utf8 [0x59; 0x65; 0x73]%N) = Ok [[0x59]%N; [0x65]%N; [0x73]%N].
Proof. vm_compute. reflexivity. Qed.
(** utf8_grapheme_segmenter_test.cpp:82 *)
Example utf8_graphemes_82 : u8_grapheme_clusters rt (to_utf8 [0x251C; 0x2500]%N) = Ok [[0x251C]%N; [0x2500]%N].
Proof. vm_compute. reflexivity. Qed.
(** utf8_grapheme_segmenter_test.cpp:83 *)
Example utf8_graphemes_83 : u8_grapheme_clusters rt (to_utf8 [0x251C; 0x2500; 0x20; 0x59; 0x65; 0x73]%N) = Ok [[0x251C]%N; [0x2500]%N; [0x20]%N; [0x59]%N; [0x65]%N; [0x73]%N].
Proof. vm_compute. reflexivity. Qed.
(** utf8_grapheme_segmenter_test.cpp:84 *)
Example utf8_graphemes_84 : u8_grapheme_clusters rt (to_utf8 [0x58; 0x1F926; 0x1F3FC; 0x200D; 0x2642; 0xFE0F; 0x35]%N) = Ok [[0x58]%N; [0x1F926; 0x1F3FC; 0x200D; 0x2642; 0xFE0F]%N; [0x35]%N].
Proof. vm_compute. reflexivity. Qed.
(** word_segmenter_test.cpp:227-231 *)
Example words_227 : word_segments rt [0x48; 0x65; 0x6C; 0x6C; 0x6F; 0x20; 0x57; 0x6F; 0x72; 0x6C; 0x64]%N = Ok [[0x48; 0x65; 0x6C; 0x6C; 0x6F]%N; [0x20]%N; [0x57; 0x6F; 0x72; 0x6C; 0x64]%N].
Proof. vm_compute. reflexivity. Qed.
(** word_segmenter_test.cpp:236-247 *)
Example words_236 : word_segments rt [0x48; 0x65; 0x6C; 0x6C; 0x6F; 0x2C; 0x20; 0x57; 0x6F; 0x72; 0x6C; 0x64; 0x21]%N = Ok [[0x48; 0x65; 0x6C; 0x6C; 0x6F]%N; [0x2C]%N; [0x20]%N; [0x57; 0x6F; 0x72; 0x6C; 0x64]%N; [0x21]%N].
Proof. vm_compute. reflexivity. Qed.
(** word_segmenter_test.cpp:249-256 *)
Example words_249 : word_segments rt [0x64; 0x6F; 0x6E; 0x27; 0x74]%N = Ok [[0x64; 0x6F; 0x6E; 0x27; 0x74]%N].
Proof. vm_compute. reflexivity. Qed.
(** word_segmenter_test.cpp:258-265 *)
Example words_258 : word_segments rt [0x33; 0x2E; 0x31; 0x34]%N = Ok [[0x33; 0x2E; 0x31; 0x34]%N].
Proof. vm_compute. reflexivity. Qed.
(** word_segmenter_test.cpp:267-275 *)
Example words_267 : word_segments rt [0x61; 0xD; 0xA; 0x62]%N = Ok [[0x61]%N; [0xD; 0xA]%N; [0x62]%N].
Proof. vm_compute. reflexivity. Qed.
(** word_segmenter_test.cpp:277-285 *)
Example words_277 : word_segments rt [0x61; 0xA; 0x62]%N = Ok [[0x61]%N; [0xA]%N; [0x62]%N].
Proof. vm_compute. reflexivity. Qed.
(** word_segmenter_test.cpp:287-293 *)
Example words_287 : word_segments rt [0x31; 0x32; 0x33; 0x34; 0x35]%N = Ok [[0x31; 0x32; 0x33; 0x34; 0x35]%N].
Proof. vm_compute. reflexivity. Qed.
(** word_segmenter_test.cpp:295-301 *)
Example words_295 : word_segments rt [0x61; 0x62; 0x63; 0x31; 0x32; 0x33; 0x64; 0x65; 0x66]%N = Ok [[0x61; 0x62; 0x63; 0x31; 0x32; 0x33; 0x64; 0x65; 0x66]%N].
Proof. vm_compute. reflexivity. Qed.
(** word_segmenter_test.cpp:303-310 *)
Example words_303 : word_segments rt [0x30AB; 0x30BF; 0x30CA]%N = Ok [[0x30AB; 0x30BF; 0x30CA]%N].
Proof. vm_compute. reflexivity. Qed.
(** word_segmenter_test.cpp:312-319 *)
Example words_312 : word_segments rt [0x68; 0x65; 0x6C; 0x6C; 0x6F; 0x5F; 0x77; 0x6F; 0x72; 0x6C; 0x64]%N = Ok [[0x68; 0x65; 0x6C; 0x6C; 0x6F; 0x5F; 0x77; 0x6F; 0x72; 0x6C; 0x64]%N].
Proof. vm_compute. reflexivity. Qed.
(** word_segmenter_test.cpp:321-329 *)
Example words_321 : word_segments rt [0x61; 0x20; 0x20; 0x20; 0x62]%N = Ok [[0x61]%N; [0x20; 0x20; 0x20]%N; [0x62]%N].
Proof. vm_compute. reflexivity. Qed.
(** word_segmenter_test.cpp:331-338 *)
Example words_331 : word_segments rt [0x1F1FA; 0x1F1F8]%N = Ok [[0x1F1FA; 0x1F1F8]%N].
Proof. vm_compute. reflexivity. Qed.
(** word_segmenter_test.cpp:340-347 *)
Example words_340 : word_segments rt [0x1F1FA; 0x1F1F8; 0x1F1EC]%N = Ok [[0x1F1FA; 0x1F1F8]%N; [0x1F1EC]%N].
Proof. vm_compute. reflexivity. Qed.
(** word_segmenter_test.cpp:349-357 *)
Example words_349 : word_segments rt [0x61; 0x308; 0x62]%N = Ok [[0x61; 0x308; 0x62]%N].
Proof. vm_compute. reflexivity. Qed.
(** word_segmenter_test.cpp:359-366 *)
Example words_359 : word_segments rt [0x5D0; 0x27]%N = Ok [[0x5D0; 0x27]%N].
Proof. vm_compute. reflexivity. Qed.
(** word_segmenter_test.cpp:368-375 *)
Example words_368 : word_segments rt [0x5D0; 0x22; 0x5D1]%N = Ok [[0x5D0; 0x22; 0x5D1]%N].
Proof. vm_compute. reflexivity. Qed.
(** word_segmenter_test.cpp:377-384 *)
Example words_377 : word_segments rt [0x1F468; 0x200D; 0x1F469]%N = Ok [[0x1F468; 0x200D; 0x1F469]%N].
Proof. vm_compute. reflexivity. Qed.
(** word_segmenter_test.cpp:386-392 *)
Example words_386 : word_segments rt [0x61; 0x62; 0x63]%N = Ok [[0x61; 0x62; 0x63]%N].
Proof. vm_compute. reflexivity. Qed.
(** word_segmenter_test.cpp:394-399 *)
Example words_394 : word_segments rt [0x61]%N = Ok [[0x61]%N].
Proof. vm_compute. reflexivity. Qed.
