(** Assertions of width_test.cpp, replayed on the model.  Written by tools/gen_replay.py.  These are tests of the model, not theorems. *)
From Verif Require Import Base M_Ucd Ucd_Demo M_Utf8 M_Convert M_Grapheme M_Width Replay_Table.
Require Import ZArith List.
Import ListNotations.
Open Scope Z_scope.

(** width_test.cpp:80 *)
Example width_80 : cluster_width rt [0x1100; 0x1161]%N = 2.
Proof. vm_compute. reflexivity. Qed.
(** width_test.cpp:83 *)
Example width_83 : cluster_width rt [0x1100; 0x1161; 0x11A8]%N = 2.
Proof. vm_compute. reflexivity. Qed.
(** width_test.cpp:94 *)
Example width_94 : cluster_width rt [0x41]%N = 1.
Proof. vm_compute. reflexivity. Qed.
(** width_test.cpp:95 *)
Example width_95 : cluster_width rt [0x1F600]%N = 2.
Proof. vm_compute. reflexivity. Qed.
(** width_test.cpp:96 *)
Example width_96 : cluster_width rt [0x200D]%N = 0.
Proof. vm_compute. reflexivity. Qed.
(** width_test.cpp:102 *)
Example width_102 : cluster_width rt [0x261D; 0xFE0F]%N = 2.
Proof. vm_compute. reflexivity. Qed.
(** width_test.cpp:105 *)
Example width_105 : cluster_width rt [0xA9; 0xFE0F]%N = 2.
Proof. vm_compute. reflexivity. Qed.
(** width_test.cpp:108 *)
Example width_108 : cluster_width rt [0x2764; 0xFE0F]%N = 2.
Proof. vm_compute. reflexivity. Qed.
(** width_test.cpp:115 *)
Example width_115 : cluster_width rt [0x231A; 0xFE0E]%N = 1.
Proof. vm_compute. reflexivity. Qed.
(** width_test.cpp:119 *)
Example width_119 : cluster_width rt [0x1F600; 0xFE0E]%N = 2.
Proof. vm_compute. reflexivity. Qed.
(** width_test.cpp:125 *)
Example width_125 : cluster_width rt [0x1F468; 0x200D; 0x1F9B0]%N = 2.
Proof. vm_compute. reflexivity. Qed.
(** width_test.cpp:128 *)
Example width_128 : cluster_width rt [0x1F468; 0x200D; 0x1F469; 0x200D; 0x1F467]%N = 2.
Proof. vm_compute. reflexivity. Qed.
(** width_test.cpp:139 *)
Example width_139 : cluster_width rt [0x2764; 0x200D; 0x1F525]%N = 1.
Proof. vm_compute. reflexivity. Qed.
(** width_test.cpp:140 *)
Example width_140 : cluster_width rt [0x2764; 0x200D; 0x1FA79]%N = 1.
Proof. vm_compute. reflexivity. Qed.
(** width_test.cpp:143 *)
Example width_143 : cluster_width rt [0x2764; 0xFE0F; 0x200D; 0x1F525]%N = 2.
Proof. vm_compute. reflexivity. Qed.
(** width_test.cpp:146 *)
Example width_146 : cluster_width rt [0x644; 0x200D; 0x627]%N = 1.
Proof. vm_compute. reflexivity. Qed.
(** width_test.cpp:151 *)
Example width_151 : cluster_width rt [0x915; 0x94D; 0x200D; 0x937]%N = 2.
Proof. vm_compute. reflexivity. Qed.
(** width_test.cpp:157 *)
Example width_157 : cluster_width rt [0x915]%N = 1.
Proof. vm_compute. reflexivity. Qed.
(** width_test.cpp:158 *)
Example width_158 : cluster_width rt [0x915; 0x902]%N = 1.
Proof. vm_compute. reflexivity. Qed.
(** width_test.cpp:159 *)
Example width_159 : cluster_width rt [0x915; 0x94D]%N = 1.
Proof. vm_compute. reflexivity. Qed.
(** width_test.cpp:162 *)
Example width_162 : cluster_width rt [0x915; 0x93E]%N = 2.
Proof. vm_compute. reflexivity. Qed.
(** width_test.cpp:165 *)
Example width_165 : cluster_width rt [0x915; 0x94D; 0x928]%N = 2.
Proof. vm_compute. reflexivity. Qed.
(** width_test.cpp:166 *)
Example width_166 : cluster_width rt [0x915; 0x94D; 0x928; 0x93F]%N = 2.
Proof. vm_compute. reflexivity. Qed.
(** width_test.cpp:167 *)
Example width_167 : cluster_width rt [0x915; 0x94D; 0x200D; 0x937]%N = 2.
Proof. vm_compute. reflexivity. Qed.
(** width_test.cpp:170 *)
Example width_170 : cluster_width rt [0x1796; 0x17D2; 0x179A]%N = 2.
Proof. vm_compute. reflexivity. Qed.
(** width_test.cpp:171 *)
Example width_171 : cluster_width rt [0x1B26; 0x1B44; 0x1B24]%N = 2.
Proof. vm_compute. reflexivity. Qed.
(** width_test.cpp:172 *)
Example width_172 : cluster_width rt [0x1019; 0x1039; 0x1019]%N = 2.
Proof. vm_compute. reflexivity. Qed.
(** width_test.cpp:173 *)
Example width_173 : cluster_width rt [0xD2E; 0xD4D; 0xD2E]%N = 2.
Proof. vm_compute. reflexivity. Qed.
(** width_test.cpp:179 *)
Example width_179 : cluster_width rt [0xA15; 0xA4D; 0xA28]%N = 2.
Proof. vm_compute. reflexivity. Qed.
(** width_test.cpp:180 *)
Example width_180 : cluster_width rt [0xB95; 0xBCD; 0xBA8]%N = 2.
Proof. vm_compute. reflexivity. Qed.
(** width_test.cpp:181 *)
Example width_181 : cluster_width rt [0xC95; 0xCCD; 0xCA8]%N = 2.
Proof. vm_compute. reflexivity. Qed.
(** width_test.cpp:182 *)
Example width_182 : cluster_width rt [0xD9A; 0xDCA; 0xDB1]%N = 2.
Proof. vm_compute. reflexivity. Qed.
(** width_test.cpp:191 *)
Example width_191 : cluster_width rt [0x2714; 0xFE0F]%N = 2.
Proof. vm_compute. reflexivity. Qed.
(** width_test.cpp:193 *)
Example width_193 : cluster_width rt [0x2713; 0xFE0F]%N = 1.
Proof. vm_compute. reflexivity. Qed.
(** width_test.cpp:194 *)
Example width_194 : cluster_width rt [0x78; 0xFE0F]%N = 1.
Proof. vm_compute. reflexivity. Qed.
(** width_test.cpp:195 *)
Example width_195 : cluster_width rt [0x2022; 0xFE0F]%N = 1.
Proof. vm_compute. reflexivity. Qed.
(** width_test.cpp:196 *)
Example width_196 : cluster_width rt [0x2014; 0xFE0F]%N = 1.
Proof. vm_compute. reflexivity. Qed.
(** width_test.cpp:199 *)
Example width_199 : cluster_width rt [0x6F22; 0xFE0E]%N = 2.
Proof. vm_compute. reflexivity. Qed.
(** width_test.cpp:200 *)
Example width_200 : cluster_width rt [0x1100; 0xFE0E]%N = 2.
Proof. vm_compute. reflexivity. Qed.
(** width_test.cpp:203 *)
Example width_203 : cluster_width rt [0x915; 0x93E; 0xFE0E]%N = 2.
Proof. vm_compute. reflexivity. Qed.
(** width_test.cpp:204 *)
Example width_204 : cluster_width rt [0x915; 0x94D; 0x928; 0xFE0E]%N = 2.
Proof. vm_compute. reflexivity. Qed.
(** width_test.cpp:214 *)
Example width_214 : cluster_width rt [0x2764; 0x200D; 0x1F525; 0xFE0F]%N = 2.
Proof. vm_compute. reflexivity. Qed.
(** width_test.cpp:215 *)
Example width_215 : cluster_width rt [0x2764; 0xFE0F; 0x200D; 0x1F525]%N = 2.
Proof. vm_compute. reflexivity. Qed.
(** width_test.cpp:216 *)
Example width_216 : cluster_width rt [0x2714; 0x200D; 0x1F525; 0xFE0F]%N = 2.
Proof. vm_compute. reflexivity. Qed.
(** width_test.cpp:219 *)
Example width_219 : cluster_width rt [0x2713; 0x200D; 0x1F525; 0xFE0F]%N = 1.
Proof. vm_compute. reflexivity. Qed.
(** width_test.cpp:223 *)
Example width_223 : cluster_width rt [0x231A; 0x200D; 0x1F525; 0xFE0E]%N = 2.
Proof. vm_compute. reflexivity. Qed.
(** width_test.cpp:235 *)
Example width_235 : cluster_width rt [0x231A; 0xFE0E]%N = 1.
Proof. vm_compute. reflexivity. Qed.
(** width_test.cpp:236 *)
Example width_236 : cluster_width rt [0x231A; 0xFE0E; 0xFE0E]%N = 0.
Proof. vm_compute. reflexivity. Qed.
(** width_test.cpp:237 *)
Example width_237 : cluster_width rt [0x231A; 0xFE0E; 0xFE0E; 0xFE0E]%N = 0.
Proof. vm_compute. reflexivity. Qed.
(** width_test.cpp:240 *)
Example width_240 : cluster_width rt [0xA9; 0xFE0F]%N = 2.
Proof. vm_compute. reflexivity. Qed.
(** width_test.cpp:241 *)
Example width_241 : cluster_width rt [0xA9; 0xFE0F; 0xFE0F]%N = 2.
Proof. vm_compute. reflexivity. Qed.
(** width_test.cpp:253 *)
Example width_253 : cluster_width rt [0x1F1EA; 0xFE0F; 0x1F1EA]%N = 4.
Proof. vm_compute. reflexivity. Qed.
(** width_test.cpp:254 *)
Example width_254 : cluster_width rt [0x1F1EA; 0xFE0E; 0x1F1EA]%N = 4.
Proof. vm_compute. reflexivity. Qed.
(** width_test.cpp:255 *)
Example width_255 : cluster_width rt [0x1F1EA; 0xFE0F; 0x1F1EA; 0xFE0F; 0x1F1EA]%N = 6.
Proof. vm_compute. reflexivity. Qed.
(** width_test.cpp:258 *)
Example width_258 : cluster_width rt [0x1F1E9; 0x1F1EA]%N = 2.
Proof. vm_compute. reflexivity. Qed.
(** width_test.cpp:259 *)
Example width_259 : cluster_width rt [0x1F1E9; 0x1F1EA; 0x1F1E9]%N = 4.
Proof. vm_compute. reflexivity. Qed.
(** width_test.cpp:263 *)
Example width_263 : cluster_width rt [0x1F1EA; 0x200D; 0x1F1EA]%N = 2.
Proof. vm_compute. reflexivity. Qed.
(** width_test.cpp:264 *)
Example width_264 : cluster_width rt [0x1F1EA; 0x200D; 0x1F1EA; 0x1F1EA]%N = 2.
Proof. vm_compute. reflexivity. Qed.
(** width_test.cpp:272 *)
Example width_272 : cluster_width rt [0x2764; 0x1F3FB]%N = 1.
Proof. vm_compute. reflexivity. Qed.
(** width_test.cpp:273 *)
Example width_273 : cluster_width rt [0xA9; 0x1F3FB]%N = 1.
Proof. vm_compute. reflexivity. Qed.
(** width_test.cpp:274 *)
Example width_274 : cluster_width rt [0x1F3F3; 0x1F3FB; 0x200D; 0x1F525]%N = 1.
Proof. vm_compute. reflexivity. Qed.
(** width_test.cpp:277 *)
Example width_277 : cluster_width rt [0x1F926; 0x1F3FC]%N = 2.
Proof. vm_compute. reflexivity. Qed.
(** width_test.cpp:292 *)
Example width_292 : cluster_width rt [0x61; 0xAD; 0x62]%N = 3.
Proof. vm_compute. reflexivity. Qed.
(** width_test.cpp:309 *)
Example width_309 : cluster_width rt [0xE81; 0xEB3]%N = 2.
Proof. vm_compute. reflexivity. Qed.
(** width_test.cpp:323 *)
Example width_323 : cluster_width rt [0x41]%N = 1.
Proof. vm_compute. reflexivity. Qed.
(** width_test.cpp:324 *)
Example width_324 : cluster_width rt [0x1F600]%N = 2.
Proof. vm_compute. reflexivity. Qed.
(** width_test.cpp:325 *)
Example width_325 : cluster_width rt [0x261D; 0xFE0F]%N = 2.
Proof. vm_compute. reflexivity. Qed.
(** width_test.cpp:326 *)
Example width_326 : cluster_width rt [0x231A; 0xFE0E]%N = 1.
Proof. vm_compute. reflexivity. Qed.
(** width_test.cpp:327 *)
Example width_327 : cluster_width rt [0x2764; 0x200D; 0x1F525]%N = 1.
Proof. vm_compute. reflexivity. Qed.
(** width_test.cpp:328 *)
Example width_328 : cluster_width rt [0x1F468; 0x200D; 0x1F469; 0x200D; 0x1F467]%N = 2.
Proof. vm_compute. reflexivity. Qed.
(** width_test.cpp:329 *)
Example width_329 : cluster_width rt [0x1F926; 0x1F3FC; 0x200D; 0x2642; 0xFE0F]%N = 2.
Proof. vm_compute. reflexivity. Qed.
(** width_test.cpp:330 *)
Example width_330 : cluster_width rt [0x67; 0x308]%N = 1.
Proof. vm_compute. reflexivity. Qed.
(** width_test.cpp:331 *)
Example width_331 : cluster_width rt [0x32; 0xFE0F; 0x20E3]%N = 2.
Proof. vm_compute. reflexivity. Qed.
(** width_test.cpp:332 *)
Example width_332 : cluster_width rt [0x1F1E9; 0x1F1EA]%N = 2.
Proof. vm_compute. reflexivity. Qed.
(** width_test.cpp:333 *)
Example width_333 : cluster_width rt [0x1100; 0x1161; 0x11A8]%N = 2.
Proof. vm_compute. reflexivity. Qed.
(** width_test.cpp:346 *)
Example width_346 : cluster_width rt [0x1F926; 0x1F3FC]%N = 2.
Proof. vm_compute. reflexivity. Qed.
(** width_test.cpp:349 *)
Example width_349 : cluster_width rt [0x1F926; 0x1F3FC; 0x200D; 0x2642; 0xFE0F]%N = 2.
Proof. vm_compute. reflexivity. Qed.
(** width_test.cpp:355 *)
Example width_355 : cluster_width rt [0x1F1E9; 0x1F1EA]%N = 2.
Proof. vm_compute. reflexivity. Qed.
(** width_test.cpp:361 *)
Example width_361 : cluster_width rt [0x67; 0x308]%N = 1.
Proof. vm_compute. reflexivity. Qed.
(** width_test.cpp:367 *)
Example width_367 : cluster_width rt [0x32; 0xFE0F; 0x20E3]%N = 2.
Proof. vm_compute. reflexivity. Qed.
(** width_test.cpp:372, every vector unit *)
Example width_372 : Forall (fun i => utf8_width i rt [0x48; 0x65; 0x6C; 0x6C; 0x6F]%N = Ok 5) impls.
Proof. repeat (apply Forall_cons; [vm_compute; reflexivity|]). apply Forall_nil. Qed.
(** width_test.cpp:375, every vector unit *)
Example width_375 : Forall (fun i => utf8_width i rt [0x61; 0xE4; 0xB8; 0xAD; 0xE6; 0x96; 0x87]%N = Ok 5) impls.
Proof. repeat (apply Forall_cons; [vm_compute; reflexivity|]). apply Forall_nil. Qed.
(** width_test.cpp:379, every vector unit *)
Example width_379 : Forall (fun i => utf8_width i rt [0x41; 0xE2; 0x98; 0x9D; 0xEF; 0xB8; 0x8F]%N = Ok 3) impls.
Proof. repeat (apply Forall_cons; [vm_compute; reflexivity|]). apply Forall_nil. Qed.
