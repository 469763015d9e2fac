(** The properties of the code points that the project's unit tests use (everything else is treated as a plain narrow character).
    Written by tools/gen_replay.py. *)
From Verif Require Import Base M_Ucd M_Convert Ucd_Demo.
Open Scope N_scope.
(*  lo hi  width gcb incb wb  extpic virama varbase emod emoji epres mc *)
Definition rt_table : list entry :=
  [ (0xA, 0xA, mkProps 0 GLF INone WLF false false false false false false false);
    (0xD, 0xD, mkProps 0 GCR INone WCR false false false false false false false);
    (0x20, 0x20, mkProps 1 GOther INone WWSegSpace false false false false false false false);
    (0x22, 0x22, mkProps 1 GOther INone WDoubleQuote false false false false false false false);
    (0x27, 0x27, mkProps 1 GOther INone WSingleQuote false false false false false false false);
    (0x2C, 0x2C, mkProps 1 GOther INone WMidNum false false false false false false false);
    (0x2E, 0x2E, mkProps 1 GOther INone WMidNumLet false false false false false false false);
    (0x30, 0x30, mkProps 1 GOther INone WNumeric false false true false true false false);
    (0x31, 0x31, mkProps 1 GOther INone WNumeric false false true false true false false);
    (0x32, 0x32, mkProps 1 GOther INone WNumeric false false true false true false false);
    (0x33, 0x33, mkProps 1 GOther INone WNumeric false false true false true false false);
    (0x34, 0x34, mkProps 1 GOther INone WNumeric false false true false true false false);
    (0x35, 0x35, mkProps 1 GOther INone WNumeric false false true false true false false);
    (0x36, 0x36, mkProps 1 GOther INone WNumeric false false true false true false false);
    (0x37, 0x37, mkProps 1 GOther INone WNumeric false false true false true false false);
    (0x38, 0x38, mkProps 1 GOther INone WNumeric false false true false true false false);
    (0x39, 0x39, mkProps 1 GOther INone WNumeric false false true false true false false);
    (0x41, 0x41, mkProps 1 GOther INone WALetter false false false false false false false);
    (0x42, 0x42, mkProps 1 GOther INone WALetter false false false false false false false);
    (0x43, 0x43, mkProps 1 GOther INone WALetter false false false false false false false);
    (0x44, 0x44, mkProps 1 GOther INone WALetter false false false false false false false);
    (0x45, 0x45, mkProps 1 GOther INone WALetter false false false false false false false);
    (0x46, 0x46, mkProps 1 GOther INone WALetter false false false false false false false);
    (0x48, 0x48, mkProps 1 GOther INone WALetter false false false false false false false);
    (0x4C, 0x4C, mkProps 1 GOther INone WALetter false false false false false false false);
    (0x4F, 0x4F, mkProps 1 GOther INone WALetter false false false false false false false);
    (0x50, 0x50, mkProps 1 GOther INone WALetter false false false false false false false);
    (0x51, 0x51, mkProps 1 GOther INone WALetter false false false false false false false);
    (0x52, 0x52, mkProps 1 GOther INone WALetter false false false false false false false);
    (0x57, 0x57, mkProps 1 GOther INone WALetter false false false false false false false);
    (0x58, 0x58, mkProps 1 GOther INone WALetter false false false false false false false);
    (0x59, 0x59, mkProps 1 GOther INone WALetter false false false false false false false);
    (0x5F, 0x5F, mkProps 1 GOther INone WExtendNumLet false false false false false false false);
    (0x61, 0x61, mkProps 1 GOther INone WALetter false false false false false false false);
    (0x62, 0x62, mkProps 1 GOther INone WALetter false false false false false false false);
    (0x63, 0x63, mkProps 1 GOther INone WALetter false false false false false false false);
    (0x64, 0x64, mkProps 1 GOther INone WALetter false false false false false false false);
    (0x65, 0x65, mkProps 1 GOther INone WALetter false false false false false false false);
    (0x66, 0x66, mkProps 1 GOther INone WALetter false false false false false false false);
    (0x67, 0x67, mkProps 1 GOther INone WALetter false false false false false false false);
    (0x68, 0x68, mkProps 1 GOther INone WALetter false false false false false false false);
    (0x69, 0x69, mkProps 1 GOther INone WALetter false false false false false false false);
    (0x6C, 0x6C, mkProps 1 GOther INone WALetter false false false false false false false);
    (0x6E, 0x6E, mkProps 1 GOther INone WALetter false false false false false false false);
    (0x6F, 0x6F, mkProps 1 GOther INone WALetter false false false false false false false);
    (0x72, 0x72, mkProps 1 GOther INone WALetter false false false false false false false);
    (0x73, 0x73, mkProps 1 GOther INone WALetter false false false false false false false);
    (0x74, 0x74, mkProps 1 GOther INone WALetter false false false false false false false);
    (0x77, 0x77, mkProps 1 GOther INone WALetter false false false false false false false);
    (0x78, 0x78, mkProps 1 GOther INone WALetter false false false false false false false);
    (0xA9, 0xA9, mkProps 1 GOther INone WOther true false true false true false false);
    (0xAD, 0xAD, mkProps 1 GControl INone WFormat false false false false false false false);
    (0xE9, 0xE9, mkProps 1 GOther INone WALetter false false false false false false false);
    (0x301, 0x301, mkProps 0 GExtend IExtend WExtend false false false false false false false);
    (0x308, 0x308, mkProps 0 GExtend IExtend WExtend false false false false false false false);
    (0x3B1, 0x3B1, mkProps 1 GOther INone WALetter false false false false false false false);
    (0x5D0, 0x5D0, mkProps 1 GOther INone WHebrew false false false false false false false);
    (0x5D1, 0x5D1, mkProps 1 GOther INone WHebrew false false false false false false false);
    (0x600, 0x600, mkProps 1 GPrepend INone WOther false false false false false false false);
    (0x6DD, 0x6DD, mkProps 1 GPrepend INone WOther false false false false false false false);
    (0x70F, 0x70F, mkProps 1 GPrepend INone WOther false false false false false false false);
    (0x902, 0x902, mkProps 0 GExtend IExtend WExtend false false false false false false false);
    (0x903, 0x903, mkProps 0 GSpacingMark INone WExtend false false false false false false true);
    (0x915, 0x915, mkProps 1 GOther IConsonant WOther false false false false false false false);
    (0x924, 0x924, mkProps 1 GOther IConsonant WOther false false false false false false false);
    (0x928, 0x928, mkProps 1 GOther IConsonant WOther false false false false false false false);
    (0x92F, 0x92F, mkProps 1 GOther IConsonant WOther false false false false false false false);
    (0x937, 0x937, mkProps 1 GOther IConsonant WOther false false false false false false false);
    (0x93C, 0x93C, mkProps 0 GExtend IExtend WExtend false false false false false false false);
    (0x93E, 0x93E, mkProps 0 GSpacingMark INone WExtend false false false false false false true);
    (0x93F, 0x93F, mkProps 0 GSpacingMark INone WExtend false false false false false false true);
    (0x94D, 0x94D, mkProps 0 GExtend ILinker WExtend false true false false false false false);
    (0xA4D, 0xA4D, mkProps 0 GExtend IExtend WExtend false true false false false false false);
    (0xAB8, 0xAB8, mkProps 1 GOther IConsonant WOther false false false false false false false);
    (0xACD, 0xACD, mkProps 0 GExtend ILinker WExtend false true false false false false false);
    (0xAFB, 0xAFB, mkProps 0 GExtend IExtend WExtend false false false false false false false);
    (0xBBE, 0xBBE, mkProps 0 GExtend IExtend WExtend false false false false false false true);
    (0xBCD, 0xBCD, mkProps 0 GExtend IExtend WExtend false true false false false false false);
    (0xCCD, 0xCCD, mkProps 0 GExtend IExtend WExtend false true false false false false false);
    (0xD2E, 0xD2E, mkProps 1 GOther IConsonant WOther false false false false false false false);
    (0xD4D, 0xD4D, mkProps 0 GExtend ILinker WExtend false true false false false false false);
    (0xDCA, 0xDCA, mkProps 0 GExtend IExtend WExtend false true false false false false false);
    (0xE33, 0xE33, mkProps 1 GSpacingMark INone WOther false false false false false false false);
    (0xEB3, 0xEB3, mkProps 1 GSpacingMark INone WOther false false false false false false false);
    (0x1018, 0x1018, mkProps 1 GOther IConsonant WOther false false false false false false false);
    (0x1019, 0x1019, mkProps 1 GOther IConsonant WOther false false false false false false false);
    (0x1039, 0x1039, mkProps 0 GExtend ILinker WExtend false true false false false false false);
    (0x1100, 0x1100, mkProps 2 GL INone WOther false false false false false false false);
    (0x115F, 0x115F, mkProps 2 GL INone WOther false false false false false false false);
    (0x1160, 0x1160, mkProps 0 GV INone WOther false false false false false false false);
    (0x1161, 0x1161, mkProps 0 GV INone WOther false false false false false false false);
    (0x11A7, 0x11A7, mkProps 0 GV INone WOther false false false false false false false);
    (0x11A8, 0x11A8, mkProps 0 GT INone WOther false false false false false false false);
    (0x11FF, 0x11FF, mkProps 0 GT INone WOther false false false false false false false);
    (0x1780, 0x1780, mkProps 1 GOther IConsonant WOther false false false false false false false);
    (0x178F, 0x178F, mkProps 1 GOther IConsonant WOther false false false false false false false);
    (0x1796, 0x1796, mkProps 1 GOther IConsonant WOther false false false false false false false);
    (0x179A, 0x179A, mkProps 1 GOther IConsonant WOther false false false false false false false);
    (0x179F, 0x179F, mkProps 1 GOther IConsonant WOther false false false false false false false);
    (0x17D2, 0x17D2, mkProps 0 GExtend ILinker WExtend false true false false false false false);
    (0x1B24, 0x1B24, mkProps 1 GOther IConsonant WOther false false false false false false false);
    (0x1B26, 0x1B26, mkProps 1 GOther IConsonant WOther false false false false false false false);
    (0x1B44, 0x1B44, mkProps 0 GExtend ILinker WExtend false true false false false false true);
    (0x200B, 0x200B, mkProps 0 GControl INone WOther false false false false false false false);
    (0x200D, 0x200D, mkProps 0 GZWJ IExtend WZWJ false false false false false false false);
    (0x2018, 0x2018, mkProps 1 GOther INone WMidNumLet false false false false false false false);
    (0x20E3, 0x20E3, mkProps 0 GExtend IExtend WExtend false false false false false false false);
    (0x231A, 0x231A, mkProps 2 GOther INone WOther true false true false true true false);
    (0x261D, 0x261D, mkProps 1 GOther INone WOther true false true false true false false);
    (0x2642, 0x2642, mkProps 1 GOther INone WOther true false true false true false false);
    (0x2714, 0x2714, mkProps 1 GOther INone WOther true false true false true false false);
    (0x2764, 0x2764, mkProps 1 GOther INone WOther true false true false true false false);
    (0x30AB, 0x30AB, mkProps 2 GOther INone WKatakana false false false false false false false);
    (0x30BF, 0x30BF, mkProps 2 GOther INone WKatakana false false false false false false false);
    (0x30CA, 0x30CA, mkProps 2 GOther INone WKatakana false false false false false false false);
    (0x3131, 0x3131, mkProps 2 GOther INone WOther false false false false false false false);
    (0x4E2D, 0x4E2D, mkProps 2 GOther INone WOther false false false false false false false);
    (0x6587, 0x6587, mkProps 2 GOther INone WOther false false false false false false false);
    (0x6F22, 0x6F22, mkProps 2 GOther INone WOther false false false false false false false);
    (0xA960, 0xA960, mkProps 2 GL INone WOther false false false false false false false);
    (0xA97C, 0xA97C, mkProps 2 GL INone WOther false false false false false false false);
    (0xAC00, 0xAC00, mkProps 2 GLV INone WOther false false false false false false false);
    (0xD7A3, 0xD7A3, mkProps 2 GLVT INone WOther false false false false false false false);
    (0xD7B0, 0xD7B0, mkProps 0 GV INone WOther false false false false false false false);
    (0xD7C6, 0xD7C6, mkProps 0 GV INone WOther false false false false false false false);
    (0xD7CB, 0xD7CB, mkProps 0 GT INone WOther false false false false false false false);
    (0xD7FB, 0xD7FB, mkProps 0 GT INone WOther false false false false false false false);
    (0xFE0E, 0xFE0E, mkProps 0 GExtend IExtend WExtend false false false false false false false);
    (0xFE0F, 0xFE0F, mkProps 0 GExtend IExtend WExtend false false false false false false false);
    (0xFFF9, 0xFFF9, mkProps 0 GControl INone WOther false false false false false false false);
    (0xFFFA, 0xFFFA, mkProps 0 GControl INone WOther false false false false false false false);
    (0xFFFB, 0xFFFB, mkProps 0 GControl INone WOther false false false false false false false);
    (0x110BD, 0x110BD, mkProps 1 GPrepend INone WOther false false false false false false false);
    (0x13430, 0x13430, mkProps 0 GControl INone WOther false false false false false false false);
    (0x1F1E9, 0x1F1E9, mkProps 2 GRI INone WRI false false false false true true false);
    (0x1F1EA, 0x1F1EA, mkProps 2 GRI INone WRI false false false false true true false);
    (0x1F1EC, 0x1F1EC, mkProps 2 GRI INone WRI false false false false true true false);
    (0x1F1EF, 0x1F1EF, mkProps 2 GRI INone WRI false false false false true true false);
    (0x1F1F5, 0x1F1F5, mkProps 2 GRI INone WRI false false false false true true false);
    (0x1F1F8, 0x1F1F8, mkProps 2 GRI INone WRI false false false false true true false);
    (0x1F1FA, 0x1F1FA, mkProps 2 GRI INone WRI false false false false true true false);
    (0x1F3F3, 0x1F3F3, mkProps 1 GOther INone WOther true false true false true false false);
    (0x1F3FB, 0x1F3FB, mkProps 2 GExtend IExtend WExtend false false false true true true false);
    (0x1F3FC, 0x1F3FC, mkProps 2 GExtend IExtend WExtend false false false true true true false);
    (0x1F3FE, 0x1F3FE, mkProps 2 GExtend IExtend WExtend false false false true true true false);
    (0x1F441, 0x1F441, mkProps 1 GOther INone WOther true false true false true false false);
    (0x1F466, 0x1F466, mkProps 2 GOther INone WOther true false false false true true false);
    (0x1F467, 0x1F467, mkProps 2 GOther INone WOther true false false false true true false);
    (0x1F468, 0x1F468, mkProps 2 GOther INone WOther true false false false true true false);
    (0x1F469, 0x1F469, mkProps 2 GOther INone WOther true false false false true true false);
    (0x1F480, 0x1F480, mkProps 2 GOther INone WOther true false false false true true false);
    (0x1F525, 0x1F525, mkProps 2 GOther INone WOther true false false false true true false);
    (0x1F5E8, 0x1F5E8, mkProps 1 GOther INone WOther true false true false true false false);
    (0x1F600, 0x1F600, mkProps 2 GOther INone WOther true false false false true true false);
    (0x1F60A, 0x1F60A, mkProps 2 GOther INone WOther true false false false true true false);
    (0x1F6D1, 0x1F6D1, mkProps 2 GOther INone WOther true false false false true true false);
    (0x1F926, 0x1F926, mkProps 2 GOther INone WOther true false false false true true false);
    (0x1F9B0, 0x1F9B0, mkProps 2 GOther INone WOther true false false false true true false);
    (0x1F9B3, 0x1F9B3, mkProps 2 GOther INone WOther true false false false true true false);
    (0x1FA79, 0x1FA79, mkProps 2 GOther INone WOther true false false false true true false) ].
Definition rt : ucd := table_get rt_table.
(** every implementation that the build can select (M_Convert.impl) *)
Definition impls : list impl := [NoSimd; StdSimd W128; StdSimd W256; StdSimd W512; X86 W128; X86 W256; X86 W512; Neon].
