-Q theories Verif
theories/Base.v
theories/Spec_Utf.v
theories/M_Utf8.v
theories/P_Utf8.v
theories/P_Utf8b.v
theories/M_Convert.v
theories/P_Convert.v
theories/M_AsciiScan.v
theories/P_AsciiScan.v
theories/T_Utf8.v
theories/T_Convert.v
theories/M_Ucd.v
theories/M_Grapheme.v
theories/Spec_Grapheme.v
theories/P_Grapheme.v
theories/Ucd_Demo.v
theories/T_Grapheme.v
theories/M_Word.v
theories/Spec_Word.v
theories/P_Word.v
theories/T_Word.v
theories/M_Width.v
theories/M_CApi.v
theories/Spec_Width.v
theories/P_Width.v
theories/T_Width.v
theories/T_CApi.v
theories/M_Utf8Grapheme.v
theories/Spec_Lossy.v
theories/P_Utf8Grapheme.v
theories/T_Utf8Grapheme.v
theories/M_Scan.v
theories/Spec_Scan.v
theories/P_Scan.v
theories/P_Scan2.v
theories/P_Scan3.v
theories/P_Scan4.v
theories/P_Scan5.v
theories/P_Scan6.v
theories/T_Scan.v
theories/M_Tables.v
theories/Spec_Tables.v
theories/P_Tables.v
theories/T_Tables.v
theories/M_Normalize.v
theories/Spec_Normalize.v
theories/P_Order.v
theories/P_Normalize.v
theories/P_Hangul.v
theories/P_Compose.v
theories/P_Stream.v
theories/Norm_Demo.v
theories/T_Normalize.v
theories/M_NormUtf8.v
theories/Spec_NormUtf8.v
theories/P_NormUtf8.v
theories/T_NormUtf8.v
theories/M_Case.v
theories/Spec_Case.v
theories/P_Case.v
theories/T_Case.v
theories/M_Multistage.v
theories/Spec_Multistage.v
theories/P_Multistage.v
theories/T_Multistage.v
theories/M_Script.v
theories/Spec_Script.v
theories/P_Script.v
theories/T_Script.v
theories/M_Emoji.v
theories/Spec_Emoji.v
theories/P_Emoji.v
theories/T_Emoji.v
theories/M_Run.v
theories/Spec_Run.v
theories/P_Run.v
theories/T_Run.v
theories/M_TableGen.v
theories/Spec_TableGen.v
theories/P_TableGen.v
theories/P_TableGen2.v
theories/P_TableGen3.v
theories/P_TableGen4.v
theories/P_TableGen5.v
theories/P_TableGen6.v
theories/P_TableGen7.v
theories/P_TableGen8.v
theories/TableGen_Demo.v
theories/T_TableGen.v
theories/M_PropGen.v
theories/Spec_PropGen.v
theories/P_PropGen.v
theories/P_PropGen2.v
theories/P_PropGen3.v
theories/P_PropGen4.v
theories/P_PropGen5.v
theories/P_PropGen6.v
theories/P_PropGen7.v
theories/P_PropGen8.v
theories/P_PropGen9.v
theories/PropGen_Demo.v
theories/T_PropGen.v
theories/M_UcdApi.v
theories/Spec_UcdApi.v
theories/P_UcdApi.v
theories/P_UcdApi2.v
theories/P_UcdApi3.v
theories/P_UcdApi4.v
theories/T_UcdApi.v
theories/P_UcdApi5.v
theories/P_UcdApi6.v
theories/T_UcdApi2.v
theories/UcdApi_Demo.v
theories/T_UcdApi3.v
theories/P_Compose2.v
theories/T_Compose.v
theories/M_Enums.v
theories/Spec_Enums.v
theories/P_Enums.v
theories/P_Enums2.v
theories/P_Enums3.v
theories/P_Enums4.v
theories/P_Enums5.v
theories/Enums_Demo.v
theories/T_Enums.v
theories/Spec_Simd.v
theories/M_Simd.v
theories/T_Simd.v
theories/M_CMacros.v
theories/Spec_CMacros.v
theories/T_CMacros.v
theories/P_QcYes.v
theories/T_QcYes.v
theories/P_ScanCuts.v
theories/M_Query.v
theories/Spec_Query.v
theories/P_Query.v
theories/P_Query2.v
theories/P_Query3.v
theories/T_Query.v
theories/Spec_ConvertIt.v
theories/P_ConvertIt.v
theories/T_NormUtf8b.v
theories/Spec_ScanCut.v
theories/P_ScanCut2.v
theories/T_ScanCut.v
theories/Spec_StreamSeg.v
theories/P_StreamSeg.v
theories/T_StreamSeg.v
theories/Spec_ScanLimit.v
theories/P_ScanLimit.v
theories/P_ScanLimit2.v
theories/Spec_ScanLines.v
theories/P_ScanLimit3.v
theories/T_ScanLimit.v
theories/M_SegIter.v
theories/P_SegIter.v
theories/T_SegIter.v
theories/M_Link.v
theories/Spec_Link.v
theories/P_Link.v
theories/Link_Demo.v
theories/T_Link.v
theories/Spec_LinkNorm.v
theories/P_LinkNorm.v
theories/T_LinkNorm.v
theories/Spec_LinkScript.v
theories/M_LinkScript.v
theories/LinkScript_Demo.v
theories/T_LinkScript.v
theories/Spec_Flush.v
theories/T_Flush.v
theories/Spec_Resume.v
theories/T_Resume.v
theories/Spec_ScanCols.v
theories/P_ScanCols.v
theories/T_ScanCols.v
theories/Spec_TgMain.v
theories/M_TgMain.v
theories/P_TgMain.v
theories/T_TgMain.v
theories/Spec_ScanTiles.v
theories/P_ScanTiles.v
theories/T_ScanTiles.v
theories/Spec_Threads.v
theories/M_Threads.v
theories/P_Threads.v
theories/T_Threads.v
theories/T_Strict.v
theories/Spec_QueryProps.v
theories/T_Query2.v
theories/Spec_ScanJunk.v
theories/P_ScanJunk.v
theories/P_ScanJunk2.v
theories/T_ScanJunk.v
theories/Spec_Configure.v
theories/M_Configure.v
theories/T_Configure.v
theories/Spec_LinkCase.v
theories/M_LinkCase.v
theories/LinkCase_Demo.v
theories/T_LinkCase.v
theories/Replay_Table.v
theories/Replay_Segment.v
theories/Replay_Width.v
theories/Replay_Scan.v
theories/Replay_Convert.v
theories/Replay_Runs.v
theories/Replay_Norm.v
theories/Replay_Case.v
theories/Spec_Cpp.v
theories/M_Emit.v
theories/Spec_Emit.v
theories/P_Emit.v
theories/P_Emit2.v
theories/P_Emit3.v
theories/P_Emit4.v
theories/P_Emit5.v
theories/T_Emit.v
theories/M_EmitUcd.v
theories/Spec_EmitUcd.v
theories/P_EmitUcd.v
theories/P_EmitUcd2.v
theories/P_EmitUcd3.v
theories/P_EmitUcd4.v
theories/T_EmitUcd.v
theories/M_EmitMs.v
theories/Spec_EmitMs.v
theories/P_EmitMs.v
theories/T_EmitMs.v
theories/Spec_EmitGet.v
theories/P_EmitGet.v
theories/T_EmitGet.v
theories/M_EmitEnums.v
theories/Spec_EmitEnums.v
theories/P_EmitEnums.v
theories/T_EmitEnums.v
theories/M_EmitUcdH.v
theories/Spec_EmitUcdH.v
theories/P_EmitUcdH.v
theories/T_EmitUcdH.v
theories/Spec_EmitFiles.v
theories/P_EmitFiles.v
theories/T_EmitFiles.v
theories/Spec_EmitFiles2.v
theories/T_EmitFiles2.v
theories/Spec_EmitFiles3.v
theories/T_EmitFiles3.v
theories/Spec_EmitFiles4.v
theories/T_EmitFiles4.v
theories/Spec_EmitLib.v
theories/T_EmitLib.v
theories/Spec_EmitScript.v
theories/T_EmitScript.v
theories/Spec_EmitCase.v
theories/T_EmitCase.v
theories/T_EmitRuns.v
theories/M_NormApi.v
theories/Spec_NormApi.v
theories/T_NormApi.v
theories/P_Behind.v
theories/T_Behind.v
theories/Spec_NormExact.v
theories/T_NormExact.v
