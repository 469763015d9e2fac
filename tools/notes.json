{
 "C01": "Every decoder (bulk with any SIMD implementation, iterator, progressive, C stream) inverts the encoders on scalar sequences.",
 "C05": "The full statement is false of the code (C05_only_wellformed_refuted, witnesses in C05_witnesses). Proved instead: what exactly is accepted, and that accepted well-formed sequences decode to the right scalar.",
 "C09": {
  "note": "Stores and reads are in bounds on every byte string. ISO C++ pointer arithmetic (src + simd_size past the end) is refuted by C09_pointer_arithmetic_refuted. C09_pointer_arithmetic_exact_partial: that happens exactly when the whole registers of the input are 7-bit throughout; all other inputs are unaffected.",
  "status": "partial"
 },
 "C12": "The full statement is false (truncated sequences are over-read). Proved: termination, and exactly which inputs are safe: those that are complete sequences throughout; a truncated sequence at the end is the only cause.",
 "C16": "No read leaves the buffer, but the pointer end - simd_size is formed before the buffer for short texts (UB by the standard), for every SIMD implementation. C16_pointer_exact_partial: exactly when the part to be scanned is shorter than a register.",
 "C18": "The full statement is false of the code: 'pictograph ZWJ ZWJ pictograph' is not broken, and a flag directly after a Prepend character is split (two refutations). Proved: the exact rules the code follows on every text, and UAX #29 on every text without ZWJ Extend* ZWJ and without Prepend RI.",
 "C21": "The full statement is false (regional indicators are not paired when the state is not re-initialised after a break). C21_stateful_exact_partial says exactly where it breaks on every text: at the segmenter's boundaries and between any two adjacent regional indicators that are not the first two code points; C21_stateful_partial is the special case without such pairs.",
 "C29": "Refuted for ill-formed input (bytes FF FF FF 'a' with a limit of 1 report 2 columns). Proved: never exceeded on well-formed text, from any idle state; on arbitrary bytes exceeded by at most one column and only when an invalid sequence was reported.",
 "C32": "Refuted: a flag (two regional indicators) after other text is counted as two clusters, and a Prepend character is separated from a following 7-bit character. C32_scan_exact_partial gives the exact count for every control-free well-formed text that fits: the sum of the widths of the segmenter's clusters cut further at exactly those two kinds of place.",
 "C34": "Coverage proved for all well-formed text and limits. Column sum refuted ('e' + U+0301 announces 2 columns, count 1); proved when nothing attaches to a 7-bit character; and exactly: for every text the announced columns exceed the count by the number of 7-bit characters to which the next character attaches (C34_columns_exact_partial). For arbitrary bytes the ranges tile what was consumed, each beginning outside any sequence (C34_any_bytes_partial).",
 "C35": "Refuted three ways (second buffer still incomplete, empty, or no room for the completed character: text.front() before the buffer). C35_resumed_exact_partial: for every pending state, buffer and limit, undefined behaviour if and only if the buffer brings no progress (Spec_Resume.no_progress), a normal end otherwise.",
 "C38": "For every acyclic table whose jamos are undecomposable. C38_meaning: NFD/NFKD = full decomposition followed by canonical reordering.",
 "C40": "The full statement is false of the code: a mark that does not compose is written before its starter (q U+0307 -> U+0307 q), and U+11A7 after an LV syllable disappears. Proved: nothing else is lost (permutation of the content), and equivalence for texts whose marks after starters all compose, in particular texts without marks. C40_exact_partial: the result is exactly the Standard's composition (D117, written out as a relation) with every starter moved behind the marks that follow it; it is the Standard's result iff no mark follows a starter there.",
 "C42": "NFD/NFKD: both answers exact. NFC/NFKC: No is definite. Yes is right by the Standard's algorithm (C42_yes_is_standard: the text is its own composition, and the only one) but false of the library's own normalize, e.g. q U+0332: normalize then returns the text with its starters displaced, and agrees exactly when the text is marks followed by starters (C42_yes_exact_partial; texts without U+11A7).",
 "C43": "Exact for NFD/NFKD; for NFC/NFKC 'false' is always right, 'true' is wrong for e.g. q U+0332. C43_true_exact_partial: 'true' agrees with normalize exactly when quick_check said Maybe or the text is marks followed by starters; when quick_check said Yes the text is in the form by the Standard (texts without U+11A7).",
 "C44": "False for NFD (U+0F40 U+0F74 U+0F73). Proved for every text in which each boundary code point's decomposition starts with a starter (that never composes backwards, NFC/NFKC). On every text: C44_segments (cut exactly before the flush points, each part normalized alone); NFC/NFKC agree with normalize on every text without U+11A7 under the Standard's quick-check tables (C44_composing_partial); NFD/NFKD agree exactly when the streamed text is canonically ordered (C44_decomposing_exact_partial).",
 "C50": "False for title case: to_titlecase only touches general categories Lu/Ll/Lt, so e.g. U+24D0 does not change although changes_when_titlecased is true. Proved for upper, lower and fold, and for title case on cased code points. to_titlecase changes a code point exactly when the query says so and its category is Lu, Ll or Lt (C50_title_exact_partial).",
 "C52": "Exact on non-empty tables; the empty table reads out of range (size()-1 wraps).",
 "C53": "Any element type, hash, block size; hypotheses: input is whole blocks, equal object bytes mean equal values, index types wide enough (decidable facts about the input).",
 "C54": "All texts, all tables (no hypothesis on the data).",
 "C55": {
  "note": "Refuted: Common/Inherited listed beside real extensions survives the intersection, so IDEOGRAPHIC COMMA + ARABIC COMMA + 'a' is one Latin run. Maximality holds always; soundness holds whenever the run shares a real script, and fully for texts without such mixed code points. C55_exact_partial: a run's script is shared exactly when its code points share some script of that kind.",
  "status": "partial"
 },
 "C56": "Every text over the emoji categories; the Ragel tables are transcribed verbatim and the grammar is stated as regular expressions independent of them. ts is not modelled (never read).",
 "C57": "Every text and every fuel above the text's length; segments = maximal runs of grammar tokens of equal presentation; substr()/isEmoji() views included.",
 "C58": "Any pack of well-behaved segmenters (heterogeneous tuples encoded by a sum type), and the library's run_segmenter instance for every text, script table and emoji category assignment.",
 "C59": "The full statement is false: an exact fit is refused (bytesWritten < dlen is required). Proved: no write outside the buffer, success exactly when the encoding is strictly shorter, contents and untouched tail on success.",
 "C60": "False for the empty text in non-modifiable mode (front() of an empty view). Proved for every non-empty text, and for every text in modifiable mode.",
 "C61": "All histories of push_back, resize and clear.",
 "C63": "Refuted by U+231A | U+FE0E (2 columns in two calls, 1 in one call). Proved for every cut position, also inside a character, for text without U+FE0E; assumes state.next reset to null between buffers. C63_exact_partial gives the difference for every text without control characters and every cut: the columns by which the piece open at the cut later falls below the width it had there (never negative: C63_never_less_partial).",
 "C64": "Refuted: for FF C3 A9 the rejected byte FF is handed over as a cluster of 0 columns. Proved for well-formed text: every cluster handed over is a non-empty run of whole characters. For arbitrary bytes: whole accepted or rejected sequences, except that the last range of the scan, or one before a control, may end in an unfinished sequence (C64_whole_sequences_partial).",
 "C65": "False: flush() keeps the UTF-8 decoder state, so a character cut short by flush() is dropped and completed by bytes of the next text. Exact: a byte string, well formed or not, either ends in a sequence cut short, and flush keeps exactly those bytes for the next text (C65_cut_short_partial), or it does not, and flush starts afresh (C65_flush_partial); C65_cases shows that these are all cases.",
 "C66": "False: ill-formed bytes are dropped before the check (41 FF counts as normalized, normalize returns 41). Decomposing forms: wrong exactly about ill-formed strings (C66_bytes_exact_partial, strings decoding to scalar values). Composing forms on well-formed text: false always right, true exactly when quick_check said Maybe or the text is marks followed by starters.",
 "C68": {
  "note": "Refuted: the names table numbers blocks in uint8_t and compares std::string objects bytewise, so the name of cp is that of cp mod 65536 (C68_names_wrap_partial). Right in the first plane, and everywhere if stage 1 were 16 bits wide. The hypothesis string_objects (no two std::string objects have equal bytes) is true of libstdc++.",
  "status": "partial"
 },
 "C69": {
  "note": "Refuted at n = N (the test is n < N); proved for n < N and for every shrink.",
  "status": "partial"
 },
 "C70": {
  "note": "Refuted: DerivedNormalizationProps.txt lines carry a trailing comment, which the parser leaves in the property field, so no Full_Composition_Exclusion line is loaded; U+0340 is a counterexample with the exact UCD line. Proved: what is loaded, and that no normalization result changes because of it.",
  "status": "partial"
 },
 "C71": "All well-formed files (any order, spacing, comments, CR LF), every code point and form.",
 "C72": "All well-formed files; std::sort of the composition list is any sorted permutation. C72_ready discharges the table hypotheses of the normalization theorems from conditions on the data. C72_comp_ready does so for C40_exact_partial.",
 "C73": "All well-formed files whose ASCII letters map as ASCII; C73 also discharges tables_ok.",
 "C74": "Every byte string.",
 "C75": {
  "note": "Refuted: range patterns are stored literally (name of U+3400 is \"CJK UNIFIED IDEOGRAPH-*\"). Proved: the stored name is the text of the line, right for every line without final *.",
  "status": "partial"
 },
 "C76": "All well-formed files (any order of lines, comments, CR LF), every code point; at most 253 scripts / categories and 255 value aliases per property (the indexes are uint8_t).",
 "C77": "Every code point, all nine flags.",
 "C78": "Every code point.",
 "C79": "Every code point.",
 "C80": {
  "note": "Refuted: unlisted code points get Narrow. Proved: exactly that.",
  "status": "partial"
 },
 "C81": "Success for every files_ok database; equality of records for any order the sorts may leave.",
 "C82": "Any hash. Hypotheses: at most 65536 records and 256 blocks differ (data of the UCD version); met by every database with at most 127 range boundaries, shown by C82_few_ranges.",
 "C83": "Any sorted permutation of the parsed ranges; file with non-overlapping lines.",
 "C84": "The sections must list their code points in order (the generator does not sort them), as the UCD file does.",
 "C85": "Core properties with the name of an enumerator; emoji functions exist exactly for properties in the file.",
 "C86": "Includes the merging of adjacent ranges.",
 "C87": "File with the '# Property:' header of the UCD file.",
 "C88": "All natural numbers.",
 "C89": "File in code point order (the generator does not sort it).",
 "C90": "Order of the returned view is that of the sorted abbreviations; stated up to permutation.",
 "C91": "One line per code point.",
 "C92": "Involution under the hypothesis that the file pairs the images.",
 "C93": "Every string.",
 "C94": {
  "status": "partial",
  "note": "Script, general category, emoji flags, Grapheme_Extend agree. Refuted for code points GraphemeBreakProperty.txt / EastAsianWidth.txt do not list (Undefined against Other, Unspecified against Narrow); proved for listed ones."
 },
 "C95": "Members of each enumeration as collected from the files; distinct_names is the only condition on spelling.",
 "C96": "Versions with numbers below 1000.",
 "C97": "plain_names: no hyphen in the names of scripts, core properties and values (those are not rewritten where they are used). uses_names: what ucd.cpp needs of GraphemeBreakProperty.txt and ScriptExtensions.txt.",
 "C98": "Detector and ASCII scan proved for every machine; the conversions fault on processors without SSE4.1 because convert.cpp is compiled with -msse4.1 (refuted), and are proved for all others. GCC/Clang flags.",
 "C99": "Proved for C++20; in C index 10 is 1 << 31 on an int (refuted), the other ten indices are proved.",
 "C100": "Refuted: the macro leaves a parenthesis open for every argument, and the __cplusplus test around extern \"C\" is inverted. Token-level model.",
 "C101": "Refuted: a value above 10FFFF is accepted, one of 2^32 or more silently becomes U+0000, and U+U+41 is U+0041. Exact behaviour proved for every text, and that printed code points read back.",
 "C102": "Refuted: backslashes are not escaped, so the byte C3 and the text \\xc3 look the same. Holds for texts without backslashes; printable; undefined behaviour of isprint characterised.",
 "C103": "Refuted where char is signed (x86): every non-ASCII cluster is shown as \\x escapes, since negative chars compare below 0x20. Exact output proved for every well-formed text; verbatim for unsigned char or 7-bit text.",
 "C105": "Refuted: an unassigned code point such as U+0378 fails the assertion in prettyAge. Exactly characterised; normal end otherwise. Code point names, property values etc. are arbitrary strings here. C105_records_partial: for assigned scalar values the output is exactly their records in order, every line of them.",
 "C107": "Refuted: an occurrence directly behind a replaced one is overlooked (the search resumes one character too far), so two adjacent ESC leave one in the output. Exact behaviour and totality proved.",
 "C108": "Refuted by regional indicators (as C21). Lines, offsets and UTF-8 forms proved for every well-formed text; marks exactly for texts without NUL.",
 "C110": "Refuted: without a file argument the command word is ignored and code points are listed from standard input.",
 "C111": "Refuted: the exit status is 0. The error stream is exact.",
 "C113": "Refuted twice: 'e' U+0301 at limit 1 leaves the accent behind; U+231A U+FE0E (width 1) is refused at limit 1 because U+231A alone has width 2. C113_exact_partial states what is taken for every text and limit (function take of Spec_ScanLimit over the measured pieces); C113_stop_partial says it in words.",
 "C114": "Refuted: a regional indicator that did not fit is already in the saved grapheme state, so the flag on the next line counts 4 columns instead of 2. Proved after any number of lines (no Prepend characters) when the next line begins with a 7-bit or an unremarkable character.",
 "C115": "Refuted twice: both loop conditions leave out the last segment, and segmenters at the last segments of different texts compare equal. The loops are proved to visit exactly all segments but the last; increments and operator== are characterised for every text.",
 "C116": "compiled (T_Link) = generator run on the files, any sort order, hash and line ending, then codepoint_properties::get on the generated table.",
 "C117": "Partial because of the two deviations from UAX #29 recorded under C18 (and for widths C25 applies without facts about the data). C117_hypotheses: the facts, stated on files in Spec_Link, give the hypotheses of the segmentation, width and scan theorems.",
 "C118": "Partial: the composed forms come out with every starter behind the marks that follow it (C118_composed_refuted: A + grave), C118_composed_partial says exactly what is returned instead; U+11A7 is left out there (C40). The decomposed forms, equivalence and their checks are proved in full.",
 "C119": "Refuted with the database's own lines (IDEOGRAPHIC COMMA, ARABIC COMMA, 'a' are one Latin run, as C55). Proved in file terms: maximality always, soundness when the run shares a real script, in full for texts without such mixed code points; runs are the common refinement. C119_exact_partial: a run's script is shared by the files exactly when its code points share some script of that kind.",
 "C120": "Lines read and exceptions of the parser are parameters; the order of the files is the code's.",
 "C121": "Refuted: output stream errors are never checked (unwritable directory, full disk), and a read error counts as end of file. C121_exact_partial: what status 0 means and what is on the disk then.",
 "C122": "CMake foreach/break and IS_NEWER_THAN (true for equal times and missing files) modelled.",
 "C123": "Refuted: all nine files exist and are new as soon as codepoint_properties_names.cpp has been created. C123_exact_partial says exactly for which crash points the next configuration regenerates.",
 "C125": "For fresh scan states and limits that are not reached (2 columns per byte). C125_every: the decomposition exists for every control-free byte string in which the decoder accepts only proper UTF-8. C125_clusters: in terms of grapheme clusters, under the hypotheses of C32.",
 "C126": "Refuted twice: files generated for another version are reused (C126_version_refuted), and even after deleting them the directory of the first call in that build directory stays cached (C126_clean_refuted). C126_exact_partial gives the exact rule; C126_uniform_partial: the nine files always come from one run.",
 "C127": "Refuted: a run cut off while unpacking leaves a directory that is taken as it is; an archive whose sum was wrong is unpacked unchecked by the next run. C127_forever_partial, C127_exact_partial: what is there stays; C127_good_partial, C127_first_partial: where the claim holds.",
 "C128": "Facts about the files (sections per category, no overlaps) are hypotheses with an example.",
 "C129": "C129_titlecase assumes the facts of C117 about the files; no_special_identity, maps_scalars and maps_closed (upper, lower, fold) are facts of the UCD, shown on an excerpt.",
 "C130": "C130_backslash_refuted: a simple mapping from U+005C would print the comment \"// \\\\\", which joins the next line to the comment. C130_text_denotes_partial: no such mapping (none exists in the UCD). Preprocessing directives are read as tokens.",
 "C131": "C131_backslash_refuted: a range whose comment (copied from the data file) ends in a backslash swallows the next line of the array. C131_text_denotes_partial: no comment ends in a backslash (none does in the UCD). That names of arrays in the same namespace are distinct is not part of the statement.",
 "C132": "C132_few_records_refuted: when every index of stage2 is below 256 (at most 256 different records, or names), the array is printed with elements of type uint8_t, and the uint16_t const* of tables_view / names_view in codepoint_properties.cpp cannot point to it: the generated sources do not compile. C132_text_denotes_partial: some index of each second stage is 256 or more (so for the UCD).",
 "C133": "Composition of C76-C82 (what the files mean), C53 (the multistage table) and the printer and reader of C132. Holds also when stage2 is printed as uint8_t (the statement then says so; that such sources do not compile is C132_few_records_refuted). The table of names is arbitrary here (C68, C132).",
 "C134": "Text model M_EmitEnums, independent reader Spec_Cpp/Spec_EmitEnums. An identifier here is a non-empty sequence of letters, digits and underscores: that none starts with a digit or is a keyword is not checked. The switches are compared as token sequences; what they do when run is C95.",
 "C135": "Text model M_EmitUcdH; the definitions come from C131 (whose condition on comments is inherited). A definition is recognised by its signature followed by an opening brace; the bodies are C131. Default arguments, attributes and include directives are not compared.",
 "C136": "Composite of C131 (text of ucd.cpp) with C83-C93 (loaders and lookups): nothing of the model between the files and the answers appears in the statement except the relation loaded_api, which says that the generator has read these files and sorted with std::sort. Comments are copied from the files; that each is one line not ending in a backslash is a hypothesis (comments_ok). The bodies of the functions are compared as text; their meaning is the model of ucd_private.h (M_Tables), C52.",
 "C137": "Composite of C130 (printed text), C70-C73 (loaders and table generation) and C118 (section 3.11). That all numbers fit the declared types and that there are fewer than 2^64 entries follows from the format of the files (keys are distinct code points); the two conditions that do not (decomposition length, backslash) are the hypothesis printable_data. The composed forms inherit the misplacement of starters that C40 and C118 refute: C137_composition says exactly when the Standard's result is returned.",
 "C138": "Joins C97 (names) with the printed texts of C131 and C134: the tables are those a C++ reader finds in the printed ucd.cpp, the values those it finds in the printed ucd_enums.h.",
 "C139": "C135 with its hypotheses derived from the files: names are identifiers, every table the signatures mention was loaded.",
 "C140": "Composite of C133 (printed tables), C116/C117 (files to properties to segments). library_of reads the arrays of the printed text; members of a record are taken by props_of (M_Link). Partial because of the deviations of C18; C140_printed_library is complete.",
 "C141": "Joins C136 (printed ucd.cpp) and C119 (script runs by the files). Partial as C55/C119: the code can name a script the code points of the run do not share (C119_sound_refuted); C141_printed_runs_partial says exactly when it does not.",
 "C142": "Joins C131, C133, C137 (printed texts) with C128 and C129. The enumerators of General_Category named in case_mapping.cpp are mapped by name (M_LinkCase).",
 "C143": "Joins C140 and C141 (printed texts) with C57, C58 and C119. What is claimed of the script a run names is what C119_exact_partial proves; the stronger statement is refuted (C55).",
 "C144": "Joins C137 (printed tables), C118 (Standard) and C47 (UTF-8 overloads). scalar_data: surrogates have no decomposition and are in none; decides/computes are defined in Spec_NormApi.",
 "C145": "Partial as C118/C40: the code writes every starter behind the marks that follow it, which C145_composed_partial states exactly; texts with U+11A7 are left out (C40). C145_true_is_standard_partial adds that is_nfc/is_nfkc are never true of a text that is not in the Standard's form, and C145_checks_exact_partial when they are true (false is wrong of texts the quick check cannot decide in which a mark follows a starter: the comparison is with the library's displaced result)."
}
