# Formal model of contour-terminal/libunicode in Rocq (Coq 8.16.1)

## Layout

* `properties.jsonl` – the English properties C01.. (generated by `tools/gen_properties.py`).
* `rocq/theories/Base.v` – shared vocabulary: bytes/code points as `N`, the outcome type `Res`
  (`Ok v | UB | NoFuel`), so undefined behaviour and fuel exhaustion are *distinct* outcomes.
* `rocq/theories/Spec_*.v` – small specifications that do not mention the model (what UTF-8/UTF-16 are, the
  UAX #29 rules as written in the annex, canonical ordering, the emoji grammar as regular expressions, the text format
  and meaning of the UCD files, ...).
* `rocq/theories/M_*.v` – the model, function by function, each definition citing file and lines in /repo.
* `rocq/theories/P_*.v` – lemmas and proofs. `*_Demo.v` – concrete tables and files (exact UCD entries) used by Examples and refutations.
* `rocq/theories/T_*.v` – the property theorems (statement, short proof, `Print Assumptions`, non-vacuity `Example`s).
* `rocq/theories/Replay_*.v` – model conformance (tests, not proofs): the assertions of the project's own `*_test.cpp` files for segmentation,
  width, scanning, conversion, runs, normalization and casing, replayed on the model with the exact UCD entries of the characters they use
  (364 examples, generated by `tools/gen_replay.py`). Every assertion holds of the model.
* `seeded/LOG.jsonl` – seeded-bug experiments.  `MANIFEST.json` – property -> theorem map (generated by `tools/gen_manifest.py`).

A theorem named `..._refuted` is the negation of the English claim, by a concrete counterexample of the modelled code: the property
is false of the code. Beside it stand `..._partial` theorems: what is true instead. The manifest marks such properties `partial`.

## General modelling decisions

* `char32_t`, bytes, UTF-16 units are `N`; wrap-around (`mod 2^32`, `uint8_t` casts) is written where the C++ has it.
* Pointers into a buffer are offsets (`nat`, `Z` in the scanner) into a `list N`, or suffix lists. Reads use `nth_error`; an
  out-of-range read yields `UB`. Where a property is about pointer arithmetic itself (C09, C16) a strict variant also makes forming
  a pointer outside `[0, size]` `UB`.
* Loops are structural recursion on the input or on explicit fuel; fuel exhaustion (`NoFuel`) is a separate outcome that the
  theorems exclude.
* The Unicode data tables are generated at build time from UCD files that are not in /repo. They are therefore
  *universally quantified*: every function takes a record of property functions (`ucd := N -> props`, `norm_tables`, `case_tables`,
  `script_tables`), and a theorem needing a fact about the data states it as an explicit, decidable hypothesis which a concrete table
  in an `Example` meets. Refutations use tables holding exact UCD entries. The table *generator* is modelled too (C67–C94): C71–C73
  show that the tables generated from well-formed files meet those hypotheses.
* SIMD intrinsics are modelled lane-wise (lists of lanes), following Intel's documented meaning of each intrinsic used, for every
  width (`impl`: NoSimd, StdSimd w, X86 w, Neon).
* Exceptions (`std::map::at`, `throw`) are `option`'s `None`. `assert` is compiled out (release build).
* `std::sort` with a comparison that can tie: any sorted permutation is allowed (the theorems quantify over it). `std::map` is a sorted
  association list, `std::vector` a list; `std::unordered_map` is used only through its map interface. Allocation never fails.

## Per-property models and proofs

| Property | Model | What is modelled / simplified, how proved |
|---|---|---|
| C01–C07 | `M_Utf8` | to_utf8, encoder<char>, from_utf8, the decoder state machine. Arithmetic characterisation of masks and shifts, induction on text. C05 refuted (7-bit byte accepted as continuation, overlong, surrogates, > U+10FFFF); the exact set of accepted sequences is proved |
| C08–C10 | `M_Convert` | SIMD lanes + scalar tail. SIMD loop = scalar on the ASCII prefix; length bound by a potential argument. C09: stores in bounds proved, `src + simd_size` past the end refuted under the strict pointer flag |
| C11–C13 | `M_Convert` | UTF-16, iterator decoders with `UB` on over-read. Round trips by induction; C12 refuted for truncated input |
| C14 | `M_Utf8` | case analysis on the pending state |
| C15, C16 | `M_AsciiScan` | lane/mask lemmas; C16 refuted under the strict pointer flag (`end - simd_size` before the buffer) |
| C17–C19, C21 | `M_Grapheme` | state abstraction. C18 refuted twice (double ZWJ; Prepend before a flag), proved exactly what rules the code follows; C21 refuted (regional indicators) |
| C20 | `M_Utf8Grapheme` | simulation with the UTF-32 segmenter; ill-formed input by `Spec_Lossy` |
| C22, C23 | `M_Word` | state abstraction; C23 assumes extended pictographs are not ignorable for word breaking (UCD fact) |
| C24–C27 | `M_Width` | accumulator invariants; C24/C25 assume widths 0..2 and VS16 width 0 (generated table facts) |
| C28–C35, C62–C64 | `M_Scan` | scan.cpp/scan.h. Offsets are `Z`, counters unbounded (no 2^64 overflow); `state.next` is reset to null between buffers, as callers must. C29, C32, C34, C35, C63, C64 refuted by exact byte strings; positive theorems on the sound sub-domains |
| C36–C45 | `M_Normalize`, `M_Tables` | explicit fuel for recursive decomposition (tables well-founded), the bubble step on the reversed prefix. C40 refuted (mark emitted before starter, U+11A7 swallowed), C42–C44 consequences. `C40_exact_partial` (P_Compose2): compose is D117's relation with the starters displaced, for every input. `C42_yes_is_standard`/`C42_yes_exact_partial`/`C43_true_exact_partial` (P_QcYes): quick_check's Yes is right by the Standard, and the exact texts on which the library's normalize then disagrees |
| C46–C50 | `M_Case` | list homomorphisms; tables_ok, no_identities, closed are hypotheses (C73 discharges them for generated tables). compare returns a sign. C50 refuted for title case |
| C51–C53 | `M_Tables`, `M_Multistage` | lower_bound / binary_search invariants; C52 refuted for the empty table |
| C54, C55 | `M_Script`, `M_FsArray` part | sets as lists (justified by C61); Common/Inherited/Unknown abstract numbers 0/1/2. C55 refuted |
| C56, C57 | `M_Emoji` | the generated Ragel tables verbatim, interpreted; `ts` is not modelled (unused). Bisimulation between the table DFA and the grammar |
| C58 | `M_Run` | cursor invariant over an arbitrary list of segmenters |
| C59, C60 | `M_CApi` | C59 refuted for the exact fit, C60 for the empty text |
| C61, C69 | `M_Script` (support.h) | fs_array; C69 refuted at n = N |
| C65, C66 | `M_NormUtf8` | utf8_normalizer; views are lists |
| C67, C68 | `M_Multistage` | cells = value × object bytes, any hash function, verification as one pass. C68 refuted (uint8_t stage 1 of the names table) |
| C70–C75 | `M_TableGen` | ucd_parser.cpp and case_norm_generator.cpp. Files = lists of lines, LF or CR LF; the printed C++ source is modelled by its meaning (array contents). C70 refuted (trailing comments), C75 refuted (name patterns) |
| C76–C82 | `M_PropGen` | multistage_generator.cpp. The array of structs is one function per field; std::stoul/stoi restricted to digits; enumerators by name; at most 255 values per enumeration (`files_ok`); C82 additionally few_values/few_blocks (sizes of the actual data). C80 refuted |
| C83–C94 | `M_UcdApi` | ucd_api_generator.cpp. A generated function = its array + contains()/search() of ucd_private.h; enumerators by name. Empty groups (UB of the search) are excluded by `nonempty`; general category sections and blocks must be ascending since the generator does not sort them. C94 refuted for unlisted code points |
| C95–C97 | `M_Enums` | enum_generator.cpp, enum_utils.h. An enumeration = its member list; enumerators with the printed values, the two switches as case lists, underlying type as a number of bits; the text of the headers is C134. `record_refs`/`ucd_refs` list the enumerators the other generated sources name |
| C98 | `Spec_Simd`, `M_Simd` | simd_detector.cpp and the dispatch in scan.cpp/convert.cpp. A machine is an arbitrary CPUID function and XCR0 value; XGETBV without OSXSAVE and running a translation unit compiled (CMake flags of GCC/Clang) for an unsupported extension are undefined. Conversions refuted for processors without SSE4.1 |
| C99, C100 | `M_CMacros` | macros and linkage guards of capi.h; 32-bit int and u32_char_t; C100 at token level only. C99 refuted in C for index 10, C100 refuted |
| C101–C112 | `M_Query` | unicode-query.cpp and uc-inspect.cpp. Text is bytes; signedness of char, tolerance of isprint for negative chars, NDEBUG and the terminal check are parameters; property values are the strings printed; of uc-inspect's formatted lines only the listed fields. File reading is not modelled. C101–C103, C105, C107, C108, C110, C111 refuted, with exact partial theorems |
| C113, C114 | `M_Scan` | scan_text with a limit as a machine over code points (`lim` in P_ScanLimit), related to the measured pieces (`take` in Spec_ScanLimit, P_ScanLimit2). Text well-formed and control-free; a stopping byte may follow. C114: states reached by any number of earlier calls (`between_lines`). |
| C115 | `M_SegIter` | the segmenters as iterators: increment, dereference, bool, ==; a view is base address + text. Refuted (last segment skipped) |
| C116, C117 | `M_Link`, `Spec_Link` | composition of M_PropGen, M_Multistage and the run-time functions; enumerator names mapped to the constructors of M_Ucd; database facts are conditions on the files |
| C118 | `Spec_LinkNorm` | composition of M_TableGen, M_Tables and M_Normalize; the specification speaks of file lines only |
| C119 | `M_LinkScript`, `Spec_LinkScript` | composition of M_UcdApi, M_Script, M_Emoji, M_Run; any injective numbering of the script names |
| C120–C123 | `M_TgMain`, `Spec_TgMain` | tablegen_main.cpp, the order of file accesses, the reuse decision of src/libunicode/CMakeLists.txt. Contents of the tables are a parameter; a device takes a limited number of bytes; a crash is a prefix of the sequence of file creations and appended pieces, in any order the stream buffers allow. The build tool's own rule (OUTPUT older than the unicode_tablegen binary) is not modelled. C121, C123 refuted |
| C124 | `M_Threads`, `Spec_Threads` | convert.cpp and the dispatcher of scan.cpp as a transition system: any number of threads, the guard of each function-local static ([stmt.dcl]/4) and every access to its value are separate steps, the scheduler is arbitrary. Sequentially consistent memory (justified by C124_no_race). All other functions of the library touch only constant tables and the objects they are given, so they add no shared accesses; distinct threads using the same object are outside the claim. -fno-threadsafe-statics is not modelled. Proved by an invariant over guard, cell and program counters |
| C125 | `M_Scan`, `Spec_ScanJunk` | scan_text on streams `text, ill-formed, text, ill-formed, ...` (bytes_of); Spec_ScanJunk says what an ill-formed sequence is in terms of the decoder. Proved by the machine of P_Scan3 restarted at every rejected sequence (P_ScanJunk, P_ScanJunk2); C125_every: every control-free byte string in which the decoder accepts only proper UTF-8 (cf. C05) is such a stream |
| C126 | `M_Configure`, `Spec_Configure` | the cache variables of CMakeLists.txt and the custom command of src/libunicode/CMakeLists.txt; a history of events (cmake + build in a build directory, edits, deletions, database replacements) over one source tree. From CMake's manual: set(... CACHE) keeps a cached value, -D overrides it. Databases are taken to be on disk; one `Make` is configuration and build together, and when the configuration decides to generate, the custom command runs. Refuted; the exact rule is proved by induction over histories |
| C127 | `M_Configure`, `Spec_Configure` | the fetching of the database as a relation: download (stopped anywhere, any bytes), checksum, unpacking in any order cut off anywhere. From CMake's manual: file(DOWNLOAD ... EXPECTED_MD5) leaves the file when the sum differs; ARCHIVE_EXTRACT creates the directory first. Refuted; what is guaranteed and what is remembered for ever is proved for every sequence of attempts |
| C128, C129 | `M_LinkCase`, `Spec_LinkCase` | the general category read from the two generated tables (general_category::get and the property record), joined with the case tables generated from UnicodeData.txt, SpecialCasing.txt and CaseFolding.txt and with word segmentation over the generated properties. Statements speak of file lines only (file_map, category, file_wb). Proved by composing C73, C76, C84, C116, C117, C46-C49 |
| C130 | `M_Emit`, `Spec_Cpp`, `Spec_Emit` | case_norm_generator.cpp character by character; `Spec_Cpp` is a reader of C++ source (line splicing, comments, tokens, integer literals, braced initializers, array definitions), independent of the generator. Template `>` and `::` are read character by character; preprocessing directives are kept as tokens. Proved by composing "pieces" of text with known token lists. Refuted for U+005C |
| C131 | `M_EmitUcd`, `Spec_Cpp`, `Spec_EmitUcd` | the printing of ucd.cpp (ucd_api_generator.cpp) character by character, read by the reader of `Spec_Cpp`: 13 groups of tables and the functions over them. Every part of the file is shown to lex on its own (`sound`) and to define its array or function. Refuted for a comment that ends in a backslash |
| C132 | `M_EmitMs`, `Spec_Cpp`, `Spec_EmitMs` | the printing of codepoint_properties_data.{h,cpp} and codepoint_properties_names.cpp (multistage_generator.cpp) character by character, read by the reader of `Spec_Cpp`, for all stages, records and names. Refuted when minimumUintType picks uint8_t for a second stage, which the views of codepoint_properties.cpp read as uint16_t |
| C133 | `M_PropGen`, `M_Multistage`, `M_EmitMs`, `Spec_Cpp`, `Spec_EmitGet` | composition: parsed files, computed records, generated stages (ranges of the stages from the invariant of C53), printed text, reader, indexing |
| C134 | `M_Enums`, `M_EmitEnums`, `Spec_Cpp`, `Spec_EmitEnums` | enum_generator.cpp, the printed text of ucd_enums.h, ucd_ostream.h, ucd_fmt.h: tokens, initializer lists and values read back; the names of the collected enumerations from the files (C95, C97) |
| C135 | `M_EmitUcdH`, `M_EmitUcd`, `Spec_EmitUcdH` | ucd_api_generator.cpp, what it prints to ucd.h: the text lexes and contains every declaration; with C131, the same signatures in ucd.cpp |
| C136 | `M_EmitUcd`, `M_PropGen`, `M_UcdApi`, `Spec_EmitFiles` | from the UCD files to the answers of ucd.cpp: loaded maps fit (P_EmitFiles), the text defines them (C131), lookups in them answer with the files (C83-C93) |
| C137 | `M_Emit`, `M_TableGen`, `M_Case`, `M_Normalize`, `Spec_EmitFiles2` | from the files to the text of case_normalization_data.h to the answers: the loaded maps fit their types (T_EmitFiles2), the text defines them (C130), the functions that search them follow the files (C71-C73, C118) |
| C138 | `M_EmitUcd`, `M_EmitEnums`, `M_Enums`, `Spec_EmitFiles3` | names_in lists the enumerators the text of ucd.cpp names; each is among those of C97 (both loaders read the same files), so declared, so defined in the text of ucd_enums.h (C134) |
| C139 | `M_EmitUcd`, `M_EmitUcdH`, `Spec_EmitFiles4` | the signatures and category names are read off the files; the loaded maps have exactly those keys (P_EmitFiles, C84, C85, C87), so C135 gives declarations, definitions and inline functions |
| C140 | `M_EmitMs`, `M_Link`, `M_Grapheme`, `M_Word`, `Spec_EmitLib` | the arrays a reader finds in the printed text (C133) give each code point its record; the record describes the files (C116), so UAX #29 as in C117 |
| C141 | `M_EmitUcd`, `M_UcdApi`, `M_LinkScript`, `M_Script`, `Spec_EmitScript` | the arrays a C++ reader finds in the printed ucd.cpp (C131) are those of M_UcdApi; search commutes with mapping the values, so the indirection through array names gives the lists of C90; then C119 |
| C142 | `M_EmitUcd`, `M_EmitMs`, `M_Emit`, `M_LinkCase`, `M_Case`, `Spec_EmitCase` | the arrays read from codepoint_properties_data.cpp and ucd.cpp are indexed and searched as the library does; they give the library of C128/C129 (C82, C84), the arrays of case_normalization_data.h its case tables (C137) |
| C143 | `M_Run`, `M_Emoji`, `M_Script`, `Spec_EmitLib`, `Spec_EmitScript` | the libraries of C140 and C141 over one database, then C57 (emoji segments), C58 (common refinement) and C119 |
| C144 | `M_NormApi`, `Spec_NormApi` | tables of the printed text (C137), decomposed forms, checks and equivalence by the Standard (C118), UTF-8 overloads by C47; tables from files mention scalar values only |
| C145 | `M_NormApi`, `Spec_LinkNorm` | as C144 with C118_composed_partial; partial because the code displaces starters (C40). `P_Behind`: counting pairs of a starter and a mark behind it shows that only texts without displacement are returned unchanged, so what normalize leaves alone and what is_normalized calls normalized is the Standard's form of itself (C40_unchanged_is_standard, C43_true_is_standard, C118_true_is_standard). `Spec_NormExact`: what NFC_QC=No means; with it is_nfc and is_nfkc are characterised exactly (C145_checks_exact_partial) |

## What is not modelled

`codepoint_properties.cpp` (the static instance), `scoped_timer.h`, `benchmark.cpp`, the test files;
`codepoint_properties_loader.cpp`, which no build target compiles and which does not fit the current
`support::generate` (it passes a three-argument search function where a hash function is expected); the printed
text of the generated C++ other than case_normalization_data.h (C130), ucd.cpp (C131) and codepoint_properties_data.{h,cpp}, codepoint_properties_names.cpp (C132) and ucd_enums.h, ucd_ostream.h, ucd_fmt.h (C134), ucd.h (C135) (their compilation is assumed to give the arrays and searches described); file I/O (files are given as lists of lines). Compiler, standard library
and hardware are trusted to do what the C++ standard and the Intel/ARM manuals say. Multi-threading: the only mutable global
state is the two function-local statics of C124; everything else is a function of its arguments.

## Trusted base

* Coq 8.16.1's kernel, including `vm_compute` (used for concrete Examples, refutations and finite table checks).
* `Print Assumptions` is run under each theorem and lists *no* axioms ("Closed under the global context") for every one of them. Loading
  `Lia`/`ZifyBool` makes the ssreflect under-binder axioms of the standard distribution visible in the environment (`ssrunder`); no theorem uses them.
* The reading of the C++ recorded in the citations of `M_*.v`, and the reading of the standards in `Spec_*.v`.
