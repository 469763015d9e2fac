#!/usr/bin/env python3
"""Writes properties.jsonl (one JSON object per line) from the table below."""
import json, os
P = []
def p(title, statement, quantifier, why, anchors):
    P.append(dict(title=title, statement=statement, quantifier=quantifier, why_tests_cant=why, anchors=anchors))

INP = "The claim ranges over an infinite set of inputs; a test samples a few of them."
# ---------------------------------------------------------------- UTF-8
p("UTF-8 round trip", "Encoding any sequence of Unicode scalar values with to_utf8 / convert_to<char> and decoding the bytes again (from_utf8(string_view), convert_to<char32_t>, byte-wise from_utf8) yields exactly the original sequence.",
  "every finite sequence of scalar values (U+0000..U+D7FF, U+E000..U+10FFFF)", INP, ["src/libunicode/utf8.h:to_utf8", "src/libunicode/utf8.cpp:from_utf8", "src/libunicode/convert.h:encoder<char>,decoder<char>"])
p("UTF-8 encoder emits well-formed UTF-8", "For every scalar value the encoder emits exactly the byte sequence the Unicode Standard (table 3-6/3-7) assigns to it: shortest form, right lead byte and continuation bytes; the two encoders in the library agree on every 32-bit value.",
  "every char32_t value", "2^21 code points times two encoders; boundaries between lengths are where sampling misses bugs.", ["src/libunicode/utf8.h:to_utf8", "src/libunicode/convert.h:encoder<char>"])
p("UTF-8 encoding is injective and order preserving", "Different scalar sequences have different encodings, no encoding of a scalar is a prefix of another's, and byte-wise lexicographic comparison of encodings orders texts exactly as code point comparison does.",
  "every pair of scalar sequences", "Quantifies over pairs of unbounded strings.", ["src/libunicode/utf8.h:to_utf8", "src/libunicode/convert.h:encoder<char>"])
p("Progressive decoder on well-formed text", "Feeding well-formed UTF-8 byte by byte to from_utf8(state, byte) reports Success with the right code point exactly on the last byte of each character, Incomplete on the others, never Invalid, and returns to the idle state after each character.",
  "every well-formed UTF-8 byte sequence", INP, ["src/libunicode/utf8.cpp:from_utf8"])
p("The progressive decoder only accepts well-formed UTF-8", "from_utf8 reports Success only for byte sequences that are well-formed UTF-8, and the value is then a Unicode scalar value.",
  "every byte sequence", "The set of ill-formed sequences is large and irregular; tests pin a handful.", ["src/libunicode/utf8.cpp:from_utf8"])
p("Decoding one code point from a buffer", "from_utf8(bytes, &size) returns the first code point of a buffer that starts with a well-formed character, sets size to its byte length and reads no byte beyond it.",
  "every buffer starting with a well-formed character, every continuation", "Out-of-bounds reads do not show in return values.", ["src/libunicode/utf8.h:from_utf8(uint8_t const*, size_t*)"])
p("Streaming decode is independent of chunking", "Feeding a byte stream through the stateful decoders (from_utf8 with a state, u8u32_stream_convert_run, convert_to<char32_t>) gives the same code points however the stream is cut; the C stream API gives the same code points as convert_to<char32_t> on the whole buffer.",
  "every byte sequence and every way of cutting it", "Cut points times contents is unbounded.", ["src/libunicode/convert.h:decoder<char>::operator()(uint8_t)", "src/libunicode/capi.cpp:u8u32_stream_convert_run"])
p("Bulk UTF-8 to UTF-32: SIMD result equals scalar result", "convert_to<char32_t>(string_view) returns the same code points whichever SIMD width (128/256/512 or none) and whichever implementation path is selected at run time.",
  "every byte sequence, every SIMD width", "The selected path depends on the host CPU; a test machine runs one of them.", ["src/libunicode/convert_simd_impl.h:convert_utf8_to_utf32_simd", "src/libunicode/convert.cpp"])
p("Bulk conversion never overruns its buffer", "convert_to<char32_t>, convert_to<char16_t> and from_utf8(string_view), which size the output to one element per input byte, never write more elements than input bytes, and read only input bytes - also on arbitrary malformed input.",
  "every byte sequence, every SIMD width", "Memory safety over all malformed inputs.", ["src/libunicode/convert_simd_impl.h", "src/libunicode/convert.h:convert_to", "src/libunicode/utf8.h:from_utf8(string_view)"])
p("Bulk UTF-8 to UTF-16: SIMD result equals scalar result", "convert_to<char16_t>(string_view<char>) returns the UTF-16 encoding of the decoded code points, for every SIMD width.",
  "every byte sequence, every SIMD width", INP, ["src/libunicode/convert_simd_impl.h:convert_utf8_to_utf16_simd"])
p("UTF-16 round trip and encoder correctness", "Each scalar value is encoded as the one- or two-unit sequence UTF-16 prescribes, surrogates and values above U+10FFFF produce no output, and decoding the units of any scalar sequence gives the sequence back.",
  "every char32_t value / every scalar sequence", INP, ["src/libunicode/convert.h:encoder<char16_t>,decoder<char16_t>"])
p("Iterator-based conversion stays inside its input", "convert_to<T>(string_view, out) reads only elements of the view it is given and terminates, for every input.",
  "every input sequence, including truncated and malformed ones", "An over-read is undefined behaviour and usually goes unnoticed in a test.", ["src/libunicode/convert.h:convert_to(basic_string_view, OutputIterator)", "src/libunicode/convert.h:decoder<char>::operator()(InputIterator&)", "src/libunicode/convert.h:decoder<char16_t>"])
p("Conversions between UTF-8, UTF-16 and UTF-32 are mutually lossless", "On well-formed text every composition of convert_to between char, char16_t, char32_t (and wchar_t) that returns to the starting encoding is the identity.",
  "every scalar sequence", INP, ["src/libunicode/convert.h:convert_to"])
p("Decoder resynchronises after garbage", "After any malformed prefix, at most the first three characters of following well-formed text are lost; the rest decodes to exactly its code points.",
  "every byte prefix, every well-formed continuation", "Garbage prefixes are unbounded.", ["src/libunicode/utf8.cpp:from_utf8", "src/libunicode/convert.h:decoder<char>"])
# ---------------------------------------------------------------- ASCII scan
p("ASCII scan returns the exact printable-ASCII prefix", "scan_for_text_ascii(text, max) returns the length of the longest prefix of text consisting of bytes 0x20..0x7F, cut at max, for every SIMD width and implementation path.",
  "every byte sequence, every limit, every SIMD width", "The mask arithmetic is data dependent at every lane position.", ["src/libunicode/scan_simd_impl.h:scan_for_text_ascii_simd", "src/libunicode/intrinsics.h"])
p("ASCII scan stays within its buffer", "scan_for_text_ascii forms and dereferences only pointers into (or one past) the given text.",
  "every byte sequence, every limit, every SIMD width", "Undefined pointer arithmetic is invisible to tests.", ["src/libunicode/scan_simd_impl.h:scan_for_text_ascii_simd"])
# ---------------------------------------------------------------- graphemes
p("Grapheme clusters partition the text", "Iterating grapheme_segmenter yields non-empty, contiguous clusters whose concatenation is the input, and terminates after at most one step per code point.",
  "every code point sequence, every property table", INP, ["src/libunicode/grapheme_segmenter.h:grapheme_segmenter"])
p("Grapheme boundaries follow UAX #29", "grapheme_segmenter puts a boundary between two code points exactly when rules GB3-GB999 of UAX #29 do.",
  "every code point sequence and position", "The rules look arbitrarily far back (GB9c, GB11, GB12/13); the conformance file has 1093 lines.", ["src/libunicode/grapheme_segmenter.cpp:grapheme_process_init,grapheme_process_breakable", "src/libunicode/grapheme_segmenter.h"])
p("Grapheme segmentation is prefix stable", "Whether there is a boundary at a position depends only on the text before it and the code point after it: appending text never changes earlier boundaries.",
  "every pair of texts", "Quantifies over all continuations.", ["src/libunicode/grapheme_segmenter.h"])
p("UTF-8 grapheme segmentation agrees with UTF-32", "Iterating utf8_grapheme_segmenter over well-formed UTF-8 yields exactly the clusters grapheme_segmenter yields on the decoded text, and it terminates on every byte sequence.",
  "every byte sequence", INP, ["src/libunicode/utf8_grapheme_segmenter.h"])
p("Driving the stateful grapheme API without re-initialising", "A caller that calls grapheme_process_init once and then grapheme_process_breakable for each further code point (as scan_text does) sees the same boundaries as grapheme_segmenter.",
  "every code point sequence", "State left behind by a break only matters on long histories.", ["src/libunicode/grapheme_segmenter.cpp", "src/libunicode/scan.cpp:scan_for_text_nonascii"])
# ---------------------------------------------------------------- words
p("Word segments partition the text", "Iterating word_segmenter yields non-empty contiguous segments whose concatenation is the input and terminates.",
  "every code point sequence, every property table", INP, ["src/libunicode/word_segmenter.h:word_segmenter"])
p("Word boundaries follow UAX #29", "word_segmenter puts a boundary between two code points exactly when rules WB3-WB999 do (with WB4 skipping and lookahead/lookbehind through ignored characters).",
  "every code point sequence and position", "Unbounded lookahead and lookbehind.", ["src/libunicode/word_segmenter.cpp"])
# ---------------------------------------------------------------- width
p("Cluster width: one measuring algorithm", "grapheme_cluster_width of a cluster equals what the incremental accumulator reports after the same code points, including the one-code-point shortcut.",
  "every cluster", "The shortcut and the accumulator are separate code.", ["src/libunicode/width.cpp:grapheme_cluster_width", "src/libunicode/width.cpp:grapheme_cluster_width_accumulator::push"])
p("Cluster width is bounded and never wraps", "The width of a cluster is never negative, never exceeds two columns per code point, and internal counters stay in range, so the unsigned result never wraps.",
  "every code point sequence up to 2^29 long", "Signed correction (VS15) against an unsigned result on arbitrary sequences.", ["src/libunicode/width.cpp"])
p("Documented presentation rules", "VS16 widens exactly defined narrow variation bases to two columns, VS15 narrows exactly defined wide ones, a spacing mark or a consonant conjunct makes the cluster two wide, a ZWJ swallows the following code point, a skin tone after an emoji and the second half of a flag add nothing, zero-width marks add nothing.",
  "every base, every sequence of trailing zero-width members", "Rules interact over whole clusters.", ["src/libunicode/width.h", "src/libunicode/width.cpp"])
p("Width of a UTF-8 string is the sum over its clusters", "grapheme_cluster_width(utf8) equals the sum of the cluster widths of the decoded text; u32_gc_width/u8_gc_width in modifiable mode report the same number.",
  "every byte sequence", INP, ["src/libunicode/width.cpp:grapheme_cluster_width(string_view)", "src/libunicode/capi.cpp:u32_gc_width,u8_gc_width"])
# ---------------------------------------------------------------- scan_text
p("scan_text keeps its cursors ordered", "After scan_text, start <= end <= state.next <= end of text, so a caller that prints [start,end) and resumes at next neither re-reads nor leaves the buffer.",
  "every text, limit and idle starting state", "Rewinds and early returns combine over arbitrary inputs.", ["src/libunicode/scan.cpp:scan_text"])
p("scan_text respects the column limit", "The reported column count never exceeds maxColumnCount.",
  "every byte sequence, every limit", "Depends on the exact place the limit is hit.", ["src/libunicode/scan.cpp:scan_for_text_nonascii"])
p("scan_text never splits a character", "On well-formed text the reported end and state.next lie on character boundaries, and the decoder state is idle.",
  "every well-formed text and limit", INP, ["src/libunicode/scan.cpp"])
p("scan_text stops at controls", "No C0 control byte, and no C1 byte at a character boundary, is ever part of the scanned range; the scan stops in front of it.",
  "every byte sequence", INP, ["src/libunicode/scan.cpp", "src/libunicode/scan.h"])
p("scan_text measures like grapheme_cluster_width", "For well-formed control-free text and no limit, the column count equals the sum of the cluster widths of the text.",
  "every well-formed text", "Two separately driven segmenters must agree on every input.", ["src/libunicode/scan.cpp", "src/libunicode/width.h"])
p("scan_text loses no byte", "When scan_text returns, every byte it moved state.next past is reported: it is inside [start,end), belongs to an incomplete trailing character kept in the state, or was reported as invalid.",
  "every byte sequence, every limit", "A dropped byte shows only for particular mixes of marks and runs.", ["src/libunicode/scan.cpp:scan_text"])
p("scan_text hands every cluster to the receiver", "On well-formed text the ranges given to the receiver, in order, are contiguous, cover exactly the scanned range, and their column counts add up to the returned count.",
  "every well-formed text, every limit", INP, ["src/libunicode/scan.cpp", "src/libunicode/scan.h:grapheme_cluster_receiver"])
p("scan_text resumed on a split character stays in the new buffer", "When a character is split across two calls, the second call only reads bytes of the buffer it was given.",
  "every split point, every continuation", "Over-reads in front of a buffer are not visible in results.", ["src/libunicode/scan.cpp:scan_for_text_nonascii", "src/libunicode/scan.cpp:scan_text"])
# ---------------------------------------------------------------- normalization
p("Hangul composition and decomposition are inverse", "hangul_decompose and hangul_compose are inverse bijections between the 11172 syllables and the (L,V[,T]) jamo sequences; hangul_compose rejects everything else.",
  "every char32_t triple", "Covers all 2^32 arguments.", ["src/libunicode/normalization.cpp:hangul_decompose,hangul_compose,is_hangul_*"])
p("Canonical ordering", "The reordering step permutes only combining marks, never moves anything across a starter, keeps marks of equal class in order, and leaves every run of marks sorted by combining class.",
  "every code point sequence, every ccc table", INP, ["src/libunicode/normalization.cpp:canonical_order"])
p("NFD/NFKD are idempotent", "to_nfd(to_nfd(s)) = to_nfd(s) and likewise for NFKD, and the result contains no code point with a decomposition.",
  "every text, every acyclic decomposition table", INP, ["src/libunicode/normalization.cpp:normalize"])
p("Decomposition terminates", "Full decomposition of any code point terminates for every acyclic decomposition table and equals the transitive closure of the one-step mappings.",
  "every code point, every acyclic table", "Termination is not observable by a finite test.", ["src/libunicode/normalization.cpp:decompose_recursive"])
p("NFC preserves canonical equivalence", "to_nfd(to_nfc(s)) = to_nfd(s): composing never changes, drops or reorders what the text means.",
  "every text", INP, ["src/libunicode/normalization.cpp:compose,try_compose,normalize"])
p("Canonical equivalence is an equivalence relation and a congruence", "is_canonically_equivalent / is_compatibility_equivalent are reflexive, symmetric, transitive, hold between a text and its NFD/NFKD, canonical equivalence implies compatibility equivalence, and appending equivalent texts yields equivalent texts.",
  "every pair/triple of texts", "Relations over all strings.", ["src/libunicode/normalization.cpp:is_canonically_equivalent,is_compatibility_equivalent"])
p("quick_check Yes and No are definite", "When quick_check returns Yes the text equals its normalization; when it returns No it differs from it (for tables that record the decomposable code points).",
  "every text, every consistent table", INP, ["src/libunicode/normalization.cpp:quick_check"])
p("is_normalized is exact", "is_normalized(text, form) holds exactly when normalize(text, form) = text.",
  "every text", INP, ["src/libunicode/normalization.cpp:is_normalized"])
p("Streaming normalizer equals batch normalization", "The concatenation of everything feed() and flush() return equals normalize() of the whole input, however the input is fed.",
  "every text, every form", "Boundary decisions matter only for particular neighbours.", ["src/libunicode/normalization.cpp:normalizer"])
p("Streaming UTF-8 normalizer is independent of chunking", "utf8_normalizer returns the same total output however the byte stream is cut into chunks; for well-formed input it is the UTF-8 encoding of the streamed normalization of the decoded text; reset() returns to the initial state.",
  "every byte stream, every chunking", INP, ["src/libunicode/normalization.cpp:utf8_normalizer"])
# ---------------------------------------------------------------- case
p("Case conversion is character-wise", "to_uppercase/to_lowercase/casefold of a concatenation is the concatenation of the results; each code point contributes one to three code points: its full mapping, else its simple mapping, else itself; ASCII letters map to ASCII letters.",
  "every text, every sorted table", INP, ["src/libunicode/case_mapping.cpp"])
p("UTF-8 case conversion agrees with UTF-32", "On well-formed UTF-8 the UTF-8 overloads of case mapping and normalization return the encoding of what the UTF-32 overloads return on the decoded text.",
  "every scalar sequence", INP, ["src/libunicode/case_mapping.cpp", "src/libunicode/normalization.cpp"])
p("casefold_compare is a total preorder compatible with casefold_equals", "casefold_compare is antisymmetric in sign, transitive, zero exactly when the folded texts are equal, casefold_equals is an equivalence relation, and the UTF-8 and UTF-32 overloads agree in sign on well-formed text.",
  "every pair/triple of texts", "Relational property.", ["src/libunicode/case_mapping.cpp:casefold_compare,casefold_equals"])
p("Titlecase touches one letter per word", "to_titlecase maps the first cased code point of every word segment to titlecase, lowercases the other cased ones, and leaves all other code points unchanged.",
  "every text", INP, ["src/libunicode/case_mapping.cpp:to_titlecase"])
p("Case predicates agree with case mappings", "changes_when_X(cp) holds exactly when X-mapping cp as a one-character string yields something different from cp (for tables without identity entries).",
  "every code point, every consistent table", "2^21 code points times four predicates, for all table versions.", ["src/libunicode/case_mapping.cpp:changes_when_*"])
# ---------------------------------------------------------------- tables
p("Binary-search lookups are exact", "For every sorted table, the lower_bound lookups (simple/full case mapping, ccc, decompositions, quick-check sets, composition pairs) return exactly the entry stored for the key, and the default when there is none.",
  "every sorted table, every key", "Off-by-one errors at the ends of arbitrary-size tables.", ["src/libunicode/case_mapping.cpp:lookup_simple,lookup_full", "src/libunicode/normalization.cpp:lookup_ccc,find_decomposition,try_compose"])
p("Interval searches are exact", "contains() and search() over sorted disjoint intervals return exactly membership / the property of the interval containing the code point, never index outside the array and terminate.",
  "every sorted table, every code point", INP, ["src/libunicode/ucd_private.h:contains,search"])
p("Multistage tables reproduce their input", "After generate(), get(i) returns the input value of every index (when index types do not overflow), whatever the hash functions; an index above the maximum returns the entry of index 0.",
  "every input array, every hash function", "Block de-duplication depends on all pairs of blocks.", ["src/libunicode/multistage_table_generator.h", "src/libunicode/multistage_table_view.h"])
# ---------------------------------------------------------------- script/emoji/run
p("Script runs partition the text", "script_segmenter::consume yields strictly increasing offsets ending at the text size and then stops.",
  "every text, every property table", INP, ["src/libunicode/script_segmenter.cpp:consume"])
p("Script runs are sound and maximal", "All code points of a run that carry a real script share the reported script, and a run ends only where no script is common to the whole run and the next code point.",
  "every text, every script-extension table with at most 31 extensions per code point", "Set intersection over runs of arbitrary length.", ["src/libunicode/script_segmenter.cpp:mergeSets,getScriptsFor"])
p("Emoji scanner implements its grammar", "The generated table-driven scanner returns the longest prefix matching the grammar in emoji_presentation_scanner.rl, with the text-presentation rule winning ties, always consumes at least one code point and never reads outside the text.",
  "every category sequence", "Generated tables over unbounded ZWJ/tag sequences.", ["src/libunicode/emoji_presentation_scanner.c", "src/libunicode/emoji_presentation_scanner.rl"])
p("Emoji segments partition the text and alternate", "emoji_segmenter::consume yields strictly increasing segments ending at the text size, adjacent segments differ in presentation, and each segment is a concatenation of scanner tokens of that presentation.",
  "every text", INP, ["src/libunicode/emoji_segmenter.cpp:consume,consume_once"])
p("Run segmenter yields the common refinement", "basic_run_segmenter yields contiguous non-empty runs covering the text; its boundaries are exactly the union of its sub-segmenters' boundaries and each run carries the property of the sub-segment containing it.",
  "every text, every list of well-behaved segmenters", "Interaction of independently moving cursors.", ["src/libunicode/run_segmenter.h:basic_run_segmenter"])
# ---------------------------------------------------------------- C API
p("u32u8_convert respects the destination size", "u32u8_convert never writes more than dlen bytes, on success writes exactly the UTF-8 encoding and returns its length, and fails only when the encoding does not fit.",
  "every source, every dlen", "Exact-fit boundary for every length.", ["src/libunicode/capi.cpp:u32u8_convert", "src/libunicode/capi.h"])
p("C cluster counting and measuring agree with C++", "u32_gc_count / u8_gc_count return the number of grapheme clusters; u32_gc_width in non-modifiable mode sums base widths, defined for every input including the empty one.",
  "every text, including empty", INP, ["src/libunicode/capi.cpp:u32_gc_count,u8_gc_count,u32_gc_width"])
p("fs_array stays within its capacity", "The fixed-capacity array used by the segmenters never holds more than N elements, never writes outside its storage, and push_back reports exactly whether the element was stored.",
  "every sequence of operations", "Operation histories are unbounded.", ["src/libunicode/support.h:fs_array"])
p("NEON sign-bit collection equals movemask", "On ARM64 the shift-and-accumulate cascade that emulates movemask returns, for every 16-byte vector, exactly the vector's sign bits (lane i in bit i), so the all-ASCII test used by the conversions means 'every byte below 0x80' on both architectures.",
  "every 16-byte vector (2^128 values)", "2^128 inputs, and only on ARM hardware.", ["src/libunicode/intrinsics.h:movemask_epi8,all_ascii"])
p("scan_text counts are additive across buffers", "Scanning a text in two calls, with the state carried over and the buffer cut at any byte (also inside a character), reports in total the same number of columns as one call, and leaves the same state, no matter where the cut falls (scan.h, reportedClusterWidth).",
  "every text, every cut position, every idle starting state", "Cut positions and histories are unbounded; clusters straddle calls.", ["src/libunicode/scan.h:scan_state", "src/libunicode/scan.cpp:scan_text"])
p("scan_text never hands ill-formed bytes to the receiver", "Every byte range passed to receiveGraphemeCluster is well-formed UTF-8.",
  "every byte sequence", "Ill-formed bytes can appear anywhere in the stream.", ["src/libunicode/scan.cpp:scan_for_text_nonascii", "src/libunicode/scan.h:grapheme_cluster_receiver"])
p("flush() of the UTF-8 normalizer ends the text", "After flush() a utf8_normalizer reads what follows as a new one would: no byte of the finished text is carried into the next one.",
  "every byte stream fed before, every later history", "Histories of calls, with the cut at any byte.", ["src/libunicode/normalization.cpp:utf8_normalizer::flush,utf8_normalizer::feed"])
p("is_normalized agrees with normalize on byte strings", "If is_normalized(bytes, form) is true then normalize(bytes, form) returns the same bytes.",
  "every byte string, every form", "Ill-formed sequences may appear anywhere.", ["src/libunicode/normalization.cpp:is_normalized,normalize"])
p("Case conversion is idempotent", "Converting a converted text again (same conversion) changes nothing, for tables whose targets are themselves unmapped; in particular casefold(casefold(s)) = casefold(s).",
  "every text, every closed table", "All texts; multi-character expansions.", ["src/libunicode/case_mapping.cpp:to_uppercase,to_lowercase,casefold"])
p("Every code point has its own name", "codepoint_properties::name(cp) returns the name that the Unicode Character Database gives cp, for every code point of every plane.",
  "every code point, every name table, every representation of std::string objects", "The fault depends on the addresses of heap objects and on how many blocks differ; a few looked-up names in the first plane pass.", ["src/libunicode/codepoint_properties.h:name", "src/libunicode/codepoint_properties_loader.h", "src/libunicode/multistage_table_generator.h", "src/libunicode/tablegen/multistage_generator.cpp"])
p("fs_array::resize reaches the capacity", "fs_array<T, N>::resize(n) makes the array n elements long for every n up to its capacity N.",
  "every history of the array, every n <= N", "The boundary n = N after any history.", ["src/libunicode/support.h:fs_array::resize"])
TG = "src/libunicode/tablegen/"
p("is_full_composition_exclusion follows the UCD", "is_full_composition_exclusion(c) is true exactly for the code points that CompositionExclusions.txt or DerivedNormalizationProps.txt gives Full_Composition_Exclusion.",
  "every well-formed set of UCD files, every code point", "The table depends on the text of every line of the files, including trailing comments.", [TG + "ucd_parser.cpp:loadDerivedNormalizationProps,loadCompositionExclusions", "src/libunicode/normalization.cpp:is_full_composition_exclusion"])
p("Quick-check values follow DerivedNormalizationProps.txt", "The per-code-point NFC, NFD, NFKC and NFKD quick checks return No, Maybe or Yes exactly as the file the tables were generated from says.",
  "every well-formed file, every code point, every form", "All code points of any UCD version, ranges and single lines in any order.", [TG + "ucd_parser.cpp:loadDerivedNormalizationProps", TG + "case_norm_generator.cpp:writeQuickCheckTable", "src/libunicode/normalization.cpp:nfc_quick_check,nfd_quick_check,nfkc_quick_check,nfkd_quick_check"])
p("Combining classes, decompositions and compositions follow UnicodeData.txt", "canonical_combining_class, canonical_decomposition, compatibility_decomposition and pairwise composition give every code point what its line in UnicodeData.txt says (0 / none if it has no line), and the generated tables meet the conditions the normalization theorems need.",
  "every well-formed set of UCD files, every code point and pair", "All code points of any UCD version.", [TG + "ucd_parser.cpp:loadUnicodeData,parseCodepoint,parseCodepoints", TG + "case_norm_generator.cpp:writeCccTable,writeDecompositionTable,writeCompositionTable,writeCompatibilityDecompositionTable"])
p("Case mappings follow UnicodeData.txt, SpecialCasing.txt and CaseFolding.txt", "simple and full upper, lower, title case and folding of every code point, and the conversion of every text, are those the three files define (unconditional special casings, fold statuses C+F and C+S).",
  "every well-formed set of UCD files, every code point and text", "All code points of any UCD version; entries dropped as trivial must not matter.", [TG + "ucd_parser.cpp:loadUnicodeData,loadSpecialCasing,loadCaseFolding", TG + "case_norm_generator.cpp:generateCaseNormFile", "src/libunicode/case_mapping.cpp"])
p("UCD lines are parsed safely and exactly", "For every byte string, a line accepted by the table generator's line parser denotes an ordered range inside U+0000..U+10FFFF; well-formed lines give exactly their range and property, comments and blank lines nothing.",
  "every byte string", "Malformed, truncated or patched files; any line.", [TG + "ucd_parser.cpp:parseStandardLine,trim,parseCodepoint"])
p("Names are expanded from DerivedName.txt", "The name of every code point is the one DerivedName.txt defines, the final * of range patterns standing for the code point.",
  "every well-formed file, every code point", "Nearly 100,000 ideographs get their name from a pattern.", [TG + "ucd_parser.cpp:loadDerivedNames", TG + "multistage_generator.cpp:generateMultistageFiles", "src/libunicode/codepoint_properties.h:name"])
MGA = [TG + "multistage_generator.cpp:generateMultistageFiles", TG + "ucd_parser.cpp", "src/libunicode/codepoint_properties.h"]
p("Enumerated properties follow the UCD files", "Script, General_Category, Grapheme_Cluster_Break, Word_Break, East_Asian_Width, Indic_Conjunct_Break and Age of every code point are the values the property files give it, by the long names of PropertyValueAliases.txt, or the documented default when no line covers it.",
  "every well-formed set of UCD files, every code point", "All code points of any UCD version; short and long value names, any order of lines.", MGA)
p("Property flags follow the UCD files", "is_emoji(), is_emoji_presentation(), is_emoji_component(), is_emoji_modifier(), is_emoji_modifier_base(), is_extended_pictographic(), is_core_grapheme_extend(), is_virama() and the emoji variation base flag are set exactly for the code points the files list.",
  "every well-formed set of UCD files, every code point", "Flags of one code point come from several files and share a byte.", MGA)
p("Code point width follows its rules", "The width of a code point is 0 for Hangul V/T jamo; 1 for U+00AD and for prepended format characters; 0 for control, format, mark, separator and surrogate categories; 2 for Emoji_Presentation and for East Asian Wide or Fullwidth; else 1, the first applicable rule deciding.",
  "every well-formed set of UCD files, every code point", "The rules overlap; later passes override earlier ones.", MGA)
p("Emoji segmentation categories follow their rules", "The emoji segmentation category of every code point is that of the first applicable rule of the generator's list (special code points, modifier bases, modifiers, regional indicators, keycap bases, presentation), else Invalid.",
  "every well-formed set of UCD files, every code point", "Overlapping rules over all code points.", MGA)
p("Unlisted code points are East Asian Neutral", "A code point that EastAsianWidth.txt does not list has East_Asian_Width Neutral, as UAX #11 and the file's @missing line say.",
  "every well-formed set of UCD files, every unlisted code point", "All unlisted code points.", MGA)
p("Property generation succeeds and is deterministic", "For every well-formed set of UCD files the property tables are generated, and the result depends neither on line endings nor on the order std::sort leaves equal elements in.",
  "every well-formed set of UCD files, every unstable sort", "Unspecified order of equal elements; exceptions on missing aliases.", MGA)
p("codepoint_properties::get returns the generated record", "The printed three-stage table answers every code point with the record computed for it, and every value beyond U+10FFFF with the record of U+0000, if the different blocks and records fit the index types.",
  "every well-formed set of UCD files, every hash, every code point", "1114112 lookups; block deduplication.", [TG + "multistage_generator.cpp:generateMultistageFiles", "src/libunicode/multistage_table_generator.h", "src/libunicode/multistage_table_view.h"])
UA = [TG + "ucd_api_generator.cpp:generateUcdApiFiles", TG + "ucd_parser.cpp", "src/libunicode/ucd_private.h:contains,search"]
p("script() follows Scripts.txt", "script(c) is the script the file gives the code point, Unknown if it gives none, for every 32-bit value, without any out-of-range access.",
  "every well-formed file, every order std::sort may leave, every code point", "All code points; interval boundaries; any UCD version.", UA)
p("General category queries follow DerivedGeneralCategory.txt", "general_category::get(c) is the category the file gives c; contains(General_Category, c) and the is_<category>(c) functions are true exactly for the code points of that category, so both answers always agree.",
  "every well-formed file, every category, every code point", "Two tables generated from the same lines by different code.", UA)
p("Binary property queries follow their files", "contains(Core_Property, c) and is_emoji(c), is_extended_pictographic(c) etc. are true exactly for the code points to which the file gives the property.",
  "every well-formed file, every property, every code point", "All code points and properties.", UA)
p("east_asian_width() follows EastAsianWidth.txt", "east_asian_width(c) is the width class the file gives c (ranges merged by the generator notwithstanding), Unspecified if it gives none.",
  "every well-formed file, every code point", "Merging adjacent ranges must not change any answer.", UA)
p("grapheme_cluster_break() follows GraphemeBreakProperty.txt", "grapheme_cluster_break(c) is the class the file gives c, Undefined if it gives none.",
  "every well-formed file, every code point", "All code points.", UA)
p("plane() names the plane of every code point", "plane(c) is the plane numbered c / 0x10000, Unassigned for planes 4 to 13 and beyond U+10FFFF.",
  "every 32-bit value", "2^32 values.", UA)
p("block() follows Blocks.txt", "block(c) is the block whose range contains c, with blanks and hyphens replaced by underscores; Unspecified between blocks.",
  "every ascending file, every code point", "All code points.", UA)
p("script_extensions() follows ScriptExtensions.txt", "script_extensions(c) is exactly the set of scripts the file lists for c, by their long names; nothing if it lists none. Lists shared between code points never mix.",
  "every well-formed pair of files, every code point", "Shared arrays are keyed by a concatenated name.", UA)
p("is_mirrored() follows UnicodeData.txt", "is_mirrored(c) is true exactly for the code points whose line has Bidi_Mirrored Y.",
  "every well-formed file, every code point", "Compression into intervals; all code points.", UA)
p("bidi_mirroring_glyph() follows BidiMirroring.txt and is an involution", "bidi_mirroring_glyph(c) is the mirror image the file gives c, c itself if it gives none; if the file pairs the images, applying it twice gives c.",
  "every well-formed file, every code point", "All code points.", UA)
p("make_age() parses exactly the known versions", "make_age(s) is the Age whose version string is s, nullopt for every other string, including the abbreviation of Unassigned.",
  "every string, every well-formed alias file", "All strings.", UA)
p("Query functions and property table agree", "For every code point script(), general_category::get(), grapheme_cluster_break(), east_asian_width() and the emoji and Grapheme_Extend queries give the value of the corresponding field of codepoint_properties::get().",
  "every well-formed set of UCD files, every code point", "Two independently generated representations of the same data; all code points.", UA + MGA)
EA = [TG + "enum_generator.cpp:collectEnums,writeEnumClass,writeEnumOstream,writeEnumFormatter", TG + "enum_utils.h:sanitizeIdentifier,buildAgeEnumMembers"]
p("Generated enumerations compile, are dense and print by name", "All enumerations and their switches compile: no enumerator and no type is declared twice. The i-th member has the value i, which the underlying type holds; operator<< and std::format give its name, different enumerators differently; any other value prints as its number in parentheses and formats as the empty string.",
  "every well-formed set of UCD files whose names differ, every enumeration, every value", "Names, and so the enumerators, change with every UCD version.", EA)
p("Age values order like versions", "Comparing two Age enumerators compares the Unicode versions they name, numerically by major and minor number; Unassigned is before all of them. So the ages of two code points compare like the versions in which DerivedAge.txt lists them.",
  "every well-formed set of UCD files, all pairs of versions and of code points", "The alias file is sorted as text (10.0 before 2.0); the numbering changes with every version.", EA + MGA)
p("Generated sources name only declared enumerators", "Every enumerator named in the generated property table, in ucd.h and in ucd.cpp is declared in ucd_enums.h, with the same spelling.",
  "every well-formed set of UCD files, every code point, every table entry", "The names are spelled by different generators from different files.", EA + UA + MGA)
SD = ["src/libunicode/simd_detector.cpp:max_simd_size,detect_os_avx,detect_os_avx512", "src/libunicode/scan.cpp:scan_for_text_ascii", "src/libunicode/convert.cpp:convert_utf8_to_utf32,convert_utf8_to_utf16", "src/libunicode/CMakeLists.txt"]
p("Run-time SIMD selection never executes a missing instruction and never changes a result", "On every x86-64 machine the detector completes without fault, reads only registers the processor defines, and selects the widest vector size whose instructions processor and operating system support; scan_text and convert_to then run without an illegal instruction and give the same results as on any other machine.",
  "every processor and operating system configuration (all CPUID and XCR0 contents), both dispatching builds, every input", "A test runs on the processors at hand.", SD)
CM = ["src/libunicode/capi.h:u32_unused_bit_get,u32_unused_bit_on,u32_unused_bit_off,u32_unused_bit_cleared,u32_unused_bit_mask,u32_unused_bit_capacity"]
p("The unused bits of a u32_char_t are independent storage", "Setting and clearing unused bits with indices below u32_unused_bit_capacity(), in any order, is defined, never changes the code point, and each bit reads back as last set; u32_unused_bit_mask shows them all.",
  "every 32-bit value, every history of operations, both languages", "All values and all histories; undefined behaviour is invisible to a test that happens to work.", CM)
p("The C API header is usable from C", "u32_is_valid_codepoint expands to an expression for every argument; the header contains no C++ syntax when compiled as C, and gives its functions C linkage when compiled as C++.",
  "every argument, both languages", "The tests are C++ and never expand the macro.", ["src/libunicode/capi.h:u32_is_valid_codepoint"])
UQ = ["src/tools/unicode-query.cpp"]
def q_(x): return ["src/tools/unicode-query.cpp:" + x]
def ui(x): return ["src/tools/uc-inspect.cpp:" + x]
p("unicode-query reads U+XXXX exactly", "An argument U+XXXX means the code point XXXX (hexadecimal digits of either case, up to 10FFFF), anything else behind U+ is an error; a code point printed by the tool reads back as itself.",
  "every argument, every code point", "All strings.", q_("parseChar,parseChars"))
p("The escaped notation of unicode-query determines the text", "With -e, and on the UTF-8 line, different texts are shown differently, in printable ASCII without quotes.",
  "every byte string, every platform", "All pairs of texts; char signedness and isprint differ between platforms.", q_("escaped,quotedAndEscaped"))
p("unicode-query gc prints the grapheme clusters", "gc prints each grapheme cluster of a text on a line of its own, verbatim except for control codes.",
  "every well-formed text, every property table, every platform", "All texts; char signedness differs between platforms.", q_("showGraphemeClusters,escapeControlCodes"))
p("unicode-query option parsing", "gc and runs take any number of -e, then optionally --, then texts; behind -- every text is accepted, even one starting with a dash; any other option prints the usage and fails; properties may be omitted.",
  "every argument list", "All argument lists.", q_("main,showGraphemeClusters,showRuns"))
p("unicode-query properties shows every code point", "The properties command ends normally for every code point, assigned or not, and shows the Unicode version that introduced it.",
  "every argument list, every property table, both build types", "All code points; the assertion is absent from release builds.", q_("prettyAge,showCodepointProperties"))
p("unicode-query runs prints the runs of the text", "runs prints the common refinement of script and emoji segmentation in order, each run with first and last position, length, script, presentation and text; together the runs are the text.",
  "every well-formed text, every property table", "All texts.", q_("showRuns"))
p("uc-inspect replaces every escape character", "Every occurrence of the pattern is replaced, so uc-inspect runs writes no escape character of the inspected text to the terminal; nothing throws.",
  "every text, pattern and replacement", "All texts.", ui("replaceAll,runs"))
p("uc-inspect codepoints lists the code points with offsets and cluster starts", "One line per code point of a well-formed text, in order, with its byte offset and UTF-8 form, marked breakable exactly where a grapheme cluster starts.",
  "every well-formed text, every property table", "All texts.", ui("codepoints"))
p("The escaped notation of uc-inspect determines the bytes", "Different byte strings are shown differently, in printable ASCII.",
  "every byte string", "All pairs of byte strings.", ui("escape"))
p("uc-inspect runs the requested command", "uc-inspect COMMAND ... runs that command; with a file it reads that file.",
  "every argument list", "All argument lists.", ui("parseArgs"))
p("unicode-query reports unparsable arguments", "An argument that cannot be parsed is reported, on the error stream and by the exit status.",
  "every argument list", "All argument lists.", q_("showCodepointProperties"))
p("uc-inspect scripts lists the script runs", "scripts prints the script runs of a well-formed text as consecutive ranges, each followed by its code points with their positions.",
  "every well-formed text, every script table", "All texts.", ui("scripts"))
p("A column limit cuts between clusters, as late as possible", "With a limit of maxColumnCount columns, scan_text takes the longest run of whole grapheme clusters whose widths fit; what it leaves is whole clusters.",
  "every well-formed control-free text, every limit, every byte behind the text", "Every text and every limit.", ["src/libunicode/scan.cpp:scan_text", "src/libunicode/scan.cpp:scan_for_text_nonascii", "src/libunicode/scan.h:scan_result"])
p("The line after a full one is measured like a text of its own", "When scan_text stopped at the column limit, the next call with the same state on the rest of the text reports the same columns and range as a call with a fresh state.",
  "every text, every number of earlier lines and their limits, every rest", "Arbitrary histories of calls.", ["src/libunicode/scan.cpp:scan_text", "src/libunicode/scan.h:scan_state"])
SI = ["src/libunicode/grapheme_segmenter.h:grapheme_segmenter", "src/libunicode/word_segmenter.h:word_segmenter"]
p("Looping over a segmenter visits every segment", "Looping over a grapheme_segmenter or word_segmenter with its conversion to bool, or until it equals a default constructed one, visits every segment of the text once, in order; dereferencing after n increments gives the n-th segment; two segmenters compare equal only when they denote the same segment.",
  "every text, every property table, every number of increments", "All texts; the tests never loop with these conditions.", SI)
p("The properties the library reads are those of the database files", "For every code point each property the segmentation and width functions read at run time is the one the UCD files give it; it does not depend on line endings, hash function or sort used when the tables were generated.",
  "every well-formed set of UCD files, every build from them, every code point", "The tables change with every UCD version; all code points and all files.", ["src/libunicode/codepoint_properties.h:get"] + MGA)
p("From UCD files to segments and widths", "A library built from UCD files that have the general facts of the database cuts texts where UAX #29 says for the properties in these files, and measures widths between 0 and 2 per code point.",
  "every set of UCD files with the stated facts, every build from them, every text", "Composition of generator, table and run-time algorithm for all files and all texts.", ["src/libunicode/codepoint_properties.h:get", "src/libunicode/grapheme_segmenter.cpp", "src/libunicode/word_segmenter.h", "src/libunicode/width.cpp"] + MGA)
p("From UCD files to normal forms", "A library built from UnicodeData.txt, CompositionExclusions.txt and DerivedNormalizationProps.txt normalizes, compares and checks texts as section 3.11 of the Unicode Standard prescribes for the data in these files.",
  "every set of such files with the general facts of the database, every build from them, every text", "Composition of generator, tables and run-time algorithm for all files and all texts.", ["src/libunicode/normalization.cpp:normalize", TG + "case_norm_generator.cpp", TG + "ucd_parser.cpp"])
p("From UCD files to script runs", "A library built from Scripts.txt, ScriptExtensions.txt and PropertyValueAliases.txt splits every text into maximal runs whose script, by name, is shared by all code points of the run according to these files; runs of the run segmenter are the common refinement with the emoji segments by the emoji files.",
  "every set of such files with the general facts of the database, every build from them and every numbering of the enumerators, every text", "Composition of generator, query functions and segmenter for all files and all texts.", ["src/libunicode/script_segmenter.cpp", "src/libunicode/run_segmenter.h", TG + "ucd_api_generator.cpp", TG + "ucd_parser.cpp"])
p("A missing input file stops the generator before it writes anything",
  "If any file of the Unicode Character Database that unicode_tablegen needs cannot be opened, it exits with failure, prints a message (naming the first missing file, when nothing else is wrong) and leaves every output file as it was.",
  "every set of present and missing input files, every content of the others, every state of the output directory",
  "there are 2^21 sets of missing files and any contents besides; a test removes one file",
  ["src/libunicode/tablegen/tablegen_main.cpp: main", "src/libunicode/tablegen/ucd_parser.cpp: openFile, UcdParser::parseAll"])
p("Exit status 0 of the generator means complete tables",
  "When unicode_tablegen exits with status 0, all nine generated files hold their complete text, computed from the complete input files.",
  "every input, every point at which reading or writing may fail",
  "I/O errors at arbitrary bytes cannot be enumerated by tests",
  ["src/libunicode/tablegen/tablegen_main.cpp: main", "src/libunicode/tablegen/ucd_parser.cpp: openFile", "src/libunicode/tablegen/enum_generator.cpp: generateEnumFiles", "src/libunicode/tablegen/multistage_generator.cpp: generateMultistageFiles"])
p("Generated files are reused exactly when they are current",
  "The build reuses the generated files found on disk if and only if all nine exist and none of them is older than any source file of the generator; equal times count as current.",
  "every number of sources and every assignment of modification times, present and missing files",
  "all orders of the time stamps",
  ["src/libunicode/CMakeLists.txt: LIBUNICODE_HAS_PREGENERATED_FILES"])
p("An interrupted generator run is repeated by the next configuration",
  "If a run of the generator is cut off (power failure, kill) at any point at which the nine files are not yet complete, the next configuration does not take them for current.",
  "every crash point, every order in which buffered output reaches the disk, every prior state of the files",
  "crash points are between any two bytes written",
  ["src/libunicode/CMakeLists.txt: LIBUNICODE_HAS_PREGENERATED_FILES", "src/libunicode/tablegen/multistage_generator.cpp: generateMultistageFiles", "src/libunicode/tablegen/tablegen_main.cpp: main"])

p("The library may be used from several threads at once",
  "When any number of threads call the conversion and scanning functions on buffers of their own, every call returns what it returns in a single-threaded program, no data race occurs, no thread waits for ever, and the processor is probed at most once per function, also when several threads make the very first call at the same time.",
  "every number of threads, every sequence of calls of each, every schedule",
  "the interleavings of the first calls cannot be enumerated by tests",
  ["src/libunicode/convert.cpp: convert_utf8_to_utf32, convert_utf8_to_utf16", "src/libunicode/scan.cpp: scan_for_text_ascii", "src/libunicode/simd_detector.cpp: max_simd_size"])

p("Ill-formed input is contained by scan_text",
  "When a control-free byte stream with ill-formed UTF-8 sequences in it is scanned without reaching the column limit, every ill-formed sequence is reported exactly once and costs exactly one column, and each stretch of well-formed text between them is measured exactly as if it were scanned alone; a character left unfinished at the end of the buffer costs nothing; all bytes are consumed.",
  "every well-formed text, every number and kind of ill-formed sequences at every position, every SIMD implementation",
  "ill-formed sequences can stand anywhere, among combining marks, flags and wide characters, and the state left behind by one affects unboundedly much text after it",
  ["src/libunicode/scan.cpp: scan_text, scan_for_text_nonascii", "src/libunicode/utf8.cpp: from_utf8"])

p("The tables come from the Unicode version asked for",
  "After calling cmake with LIBUNICODE_UCD_VERSION and building, the generated tables come from the database of the version asked for last in that build directory (17.0.0 by default), whatever was configured, built, edited or deleted in this and other build directories of the same source tree before.",
  "every history of configurations with any options in any number of build directories, source edits, deletions and database replacements",
  "histories are unbounded; cached variables and reused files carry over from any earlier step",
  ["CMakeLists.txt: LIBUNICODE_UCD_VERSION, LIBUNICODE_UCD_BASE_DIR, LIBUNICODE_UCD_DIR", "src/libunicode/CMakeLists.txt: LIBUNICODE_HAS_PREGENERATED_FILES, add_custom_command"])
p("A configuration that succeeds has the published database",
  "A configuration that gets past fetching the Unicode Character Database has the complete published database on disk; a download or unpacking that was interrupted or failed its checksum is repeated by the next configuration.",
  "every number of attempts, every point at which each may be cut off, every content a download may leave behind, every order in which unpacked bytes reach the disk",
  "crash points lie between any two bytes and attempts may be repeated any number of times",
  ["src/libunicode/CMakeLists.txt: ExtractZipArchive, file(DOWNLOAD)", "CMakeLists.txt: LIBUNICODE_UCD_ZIP_FILE"])

p("is_cased and is_case_ignorable follow the database",
  "is_cased(c) is true for exactly the code points DerivedGeneralCategory.txt lists as upper case, lower case or title case letters; is_case_ignorable(c) for exactly those D136 of the Unicode Standard names: Word_Break MidLetter, MidNumLet or Single_Quote, or General_Category Mn, Me, Cf, Lm or Sk.",
  "every set of well-formed database files and every code point",
  "the answer depends on two generated tables for 1114112 code points",
  ["src/libunicode/case_mapping.cpp: is_cased, is_case_ignorable", "src/libunicode/tablegen/ucd_api_generator.cpp", "src/libunicode/tablegen/multistage_generator.cpp"])
p("From UCD files to case conversion",
  "A library generated from the files converts every text, in UTF-32 and UTF-8, as the files say: upper, lower and fold character by character with the full mapping, else the simple one; title case by cutting the text at the UAX #29 word boundaries of the files and converting the first cased letter of each word to title case and later ones to lower case; case-insensitive equality and order are those of the folded texts; changes_when_*() tell whether the mapping is not the identity; converting twice is converting once.",
  "every set of well-formed database files and every text",
  "composition of the parser, four generated tables, word segmentation and the conversion loops",
  ["src/libunicode/case_mapping.cpp: to_titlecase, to_uppercase, to_lowercase, casefold, casefold_compare, casefold_equals, changes_when_uppercased", "src/libunicode/tablegen/case_norm_generator.cpp", "src/libunicode/tablegen/ucd_parser.cpp"])

p("The compiler reads the case and normalization tables the generator computed",
  "case_normalization_data.h, as printed, is a C++ text whose arrays (the simple and full case mappings, combining classes, decompositions, compositions, quick-check and exclusion sets) hold exactly the entries the generator computed, in order and with the declared lengths and types, without narrowing.",
  "every content of the tables whose numbers fit the declared types, of any size",
  "the text is generated: separators, padding, comments and counts depend on every entry",
  ["src/libunicode/tablegen/case_norm_generator.cpp: generateCaseNormFile, writeSimpleCaseTable, writeFullCaseTable, writeQuickCheckTable", "src/libunicode/tablegen/enum_utils.h: licenseHeader"])

p("The compiler reads the Unicode property tables and look-up functions the generator computed",
  "ucd.cpp, as printed, is a C++ text whose arrays (planes, core properties, general categories, scripts, script extensions, blocks, grapheme and word break classes, East Asian widths, emoji properties, mirroring, ages) hold exactly the ranges the generator computed, with the enumerators they name, in order and with the declared lengths and types; and whose functions are the searches of the array of their own property, with the documented default for code points in no range.",
  "every content of the property tables whose numbers fit the declared types and whose names are identifiers, of any size",
  "the text is generated: array names, separators, comments, counts, padding and merged ranges depend on every entry",
  ["src/libunicode/tablegen/ucd_api_generator.cpp: generateUcdApiFiles", "src/libunicode/tablegen/ucd_api_generator.h"])

p("The compiler reads the multistage tables the generator computed",
  "codepoint_properties_data.cpp and codepoint_properties_names.cpp, as printed, are C++ texts that define in the given namespace, with the element types the look-ups of codepoint_properties.cpp take, exactly the two stages, the records (field by field: width, both flag bytes, and the enumerators of script, grapheme cluster break, East Asian width, general category, emoji segmentation category, age, Indic conjunct break and word break) and the names that were computed, in order; codepoint_properties_data.h declares each of them with the same type and length.",
  "every table of stages, records and names whose numbers fit the declared types, whose enumerators are identifiers and whose names need no escape, of any size; every qualified namespace",
  "the text is generated: element type, column breaks, block comments, binary numerals, padding and lengths depend on every entry",
  ["src/libunicode/tablegen/multistage_generator.cpp: generateMultistageFiles, writeCxxTable, minimumUintType, binstr", "src/libunicode/codepoint_properties.cpp: configured_tables, configured_names", "src/libunicode/codepoint_properties.h: codepoint_properties, tables_view, names_view"])

p("The generated sources answer with the properties of the UCD files",
  "Compiled and indexed as multistage_table_view does (block number of the high bits, index in the block, record), the arrays of the generated codepoint_properties_data.cpp give every code point up to U+10FFFF exactly the record the generator computed for it from the files of the UCD: from text files to the text of the sources and back through a C++ reader, no code point gets the properties of another.",
  "all files of the form of the UCD whose value names are identifiers, with at most 65536 different records and 256 different blocks; every hash function, line ending, outcome of the sorts; every code point",
  "the answer for a code point passes through parsing, merging, two levels of deduplicated blocks and a printed array of millions of bytes; a test samples a few code points of one version",
  ["src/libunicode/tablegen/multistage_generator.cpp: generateMultistageFiles, writeCxxTable", "src/libunicode/multistage_table_generator.h: generate", "src/libunicode/multistage_table_view.h: unsafe_get", "src/libunicode/codepoint_properties.cpp: configured_tables"])

p("The generated headers declare the enumerations with their values, names and printers",
  "Read by a C++ compiler, the generated ucd_enums.h defines in namespace unicode every enumeration once, over the shortest unsigned type that holds it, with exactly the collected names as enumerators, the i-th with the value i and no name twice; ucd_ostream.h and ucd_fmt.h hold for each of them an operator<< and a std::formatter that map every enumerator to the name of the UCD it stands for. Every enumerator a record of the generated property table names is declared there with a value.",
  "all files of the form of the UCD whose names are letters, digits, underscores, blanks and hyphens and do not collide once spelled as identifiers; every line ending and outcome of the sorts",
  "the headers are generated text of thousands of lines that changes with each Unicode version; a test compiles those of one version and looks at a few enumerators",
  ["src/libunicode/tablegen/enum_generator.cpp: minimalUint, writeEnumClass, writeEnumOstream, writeEnumFormatter, generateEnumFiles, collectEnums", "src/libunicode/tablegen/enum_utils.h: sanitizeIdentifier, licenseHeader"])

p("ucd.h declares the functions that ucd.cpp defines, and its inline functions ask for their own category",
  "Read by a C++ compiler, the generated ucd.h declares in namespace unicode every function of the API with the signature ucd.cpp defines it with: the fixed ones, one per grapheme break table and per emoji property, and make_age when there are ages. For every general category X it defines general_category::is_x, which asks contains for General_Category::X; to_string names every EastAsianWidth.",
  "all contents of the parsed UCD whose names are identifiers (for the definitions: whose comments are one line and do not end in a backslash)",
  "both files are generated from the same maps by different loops; a test links the functions it calls, for one version of the UCD",
  ["src/libunicode/tablegen/ucd_api_generator.cpp: generateUcdApiFiles"])

p("The generated ucd.cpp answers with the properties of the files it was generated from",
  "The program text that unicode_tablegen writes to ucd.cpp, read by a C++ compiler, defines for each property of the API an array and a function that looks a code point up in it; the answers of these lookups are exactly the values the UCD files give: script, general category (and its groups), core properties, emoji properties, East Asian width, grapheme cluster break, block, mirroring, mirrored glyph, script extensions, and the names of the ages.",
  "every code point; all UCD files of the right format in which no two lines give one code point different values, with values that are identifiers; all orders std::sort may leave; comments one line each",
  "ucd.cpp is generated, 10 MB of literals; a test samples a few code points of one version of the UCD and cannot see what another version's files would become",
  ["src/libunicode/tablegen/ucd_api_generator.cpp: generateUcdApiFiles", "src/libunicode/tablegen/ucd_parser.cpp", "src/libunicode/ucd_private.h: search, contains, findEntry"])

p("The generated case_normalization_data.h makes the library follow the files it was generated from",
  "The header that unicode_tablegen prints for UnicodeData.txt, SpecialCasing.txt, CaseFolding.txt, CompositionExclusions.txt and DerivedNormalizationProps.txt, read by a C++ compiler, defines tables with which case conversion maps every text character by character as the files say, normalization to NFD and NFKD gives exactly the Standard's decompositions of the file data, the quick checks answer what DerivedNormalizationProps.txt says, and two characters compose exactly to the primary composites of the files.",
  "all files of the right format (no decomposition of more than 255 code points, no simple case mapping of the backslash), every text, every sorted order std::sort may leave",
  "the header is generated; tests check examples for one version of the UCD, not the path from the files through the printed text to the answers",
  ["src/libunicode/tablegen/case_norm_generator.cpp", "src/libunicode/tablegen/ucd_parser.cpp", "src/libunicode/case_mapping.cpp", "src/libunicode/normalization.cpp"])

p("Every enumerator that the generated ucd.cpp names has a value in the generated ucd_enums.h",
  "When ucd.cpp and ucd_enums.h are generated from the same UCD files, every enumerator in the tables, case labels and fall-back values of ucd.cpp - planes, core properties, general categories, scripts and script extensions, blocks, break properties, widths, ages - is defined by the printed text of ucd_enums.h, in the enumeration it is qualified with and with exactly one value.",
  "all UCD files of the right format whose names are distinct identifiers, every sorted order std::sort may leave, every enumerator named",
  "both files are generated by different programs; tests compile one version of them",
  ["src/libunicode/tablegen/ucd_api_generator.cpp: generateUcdApiFiles", "src/libunicode/tablegen/enum_generator.cpp: generateEnumFiles, collectEnums"])

p("ucd.h and ucd.cpp, generated from the same files, agree on the functions of the API and on the general categories",
  "For UCD files of the right format, both files are written; plane, script, block, the general-category and core-property functions, script_extensions, east_asian_width, is_mirrored, bidi_mirroring_glyph, grapheme_cluster_break, make_age and one is_x for each property x of emoji-data.txt are declared in the one and defined in the other with the same signature; and ucd.h defines exactly one inline is_x per general category of DerivedGeneralCategory.txt, which asks contains() for that category.",
  "all UCD files of the right format, every sorted order std::sort may leave",
  "the text is generated from the data; tests compile one version",
  ["src/libunicode/tablegen/ucd_api_generator.cpp: generateUcdApiFiles", "src/libunicode/tablegen/ucd_parser.cpp"])

p("The printed property tables make the library segment text by the files they were generated from",
  "The text of codepoint_properties_data.cpp that unicode_tablegen prints for a set of UCD files, read by a C++ compiler, holds arrays with which the library's property lookups give, for every code point, the properties the files give; hence words are cut exactly where UAX #29 puts boundaries for those properties, grapheme clusters too (except for the two known deviations), and cluster widths are bounded.",
  "all UCD files of the right format with few enough distinct records and blocks, every hash function and order std::sort may leave, every text",
  "the path from the files through the printed text to segmentation crosses two programs and a compiler; tests run one version of the data",
  ["src/libunicode/tablegen/multistage_generator.cpp: generateMultistageFiles, writeCxxTable", "src/libunicode/codepoint_properties.h: codepoint_properties::get", "src/libunicode/grapheme_segmenter.cpp", "src/libunicode/word_segmenter.cpp"])

p("From the files through the printed ucd.cpp to script runs",
  "When ucd.cpp is generated from UCD files, a library that searches the arrays the printed text defines sees for every code point exactly the Script and Script_Extensions of the files; the script runs of every text partition it, no run can be extended, and each run is given a script all its code points share by the files whenever they share one of the kind (real or Common/Inherited) that is named.",
  "all UCD files of the right format, every sorted order std::sort may leave, every numbering of the enumerators of Script, every text of any length",
  "tests use one version of the tables and a handful of texts; here the file format, the printer, the array text and the segmenter are joined for all of them",
  ["src/libunicode/tablegen/ucd_api_generator.cpp: generateUcdApiFiles", "src/libunicode/script_segmenter.cpp: script_segmenter::consume", "src/libunicode/ucd_private.h: search"])

p("From the files through the printed sources to case conversion",
  "When the sources are generated from UCD files, a library that reads the arrays their printed texts define answers is_cased and is_case_ignorable as the files say for every code point, puts every text in title case word by word (words by UAX #29) as the files say, and upper-cases, lower-cases and folds every UTF-8 text, compares without case and answers changes_when_* by the files.",
  "all UCD files of the right format, every sorted order std::sort may leave, every block hash, every code point and every text of any length",
  "three generated sources and several hand-written functions have to agree; tests use one version of the tables and a handful of texts",
  ["src/libunicode/case_mapping.cpp: to_titlecase, is_cased, is_case_ignorable, to_uppercase, to_lowercase, casefold", "src/libunicode/tablegen/ucd_api_generator.cpp: generateUcdApiFiles", "src/libunicode/tablegen/multistage_generator.cpp: generateMultistageFiles", "src/libunicode/tablegen/case_norm_generator.cpp: generateCaseNormFile"])

p("From the files through the printed sources to runs of one script and one presentation",
  "When the sources are generated from UCD files, with the arrays their printed texts define run_segmenter cuts every text exactly where its script runs or its emoji segments end, each piece carrying the properties of both; the emoji segments are those of the segmentation grammar over the categories the files give, the script runs cannot be extended by the files and name a script their code points share by the files whenever they share one of that kind.",
  "all UCD files of the right format, every sorted order std::sort may leave, every block hash, every numbering of the scripts, every text of any length",
  "the files, two printed sources and four segmenters are involved; tests use one version of the tables and a handful of texts",
  ["src/libunicode/run_segmenter.h: basic_run_segmenter", "src/libunicode/script_segmenter.cpp: script_segmenter::consume", "src/libunicode/emoji_segmenter.cpp: emoji_segmenter::consume", "src/libunicode/tablegen/ucd_api_generator.cpp: generateUcdApiFiles", "src/libunicode/tablegen/multistage_generator.cpp: generateMultistageFiles"])

p("The convenience functions follow the files: to_nfd, to_nfkd, is_nfd, is_nfkd and the equivalence queries",
  "With the tables case_normalization_data.h defines when it is generated from UCD files, to_nfd and to_nfkd terminate and return the decomposed form the Standard prescribes for the data in the files, is_nfd and is_nfkd terminate and are true exactly for texts that are their own decomposed form, and the equivalence queries are true exactly for texts with a common decomposed form; the UTF-8 overloads do the same on the UTF-8 encodings of texts.",
  "all UCD files of the right format and consistency, every sorted order std::sort may leave, every build configuration, every text of any length",
  "the files, the generator, the printed tables, the conversions and the normalization functions have to agree; tests use one version of the tables and a handful of texts",
  ["src/libunicode/normalization.h: to_nfd, to_nfkd, is_nfd, is_nfkd", "src/libunicode/normalization.cpp: normalize, is_normalized, is_canonically_equivalent, is_compatibility_equivalent", "src/libunicode/tablegen/case_norm_generator.cpp: generateCaseNormFile"])

p("The convenience functions follow the files: to_nfc and to_nfkc",
  "With the tables case_normalization_data.h defines when it is generated from UCD files, to_nfc and to_nfkc return the composed form the Standard prescribes for the data in the files; the UTF-8 overloads do the same on the UTF-8 encodings of texts.",
  "all UCD files of the right format and consistency, every sorted order std::sort may leave, every build configuration, every text of any length",
  "the files, the generator, the printed tables, the conversions and the normalization functions have to agree; tests use one version of the tables and a handful of texts",
  ["src/libunicode/normalization.h: to_nfc, to_nfkc", "src/libunicode/normalization.cpp: normalize, compose", "src/libunicode/tablegen/case_norm_generator.cpp: generateCaseNormFile"])

here = os.path.dirname(os.path.abspath(__file__))
with open(os.path.join(here, "..", "properties.jsonl"), "w") as f:
    for i, q in enumerate(P, 1):
        f.write(json.dumps(dict(id="C%02d" % i, **q), ensure_ascii=False) + "\n")
print(len(P))
