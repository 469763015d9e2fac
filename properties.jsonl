{"id": "C01", "title": "UTF-8 round trip", "statement": "Encoding any sequence of Unicode scalar values with to_utf8 / convert_to<char> and decoding the bytes again (from_utf8(string_view), convert_to<char32_t>, byte-wise from_utf8) yields exactly the original sequence.", "quantifier": "every finite sequence of scalar values (U+0000..U+D7FF, U+E000..U+10FFFF)", "why_tests_cant": "The claim ranges over an infinite set of inputs; a test samples a few of them.", "anchors": ["src/libunicode/utf8.h:to_utf8", "src/libunicode/utf8.cpp:from_utf8", "src/libunicode/convert.h:encoder<char>,decoder<char>"]}
{"id": "C02", "title": "UTF-8 encoder emits well-formed UTF-8", "statement": "For every scalar value the encoder emits exactly the byte sequence the Unicode Standard (table 3-6/3-7) assigns to it: shortest form, right lead byte and continuation bytes; the two encoders in the library agree on every 32-bit value.", "quantifier": "every char32_t value", "why_tests_cant": "2^21 code points times two encoders; boundaries between lengths are where sampling misses bugs.", "anchors": ["src/libunicode/utf8.h:to_utf8", "src/libunicode/convert.h:encoder<char>"]}
{"id": "C03", "title": "UTF-8 encoding is injective and order preserving", "statement": "Different scalar sequences have different encodings, no encoding of a scalar is a prefix of another's, and byte-wise lexicographic comparison of encodings orders texts exactly as code point comparison does.", "quantifier": "every pair of scalar sequences", "why_tests_cant": "Quantifies over pairs of unbounded strings.", "anchors": ["src/libunicode/utf8.h:to_utf8", "src/libunicode/convert.h:encoder<char>"]}
{"id": "C04", "title": "Progressive decoder on well-formed text", "statement": "Feeding well-formed UTF-8 byte by byte to from_utf8(state, byte) reports Success with the right code point exactly on the last byte of each character, Incomplete on the others, never Invalid, and returns to the idle state after each character.", "quantifier": "every well-formed UTF-8 byte sequence", "why_tests_cant": "The claim ranges over an infinite set of inputs; a test samples a few of them.", "anchors": ["src/libunicode/utf8.cpp:from_utf8"]}
{"id": "C05", "title": "The progressive decoder only accepts well-formed UTF-8", "statement": "from_utf8 reports Success only for byte sequences that are well-formed UTF-8, and the value is then a Unicode scalar value.", "quantifier": "every byte sequence", "why_tests_cant": "The set of ill-formed sequences is large and irregular; tests pin a handful.", "anchors": ["src/libunicode/utf8.cpp:from_utf8"]}
{"id": "C06", "title": "Decoding one code point from a buffer", "statement": "from_utf8(bytes, &size) returns the first code point of a buffer that starts with a well-formed character, sets size to its byte length and reads no byte beyond it.", "quantifier": "every buffer starting with a well-formed character, every continuation", "why_tests_cant": "Out-of-bounds reads do not show in return values.", "anchors": ["src/libunicode/utf8.h:from_utf8(uint8_t const*, size_t*)"]}
{"id": "C07", "title": "Streaming decode is independent of chunking", "statement": "Feeding a byte stream through the stateful decoders (from_utf8 with a state, u8u32_stream_convert_run, convert_to<char32_t>) gives the same code points however the stream is cut; the C stream API gives the same code points as convert_to<char32_t> on the whole buffer.", "quantifier": "every byte sequence and every way of cutting it", "why_tests_cant": "Cut points times contents is unbounded.", "anchors": ["src/libunicode/convert.h:decoder<char>::operator()(uint8_t)", "src/libunicode/capi.cpp:u8u32_stream_convert_run"]}
{"id": "C08", "title": "Bulk UTF-8 to UTF-32: SIMD result equals scalar result", "statement": "convert_to<char32_t>(string_view) returns the same code points whichever SIMD width (128/256/512 or none) and whichever implementation path is selected at run time.", "quantifier": "every byte sequence, every SIMD width", "why_tests_cant": "The selected path depends on the host CPU; a test machine runs one of them.", "anchors": ["src/libunicode/convert_simd_impl.h:convert_utf8_to_utf32_simd", "src/libunicode/convert.cpp"]}
{"id": "C09", "title": "Bulk conversion never overruns its buffer", "statement": "convert_to<char32_t>, convert_to<char16_t> and from_utf8(string_view), which size the output to one element per input byte, never write more elements than input bytes, and read only input bytes - also on arbitrary malformed input.", "quantifier": "every byte sequence, every SIMD width", "why_tests_cant": "Memory safety over all malformed inputs.", "anchors": ["src/libunicode/convert_simd_impl.h", "src/libunicode/convert.h:convert_to", "src/libunicode/utf8.h:from_utf8(string_view)"]}
{"id": "C10", "title": "Bulk UTF-8 to UTF-16: SIMD result equals scalar result", "statement": "convert_to<char16_t>(string_view<char>) returns the UTF-16 encoding of the decoded code points, for every SIMD width.", "quantifier": "every byte sequence, every SIMD width", "why_tests_cant": "The claim ranges over an infinite set of inputs; a test samples a few of them.", "anchors": ["src/libunicode/convert_simd_impl.h:convert_utf8_to_utf16_simd"]}
{"id": "C11", "title": "UTF-16 round trip and encoder correctness", "statement": "Each scalar value is encoded as the one- or two-unit sequence UTF-16 prescribes, surrogates and values above U+10FFFF produce no output, and decoding the units of any scalar sequence gives the sequence back.", "quantifier": "every char32_t value / every scalar sequence", "why_tests_cant": "The claim ranges over an infinite set of inputs; a test samples a few of them.", "anchors": ["src/libunicode/convert.h:encoder<char16_t>,decoder<char16_t>"]}
{"id": "C12", "title": "Iterator-based conversion stays inside its input", "statement": "convert_to<T>(string_view, out) reads only elements of the view it is given and terminates, for every input.", "quantifier": "every input sequence, including truncated and malformed ones", "why_tests_cant": "An over-read is undefined behaviour and usually goes unnoticed in a test.", "anchors": ["src/libunicode/convert.h:convert_to(basic_string_view, OutputIterator)", "src/libunicode/convert.h:decoder<char>::operator()(InputIterator&)", "src/libunicode/convert.h:decoder<char16_t>"]}
{"id": "C13", "title": "Conversions between UTF-8, UTF-16 and UTF-32 are mutually lossless", "statement": "On well-formed text every composition of convert_to between char, char16_t, char32_t (and wchar_t) that returns to the starting encoding is the identity.", "quantifier": "every scalar sequence", "why_tests_cant": "The claim ranges over an infinite set of inputs; a test samples a few of them.", "anchors": ["src/libunicode/convert.h:convert_to"]}
{"id": "C14", "title": "Decoder resynchronises after garbage", "statement": "After any malformed prefix, at most the first three characters of following well-formed text are lost; the rest decodes to exactly its code points.", "quantifier": "every byte prefix, every well-formed continuation", "why_tests_cant": "Garbage prefixes are unbounded.", "anchors": ["src/libunicode/utf8.cpp:from_utf8", "src/libunicode/convert.h:decoder<char>"]}
{"id": "C15", "title": "ASCII scan returns the exact printable-ASCII prefix", "statement": "scan_for_text_ascii(text, max) returns the length of the longest prefix of text consisting of bytes 0x20..0x7F, cut at max, for every SIMD width and implementation path.", "quantifier": "every byte sequence, every limit, every SIMD width", "why_tests_cant": "The mask arithmetic is data dependent at every lane position.", "anchors": ["src/libunicode/scan_simd_impl.h:scan_for_text_ascii_simd", "src/libunicode/intrinsics.h"]}
{"id": "C16", "title": "ASCII scan stays within its buffer", "statement": "scan_for_text_ascii forms and dereferences only pointers into (or one past) the given text.", "quantifier": "every byte sequence, every limit, every SIMD width", "why_tests_cant": "Undefined pointer arithmetic is invisible to tests.", "anchors": ["src/libunicode/scan_simd_impl.h:scan_for_text_ascii_simd"]}
{"id": "C17", "title": "Grapheme clusters partition the text", "statement": "Iterating grapheme_segmenter yields non-empty, contiguous clusters whose concatenation is the input, and terminates after at most one step per code point.", "quantifier": "every code point sequence, every property table", "why_tests_cant": "The claim ranges over an infinite set of inputs; a test samples a few of them.", "anchors": ["src/libunicode/grapheme_segmenter.h:grapheme_segmenter"]}
{"id": "C18", "title": "Grapheme boundaries follow UAX #29", "statement": "grapheme_segmenter puts a boundary between two code points exactly when rules GB3-GB999 of UAX #29 do.", "quantifier": "every code point sequence and position", "why_tests_cant": "The rules look arbitrarily far back (GB9c, GB11, GB12/13); the conformance file has 1093 lines.", "anchors": ["src/libunicode/grapheme_segmenter.cpp:grapheme_process_init,grapheme_process_breakable", "src/libunicode/grapheme_segmenter.h"]}
{"id": "C19", "title": "Grapheme segmentation is prefix stable", "statement": "Whether there is a boundary at a position depends only on the text before it and the code point after it: appending text never changes earlier boundaries.", "quantifier": "every pair of texts", "why_tests_cant": "Quantifies over all continuations.", "anchors": ["src/libunicode/grapheme_segmenter.h"]}
{"id": "C20", "title": "UTF-8 grapheme segmentation agrees with UTF-32", "statement": "Iterating utf8_grapheme_segmenter over well-formed UTF-8 yields exactly the clusters grapheme_segmenter yields on the decoded text, and it terminates on every byte sequence.", "quantifier": "every byte sequence", "why_tests_cant": "The claim ranges over an infinite set of inputs; a test samples a few of them.", "anchors": ["src/libunicode/utf8_grapheme_segmenter.h"]}
{"id": "C21", "title": "Driving the stateful grapheme API without re-initialising", "statement": "A caller that calls grapheme_process_init once and then grapheme_process_breakable for each further code point (as scan_text does) sees the same boundaries as grapheme_segmenter.", "quantifier": "every code point sequence", "why_tests_cant": "State left behind by a break only matters on long histories.", "anchors": ["src/libunicode/grapheme_segmenter.cpp", "src/libunicode/scan.cpp:scan_for_text_nonascii"]}
{"id": "C22", "title": "Word segments partition the text", "statement": "Iterating word_segmenter yields non-empty contiguous segments whose concatenation is the input and terminates.", "quantifier": "every code point sequence, every property table", "why_tests_cant": "The claim ranges over an infinite set of inputs; a test samples a few of them.", "anchors": ["src/libunicode/word_segmenter.h:word_segmenter"]}
{"id": "C23", "title": "Word boundaries follow UAX #29", "statement": "word_segmenter puts a boundary between two code points exactly when rules WB3-WB999 do (with WB4 skipping and lookahead/lookbehind through ignored characters).", "quantifier": "every code point sequence and position", "why_tests_cant": "Unbounded lookahead and lookbehind.", "anchors": ["src/libunicode/word_segmenter.cpp"]}
{"id": "C24", "title": "Cluster width: one measuring algorithm", "statement": "grapheme_cluster_width of a cluster equals what the incremental accumulator reports after the same code points, including the one-code-point shortcut.", "quantifier": "every cluster", "why_tests_cant": "The shortcut and the accumulator are separate code.", "anchors": ["src/libunicode/width.cpp:grapheme_cluster_width", "src/libunicode/width.cpp:grapheme_cluster_width_accumulator::push"]}
{"id": "C25", "title": "Cluster width is bounded and never wraps", "statement": "The width of a cluster is never negative, never exceeds two columns per code point, and internal counters stay in range, so the unsigned result never wraps.", "quantifier": "every code point sequence up to 2^29 long", "why_tests_cant": "Signed correction (VS15) against an unsigned result on arbitrary sequences.", "anchors": ["src/libunicode/width.cpp"]}
{"id": "C26", "title": "Documented presentation rules", "statement": "VS16 widens exactly defined narrow variation bases to two columns, VS15 narrows exactly defined wide ones, a spacing mark or a consonant conjunct makes the cluster two wide, a ZWJ swallows the following code point, a skin tone after an emoji and the second half of a flag add nothing, zero-width marks add nothing.", "quantifier": "every base, every sequence of trailing zero-width members", "why_tests_cant": "Rules interact over whole clusters.", "anchors": ["src/libunicode/width.h", "src/libunicode/width.cpp"]}
{"id": "C27", "title": "Width of a UTF-8 string is the sum over its clusters", "statement": "grapheme_cluster_width(utf8) equals the sum of the cluster widths of the decoded text; u32_gc_width/u8_gc_width in modifiable mode report the same number.", "quantifier": "every byte sequence", "why_tests_cant": "The claim ranges over an infinite set of inputs; a test samples a few of them.", "anchors": ["src/libunicode/width.cpp:grapheme_cluster_width(string_view)", "src/libunicode/capi.cpp:u32_gc_width,u8_gc_width"]}
{"id": "C28", "title": "scan_text keeps its cursors ordered", "statement": "After scan_text, start <= end <= state.next <= end of text, so a caller that prints [start,end) and resumes at next neither re-reads nor leaves the buffer.", "quantifier": "every text, limit and idle starting state", "why_tests_cant": "Rewinds and early returns combine over arbitrary inputs.", "anchors": ["src/libunicode/scan.cpp:scan_text"]}
{"id": "C29", "title": "scan_text respects the column limit", "statement": "The reported column count never exceeds maxColumnCount.", "quantifier": "every byte sequence, every limit", "why_tests_cant": "Depends on the exact place the limit is hit.", "anchors": ["src/libunicode/scan.cpp:scan_for_text_nonascii"]}
{"id": "C30", "title": "scan_text never splits a character", "statement": "On well-formed text the reported end and state.next lie on character boundaries, and the decoder state is idle.", "quantifier": "every well-formed text and limit", "why_tests_cant": "The claim ranges over an infinite set of inputs; a test samples a few of them.", "anchors": ["src/libunicode/scan.cpp"]}
{"id": "C31", "title": "scan_text stops at controls", "statement": "No C0 control byte, and no C1 byte at a character boundary, is ever part of the scanned range; the scan stops in front of it.", "quantifier": "every byte sequence", "why_tests_cant": "The claim ranges over an infinite set of inputs; a test samples a few of them.", "anchors": ["src/libunicode/scan.cpp", "src/libunicode/scan.h"]}
{"id": "C32", "title": "scan_text measures like grapheme_cluster_width", "statement": "For well-formed control-free text and no limit, the column count equals the sum of the cluster widths of the text.", "quantifier": "every well-formed text", "why_tests_cant": "Two separately driven segmenters must agree on every input.", "anchors": ["src/libunicode/scan.cpp", "src/libunicode/width.h"]}
{"id": "C33", "title": "scan_text loses no byte", "statement": "When scan_text returns, every byte it moved state.next past is reported: it is inside [start,end), belongs to an incomplete trailing character kept in the state, or was reported as invalid.", "quantifier": "every byte sequence, every limit", "why_tests_cant": "A dropped byte shows only for particular mixes of marks and runs.", "anchors": ["src/libunicode/scan.cpp:scan_text"]}
{"id": "C34", "title": "scan_text hands every cluster to the receiver", "statement": "On well-formed text the ranges given to the receiver, in order, are contiguous, cover exactly the scanned range, and their column counts add up to the returned count.", "quantifier": "every well-formed text, every limit", "why_tests_cant": "The claim ranges over an infinite set of inputs; a test samples a few of them.", "anchors": ["src/libunicode/scan.cpp", "src/libunicode/scan.h:grapheme_cluster_receiver"]}
{"id": "C35", "title": "scan_text resumed on a split character stays in the new buffer", "statement": "When a character is split across two calls, the second call only reads bytes of the buffer it was given.", "quantifier": "every split point, every continuation", "why_tests_cant": "Over-reads in front of a buffer are not visible in results.", "anchors": ["src/libunicode/scan.cpp:scan_for_text_nonascii", "src/libunicode/scan.cpp:scan_text"]}
{"id": "C36", "title": "Hangul composition and decomposition are inverse", "statement": "hangul_decompose and hangul_compose are inverse bijections between the 11172 syllables and the (L,V[,T]) jamo sequences; hangul_compose rejects everything else.", "quantifier": "every char32_t triple", "why_tests_cant": "Covers all 2^32 arguments.", "anchors": ["src/libunicode/normalization.cpp:hangul_decompose,hangul_compose,is_hangul_*"]}
{"id": "C37", "title": "Canonical ordering", "statement": "The reordering step permutes only combining marks, never moves anything across a starter, keeps marks of equal class in order, and leaves every run of marks sorted by combining class.", "quantifier": "every code point sequence, every ccc table", "why_tests_cant": "The claim ranges over an infinite set of inputs; a test samples a few of them.", "anchors": ["src/libunicode/normalization.cpp:canonical_order"]}
{"id": "C38", "title": "NFD/NFKD are idempotent", "statement": "to_nfd(to_nfd(s)) = to_nfd(s) and likewise for NFKD, and the result contains no code point with a decomposition.", "quantifier": "every text, every acyclic decomposition table", "why_tests_cant": "The claim ranges over an infinite set of inputs; a test samples a few of them.", "anchors": ["src/libunicode/normalization.cpp:normalize"]}
{"id": "C39", "title": "Decomposition terminates", "statement": "Full decomposition of any code point terminates for every acyclic decomposition table and equals the transitive closure of the one-step mappings.", "quantifier": "every code point, every acyclic table", "why_tests_cant": "Termination is not observable by a finite test.", "anchors": ["src/libunicode/normalization.cpp:decompose_recursive"]}
{"id": "C40", "title": "NFC preserves canonical equivalence", "statement": "to_nfd(to_nfc(s)) = to_nfd(s): composing never changes, drops or reorders what the text means.", "quantifier": "every text", "why_tests_cant": "The claim ranges over an infinite set of inputs; a test samples a few of them.", "anchors": ["src/libunicode/normalization.cpp:compose,try_compose,normalize"]}
{"id": "C41", "title": "Canonical equivalence is an equivalence relation and a congruence", "statement": "is_canonically_equivalent / is_compatibility_equivalent are reflexive, symmetric, transitive, hold between a text and its NFD/NFKD, canonical equivalence implies compatibility equivalence, and appending equivalent texts yields equivalent texts.", "quantifier": "every pair/triple of texts", "why_tests_cant": "Relations over all strings.", "anchors": ["src/libunicode/normalization.cpp:is_canonically_equivalent,is_compatibility_equivalent"]}
{"id": "C42", "title": "quick_check Yes and No are definite", "statement": "When quick_check returns Yes the text equals its normalization; when it returns No it differs from it (for tables that record the decomposable code points).", "quantifier": "every text, every consistent table", "why_tests_cant": "The claim ranges over an infinite set of inputs; a test samples a few of them.", "anchors": ["src/libunicode/normalization.cpp:quick_check"]}
{"id": "C43", "title": "is_normalized is exact", "statement": "is_normalized(text, form) holds exactly when normalize(text, form) = text.", "quantifier": "every text", "why_tests_cant": "The claim ranges over an infinite set of inputs; a test samples a few of them.", "anchors": ["src/libunicode/normalization.cpp:is_normalized"]}
{"id": "C44", "title": "Streaming normalizer equals batch normalization", "statement": "The concatenation of everything feed() and flush() return equals normalize() of the whole input, however the input is fed.", "quantifier": "every text, every form", "why_tests_cant": "Boundary decisions matter only for particular neighbours.", "anchors": ["src/libunicode/normalization.cpp:normalizer"]}
{"id": "C45", "title": "Streaming UTF-8 normalizer is independent of chunking", "statement": "utf8_normalizer returns the same total output however the byte stream is cut into chunks; for well-formed input it is the UTF-8 encoding of the streamed normalization of the decoded text; reset() returns to the initial state.", "quantifier": "every byte stream, every chunking", "why_tests_cant": "The claim ranges over an infinite set of inputs; a test samples a few of them.", "anchors": ["src/libunicode/normalization.cpp:utf8_normalizer"]}
{"id": "C46", "title": "Case conversion is character-wise", "statement": "to_uppercase/to_lowercase/casefold of a concatenation is the concatenation of the results; each code point contributes one to three code points: its full mapping, else its simple mapping, else itself; ASCII letters map to ASCII letters.", "quantifier": "every text, every sorted table", "why_tests_cant": "The claim ranges over an infinite set of inputs; a test samples a few of them.", "anchors": ["src/libunicode/case_mapping.cpp"]}
{"id": "C47", "title": "UTF-8 case conversion agrees with UTF-32", "statement": "On well-formed UTF-8 the UTF-8 overloads of case mapping and normalization return the encoding of what the UTF-32 overloads return on the decoded text.", "quantifier": "every scalar sequence", "why_tests_cant": "The claim ranges over an infinite set of inputs; a test samples a few of them.", "anchors": ["src/libunicode/case_mapping.cpp", "src/libunicode/normalization.cpp"]}
{"id": "C48", "title": "casefold_compare is a total preorder compatible with casefold_equals", "statement": "casefold_compare is antisymmetric in sign, transitive, zero exactly when the folded texts are equal, casefold_equals is an equivalence relation, and the UTF-8 and UTF-32 overloads agree in sign on well-formed text.", "quantifier": "every pair/triple of texts", "why_tests_cant": "Relational property.", "anchors": ["src/libunicode/case_mapping.cpp:casefold_compare,casefold_equals"]}
{"id": "C49", "title": "Titlecase touches one letter per word", "statement": "to_titlecase maps the first cased code point of every word segment to titlecase, lowercases the other cased ones, and leaves all other code points unchanged.", "quantifier": "every text", "why_tests_cant": "The claim ranges over an infinite set of inputs; a test samples a few of them.", "anchors": ["src/libunicode/case_mapping.cpp:to_titlecase"]}
{"id": "C50", "title": "Case predicates agree with case mappings", "statement": "changes_when_X(cp) holds exactly when X-mapping cp as a one-character string yields something different from cp (for tables without identity entries).", "quantifier": "every code point, every consistent table", "why_tests_cant": "2^21 code points times four predicates, for all table versions.", "anchors": ["src/libunicode/case_mapping.cpp:changes_when_*"]}
{"id": "C51", "title": "Binary-search lookups are exact", "statement": "For every sorted table, the lower_bound lookups (simple/full case mapping, ccc, decompositions, quick-check sets, composition pairs) return exactly the entry stored for the key, and the default when there is none.", "quantifier": "every sorted table, every key", "why_tests_cant": "Off-by-one errors at the ends of arbitrary-size tables.", "anchors": ["src/libunicode/case_mapping.cpp:lookup_simple,lookup_full", "src/libunicode/normalization.cpp:lookup_ccc,find_decomposition,try_compose"]}
{"id": "C52", "title": "Interval searches are exact", "statement": "contains() and search() over sorted disjoint intervals return exactly membership / the property of the interval containing the code point, never index outside the array and terminate.", "quantifier": "every sorted table, every code point", "why_tests_cant": "The claim ranges over an infinite set of inputs; a test samples a few of them.", "anchors": ["src/libunicode/ucd_private.h:contains,search"]}
{"id": "C53", "title": "Multistage tables reproduce their input", "statement": "After generate(), get(i) returns the input value of every index (when index types do not overflow), whatever the hash functions; an index above the maximum returns the entry of index 0.", "quantifier": "every input array, every hash function", "why_tests_cant": "Block de-duplication depends on all pairs of blocks.", "anchors": ["src/libunicode/multistage_table_generator.h", "src/libunicode/multistage_table_view.h"]}
{"id": "C54", "title": "Script runs partition the text", "statement": "script_segmenter::consume yields strictly increasing offsets ending at the text size and then stops.", "quantifier": "every text, every property table", "why_tests_cant": "The claim ranges over an infinite set of inputs; a test samples a few of them.", "anchors": ["src/libunicode/script_segmenter.cpp:consume"]}
{"id": "C55", "title": "Script runs are sound and maximal", "statement": "All code points of a run that carry a real script share the reported script, and a run ends only where no script is common to the whole run and the next code point.", "quantifier": "every text, every script-extension table with at most 31 extensions per code point", "why_tests_cant": "Set intersection over runs of arbitrary length.", "anchors": ["src/libunicode/script_segmenter.cpp:mergeSets,getScriptsFor"]}
{"id": "C56", "title": "Emoji scanner implements its grammar", "statement": "The generated table-driven scanner returns the longest prefix matching the grammar in emoji_presentation_scanner.rl, with the text-presentation rule winning ties, always consumes at least one code point and never reads outside the text.", "quantifier": "every category sequence", "why_tests_cant": "Generated tables over unbounded ZWJ/tag sequences.", "anchors": ["src/libunicode/emoji_presentation_scanner.c", "src/libunicode/emoji_presentation_scanner.rl"]}
{"id": "C57", "title": "Emoji segments partition the text and alternate", "statement": "emoji_segmenter::consume yields strictly increasing segments ending at the text size, adjacent segments differ in presentation, and each segment is a concatenation of scanner tokens of that presentation.", "quantifier": "every text", "why_tests_cant": "The claim ranges over an infinite set of inputs; a test samples a few of them.", "anchors": ["src/libunicode/emoji_segmenter.cpp:consume,consume_once"]}
{"id": "C58", "title": "Run segmenter yields the common refinement", "statement": "basic_run_segmenter yields contiguous non-empty runs covering the text; its boundaries are exactly the union of its sub-segmenters' boundaries and each run carries the property of the sub-segment containing it.", "quantifier": "every text, every list of well-behaved segmenters", "why_tests_cant": "Interaction of independently moving cursors.", "anchors": ["src/libunicode/run_segmenter.h:basic_run_segmenter"]}
{"id": "C59", "title": "u32u8_convert respects the destination size", "statement": "u32u8_convert never writes more than dlen bytes, on success writes exactly the UTF-8 encoding and returns its length, and fails only when the encoding does not fit.", "quantifier": "every source, every dlen", "why_tests_cant": "Exact-fit boundary for every length.", "anchors": ["src/libunicode/capi.cpp:u32u8_convert", "src/libunicode/capi.h"]}
{"id": "C60", "title": "C cluster counting and measuring agree with C++", "statement": "u32_gc_count / u8_gc_count return the number of grapheme clusters; u32_gc_width in non-modifiable mode sums base widths, defined for every input including the empty one.", "quantifier": "every text, including empty", "why_tests_cant": "The claim ranges over an infinite set of inputs; a test samples a few of them.", "anchors": ["src/libunicode/capi.cpp:u32_gc_count,u8_gc_count,u32_gc_width"]}
{"id": "C61", "title": "fs_array stays within its capacity", "statement": "The fixed-capacity array used by the segmenters never holds more than N elements, never writes outside its storage, and push_back reports exactly whether the element was stored.", "quantifier": "every sequence of operations", "why_tests_cant": "Operation histories are unbounded.", "anchors": ["src/libunicode/support.h:fs_array"]}
{"id": "C62", "title": "NEON sign-bit collection equals movemask", "statement": "On ARM64 the shift-and-accumulate cascade that emulates movemask returns, for every 16-byte vector, exactly the vector's sign bits (lane i in bit i), so the all-ASCII test used by the conversions means 'every byte below 0x80' on both architectures.", "quantifier": "every 16-byte vector (2^128 values)", "why_tests_cant": "2^128 inputs, and only on ARM hardware.", "anchors": ["src/libunicode/intrinsics.h:movemask_epi8,all_ascii"]}
{"id": "C63", "title": "scan_text counts are additive across buffers", "statement": "Scanning a text in two calls, with the state carried over and the buffer cut at any byte (also inside a character), reports in total the same number of columns as one call, and leaves the same state, no matter where the cut falls (scan.h, reportedClusterWidth).", "quantifier": "every text, every cut position, every idle starting state", "why_tests_cant": "Cut positions and histories are unbounded; clusters straddle calls.", "anchors": ["src/libunicode/scan.h:scan_state", "src/libunicode/scan.cpp:scan_text"]}
{"id": "C64", "title": "scan_text never hands ill-formed bytes to the receiver", "statement": "Every byte range passed to receiveGraphemeCluster is well-formed UTF-8.", "quantifier": "every byte sequence", "why_tests_cant": "Ill-formed bytes can appear anywhere in the stream.", "anchors": ["src/libunicode/scan.cpp:scan_for_text_nonascii", "src/libunicode/scan.h:grapheme_cluster_receiver"]}
{"id": "C65", "title": "flush() of the UTF-8 normalizer ends the text", "statement": "After flush() a utf8_normalizer reads what follows as a new one would: no byte of the finished text is carried into the next one.", "quantifier": "every byte stream fed before, every later history", "why_tests_cant": "Histories of calls, with the cut at any byte.", "anchors": ["src/libunicode/normalization.cpp:utf8_normalizer::flush,utf8_normalizer::feed"]}
{"id": "C66", "title": "is_normalized agrees with normalize on byte strings", "statement": "If is_normalized(bytes, form) is true then normalize(bytes, form) returns the same bytes.", "quantifier": "every byte string, every form", "why_tests_cant": "Ill-formed sequences may appear anywhere.", "anchors": ["src/libunicode/normalization.cpp:is_normalized,normalize"]}
{"id": "C67", "title": "Case conversion is idempotent", "statement": "Converting a converted text again (same conversion) changes nothing, for tables whose targets are themselves unmapped; in particular casefold(casefold(s)) = casefold(s).", "quantifier": "every text, every closed table", "why_tests_cant": "All texts; multi-character expansions.", "anchors": ["src/libunicode/case_mapping.cpp:to_uppercase,to_lowercase,casefold"]}
{"id": "C68", "title": "Every code point has its own name", "statement": "codepoint_properties::name(cp) returns the name that the Unicode Character Database gives cp, for every code point of every plane.", "quantifier": "every code point, every name table, every representation of std::string objects", "why_tests_cant": "The fault depends on the addresses of heap objects and on how many blocks differ; a few looked-up names in the first plane pass.", "anchors": ["src/libunicode/codepoint_properties.h:name", "src/libunicode/codepoint_properties_loader.h", "src/libunicode/multistage_table_generator.h", "src/libunicode/tablegen/multistage_generator.cpp"]}
{"id": "C69", "title": "fs_array::resize reaches the capacity", "statement": "fs_array<T, N>::resize(n) makes the array n elements long for every n up to its capacity N.", "quantifier": "every history of the array, every n <= N", "why_tests_cant": "The boundary n = N after any history.", "anchors": ["src/libunicode/support.h:fs_array::resize"]}
{"id": "C70", "title": "is_full_composition_exclusion follows the UCD", "statement": "is_full_composition_exclusion(c) is true exactly for the code points that CompositionExclusions.txt or DerivedNormalizationProps.txt gives Full_Composition_Exclusion.", "quantifier": "every well-formed set of UCD files, every code point", "why_tests_cant": "The table depends on the text of every line of the files, including trailing comments.", "anchors": ["src/libunicode/tablegen/ucd_parser.cpp:loadDerivedNormalizationProps,loadCompositionExclusions", "src/libunicode/normalization.cpp:is_full_composition_exclusion"]}
{"id": "C71", "title": "Quick-check values follow DerivedNormalizationProps.txt", "statement": "The per-code-point NFC, NFD, NFKC and NFKD quick checks return No, Maybe or Yes exactly as the file the tables were generated from says.", "quantifier": "every well-formed file, every code point, every form", "why_tests_cant": "All code points of any UCD version, ranges and single lines in any order.", "anchors": ["src/libunicode/tablegen/ucd_parser.cpp:loadDerivedNormalizationProps", "src/libunicode/tablegen/case_norm_generator.cpp:writeQuickCheckTable", "src/libunicode/normalization.cpp:nfc_quick_check,nfd_quick_check,nfkc_quick_check,nfkd_quick_check"]}
{"id": "C72", "title": "Combining classes, decompositions and compositions follow UnicodeData.txt", "statement": "canonical_combining_class, canonical_decomposition, compatibility_decomposition and pairwise composition give every code point what its line in UnicodeData.txt says (0 / none if it has no line), and the generated tables meet the conditions the normalization theorems need.", "quantifier": "every well-formed set of UCD files, every code point and pair", "why_tests_cant": "All code points of any UCD version.", "anchors": ["src/libunicode/tablegen/ucd_parser.cpp:loadUnicodeData,parseCodepoint,parseCodepoints", "src/libunicode/tablegen/case_norm_generator.cpp:writeCccTable,writeDecompositionTable,writeCompositionTable,writeCompatibilityDecompositionTable"]}
{"id": "C73", "title": "Case mappings follow UnicodeData.txt, SpecialCasing.txt and CaseFolding.txt", "statement": "simple and full upper, lower, title case and folding of every code point, and the conversion of every text, are those the three files define (unconditional special casings, fold statuses C+F and C+S).", "quantifier": "every well-formed set of UCD files, every code point and text", "why_tests_cant": "All code points of any UCD version; entries dropped as trivial must not matter.", "anchors": ["src/libunicode/tablegen/ucd_parser.cpp:loadUnicodeData,loadSpecialCasing,loadCaseFolding", "src/libunicode/tablegen/case_norm_generator.cpp:generateCaseNormFile", "src/libunicode/case_mapping.cpp"]}
{"id": "C74", "title": "UCD lines are parsed safely and exactly", "statement": "For every byte string, a line accepted by the table generator's line parser denotes an ordered range inside U+0000..U+10FFFF; well-formed lines give exactly their range and property, comments and blank lines nothing.", "quantifier": "every byte string", "why_tests_cant": "Malformed, truncated or patched files; any line.", "anchors": ["src/libunicode/tablegen/ucd_parser.cpp:parseStandardLine,trim,parseCodepoint"]}
{"id": "C75", "title": "Names are expanded from DerivedName.txt", "statement": "The name of every code point is the one DerivedName.txt defines, the final * of range patterns standing for the code point.", "quantifier": "every well-formed file, every code point", "why_tests_cant": "Nearly 100,000 ideographs get their name from a pattern.", "anchors": ["src/libunicode/tablegen/ucd_parser.cpp:loadDerivedNames", "src/libunicode/tablegen/multistage_generator.cpp:generateMultistageFiles", "src/libunicode/codepoint_properties.h:name"]}
{"id": "C76", "title": "Enumerated properties follow the UCD files", "statement": "Script, General_Category, Grapheme_Cluster_Break, Word_Break, East_Asian_Width, Indic_Conjunct_Break and Age of every code point are the values the property files give it, by the long names of PropertyValueAliases.txt, or the documented default when no line covers it.", "quantifier": "every well-formed set of UCD files, every code point", "why_tests_cant": "All code points of any UCD version; short and long value names, any order of lines.", "anchors": ["src/libunicode/tablegen/multistage_generator.cpp:generateMultistageFiles", "src/libunicode/tablegen/ucd_parser.cpp", "src/libunicode/codepoint_properties.h"]}
{"id": "C77", "title": "Property flags follow the UCD files", "statement": "is_emoji(), is_emoji_presentation(), is_emoji_component(), is_emoji_modifier(), is_emoji_modifier_base(), is_extended_pictographic(), is_core_grapheme_extend(), is_virama() and the emoji variation base flag are set exactly for the code points the files list.", "quantifier": "every well-formed set of UCD files, every code point", "why_tests_cant": "Flags of one code point come from several files and share a byte.", "anchors": ["src/libunicode/tablegen/multistage_generator.cpp:generateMultistageFiles", "src/libunicode/tablegen/ucd_parser.cpp", "src/libunicode/codepoint_properties.h"]}
{"id": "C78", "title": "Code point width follows its rules", "statement": "The width of a code point is 0 for Hangul V/T jamo; 1 for U+00AD and for prepended format characters; 0 for control, format, mark, separator and surrogate categories; 2 for Emoji_Presentation and for East Asian Wide or Fullwidth; else 1, the first applicable rule deciding.", "quantifier": "every well-formed set of UCD files, every code point", "why_tests_cant": "The rules overlap; later passes override earlier ones.", "anchors": ["src/libunicode/tablegen/multistage_generator.cpp:generateMultistageFiles", "src/libunicode/tablegen/ucd_parser.cpp", "src/libunicode/codepoint_properties.h"]}
{"id": "C79", "title": "Emoji segmentation categories follow their rules", "statement": "The emoji segmentation category of every code point is that of the first applicable rule of the generator's list (special code points, modifier bases, modifiers, regional indicators, keycap bases, presentation), else Invalid.", "quantifier": "every well-formed set of UCD files, every code point", "why_tests_cant": "Overlapping rules over all code points.", "anchors": ["src/libunicode/tablegen/multistage_generator.cpp:generateMultistageFiles", "src/libunicode/tablegen/ucd_parser.cpp", "src/libunicode/codepoint_properties.h"]}
{"id": "C80", "title": "Unlisted code points are East Asian Neutral", "statement": "A code point that EastAsianWidth.txt does not list has East_Asian_Width Neutral, as UAX #11 and the file's @missing line say.", "quantifier": "every well-formed set of UCD files, every unlisted code point", "why_tests_cant": "All unlisted code points.", "anchors": ["src/libunicode/tablegen/multistage_generator.cpp:generateMultistageFiles", "src/libunicode/tablegen/ucd_parser.cpp", "src/libunicode/codepoint_properties.h"]}
{"id": "C81", "title": "Property generation succeeds and is deterministic", "statement": "For every well-formed set of UCD files the property tables are generated, and the result depends neither on line endings nor on the order std::sort leaves equal elements in.", "quantifier": "every well-formed set of UCD files, every unstable sort", "why_tests_cant": "Unspecified order of equal elements; exceptions on missing aliases.", "anchors": ["src/libunicode/tablegen/multistage_generator.cpp:generateMultistageFiles", "src/libunicode/tablegen/ucd_parser.cpp", "src/libunicode/codepoint_properties.h"]}
{"id": "C82", "title": "codepoint_properties::get returns the generated record", "statement": "The printed three-stage table answers every code point with the record computed for it, and every value beyond U+10FFFF with the record of U+0000, if the different blocks and records fit the index types.", "quantifier": "every well-formed set of UCD files, every hash, every code point", "why_tests_cant": "1114112 lookups; block deduplication.", "anchors": ["src/libunicode/tablegen/multistage_generator.cpp:generateMultistageFiles", "src/libunicode/multistage_table_generator.h", "src/libunicode/multistage_table_view.h"]}
{"id": "C83", "title": "script() follows Scripts.txt", "statement": "script(c) is the script the file gives the code point, Unknown if it gives none, for every 32-bit value, without any out-of-range access.", "quantifier": "every well-formed file, every order std::sort may leave, every code point", "why_tests_cant": "All code points; interval boundaries; any UCD version.", "anchors": ["src/libunicode/tablegen/ucd_api_generator.cpp:generateUcdApiFiles", "src/libunicode/tablegen/ucd_parser.cpp", "src/libunicode/ucd_private.h:contains,search"]}
{"id": "C84", "title": "General category queries follow DerivedGeneralCategory.txt", "statement": "general_category::get(c) is the category the file gives c; contains(General_Category, c) and the is_<category>(c) functions are true exactly for the code points of that category, so both answers always agree.", "quantifier": "every well-formed file, every category, every code point", "why_tests_cant": "Two tables generated from the same lines by different code.", "anchors": ["src/libunicode/tablegen/ucd_api_generator.cpp:generateUcdApiFiles", "src/libunicode/tablegen/ucd_parser.cpp", "src/libunicode/ucd_private.h:contains,search"]}
{"id": "C85", "title": "Binary property queries follow their files", "statement": "contains(Core_Property, c) and is_emoji(c), is_extended_pictographic(c) etc. are true exactly for the code points to which the file gives the property.", "quantifier": "every well-formed file, every property, every code point", "why_tests_cant": "All code points and properties.", "anchors": ["src/libunicode/tablegen/ucd_api_generator.cpp:generateUcdApiFiles", "src/libunicode/tablegen/ucd_parser.cpp", "src/libunicode/ucd_private.h:contains,search"]}
{"id": "C86", "title": "east_asian_width() follows EastAsianWidth.txt", "statement": "east_asian_width(c) is the width class the file gives c (ranges merged by the generator notwithstanding), Unspecified if it gives none.", "quantifier": "every well-formed file, every code point", "why_tests_cant": "Merging adjacent ranges must not change any answer.", "anchors": ["src/libunicode/tablegen/ucd_api_generator.cpp:generateUcdApiFiles", "src/libunicode/tablegen/ucd_parser.cpp", "src/libunicode/ucd_private.h:contains,search"]}
{"id": "C87", "title": "grapheme_cluster_break() follows GraphemeBreakProperty.txt", "statement": "grapheme_cluster_break(c) is the class the file gives c, Undefined if it gives none.", "quantifier": "every well-formed file, every code point", "why_tests_cant": "All code points.", "anchors": ["src/libunicode/tablegen/ucd_api_generator.cpp:generateUcdApiFiles", "src/libunicode/tablegen/ucd_parser.cpp", "src/libunicode/ucd_private.h:contains,search"]}
{"id": "C88", "title": "plane() names the plane of every code point", "statement": "plane(c) is the plane numbered c / 0x10000, Unassigned for planes 4 to 13 and beyond U+10FFFF.", "quantifier": "every 32-bit value", "why_tests_cant": "2^32 values.", "anchors": ["src/libunicode/tablegen/ucd_api_generator.cpp:generateUcdApiFiles", "src/libunicode/tablegen/ucd_parser.cpp", "src/libunicode/ucd_private.h:contains,search"]}
{"id": "C89", "title": "block() follows Blocks.txt", "statement": "block(c) is the block whose range contains c, with blanks and hyphens replaced by underscores; Unspecified between blocks.", "quantifier": "every ascending file, every code point", "why_tests_cant": "All code points.", "anchors": ["src/libunicode/tablegen/ucd_api_generator.cpp:generateUcdApiFiles", "src/libunicode/tablegen/ucd_parser.cpp", "src/libunicode/ucd_private.h:contains,search"]}
{"id": "C90", "title": "script_extensions() follows ScriptExtensions.txt", "statement": "script_extensions(c) is exactly the set of scripts the file lists for c, by their long names; nothing if it lists none. Lists shared between code points never mix.", "quantifier": "every well-formed pair of files, every code point", "why_tests_cant": "Shared arrays are keyed by a concatenated name.", "anchors": ["src/libunicode/tablegen/ucd_api_generator.cpp:generateUcdApiFiles", "src/libunicode/tablegen/ucd_parser.cpp", "src/libunicode/ucd_private.h:contains,search"]}
{"id": "C91", "title": "is_mirrored() follows UnicodeData.txt", "statement": "is_mirrored(c) is true exactly for the code points whose line has Bidi_Mirrored Y.", "quantifier": "every well-formed file, every code point", "why_tests_cant": "Compression into intervals; all code points.", "anchors": ["src/libunicode/tablegen/ucd_api_generator.cpp:generateUcdApiFiles", "src/libunicode/tablegen/ucd_parser.cpp", "src/libunicode/ucd_private.h:contains,search"]}
{"id": "C92", "title": "bidi_mirroring_glyph() follows BidiMirroring.txt and is an involution", "statement": "bidi_mirroring_glyph(c) is the mirror image the file gives c, c itself if it gives none; if the file pairs the images, applying it twice gives c.", "quantifier": "every well-formed file, every code point", "why_tests_cant": "All code points.", "anchors": ["src/libunicode/tablegen/ucd_api_generator.cpp:generateUcdApiFiles", "src/libunicode/tablegen/ucd_parser.cpp", "src/libunicode/ucd_private.h:contains,search"]}
{"id": "C93", "title": "make_age() parses exactly the known versions", "statement": "make_age(s) is the Age whose version string is s, nullopt for every other string, including the abbreviation of Unassigned.", "quantifier": "every string, every well-formed alias file", "why_tests_cant": "All strings.", "anchors": ["src/libunicode/tablegen/ucd_api_generator.cpp:generateUcdApiFiles", "src/libunicode/tablegen/ucd_parser.cpp", "src/libunicode/ucd_private.h:contains,search"]}
{"id": "C94", "title": "Query functions and property table agree", "statement": "For every code point script(), general_category::get(), grapheme_cluster_break(), east_asian_width() and the emoji and Grapheme_Extend queries give the value of the corresponding field of codepoint_properties::get().", "quantifier": "every well-formed set of UCD files, every code point", "why_tests_cant": "Two independently generated representations of the same data; all code points.", "anchors": ["src/libunicode/tablegen/ucd_api_generator.cpp:generateUcdApiFiles", "src/libunicode/tablegen/ucd_parser.cpp", "src/libunicode/ucd_private.h:contains,search", "src/libunicode/tablegen/multistage_generator.cpp:generateMultistageFiles", "src/libunicode/tablegen/ucd_parser.cpp", "src/libunicode/codepoint_properties.h"]}
{"id": "C95", "title": "Generated enumerations compile, are dense and print by name", "statement": "All enumerations and their switches compile: no enumerator and no type is declared twice. The i-th member has the value i, which the underlying type holds; operator<< and std::format give its name, different enumerators differently; any other value prints as its number in parentheses and formats as the empty string.", "quantifier": "every well-formed set of UCD files whose names differ, every enumeration, every value", "why_tests_cant": "Names, and so the enumerators, change with every UCD version.", "anchors": ["src/libunicode/tablegen/enum_generator.cpp:collectEnums,writeEnumClass,writeEnumOstream,writeEnumFormatter", "src/libunicode/tablegen/enum_utils.h:sanitizeIdentifier,buildAgeEnumMembers"]}
{"id": "C96", "title": "Age values order like versions", "statement": "Comparing two Age enumerators compares the Unicode versions they name, numerically by major and minor number; Unassigned is before all of them. So the ages of two code points compare like the versions in which DerivedAge.txt lists them.", "quantifier": "every well-formed set of UCD files, all pairs of versions and of code points", "why_tests_cant": "The alias file is sorted as text (10.0 before 2.0); the numbering changes with every version.", "anchors": ["src/libunicode/tablegen/enum_generator.cpp:collectEnums,writeEnumClass,writeEnumOstream,writeEnumFormatter", "src/libunicode/tablegen/enum_utils.h:sanitizeIdentifier,buildAgeEnumMembers", "src/libunicode/tablegen/multistage_generator.cpp:generateMultistageFiles", "src/libunicode/tablegen/ucd_parser.cpp", "src/libunicode/codepoint_properties.h"]}
{"id": "C97", "title": "Generated sources name only declared enumerators", "statement": "Every enumerator named in the generated property table, in ucd.h and in ucd.cpp is declared in ucd_enums.h, with the same spelling.", "quantifier": "every well-formed set of UCD files, every code point, every table entry", "why_tests_cant": "The names are spelled by different generators from different files.", "anchors": ["src/libunicode/tablegen/enum_generator.cpp:collectEnums,writeEnumClass,writeEnumOstream,writeEnumFormatter", "src/libunicode/tablegen/enum_utils.h:sanitizeIdentifier,buildAgeEnumMembers", "src/libunicode/tablegen/ucd_api_generator.cpp:generateUcdApiFiles", "src/libunicode/tablegen/ucd_parser.cpp", "src/libunicode/ucd_private.h:contains,search", "src/libunicode/tablegen/multistage_generator.cpp:generateMultistageFiles", "src/libunicode/tablegen/ucd_parser.cpp", "src/libunicode/codepoint_properties.h"]}
{"id": "C98", "title": "Run-time SIMD selection never executes a missing instruction and never changes a result", "statement": "On every x86-64 machine the detector completes without fault, reads only registers the processor defines, and selects the widest vector size whose instructions processor and operating system support; scan_text and convert_to then run without an illegal instruction and give the same results as on any other machine.", "quantifier": "every processor and operating system configuration (all CPUID and XCR0 contents), both dispatching builds, every input", "why_tests_cant": "A test runs on the processors at hand.", "anchors": ["src/libunicode/simd_detector.cpp:max_simd_size,detect_os_avx,detect_os_avx512", "src/libunicode/scan.cpp:scan_for_text_ascii", "src/libunicode/convert.cpp:convert_utf8_to_utf32,convert_utf8_to_utf16", "src/libunicode/CMakeLists.txt"]}
{"id": "C99", "title": "The unused bits of a u32_char_t are independent storage", "statement": "Setting and clearing unused bits with indices below u32_unused_bit_capacity(), in any order, is defined, never changes the code point, and each bit reads back as last set; u32_unused_bit_mask shows them all.", "quantifier": "every 32-bit value, every history of operations, both languages", "why_tests_cant": "All values and all histories; undefined behaviour is invisible to a test that happens to work.", "anchors": ["src/libunicode/capi.h:u32_unused_bit_get,u32_unused_bit_on,u32_unused_bit_off,u32_unused_bit_cleared,u32_unused_bit_mask,u32_unused_bit_capacity"]}
{"id": "C100", "title": "The C API header is usable from C", "statement": "u32_is_valid_codepoint expands to an expression for every argument; the header contains no C++ syntax when compiled as C, and gives its functions C linkage when compiled as C++.", "quantifier": "every argument, both languages", "why_tests_cant": "The tests are C++ and never expand the macro.", "anchors": ["src/libunicode/capi.h:u32_is_valid_codepoint"]}
{"id": "C101", "title": "unicode-query reads U+XXXX exactly", "statement": "An argument U+XXXX means the code point XXXX (hexadecimal digits of either case, up to 10FFFF), anything else behind U+ is an error; a code point printed by the tool reads back as itself.", "quantifier": "every argument, every code point", "why_tests_cant": "All strings.", "anchors": ["src/tools/unicode-query.cpp:parseChar,parseChars"]}
{"id": "C102", "title": "The escaped notation of unicode-query determines the text", "statement": "With -e, and on the UTF-8 line, different texts are shown differently, in printable ASCII without quotes.", "quantifier": "every byte string, every platform", "why_tests_cant": "All pairs of texts; char signedness and isprint differ between platforms.", "anchors": ["src/tools/unicode-query.cpp:escaped,quotedAndEscaped"]}
{"id": "C103", "title": "unicode-query gc prints the grapheme clusters", "statement": "gc prints each grapheme cluster of a text on a line of its own, verbatim except for control codes.", "quantifier": "every well-formed text, every property table, every platform", "why_tests_cant": "All texts; char signedness differs between platforms.", "anchors": ["src/tools/unicode-query.cpp:showGraphemeClusters,escapeControlCodes"]}
{"id": "C104", "title": "unicode-query option parsing", "statement": "gc and runs take any number of -e, then optionally --, then texts; behind -- every text is accepted, even one starting with a dash; any other option prints the usage and fails; properties may be omitted.", "quantifier": "every argument list", "why_tests_cant": "All argument lists.", "anchors": ["src/tools/unicode-query.cpp:main,showGraphemeClusters,showRuns"]}
{"id": "C105", "title": "unicode-query properties shows every code point", "statement": "The properties command ends normally for every code point, assigned or not, and shows the Unicode version that introduced it.", "quantifier": "every argument list, every property table, both build types", "why_tests_cant": "All code points; the assertion is absent from release builds.", "anchors": ["src/tools/unicode-query.cpp:prettyAge,showCodepointProperties"]}
{"id": "C106", "title": "unicode-query runs prints the runs of the text", "statement": "runs prints the common refinement of script and emoji segmentation in order, each run with first and last position, length, script, presentation and text; together the runs are the text.", "quantifier": "every well-formed text, every property table", "why_tests_cant": "All texts.", "anchors": ["src/tools/unicode-query.cpp:showRuns"]}
{"id": "C107", "title": "uc-inspect replaces every escape character", "statement": "Every occurrence of the pattern is replaced, so uc-inspect runs writes no escape character of the inspected text to the terminal; nothing throws.", "quantifier": "every text, pattern and replacement", "why_tests_cant": "All texts.", "anchors": ["src/tools/uc-inspect.cpp:replaceAll,runs"]}
{"id": "C108", "title": "uc-inspect codepoints lists the code points with offsets and cluster starts", "statement": "One line per code point of a well-formed text, in order, with its byte offset and UTF-8 form, marked breakable exactly where a grapheme cluster starts.", "quantifier": "every well-formed text, every property table", "why_tests_cant": "All texts.", "anchors": ["src/tools/uc-inspect.cpp:codepoints"]}
{"id": "C109", "title": "The escaped notation of uc-inspect determines the bytes", "statement": "Different byte strings are shown differently, in printable ASCII.", "quantifier": "every byte string", "why_tests_cant": "All pairs of byte strings.", "anchors": ["src/tools/uc-inspect.cpp:escape"]}
{"id": "C110", "title": "uc-inspect runs the requested command", "statement": "uc-inspect COMMAND ... runs that command; with a file it reads that file.", "quantifier": "every argument list", "why_tests_cant": "All argument lists.", "anchors": ["src/tools/uc-inspect.cpp:parseArgs"]}
{"id": "C111", "title": "unicode-query reports unparsable arguments", "statement": "An argument that cannot be parsed is reported, on the error stream and by the exit status.", "quantifier": "every argument list", "why_tests_cant": "All argument lists.", "anchors": ["src/tools/unicode-query.cpp:showCodepointProperties"]}
{"id": "C112", "title": "uc-inspect scripts lists the script runs", "statement": "scripts prints the script runs of a well-formed text as consecutive ranges, each followed by its code points with their positions.", "quantifier": "every well-formed text, every script table", "why_tests_cant": "All texts.", "anchors": ["src/tools/uc-inspect.cpp:scripts"]}
{"id": "C113", "title": "A column limit cuts between clusters, as late as possible", "statement": "With a limit of maxColumnCount columns, scan_text takes the longest run of whole grapheme clusters whose widths fit; what it leaves is whole clusters.", "quantifier": "every well-formed control-free text, every limit, every byte behind the text", "why_tests_cant": "Every text and every limit.", "anchors": ["src/libunicode/scan.cpp:scan_text", "src/libunicode/scan.cpp:scan_for_text_nonascii", "src/libunicode/scan.h:scan_result"]}
{"id": "C114", "title": "The line after a full one is measured like a text of its own", "statement": "When scan_text stopped at the column limit, the next call with the same state on the rest of the text reports the same columns and range as a call with a fresh state.", "quantifier": "every text, every number of earlier lines and their limits, every rest", "why_tests_cant": "Arbitrary histories of calls.", "anchors": ["src/libunicode/scan.cpp:scan_text", "src/libunicode/scan.h:scan_state"]}
{"id": "C115", "title": "Looping over a segmenter visits every segment", "statement": "Looping over a grapheme_segmenter or word_segmenter with its conversion to bool, or until it equals a default constructed one, visits every segment of the text once, in order; dereferencing after n increments gives the n-th segment; two segmenters compare equal only when they denote the same segment.", "quantifier": "every text, every property table, every number of increments", "why_tests_cant": "All texts; the tests never loop with these conditions.", "anchors": ["src/libunicode/grapheme_segmenter.h:grapheme_segmenter", "src/libunicode/word_segmenter.h:word_segmenter"]}
{"id": "C116", "title": "The properties the library reads are those of the database files", "statement": "For every code point each property the segmentation and width functions read at run time is the one the UCD files give it; it does not depend on line endings, hash function or sort used when the tables were generated.", "quantifier": "every well-formed set of UCD files, every build from them, every code point", "why_tests_cant": "The tables change with every UCD version; all code points and all files.", "anchors": ["src/libunicode/codepoint_properties.h:get", "src/libunicode/tablegen/multistage_generator.cpp:generateMultistageFiles", "src/libunicode/tablegen/ucd_parser.cpp", "src/libunicode/codepoint_properties.h"]}
{"id": "C117", "title": "From UCD files to segments and widths", "statement": "A library built from UCD files that have the general facts of the database cuts texts where UAX #29 says for the properties in these files, and measures widths between 0 and 2 per code point.", "quantifier": "every set of UCD files with the stated facts, every build from them, every text", "why_tests_cant": "Composition of generator, table and run-time algorithm for all files and all texts.", "anchors": ["src/libunicode/codepoint_properties.h:get", "src/libunicode/grapheme_segmenter.cpp", "src/libunicode/word_segmenter.h", "src/libunicode/width.cpp", "src/libunicode/tablegen/multistage_generator.cpp:generateMultistageFiles", "src/libunicode/tablegen/ucd_parser.cpp", "src/libunicode/codepoint_properties.h"]}
{"id": "C118", "title": "From UCD files to normal forms", "statement": "A library built from UnicodeData.txt, CompositionExclusions.txt and DerivedNormalizationProps.txt normalizes, compares and checks texts as section 3.11 of the Unicode Standard prescribes for the data in these files.", "quantifier": "every set of such files with the general facts of the database, every build from them, every text", "why_tests_cant": "Composition of generator, tables and run-time algorithm for all files and all texts.", "anchors": ["src/libunicode/normalization.cpp:normalize", "src/libunicode/tablegen/case_norm_generator.cpp", "src/libunicode/tablegen/ucd_parser.cpp"]}
{"id": "C119", "title": "From UCD files to script runs", "statement": "A library built from Scripts.txt, ScriptExtensions.txt and PropertyValueAliases.txt splits every text into maximal runs whose script, by name, is shared by all code points of the run according to these files; runs of the run segmenter are the common refinement with the emoji segments by the emoji files.", "quantifier": "every set of such files with the general facts of the database, every build from them and every numbering of the enumerators, every text", "why_tests_cant": "Composition of generator, query functions and segmenter for all files and all texts.", "anchors": ["src/libunicode/script_segmenter.cpp", "src/libunicode/run_segmenter.h", "src/libunicode/tablegen/ucd_api_generator.cpp", "src/libunicode/tablegen/ucd_parser.cpp"]}
{"id": "C120", "title": "A missing input file stops the generator before it writes anything", "statement": "If any file of the Unicode Character Database that unicode_tablegen needs cannot be opened, it exits with failure, prints a message (naming the first missing file, when nothing else is wrong) and leaves every output file as it was.", "quantifier": "every set of present and missing input files, every content of the others, every state of the output directory", "why_tests_cant": "there are 2^21 sets of missing files and any contents besides; a test removes one file", "anchors": ["src/libunicode/tablegen/tablegen_main.cpp: main", "src/libunicode/tablegen/ucd_parser.cpp: openFile, UcdParser::parseAll"]}
{"id": "C121", "title": "Exit status 0 of the generator means complete tables", "statement": "When unicode_tablegen exits with status 0, all nine generated files hold their complete text, computed from the complete input files.", "quantifier": "every input, every point at which reading or writing may fail", "why_tests_cant": "I/O errors at arbitrary bytes cannot be enumerated by tests", "anchors": ["src/libunicode/tablegen/tablegen_main.cpp: main", "src/libunicode/tablegen/ucd_parser.cpp: openFile", "src/libunicode/tablegen/enum_generator.cpp: generateEnumFiles", "src/libunicode/tablegen/multistage_generator.cpp: generateMultistageFiles"]}
{"id": "C122", "title": "Generated files are reused exactly when they are current", "statement": "The build reuses the generated files found on disk if and only if all nine exist and none of them is older than any source file of the generator; equal times count as current.", "quantifier": "every number of sources and every assignment of modification times, present and missing files", "why_tests_cant": "all orders of the time stamps", "anchors": ["src/libunicode/CMakeLists.txt: LIBUNICODE_HAS_PREGENERATED_FILES"]}
{"id": "C123", "title": "An interrupted generator run is repeated by the next configuration", "statement": "If a run of the generator is cut off (power failure, kill) at any point at which the nine files are not yet complete, the next configuration does not take them for current.", "quantifier": "every crash point, every order in which buffered output reaches the disk, every prior state of the files", "why_tests_cant": "crash points are between any two bytes written", "anchors": ["src/libunicode/CMakeLists.txt: LIBUNICODE_HAS_PREGENERATED_FILES", "src/libunicode/tablegen/multistage_generator.cpp: generateMultistageFiles", "src/libunicode/tablegen/tablegen_main.cpp: main"]}
{"id": "C124", "title": "The library may be used from several threads at once", "statement": "When any number of threads call the conversion and scanning functions on buffers of their own, every call returns what it returns in a single-threaded program, no data race occurs, no thread waits for ever, and the processor is probed at most once per function, also when several threads make the very first call at the same time.", "quantifier": "every number of threads, every sequence of calls of each, every schedule", "why_tests_cant": "the interleavings of the first calls cannot be enumerated by tests", "anchors": ["src/libunicode/convert.cpp: convert_utf8_to_utf32, convert_utf8_to_utf16", "src/libunicode/scan.cpp: scan_for_text_ascii", "src/libunicode/simd_detector.cpp: max_simd_size"]}
{"id": "C125", "title": "Ill-formed input is contained by scan_text", "statement": "When a control-free byte stream with ill-formed UTF-8 sequences in it is scanned without reaching the column limit, every ill-formed sequence is reported exactly once and costs exactly one column, and each stretch of well-formed text between them is measured exactly as if it were scanned alone; a character left unfinished at the end of the buffer costs nothing; all bytes are consumed.", "quantifier": "every well-formed text, every number and kind of ill-formed sequences at every position, every SIMD implementation", "why_tests_cant": "ill-formed sequences can stand anywhere, among combining marks, flags and wide characters, and the state left behind by one affects unboundedly much text after it", "anchors": ["src/libunicode/scan.cpp: scan_text, scan_for_text_nonascii", "src/libunicode/utf8.cpp: from_utf8"]}
{"id": "C126", "title": "The tables come from the Unicode version asked for", "statement": "After calling cmake with LIBUNICODE_UCD_VERSION and building, the generated tables come from the database of the version asked for last in that build directory (17.0.0 by default), whatever was configured, built, edited or deleted in this and other build directories of the same source tree before.", "quantifier": "every history of configurations with any options in any number of build directories, source edits, deletions and database replacements", "why_tests_cant": "histories are unbounded; cached variables and reused files carry over from any earlier step", "anchors": ["CMakeLists.txt: LIBUNICODE_UCD_VERSION, LIBUNICODE_UCD_BASE_DIR, LIBUNICODE_UCD_DIR", "src/libunicode/CMakeLists.txt: LIBUNICODE_HAS_PREGENERATED_FILES, add_custom_command"]}
{"id": "C127", "title": "A configuration that succeeds has the published database", "statement": "A configuration that gets past fetching the Unicode Character Database has the complete published database on disk; a download or unpacking that was interrupted or failed its checksum is repeated by the next configuration.", "quantifier": "every number of attempts, every point at which each may be cut off, every content a download may leave behind, every order in which unpacked bytes reach the disk", "why_tests_cant": "crash points lie between any two bytes and attempts may be repeated any number of times", "anchors": ["src/libunicode/CMakeLists.txt: ExtractZipArchive, file(DOWNLOAD)", "CMakeLists.txt: LIBUNICODE_UCD_ZIP_FILE"]}
{"id": "C128", "title": "is_cased and is_case_ignorable follow the database", "statement": "is_cased(c) is true for exactly the code points DerivedGeneralCategory.txt lists as upper case, lower case or title case letters; is_case_ignorable(c) for exactly those D136 of the Unicode Standard names: Word_Break MidLetter, MidNumLet or Single_Quote, or General_Category Mn, Me, Cf, Lm or Sk.", "quantifier": "every set of well-formed database files and every code point", "why_tests_cant": "the answer depends on two generated tables for 1114112 code points", "anchors": ["src/libunicode/case_mapping.cpp: is_cased, is_case_ignorable", "src/libunicode/tablegen/ucd_api_generator.cpp", "src/libunicode/tablegen/multistage_generator.cpp"]}
{"id": "C129", "title": "From UCD files to case conversion", "statement": "A library generated from the files converts every text, in UTF-32 and UTF-8, as the files say: upper, lower and fold character by character with the full mapping, else the simple one; title case by cutting the text at the UAX #29 word boundaries of the files and converting the first cased letter of each word to title case and later ones to lower case; case-insensitive equality and order are those of the folded texts; changes_when_*() tell whether the mapping is not the identity; converting twice is converting once.", "quantifier": "every set of well-formed database files and every text", "why_tests_cant": "composition of the parser, four generated tables, word segmentation and the conversion loops", "anchors": ["src/libunicode/case_mapping.cpp: to_titlecase, to_uppercase, to_lowercase, casefold, casefold_compare, casefold_equals, changes_when_uppercased", "src/libunicode/tablegen/case_norm_generator.cpp", "src/libunicode/tablegen/ucd_parser.cpp"]}
{"id": "C130", "title": "The compiler reads the case and normalization tables the generator computed", "statement": "case_normalization_data.h, as printed, is a C++ text whose arrays (the simple and full case mappings, combining classes, decompositions, compositions, quick-check and exclusion sets) hold exactly the entries the generator computed, in order and with the declared lengths and types, without narrowing.", "quantifier": "every content of the tables whose numbers fit the declared types, of any size", "why_tests_cant": "the text is generated: separators, padding, comments and counts depend on every entry", "anchors": ["src/libunicode/tablegen/case_norm_generator.cpp: generateCaseNormFile, writeSimpleCaseTable, writeFullCaseTable, writeQuickCheckTable", "src/libunicode/tablegen/enum_utils.h: licenseHeader"]}
{"id": "C131", "title": "The compiler reads the Unicode property tables and look-up functions the generator computed", "statement": "ucd.cpp, as printed, is a C++ text whose arrays (planes, core properties, general categories, scripts, script extensions, blocks, grapheme and word break classes, East Asian widths, emoji properties, mirroring, ages) hold exactly the ranges the generator computed, with the enumerators they name, in order and with the declared lengths and types; and whose functions are the searches of the array of their own property, with the documented default for code points in no range.", "quantifier": "every content of the property tables whose numbers fit the declared types and whose names are identifiers, of any size", "why_tests_cant": "the text is generated: array names, separators, comments, counts, padding and merged ranges depend on every entry", "anchors": ["src/libunicode/tablegen/ucd_api_generator.cpp: generateUcdApiFiles", "src/libunicode/tablegen/ucd_api_generator.h"]}
{"id": "C132", "title": "The compiler reads the multistage tables the generator computed", "statement": "codepoint_properties_data.cpp and codepoint_properties_names.cpp, as printed, are C++ texts that define in the given namespace, with the element types the look-ups of codepoint_properties.cpp take, exactly the two stages, the records (field by field: width, both flag bytes, and the enumerators of script, grapheme cluster break, East Asian width, general category, emoji segmentation category, age, Indic conjunct break and word break) and the names that were computed, in order; codepoint_properties_data.h declares each of them with the same type and length.", "quantifier": "every table of stages, records and names whose numbers fit the declared types, whose enumerators are identifiers and whose names need no escape, of any size; every qualified namespace", "why_tests_cant": "the text is generated: element type, column breaks, block comments, binary numerals, padding and lengths depend on every entry", "anchors": ["src/libunicode/tablegen/multistage_generator.cpp: generateMultistageFiles, writeCxxTable, minimumUintType, binstr", "src/libunicode/codepoint_properties.cpp: configured_tables, configured_names", "src/libunicode/codepoint_properties.h: codepoint_properties, tables_view, names_view"]}
{"id": "C133", "title": "The generated sources answer with the properties of the UCD files", "statement": "Compiled and indexed as multistage_table_view does (block number of the high bits, index in the block, record), the arrays of the generated codepoint_properties_data.cpp give every code point up to U+10FFFF exactly the record the generator computed for it from the files of the UCD: from text files to the text of the sources and back through a C++ reader, no code point gets the properties of another.", "quantifier": "all files of the form of the UCD whose value names are identifiers, with at most 65536 different records and 256 different blocks; every hash function, line ending, outcome of the sorts; every code point", "why_tests_cant": "the answer for a code point passes through parsing, merging, two levels of deduplicated blocks and a printed array of millions of bytes; a test samples a few code points of one version", "anchors": ["src/libunicode/tablegen/multistage_generator.cpp: generateMultistageFiles, writeCxxTable", "src/libunicode/multistage_table_generator.h: generate", "src/libunicode/multistage_table_view.h: unsafe_get", "src/libunicode/codepoint_properties.cpp: configured_tables"]}
{"id": "C134", "title": "The generated headers declare the enumerations with their values, names and printers", "statement": "Read by a C++ compiler, the generated ucd_enums.h defines in namespace unicode every enumeration once, over the shortest unsigned type that holds it, with exactly the collected names as enumerators, the i-th with the value i and no name twice; ucd_ostream.h and ucd_fmt.h hold for each of them an operator<< and a std::formatter that map every enumerator to the name of the UCD it stands for. Every enumerator a record of the generated property table names is declared there with a value.", "quantifier": "all files of the form of the UCD whose names are letters, digits, underscores, blanks and hyphens and do not collide once spelled as identifiers; every line ending and outcome of the sorts", "why_tests_cant": "the headers are generated text of thousands of lines that changes with each Unicode version; a test compiles those of one version and looks at a few enumerators", "anchors": ["src/libunicode/tablegen/enum_generator.cpp: minimalUint, writeEnumClass, writeEnumOstream, writeEnumFormatter, generateEnumFiles, collectEnums", "src/libunicode/tablegen/enum_utils.h: sanitizeIdentifier, licenseHeader"]}
{"id": "C135", "title": "ucd.h declares the functions that ucd.cpp defines, and its inline functions ask for their own category", "statement": "Read by a C++ compiler, the generated ucd.h declares in namespace unicode every function of the API with the signature ucd.cpp defines it with: the fixed ones, one per grapheme break table and per emoji property, and make_age when there are ages. For every general category X it defines general_category::is_x, which asks contains for General_Category::X; to_string names every EastAsianWidth.", "quantifier": "all contents of the parsed UCD whose names are identifiers (for the definitions: whose comments are one line and do not end in a backslash)", "why_tests_cant": "both files are generated from the same maps by different loops; a test links the functions it calls, for one version of the UCD", "anchors": ["src/libunicode/tablegen/ucd_api_generator.cpp: generateUcdApiFiles"]}
{"id": "C136", "title": "The generated ucd.cpp answers with the properties of the files it was generated from", "statement": "The program text that unicode_tablegen writes to ucd.cpp, read by a C++ compiler, defines for each property of the API an array and a function that looks a code point up in it; the answers of these lookups are exactly the values the UCD files give: script, general category (and its groups), core properties, emoji properties, East Asian width, grapheme cluster break, block, mirroring, mirrored glyph, script extensions, and the names of the ages.", "quantifier": "every code point; all UCD files of the right format in which no two lines give one code point different values, with values that are identifiers; all orders std::sort may leave; comments one line each", "why_tests_cant": "ucd.cpp is generated, 10 MB of literals; a test samples a few code points of one version of the UCD and cannot see what another version's files would become", "anchors": ["src/libunicode/tablegen/ucd_api_generator.cpp: generateUcdApiFiles", "src/libunicode/tablegen/ucd_parser.cpp", "src/libunicode/ucd_private.h: search, contains, findEntry"]}
{"id": "C137", "title": "The generated case_normalization_data.h makes the library follow the files it was generated from", "statement": "The header that unicode_tablegen prints for UnicodeData.txt, SpecialCasing.txt, CaseFolding.txt, CompositionExclusions.txt and DerivedNormalizationProps.txt, read by a C++ compiler, defines tables with which case conversion maps every text character by character as the files say, normalization to NFD and NFKD gives exactly the Standard's decompositions of the file data, the quick checks answer what DerivedNormalizationProps.txt says, and two characters compose exactly to the primary composites of the files.", "quantifier": "all files of the right format (no decomposition of more than 255 code points, no simple case mapping of the backslash), every text, every sorted order std::sort may leave", "why_tests_cant": "the header is generated; tests check examples for one version of the UCD, not the path from the files through the printed text to the answers", "anchors": ["src/libunicode/tablegen/case_norm_generator.cpp", "src/libunicode/tablegen/ucd_parser.cpp", "src/libunicode/case_mapping.cpp", "src/libunicode/normalization.cpp"]}
{"id": "C138", "title": "Every enumerator that the generated ucd.cpp names has a value in the generated ucd_enums.h", "statement": "When ucd.cpp and ucd_enums.h are generated from the same UCD files, every enumerator in the tables, case labels and fall-back values of ucd.cpp - planes, core properties, general categories, scripts and script extensions, blocks, break properties, widths, ages - is defined by the printed text of ucd_enums.h, in the enumeration it is qualified with and with exactly one value.", "quantifier": "all UCD files of the right format whose names are distinct identifiers, every sorted order std::sort may leave, every enumerator named", "why_tests_cant": "both files are generated by different programs; tests compile one version of them", "anchors": ["src/libunicode/tablegen/ucd_api_generator.cpp: generateUcdApiFiles", "src/libunicode/tablegen/enum_generator.cpp: generateEnumFiles, collectEnums"]}
{"id": "C139", "title": "ucd.h and ucd.cpp, generated from the same files, agree on the functions of the API and on the general categories", "statement": "For UCD files of the right format, both files are written; plane, script, block, the general-category and core-property functions, script_extensions, east_asian_width, is_mirrored, bidi_mirroring_glyph, grapheme_cluster_break, make_age and one is_x for each property x of emoji-data.txt are declared in the one and defined in the other with the same signature; and ucd.h defines exactly one inline is_x per general category of DerivedGeneralCategory.txt, which asks contains() for that category.", "quantifier": "all UCD files of the right format, every sorted order std::sort may leave", "why_tests_cant": "the text is generated from the data; tests compile one version", "anchors": ["src/libunicode/tablegen/ucd_api_generator.cpp: generateUcdApiFiles", "src/libunicode/tablegen/ucd_parser.cpp"]}
{"id": "C140", "title": "The printed property tables make the library segment text by the files they were generated from", "statement": "The text of codepoint_properties_data.cpp that unicode_tablegen prints for a set of UCD files, read by a C++ compiler, holds arrays with which the library's property lookups give, for every code point, the properties the files give; hence words are cut exactly where UAX #29 puts boundaries for those properties, grapheme clusters too (except for the two known deviations), and cluster widths are bounded.", "quantifier": "all UCD files of the right format with few enough distinct records and blocks, every hash function and order std::sort may leave, every text", "why_tests_cant": "the path from the files through the printed text to segmentation crosses two programs and a compiler; tests run one version of the data", "anchors": ["src/libunicode/tablegen/multistage_generator.cpp: generateMultistageFiles, writeCxxTable", "src/libunicode/codepoint_properties.h: codepoint_properties::get", "src/libunicode/grapheme_segmenter.cpp", "src/libunicode/word_segmenter.cpp"]}
{"id": "C141", "title": "From the files through the printed ucd.cpp to script runs", "statement": "When ucd.cpp is generated from UCD files, a library that searches the arrays the printed text defines sees for every code point exactly the Script and Script_Extensions of the files; the script runs of every text partition it, no run can be extended, and each run is given a script all its code points share by the files whenever they share one of the kind (real or Common/Inherited) that is named.", "quantifier": "all UCD files of the right format, every sorted order std::sort may leave, every numbering of the enumerators of Script, every text of any length", "why_tests_cant": "tests use one version of the tables and a handful of texts; here the file format, the printer, the array text and the segmenter are joined for all of them", "anchors": ["src/libunicode/tablegen/ucd_api_generator.cpp: generateUcdApiFiles", "src/libunicode/script_segmenter.cpp: script_segmenter::consume", "src/libunicode/ucd_private.h: search"]}
{"id": "C142", "title": "From the files through the printed sources to case conversion", "statement": "When the sources are generated from UCD files, a library that reads the arrays their printed texts define answers is_cased and is_case_ignorable as the files say for every code point, puts every text in title case word by word (words by UAX #29) as the files say, and upper-cases, lower-cases and folds every UTF-8 text, compares without case and answers changes_when_* by the files.", "quantifier": "all UCD files of the right format, every sorted order std::sort may leave, every block hash, every code point and every text of any length", "why_tests_cant": "three generated sources and several hand-written functions have to agree; tests use one version of the tables and a handful of texts", "anchors": ["src/libunicode/case_mapping.cpp: to_titlecase, is_cased, is_case_ignorable, to_uppercase, to_lowercase, casefold", "src/libunicode/tablegen/ucd_api_generator.cpp: generateUcdApiFiles", "src/libunicode/tablegen/multistage_generator.cpp: generateMultistageFiles", "src/libunicode/tablegen/case_norm_generator.cpp: generateCaseNormFile"]}
{"id": "C143", "title": "From the files through the printed sources to runs of one script and one presentation", "statement": "When the sources are generated from UCD files, with the arrays their printed texts define run_segmenter cuts every text exactly where its script runs or its emoji segments end, each piece carrying the properties of both; the emoji segments are those of the segmentation grammar over the categories the files give, the script runs cannot be extended by the files and name a script their code points share by the files whenever they share one of that kind.", "quantifier": "all UCD files of the right format, every sorted order std::sort may leave, every block hash, every numbering of the scripts, every text of any length", "why_tests_cant": "the files, two printed sources and four segmenters are involved; tests use one version of the tables and a handful of texts", "anchors": ["src/libunicode/run_segmenter.h: basic_run_segmenter", "src/libunicode/script_segmenter.cpp: script_segmenter::consume", "src/libunicode/emoji_segmenter.cpp: emoji_segmenter::consume", "src/libunicode/tablegen/ucd_api_generator.cpp: generateUcdApiFiles", "src/libunicode/tablegen/multistage_generator.cpp: generateMultistageFiles"]}
{"id": "C144", "title": "The convenience functions follow the files: to_nfd, to_nfkd, is_nfd, is_nfkd and the equivalence queries", "statement": "With the tables case_normalization_data.h defines when it is generated from UCD files, to_nfd and to_nfkd terminate and return the decomposed form the Standard prescribes for the data in the files, is_nfd and is_nfkd terminate and are true exactly for texts that are their own decomposed form, and the equivalence queries are true exactly for texts with a common decomposed form; the UTF-8 overloads do the same on the UTF-8 encodings of texts.", "quantifier": "all UCD files of the right format and consistency, every sorted order std::sort may leave, every build configuration, every text of any length", "why_tests_cant": "the files, the generator, the printed tables, the conversions and the normalization functions have to agree; tests use one version of the tables and a handful of texts", "anchors": ["src/libunicode/normalization.h: to_nfd, to_nfkd, is_nfd, is_nfkd", "src/libunicode/normalization.cpp: normalize, is_normalized, is_canonically_equivalent, is_compatibility_equivalent", "src/libunicode/tablegen/case_norm_generator.cpp: generateCaseNormFile"]}
{"id": "C145", "title": "The convenience functions follow the files: to_nfc and to_nfkc", "statement": "With the tables case_normalization_data.h defines when it is generated from UCD files, to_nfc and to_nfkc return the composed form the Standard prescribes for the data in the files; the UTF-8 overloads do the same on the UTF-8 encodings of texts.", "quantifier": "all UCD files of the right format and consistency, every sorted order std::sort may leave, every build configuration, every text of any length", "why_tests_cant": "the files, the generator, the printed tables, the conversions and the normalization functions have to agree; tests use one version of the tables and a handful of texts", "anchors": ["src/libunicode/normalization.h: to_nfc, to_nfkc", "src/libunicode/normalization.cpp: normalize, compose", "src/libunicode/tablegen/case_norm_generator.cpp: generateCaseNormFile"]}
