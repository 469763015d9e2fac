{
 "claims": [
  {
   "property": "C01",
   "status": "proved",
   "theorems": [
    "C01_roundtrip_bulk",
    "C01_roundtrip_convert_to",
    "C01_roundtrip_progressive",
    "C01_roundtrip_stream"
   ],
   "note": "Every decoder (bulk with any SIMD implementation, iterator, progressive, C stream) inverts the encoders on scalar sequences."
  },
  {
   "property": "C02",
   "status": "proved",
   "theorems": [
    "C02_encoder_table_3_6",
    "C02_encoder_wellformed_3_7",
    "C02_table_3_7_complete",
    "C02_encoders_agree",
    "C02_text_encoding"
   ],
   "note": ""
  },
  {
   "property": "C03",
   "status": "proved",
   "theorems": [
    "C03_injective",
    "C03_prefix_free",
    "C03_order_preserving"
   ],
   "note": ""
  },
  {
   "property": "C04",
   "status": "proved",
   "theorems": [
    "C04_progressive_results",
    "C04_from_utf8i"
   ],
   "note": ""
  },
  {
   "property": "C05",
   "status": "partial",
   "theorems": [
    "C05_only_wellformed_refuted",
    "C05_witnesses",
    "C05_accepts_loose_partial"
   ],
   "note": "The full statement is false of the code (C05_only_wellformed_refuted, witnesses in C05_witnesses). Proved instead: what exactly is accepted, and that accepted well-formed sequences decode to the right scalar."
  },
  {
   "property": "C06",
   "status": "proved",
   "theorems": [
    "C06_one_code_point"
   ],
   "note": ""
  },
  {
   "property": "C07",
   "status": "proved",
   "theorems": [
    "C07_from_utf8_chunking",
    "C07_stream_chunking",
    "C07_stream_equals_bulk"
   ],
   "note": ""
  },
  {
   "property": "C08",
   "status": "proved",
   "theorems": [
    "C08_simd_equals_scalar",
    "C08_implementations_agree"
   ],
   "note": ""
  },
  {
   "property": "C09",
   "status": "partial",
   "theorems": [
    "C09_utf32_in_bounds",
    "C09_utf16_in_bounds",
    "C09_pointer_arithmetic_refuted",
    "C09_pointer_arithmetic_exact_partial"
   ],
   "note": "Stores and reads are in bounds on every byte string. ISO C++ pointer arithmetic (src + simd_size past the end) is refuted by C09_pointer_arithmetic_refuted. C09_pointer_arithmetic_exact_partial: that happens exactly when the whole registers of the input are 7-bit throughout; all other inputs are unaffected."
  },
  {
   "property": "C10",
   "status": "proved",
   "theorems": [
    "C10_utf16_is_encoding_of_decoded",
    "C10_utf16_wellformed"
   ],
   "note": ""
  },
  {
   "property": "C11",
   "status": "proved",
   "theorems": [
    "C11_encoder_utf16",
    "C11_encoder_rejects",
    "C11_roundtrip"
   ],
   "note": ""
  },
  {
   "property": "C12",
   "status": "partial",
   "theorems": [
    "C12_stays_inside_refuted",
    "C12_witnesses",
    "C12_terminates",
    "C12_wellformed_safe",
    "C12_utf8_ascii_end_safe_partial",
    "C12_utf16_end_safe_partial",
    "C12_stays_inside_exact_partial"
   ],
   "note": "The full statement is false (truncated sequences are over-read). Proved: termination, and exactly which inputs are safe: those that are complete sequences throughout; a truncated sequence at the end is the only cause."
  },
  {
   "property": "C13",
   "status": "proved",
   "theorems": [
    "C13_conversion_correct",
    "C13_cycle_identity"
   ],
   "note": ""
  },
  {
   "property": "C14",
   "status": "proved",
   "theorems": [
    "C14_resync_progressive",
    "C14_resync_decoder"
   ],
   "note": ""
  },
  {
   "property": "C15",
   "status": "proved",
   "theorems": [
    "C15_ascii_scan_exact",
    "C15_exact_prefix_unique",
    "C15_implementations_agree"
   ],
   "note": ""
  },
  {
   "property": "C16",
   "status": "partial",
   "theorems": [
    "C16_reads_in_buffer",
    "C16_pointer_before_buffer_refuted",
    "C16_pointer_exact_partial"
   ],
   "note": "No read leaves the buffer, but the pointer end - simd_size is formed before the buffer for short texts (UB by the standard), for every SIMD implementation. C16_pointer_exact_partial: exactly when the part to be scanned is shorter than a register."
  },
  {
   "property": "C17",
   "status": "proved",
   "theorems": [
    "C17_clusters_partition"
   ],
   "note": ""
  },
  {
   "property": "C18",
   "status": "partial",
   "theorems": [
    "C18_double_zwj_refuted",
    "C18_prepend_flag_refuted",
    "C18_exact_rules_partial",
    "C18_uax29_partial"
   ],
   "note": "The full statement is false of the code: 'pictograph ZWJ ZWJ pictograph' is not broken, and a flag directly after a Prepend character is split (two refutations). Proved: the exact rules the code follows on every text, and UAX #29 on every text without ZWJ Extend* ZWJ and without Prepend RI."
  },
  {
   "property": "C19",
   "status": "proved",
   "theorems": [
    "C19_prefix_stable"
   ],
   "note": ""
  },
  {
   "property": "C20",
   "status": "proved",
   "theorems": [
    "C20_wellformed",
    "C20_every_byte_string",
    "C20_empty"
   ],
   "note": ""
  },
  {
   "property": "C21",
   "status": "partial",
   "theorems": [
    "C21_stateful_refuted",
    "C21_stateful_partial",
    "C21_stateful_exact_partial"
   ],
   "note": "The full statement is false (regional indicators are not paired when the state is not re-initialised after a break). C21_stateful_exact_partial says exactly where it breaks on every text: at the segmenter's boundaries and between any two adjacent regional indicators that are not the first two code points; C21_stateful_partial is the special case without such pairs."
  },
  {
   "property": "C22",
   "status": "proved",
   "theorems": [
    "C22_words_partition"
   ],
   "note": ""
  },
  {
   "property": "C23",
   "status": "proved",
   "theorems": [
    "C23_words_uax29"
   ],
   "note": ""
  },
  {
   "property": "C24",
   "status": "proved",
   "theorems": [
    "C24_one_algorithm",
    "C24_after_reset"
   ],
   "note": ""
  },
  {
   "property": "C25",
   "status": "proved",
   "theorems": [
    "C25_width_bounded",
    "C25_counters_in_range"
   ],
   "note": ""
  },
  {
   "property": "C26",
   "status": "proved",
   "theorems": [
    "C26_marks_add_nothing",
    "C26_mark_anywhere",
    "C26_vs16",
    "C26_vs15",
    "C26_spacing_mark",
    "C26_conjunct",
    "C26_zwj_swallows",
    "C26_skin_tone",
    "C26_flags"
   ],
   "note": ""
  },
  {
   "property": "C27",
   "status": "proved",
   "theorems": [
    "C27_utf8_width_is_sum",
    "C27_wellformed"
   ],
   "note": ""
  },
  {
   "property": "C28",
   "status": "proved",
   "theorems": [
    "C28_cursors_ordered"
   ],
   "note": ""
  },
  {
   "property": "C29",
   "status": "partial",
   "theorems": [
    "C29_limit_refuted",
    "C29_limit_wellformed_partial",
    "C29_at_most_one_over_partial"
   ],
   "note": "Refuted for ill-formed input (bytes FF FF FF 'a' with a limit of 1 report 2 columns). Proved: never exceeded on well-formed text, from any idle state; on arbitrary bytes exceeded by at most one column and only when an invalid sequence was reported."
  },
  {
   "property": "C30",
   "status": "proved",
   "theorems": [
    "C30_never_splits"
   ],
   "note": ""
  },
  {
   "property": "C31",
   "status": "proved",
   "theorems": [
    "C31_no_control_scanned",
    "C31_stops_in_front"
   ],
   "note": ""
  },
  {
   "property": "C32",
   "status": "partial",
   "theorems": [
    "C32_scan_is_cluster_width_refuted",
    "C32_scan_is_cluster_width_partial",
    "C32_scan_exact_partial"
   ],
   "note": "Refuted: a flag (two regional indicators) after other text is counted as two clusters, and a Prepend character is separated from a following 7-bit character. C32_scan_exact_partial gives the exact count for every control-free well-formed text that fits: the sum of the widths of the segmenter's clusters cut further at exactly those two kinds of place."
  },
  {
   "property": "C33",
   "status": "proved",
   "theorems": [
    "C33_loses_no_byte"
   ],
   "note": ""
  },
  {
   "property": "C34",
   "status": "partial",
   "theorems": [
    "C34_receiver_covers_partial",
    "C34_columns_refuted",
    "C34_columns_partial",
    "C34_columns_exact_partial",
    "C34_any_bytes_partial"
   ],
   "note": "Coverage proved for all well-formed text and limits. Column sum refuted ('e' + U+0301 announces 2 columns, count 1); proved when nothing attaches to a 7-bit character; and exactly: for every text the announced columns exceed the count by the number of 7-bit characters to which the next character attaches (C34_columns_exact_partial). For arbitrary bytes the ranges tile what was consumed, each beginning outside any sequence (C34_any_bytes_partial)."
  },
  {
   "property": "C35",
   "status": "partial",
   "theorems": [
    "C35_resumed_exact_partial",
    "C35_still_incomplete_refuted",
    "C35_empty_buffer_refuted",
    "C35_no_room_refuted",
    "C35_completed_partial",
    "C35_interrupted_partial"
   ],
   "note": "Refuted three ways (second buffer still incomplete, empty, or no room for the completed character: text.front() before the buffer). C35_resumed_exact_partial: for every pending state, buffer and limit, undefined behaviour if and only if the buffer brings no progress (Spec_Resume.no_progress), a normal end otherwise."
  },
  {
   "property": "C36",
   "status": "proved",
   "theorems": [
    "C36_compose_after_decompose",
    "C36_decompose_after_compose",
    "C36_compose_rejects",
    "C36_decompose_rejects",
    "C36_ranges"
   ],
   "note": ""
  },
  {
   "property": "C37",
   "status": "proved",
   "theorems": [
    "C37_canonical_order",
    "C37_unique",
    "C37_permutation",
    "C37_starters_stay",
    "C37_stable"
   ],
   "note": ""
  },
  {
   "property": "C38",
   "status": "proved",
   "theorems": [
    "C38_idempotent",
    "C38_fully_decomposed",
    "C38_ordered",
    "C38_meaning"
   ],
   "note": "For every acyclic table whose jamos are undecomposable. C38_meaning: NFD/NFKD = full decomposition followed by canonical reordering."
  },
  {
   "property": "C39",
   "status": "proved",
   "theorems": [
    "C39_terminates",
    "C39_closure",
    "C39_closure_unique",
    "C39_closure_undecomposable",
    "C39_normalize_terminates",
    "C39_cyclic_diverges"
   ],
   "note": ""
  },
  {
   "property": "C40",
   "status": "partial",
   "theorems": [
    "C40_unchanged_is_standard",
    "C40_exact_partial",
    "C40_marks_before_starter_refuted",
    "C40_swallows_11A7_refuted",
    "C40_content_partial",
    "C40_equivalent_partial",
    "C40_starters_partial"
   ],
   "note": "The full statement is false of the code: a mark that does not compose is written before its starter (q U+0307 -> U+0307 q), and U+11A7 after an LV syllable disappears. Proved: nothing else is lost (permutation of the content), and equivalence for texts whose marks after starters all compose, in particular texts without marks. C40_exact_partial: the result is exactly the Standard's composition (D117, written out as a relation) with every starter moved behind the marks that follow it; it is the Standard's result iff no mark follows a starter there."
  },
  {
   "property": "C41",
   "status": "proved",
   "theorems": [
    "C41_decided",
    "C41_equivalence",
    "C41_normal_form",
    "C41_congruence",
    "C41_canonical_implies_compatibility"
   ],
   "note": ""
  },
  {
   "property": "C42",
   "status": "partial",
   "theorems": [
    "C42_nfc_yes_refuted",
    "C42_decomposed_partial",
    "C42_composed_no_partial",
    "C42_composed_yes_partial",
    "C42_yes_is_standard",
    "C42_yes_exact_partial"
   ],
   "note": "NFD/NFKD: both answers exact. NFC/NFKC: No is definite. Yes is right by the Standard's algorithm (C42_yes_is_standard: the text is its own composition, and the only one) but false of the library's own normalize, e.g. q U+0332: normalize then returns the text with its starters displaced, and agrees exactly when the text is marks followed by starters (C42_yes_exact_partial; texts without U+11A7)."
  },
  {
   "property": "C43",
   "status": "partial",
   "theorems": [
    "C43_true_is_standard",
    "C43_nfc_refuted",
    "C43_decomposed_partial",
    "C43_composed_partial",
    "C43_decided",
    "C43_true_exact_partial"
   ],
   "note": "Exact for NFD/NFKD; for NFC/NFKC 'false' is always right, 'true' is wrong for e.g. q U+0332. C43_true_exact_partial: 'true' agrees with normalize exactly when quick_check said Maybe or the text is marks followed by starters; when quick_check said Yes the text is in the form by the Standard (texts without U+11A7)."
  },
  {
   "property": "C44",
   "status": "partial",
   "theorems": [
    "C44_nfd_refuted",
    "C44_stream_partial",
    "C44_chunks",
    "C44_feed",
    "C44_segments",
    "C44_composing_partial",
    "C44_decomposing_exact_partial"
   ],
   "note": "False for NFD (U+0F40 U+0F74 U+0F73). Proved for every text in which each boundary code point's decomposition starts with a starter (that never composes backwards, NFC/NFKC). On every text: C44_segments (cut exactly before the flush points, each part normalized alone); NFC/NFKC agree with normalize on every text without U+11A7 under the Standard's quick-check tables (C44_composing_partial); NFD/NFKD agree exactly when the streamed text is canonically ordered (C44_decomposing_exact_partial)."
  },
  {
   "property": "C45",
   "status": "proved",
   "theorems": [
    "C45_chunking",
    "C45_chunking_converse",
    "C45_meaning",
    "C45_wellformed",
    "C45_reset"
   ],
   "note": ""
  },
  {
   "property": "C46",
   "status": "proved",
   "theorems": [
    "C46_characterwise",
    "C46_char_unique",
    "C46_concatenation",
    "C46_length",
    "C46_ascii",
    "C46_simple"
   ],
   "note": ""
  },
  {
   "property": "C47",
   "status": "proved",
   "theorems": [
    "C47_case",
    "C47_titlecase",
    "C47_normalize",
    "C47_quick_check",
    "C47_is_normalized",
    "C47_equivalence"
   ],
   "note": ""
  },
  {
   "property": "C48",
   "status": "proved",
   "theorems": [
    "C48_sign",
    "C48_total",
    "C48_antisymmetric",
    "C48_transitive",
    "C48_equals",
    "C48_equals_equivalence",
    "C48_utf8_agrees"
   ],
   "note": ""
  },
  {
   "property": "C49",
   "status": "proved",
   "theorems": [
    "C49_titlecase",
    "C49_total",
    "C49_uncased_unchanged"
   ],
   "note": ""
  },
  {
   "property": "C50",
   "status": "partial",
   "theorems": [
    "C50_titlecase_refuted",
    "C50_upper_lower_fold_partial",
    "C50_title_cased_partial",
    "C50_title_exact_partial"
   ],
   "note": "False for title case: to_titlecase only touches general categories Lu/Ll/Lt, so e.g. U+24D0 does not change although changes_when_titlecased is true. Proved for upper, lower and fold, and for title case on cased code points. to_titlecase changes a code point exactly when the query says so and its category is Lu, Ll or Lt (C50_title_exact_partial)."
  },
  {
   "property": "C51",
   "status": "proved",
   "theorems": [
    "C51_lower_bound_safe",
    "C51_lookup_exact",
    "C51_lookup_default",
    "C51_lookup_sound",
    "C51_set_exact",
    "C51_composition_safe",
    "C51_composition_exact"
   ],
   "note": ""
  },
  {
   "property": "C52",
   "status": "partial",
   "theorems": [
    "C52_contains_exact",
    "C52_search_exact",
    "C52_empty_table_refuted",
    "C52_empty_search_refuted"
   ],
   "note": "Exact on non-empty tables; the empty table reads out of range (size()-1 wraps)."
  },
  {
   "property": "C53",
   "status": "proved",
   "theorems": [
    "C53_lookup",
    "C53_values_once",
    "C53_verify_exact"
   ],
   "note": "Any element type, hash, block size; hypotheses: input is whole blocks, equal object bytes mean equal values, index types wide enough (decidable facts about the input)."
  },
  {
   "property": "C54",
   "status": "proved",
   "theorems": [
    "C54_partition"
   ],
   "note": "All texts, all tables (no hypothesis on the data)."
  },
  {
   "property": "C55",
   "status": "partial",
   "theorems": [
    "C55_sound_refuted",
    "C55_maximal_partial",
    "C55_sound_partial",
    "C55_plain_partial",
    "C55_exact_partial"
   ],
   "note": "Refuted: Common/Inherited listed beside real extensions survives the intersection, so IDEOGRAPHIC COMMA + ARABIC COMMA + 'a' is one Latin run. Maximality holds always; soundness holds whenever the run shares a real script, and fully for texts without such mixed code points. C55_exact_partial: a run's script is shared exactly when its code points share some script of that kind."
  },
  {
   "property": "C56",
   "status": "proved",
   "theorems": [
    "C56_scanner",
    "C56_token_unique",
    "C56_empty"
   ],
   "note": "Every text over the emoji categories; the Ragel tables are transcribed verbatim and the grammar is stated as regular expressions independent of them. ts is not modelled (never read)."
  },
  {
   "property": "C57",
   "status": "proved",
   "theorems": [
    "C57_segments",
    "C57_partition",
    "C57_views"
   ],
   "note": "Every text and every fuel above the text's length; segments = maximal runs of grammar tokens of equal presentation; substr()/isEmoji() views included."
  },
  {
   "property": "C58",
   "status": "proved",
   "theorems": [
    "C58_refinement",
    "C58_run_segmenter"
   ],
   "note": "Any pack of well-behaved segmenters (heterogeneous tuples encoded by a sum type), and the library's run_segmenter instance for every text, script table and emoji category assignment."
  },
  {
   "property": "C59",
   "status": "partial",
   "theorems": [
    "C59_exact_fit_refuted",
    "C59_convert_partial"
   ],
   "note": "The full statement is false: an exact fit is refused (bytesWritten < dlen is required). Proved: no write outside the buffer, success exactly when the encoding is strictly shorter, contents and untouched tail on success."
  },
  {
   "property": "C60",
   "status": "partial",
   "theorems": [
    "C60_gc_count",
    "C60_u8_gc_count",
    "C60_unbreakable",
    "C60_base_width",
    "C60_empty_text_refuted",
    "C60_modifiable_width",
    "C60_u8_gc_width"
   ],
   "note": "False for the empty text in non-modifiable mode (front() of an empty view). Proved for every non-empty text, and for every text in modifiable mode."
  },
  {
   "property": "C61",
   "status": "proved",
   "theorems": [
    "C61_capacity"
   ],
   "note": "All histories of push_back, resize and clear."
  },
  {
   "property": "C62",
   "status": "proved",
   "theorems": [
    "C62_neon_movemask",
    "C62_all_ascii"
   ],
   "note": ""
  },
  {
   "property": "C63",
   "status": "partial",
   "theorems": [
    "C63_additive_refuted",
    "C63_additive_partial",
    "C63_exact_partial",
    "C63_never_less_partial"
   ],
   "note": "Refuted by U+231A | U+FE0E (2 columns in two calls, 1 in one call). Proved for every cut position, also inside a character, for text without U+FE0E; assumes state.next reset to null between buffers. C63_exact_partial gives the difference for every text without control characters and every cut: the columns by which the piece open at the cut later falls below the width it had there (never negative: C63_never_less_partial)."
  },
  {
   "property": "C64",
   "status": "partial",
   "theorems": [
    "C64_receiver_wellformed_refuted",
    "C64_wellformed_text_partial",
    "C64_whole_sequences_partial"
   ],
   "note": "Refuted: for FF C3 A9 the rejected byte FF is handed over as a cluster of 0 columns. Proved for well-formed text: every cluster handed over is a non-empty run of whole characters. For arbitrary bytes: whole accepted or rejected sequences, except that the last range of the scan, or one before a control, may end in an unfinished sequence (C64_whole_sequences_partial)."
  },
  {
   "property": "C65",
   "status": "partial",
   "theorems": [
    "C65_cut_short_partial",
    "C65_flush_partial",
    "C65_cases",
    "C65_flush_refuted",
    "C65_truncated_dropped",
    "C65_flush_at_boundary_partial"
   ],
   "note": "False: flush() keeps the UTF-8 decoder state, so a character cut short by flush() is dropped and completed by bytes of the next text. Exact: a byte string, well formed or not, either ends in a sequence cut short, and flush keeps exactly those bytes for the next text (C65_cut_short_partial), or it does not, and flush starts afresh (C65_flush_partial); C65_cases shows that these are all cases."
  },
  {
   "property": "C66",
   "status": "partial",
   "theorems": [
    "C66_illformed_refuted",
    "C66_wellformed_partial",
    "C66_bytes_exact_partial",
    "C66_composed_exact_partial"
   ],
   "note": "False: ill-formed bytes are dropped before the check (41 FF counts as normalized, normalize returns 41). Decomposing forms: wrong exactly about ill-formed strings (C66_bytes_exact_partial, strings decoding to scalar values). Composing forms on well-formed text: false always right, true exactly when quick_check said Maybe or the text is marks followed by starters."
  },
  {
   "property": "C67",
   "status": "proved",
   "theorems": [
    "C67_idempotent",
    "C67_casefold_representative"
   ],
   "note": ""
  },
  {
   "property": "C68",
   "status": "partial",
   "theorems": [
    "C68_names_wrap_partial",
    "C68_names_refuted",
    "C68_names_bmp_partial",
    "C68_names_wide_partial"
   ],
   "note": "Refuted: the names table numbers blocks in uint8_t and compares std::string objects bytewise, so the name of cp is that of cp mod 65536 (C68_names_wrap_partial). Right in the first plane, and everywhere if stage 1 were 16 bits wide. The hypothesis string_objects (no two std::string objects have equal bytes) is true of libstdc++."
  },
  {
   "property": "C69",
   "status": "partial",
   "theorems": [
    "C69_resize_refuted",
    "C69_resize_partial"
   ],
   "note": "Refuted at n = N (the test is n < N); proved for n < N and for every shrink."
  },
  {
   "property": "C70",
   "status": "partial",
   "theorems": [
    "C70_full_composition_exclusion_refuted",
    "C70_loaded_partial",
    "C70_normalization_unaffected"
   ],
   "note": "Refuted: DerivedNormalizationProps.txt lines carry a trailing comment, which the parser leaves in the property field, so no Full_Composition_Exclusion line is loaded; U+0340 is a counterexample with the exact UCD line. Proved: what is loaded, and that no normalization result changes because of it."
  },
  {
   "property": "C71",
   "status": "proved",
   "theorems": [
    "C71_quick_check"
   ],
   "note": "All well-formed files (any order, spacing, comments, CR LF), every code point and form."
  },
  {
   "property": "C72",
   "status": "proved",
   "theorems": [
    "C72_comp_ready",
    "C72_unicode_data",
    "C72_ready"
   ],
   "note": "All well-formed files; std::sort of the composition list is any sorted permutation. C72_ready discharges the table hypotheses of the normalization theorems from conditions on the data. C72_comp_ready does so for C40_exact_partial."
  },
  {
   "property": "C73",
   "status": "proved",
   "theorems": [
    "C73_case_tables"
   ],
   "note": "All well-formed files whose ASCII letters map as ASCII; C73 also discharges tables_ok."
  },
  {
   "property": "C74",
   "status": "proved",
   "theorems": [
    "C74_safe",
    "C74_exact",
    "C74_skipped"
   ],
   "note": "Every byte string."
  },
  {
   "property": "C75",
   "status": "partial",
   "theorems": [
    "C75_names_refuted",
    "C75_names_partial"
   ],
   "note": "Refuted: range patterns are stored literally (name of U+3400 is \"CJK UNIFIED IDEOGRAPH-*\"). Proved: the stored name is the text of the line, right for every line without final *."
  },
  {
   "property": "C76",
   "status": "proved",
   "theorems": [
    "C76_values",
    "C76_values_unique"
   ],
   "note": "All well-formed files (any order of lines, comments, CR LF), every code point; at most 253 scripts / categories and 255 value aliases per property (the indexes are uint8_t)."
  },
  {
   "property": "C77",
   "status": "proved",
   "theorems": [
    "C77_flags"
   ],
   "note": "Every code point, all nine flags."
  },
  {
   "property": "C78",
   "status": "proved",
   "theorems": [
    "C78_width"
   ],
   "note": "Every code point."
  },
  {
   "property": "C79",
   "status": "proved",
   "theorems": [
    "C79_emoji_segmentation_category"
   ],
   "note": "Every code point."
  },
  {
   "property": "C80",
   "status": "partial",
   "theorems": [
    "C80_east_asian_default_refuted",
    "C80_east_asian_default_partial"
   ],
   "note": "Refuted: unlisted code points get Narrow. Proved: exactly that."
  },
  {
   "property": "C81",
   "status": "proved",
   "theorems": [
    "C81_generation_succeeds",
    "C81_deterministic"
   ],
   "note": "Success for every files_ok database; equality of records for any order the sorts may leave."
  },
  {
   "property": "C82",
   "status": "proved",
   "theorems": [
    "C82_table",
    "C82_few_ranges"
   ],
   "note": "Any hash. Hypotheses: at most 65536 records and 256 blocks differ (data of the UCD version); met by every database with at most 127 range boundaries, shown by C82_few_ranges."
  },
  {
   "property": "C83",
   "status": "proved",
   "theorems": [
    "C83_script"
   ],
   "note": "Any sorted permutation of the parsed ranges; file with non-overlapping lines."
  },
  {
   "property": "C84",
   "status": "proved",
   "theorems": [
    "C84_loads",
    "C84_get",
    "C84_contains",
    "C84_get_contains_agree"
   ],
   "note": "The sections must list their code points in order (the generator does not sort them), as the UCD file does."
  },
  {
   "property": "C85",
   "status": "proved",
   "theorems": [
    "C85_core_properties",
    "C85_emoji_properties"
   ],
   "note": "Core properties with the name of an enumerator; emoji functions exist exactly for properties in the file."
  },
  {
   "property": "C86",
   "status": "proved",
   "theorems": [
    "C86_east_asian_width"
   ],
   "note": "Includes the merging of adjacent ranges."
  },
  {
   "property": "C87",
   "status": "proved",
   "theorems": [
    "C87_grapheme_cluster_break"
   ],
   "note": "File with the '# Property:' header of the UCD file."
  },
  {
   "property": "C88",
   "status": "proved",
   "theorems": [
    "C88_plane"
   ],
   "note": "All natural numbers."
  },
  {
   "property": "C89",
   "status": "proved",
   "theorems": [
    "C89_block"
   ],
   "note": "File in code point order (the generator does not sort it)."
  },
  {
   "property": "C90",
   "status": "proved",
   "theorems": [
    "C90_script_extensions"
   ],
   "note": "Order of the returned view is that of the sorted abbreviations; stated up to permutation."
  },
  {
   "property": "C91",
   "status": "proved",
   "theorems": [
    "C91_is_mirrored"
   ],
   "note": "One line per code point."
  },
  {
   "property": "C92",
   "status": "proved",
   "theorems": [
    "C92_mirroring_glyph",
    "C92_involution"
   ],
   "note": "Involution under the hypothesis that the file pairs the images."
  },
  {
   "property": "C93",
   "status": "proved",
   "theorems": [
    "C93_make_age"
   ],
   "note": "Every string."
  },
  {
   "property": "C94",
   "status": "partial",
   "theorems": [
    "C94_script",
    "C94_general_category",
    "C94_flags",
    "C94_grapheme_cluster_break_refuted",
    "C94_grapheme_cluster_break_partial",
    "C94_east_asian_width_refuted",
    "C94_east_asian_width_partial"
   ],
   "note": "Script, general category, emoji flags, Grapheme_Extend agree. Refuted for code points GraphemeBreakProperty.txt / EastAsianWidth.txt do not list (Undefined against Other, Unspecified against Narrow); proved for listed ones."
  },
  {
   "property": "C95",
   "status": "proved",
   "theorems": [
    "C95_compiles",
    "C95_round_trip",
    "C95_other_values",
    "C95_distinct"
   ],
   "note": "Members of each enumeration as collected from the files; distinct_names is the only condition on spelling."
  },
  {
   "property": "C96",
   "status": "proved",
   "theorems": [
    "C96_age_order",
    "C96_codepoint_age"
   ],
   "note": "Versions with numbers below 1000."
  },
  {
   "property": "C97",
   "status": "proved",
   "theorems": [
    "C97_property_table",
    "C97_ucd_api"
   ],
   "note": "plain_names: no hyphen in the names of scripts, core properties and values (those are not rewritten where they are used). uses_names: what ucd.cpp needs of GraphemeBreakProperty.txt and ScriptExtensions.txt."
  },
  {
   "property": "C98",
   "status": "partial",
   "theorems": [
    "C98_detect_sound",
    "C98_detect_exact",
    "C98_detect_reads_only_defined",
    "C98_scan_everywhere",
    "C98_convert_without_sse41_refuted",
    "C98_convert_utf32_partial",
    "C98_convert_utf16_partial"
   ],
   "note": "Detector and ASCII scan proved for every machine; the conversions fault on processors without SSE4.1 because convert.cpp is compiled with -msse4.1 (refuted), and are proved for all others. GCC/Clang flags."
  },
  {
   "property": "C99",
   "status": "partial",
   "theorems": [
    "C99_capacity",
    "C99_cxx20",
    "C99_C_refuted",
    "C99_C_partial",
    "C99_mask",
    "C99_mask_and_codepoint",
    "C99_codepoint_kept"
   ],
   "note": "Proved for C++20; in C index 10 is 1 << 31 on an int (refuted), the other ten indices are proved."
  },
  {
   "property": "C100",
   "status": "partial",
   "theorems": [
    "C100_macro_unbalanced",
    "C100_macro_refuted",
    "C100_header_as_C_refuted",
    "C100_header_linkage_refuted"
   ],
   "note": "Refuted: the macro leaves a parenthesis open for every argument, and the __cplusplus test around extern \"C\" is inverted. Token-level model."
  },
  {
   "property": "C101",
   "status": "partial",
   "theorems": [
    "C101_parse_refuted",
    "C101_parse_exact_partial",
    "C101_roundtrip_partial"
   ],
   "note": "Refuted: a value above 10FFFF is accepted, one of 2^32 or more silently becomes U+0000, and U+U+41 is U+0041. Exact behaviour proved for every text, and that printed code points read back."
  },
  {
   "property": "C102",
   "status": "partial",
   "theorems": [
    "C102_reversible_refuted",
    "C102_reversible_partial",
    "C102_printable_partial",
    "C102_isprint_ub_partial"
   ],
   "note": "Refuted: backslashes are not escaped, so the byte C3 and the text \\xc3 look the same. Holds for texts without backslashes; printable; undefined behaviour of isprint characterised."
  },
  {
   "property": "C103",
   "status": "partial",
   "theorems": [
    "C103_verbatim_refuted",
    "C103_lines_partial",
    "C103_verbatim_partial",
    "C103_one_line_each"
   ],
   "note": "Refuted where char is signed (x86): every non-ASCII cluster is shown as \\x escapes, since negative chars compare below 0x20. Exact output proved for every well-formed text; verbatim for unsigned char or 7-bit text."
  },
  {
   "property": "C104",
   "status": "proved",
   "theorems": [
    "C104_options",
    "C104_commands"
   ],
   "note": ""
  },
  {
   "property": "C105",
   "status": "partial",
   "theorems": [
    "C105_properties_refuted",
    "C105_properties_exact_partial",
    "C105_version_partial",
    "C105_records_partial"
   ],
   "note": "Refuted: an unassigned code point such as U+0378 fails the assertion in prettyAge. Exactly characterised; normal end otherwise. Code point names, property values etc. are arbitrary strings here. C105_records_partial: for assigned scalar values the output is exactly their records in order, every line of them."
  },
  {
   "property": "C106",
   "status": "proved",
   "theorems": [
    "C106_runs"
   ],
   "note": ""
  },
  {
   "property": "C107",
   "status": "partial",
   "theorems": [
    "C107_replace_refuted",
    "C107_replace_exact_partial",
    "C107_total",
    "C107_no_escape_partial"
   ],
   "note": "Refuted: an occurrence directly behind a replaced one is overlooked (the search resumes one character too far), so two adjacent ESC leave one in the output. Exact behaviour and totality proved."
  },
  {
   "property": "C108",
   "status": "partial",
   "theorems": [
    "C108_codepoints_refuted",
    "C108_lines_partial",
    "C108_marks_exact_partial"
   ],
   "note": "Refuted by regional indicators (as C21). Lines, offsets and UTF-8 forms proved for every well-formed text; marks exactly for texts without NUL."
  },
  {
   "property": "C109",
   "status": "proved",
   "theorems": [
    "C109_inspect_escape"
   ],
   "note": ""
  },
  {
   "property": "C110",
   "status": "partial",
   "theorems": [
    "C110_inspect_command_refuted",
    "C110_inspect_command_partial"
   ],
   "note": "Refuted: without a file argument the command word is ignored and code points are listed from standard input."
  },
  {
   "property": "C111",
   "status": "partial",
   "theorems": [
    "C111_exit_status_refuted",
    "C111_reported_partial"
   ],
   "note": "Refuted: the exit status is 0. The error stream is exact."
  },
  {
   "property": "C112",
   "status": "proved",
   "theorems": [
    "C112_scripts"
   ],
   "note": ""
  },
  {
   "property": "C113",
   "status": "partial",
   "theorems": [
    "C113_whole_clusters_refuted",
    "C113_longest_refuted",
    "C113_exact_partial",
    "C113_stop_partial"
   ],
   "note": "Refuted twice: 'e' U+0301 at limit 1 leaves the accent behind; U+231A U+FE0E (width 1) is refused at limit 1 because U+231A alone has width 2. C113_exact_partial states what is taken for every text and limit (function take of Spec_ScanLimit over the measured pieces); C113_stop_partial says it in words."
  },
  {
   "property": "C114",
   "status": "partial",
   "theorems": [
    "C114_next_line_refuted",
    "C114_next_line_partial"
   ],
   "note": "Refuted: a regional indicator that did not fit is already in the saved grapheme state, so the flag on the next line counts 4 columns instead of 2. Proved after any number of lines (no Prepend characters) when the next line begins with a 7-bit or an unremarkable character."
  },
  {
   "property": "C115",
   "status": "partial",
   "theorems": [
    "C115_bool_loop_refuted",
    "C115_equal_refuted",
    "C115_bool_loop_partial",
    "C115_word_bool_loop_partial",
    "C115_end_loop_partial",
    "C115_word_end_loop_partial",
    "C115_increments",
    "C115_word_increments",
    "C115_word_size",
    "C115_equal_partial",
    "C115_word_equal_partial",
    "C115_default",
    "C115_default_equal_partial",
    "C115_word_default_equal_partial"
   ],
   "note": "Refuted twice: both loop conditions leave out the last segment, and segmenters at the last segments of different texts compare equal. The loops are proved to visit exactly all segments but the last; increments and operator== are characterised for every text."
  },
  {
   "property": "C116",
   "status": "proved",
   "theorems": [
    "C116_library_reads_files",
    "C116_determined",
    "C116_builds_agree",
    "C116_builds"
   ],
   "note": "compiled (T_Link) = generator run on the files, any sort order, hash and line ending, then codepoint_properties::get on the generated table."
  },
  {
   "property": "C117",
   "status": "partial",
   "theorems": [
    "C117_hypotheses",
    "C117_widths",
    "C117_segments_partial"
   ],
   "note": "Partial because of the two deviations from UAX #29 recorded under C18 (and for widths C25 applies without facts about the data). C117_hypotheses: the facts, stated on files in Spec_Link, give the hypotheses of the segmentation, width and scan theorems."
  },
  {
   "property": "C118",
   "status": "partial",
   "theorems": [
    "C118_unchanged_is_standard",
    "C118_true_is_standard",
    "C118_functions",
    "C118_decomposed",
    "C118_equivalent",
    "C118_decomposed_checks",
    "C118_composed_partial",
    "C118_composed_yes_partial",
    "C118_builds",
    "C118_composed_refuted",
    "C118_composed_no_is_right",
    "C118_composed_checks_exact_partial"
   ],
   "note": "Partial: the composed forms come out with every starter behind the marks that follow it (C118_composed_refuted: A + grave), C118_composed_partial says exactly what is returned instead; U+11A7 is left out there (C40). The decomposed forms, equivalence and their checks are proved in full."
  },
  {
   "property": "C119",
   "status": "partial",
   "theorems": [
    "C119_numbering",
    "C119_builds",
    "C119_library_reads_files",
    "C119_script_runs_partial",
    "C119_plain_partial",
    "C119_exact_partial",
    "C119_sound_refuted",
    "C119_runs"
   ],
   "note": "Refuted with the database's own lines (IDEOGRAPHIC COMMA, ARABIC COMMA, 'a' are one Latin run, as C55). Proved in file terms: maximality always, soundness when the run shares a real script, in full for texts without such mixed code points; runs are the common refinement. C119_exact_partial: a run's script is shared by the files exactly when its code points share some script of that kind."
  },
  {
   "property": "C120",
   "status": "proved",
   "theorems": [
    "C120_missing_input",
    "C120_names_it",
    "C120_failure_untouched"
   ],
   "note": "Lines read and exceptions of the parser are parameters; the order of the files is the code's."
  },
  {
   "property": "C121",
   "status": "partial",
   "theorems": [
    "C121_written_refuted",
    "C121_disk_full_refuted",
    "C121_read_refuted",
    "C121_exact_partial",
    "C121_complete_partial",
    "C121_success_partial"
   ],
   "note": "Refuted: output stream errors are never checked (unwritable directory, full disk), and a read error counts as end of file. C121_exact_partial: what status 0 means and what is on the disk then."
  },
  {
   "property": "C122",
   "status": "proved",
   "theorems": [
    "C122_reuse"
   ],
   "note": "CMake foreach/break and IS_NEWER_THAN (true for equal times and missing files) modelled."
  },
  {
   "property": "C123",
   "status": "partial",
   "theorems": [
    "C123_interrupted_refuted",
    "C123_exact_partial",
    "C123_before_last_partial",
    "C123_states_partial",
    "C123_finished_partial"
   ],
   "note": "Refuted: all nine files exist and are new as soon as codepoint_properties_names.cpp has been created. C123_exact_partial says exactly for which crash points the next configuration regenerates."
  },
  {
   "property": "C124",
   "status": "proved",
   "theorems": [
    "C124_results",
    "C124_no_race",
    "C124_no_deadlock",
    "C124_bounded",
    "C124_probed_once"
   ],
   "note": ""
  },
  {
   "property": "C125",
   "status": "proved",
   "theorems": [
    "C125_contained",
    "C125_every",
    "C125_clusters"
   ],
   "note": "For fresh scan states and limits that are not reached (2 columns per byte). C125_every: the decomposition exists for every control-free byte string in which the decoder accepts only proper UTF-8. C125_clusters: in terms of grapheme clusters, under the hypotheses of C32."
  },
  {
   "property": "C126",
   "status": "partial",
   "theorems": [
    "C126_version_refuted",
    "C126_clean_refuted",
    "C126_exact_partial",
    "C126_same_version_partial",
    "C126_uniform_partial"
   ],
   "note": "Refuted twice: files generated for another version are reused (C126_version_refuted), and even after deleting them the directory of the first call in that build directory stays cached (C126_clean_refuted). C126_exact_partial gives the exact rule; C126_uniform_partial: the nine files always come from one run."
  },
  {
   "property": "C127",
   "status": "partial",
   "theorems": [
    "C127_interrupted_refuted",
    "C127_sum_refuted",
    "C127_forever_partial",
    "C127_exact_partial",
    "C127_good_partial",
    "C127_first_partial"
   ],
   "note": "Refuted: a run cut off while unpacking leaves a directory that is taken as it is; an archive whose sum was wrong is unpacked unchecked by the next run. C127_forever_partial, C127_exact_partial: what is there stays; C127_good_partial, C127_first_partial: where the claim holds."
  },
  {
   "property": "C128",
   "status": "proved",
   "theorems": [
    "C128_is_cased",
    "C128_is_case_ignorable"
   ],
   "note": "Facts about the files (sections per category, no overlaps) are hypotheses with an example."
  },
  {
   "property": "C129",
   "status": "proved",
   "theorems": [
    "C129_titlecase",
    "C129_utf8",
    "C129_compare",
    "C129_changes",
    "C129_idempotent"
   ],
   "note": "C129_titlecase assumes the facts of C117 about the files; no_special_identity, maps_scalars and maps_closed (upper, lower, fold) are facts of the UCD, shown on an excerpt."
  },
  {
   "property": "C130",
   "status": "partial",
   "theorems": [
    "C130_text_denotes_partial",
    "C130_backslash_refuted"
   ],
   "note": "C130_backslash_refuted: a simple mapping from U+005C would print the comment \"// \\\\\", which joins the next line to the comment. C130_text_denotes_partial: no such mapping (none exists in the UCD). Preprocessing directives are read as tokens."
  },
  {
   "property": "C131",
   "status": "partial",
   "theorems": [
    "C131_text_denotes_partial",
    "C131_backslash_refuted"
   ],
   "note": "C131_backslash_refuted: a range whose comment (copied from the data file) ends in a backslash swallows the next line of the array. C131_text_denotes_partial: no comment ends in a backslash (none does in the UCD). That names of arrays in the same namespace are distinct is not part of the statement."
  },
  {
   "property": "C132",
   "status": "partial",
   "theorems": [
    "C132_text_denotes_partial",
    "C132_few_records_refuted"
   ],
   "note": "C132_few_records_refuted: when every index of stage2 is below 256 (at most 256 different records, or names), the array is printed with elements of type uint8_t, and the uint16_t const* of tables_view / names_view in codepoint_properties.cpp cannot point to it: the generated sources do not compile. C132_text_denotes_partial: some index of each second stage is 256 or more (so for the UCD)."
  },
  {
   "property": "C133",
   "status": "proved",
   "theorems": [
    "C133_sources_answer"
   ],
   "note": "Composition of C76-C82 (what the files mean), C53 (the multistage table) and the printer and reader of C132. Holds also when stage2 is printed as uint8_t (the statement then says so; that such sources do not compile is C132_few_records_refuted). The table of names is arbitrary here (C68, C132)."
  },
  {
   "property": "C134",
   "status": "proved",
   "theorems": [
    "C134_headers",
    "C134_records_compile"
   ],
   "note": "Text model M_EmitEnums, independent reader Spec_Cpp/Spec_EmitEnums. An identifier here is a non-empty sequence of letters, digits and underscores: that none starts with a digit or is a keyword is not checked. The switches are compared as token sequences; what they do when run is C95."
  },
  {
   "property": "C135",
   "status": "proved",
   "theorems": [
    "C135_header_denotes",
    "C135_declared_and_defined"
   ],
   "note": "Text model M_EmitUcdH; the definitions come from C131 (whose condition on comments is inherited). A definition is recognised by its signature followed by an opening brace; the bodies are C131. Default arguments, attributes and include directives are not compared."
  },
  {
   "property": "C136",
   "status": "proved",
   "theorems": [
    "C136_ucd_cpp_answers"
   ],
   "note": "Composite of C131 (text of ucd.cpp) with C83-C93 (loaders and lookups): nothing of the model between the files and the answers appears in the statement except the relation loaded_api, which says that the generator has read these files and sorted with std::sort. Comments are copied from the files; that each is one line not ending in a backslash is a hypothesis (comments_ok). The bodies of the functions are compared as text; their meaning is the model of ucd_private.h (M_Tables), C52."
  },
  {
   "property": "C137",
   "status": "proved",
   "theorems": [
    "C137_case_conversion",
    "C137_decomposition",
    "C137_composition"
   ],
   "note": "Composite of C130 (printed text), C70-C73 (loaders and table generation) and C118 (section 3.11). That all numbers fit the declared types and that there are fewer than 2^64 entries follows from the format of the files (keys are distinct code points); the two conditions that do not (decomposition length, backslash) are the hypothesis printable_data. The composed forms inherit the misplacement of starters that C40 and C118 refute: C137_composition says exactly when the Standard's result is returned."
  },
  {
   "property": "C138",
   "status": "proved",
   "theorems": [
    "C138_ucd_cpp_compiles"
   ],
   "note": "Joins C97 (names) with the printed texts of C131 and C134: the tables are those a C++ reader finds in the printed ucd.cpp, the values those it finds in the printed ucd_enums.h."
  },
  {
   "property": "C139",
   "status": "proved",
   "theorems": [
    "C139_ucd_h_follows"
   ],
   "note": "C135 with its hypotheses derived from the files: names are identifiers, every table the signatures mention was loaded."
  },
  {
   "property": "C140",
   "status": "partial",
   "theorems": [
    "C140_printed_library",
    "C140_printed_segments_partial"
   ],
   "note": "Composite of C133 (printed tables), C116/C117 (files to properties to segments). library_of reads the arrays of the printed text; members of a record are taken by props_of (M_Link). Partial because of the deviations of C18; C140_printed_library is complete."
  },
  {
   "property": "C141",
   "status": "partial",
   "theorems": [
    "C141_printed_scripts",
    "C141_printed_runs_partial"
   ],
   "note": "Joins C136 (printed ucd.cpp) and C119 (script runs by the files). Partial as C55/C119: the code can name a script the code points of the run do not share (C119_sound_refuted); C141_printed_runs_partial says exactly when it does not."
  },
  {
   "property": "C142",
   "status": "proved",
   "theorems": [
    "C142_printed_queries",
    "C142_printed_titlecase",
    "C142_printed_conversion"
   ],
   "note": "Joins C131, C133, C137 (printed texts) with C128 and C129. The enumerators of General_Category named in case_mapping.cpp are mapped by name (M_LinkCase)."
  },
  {
   "property": "C143",
   "status": "proved",
   "theorems": [
    "C143_printed_runs"
   ],
   "note": "Joins C140 and C141 (printed texts) with C57, C58 and C119. What is claimed of the script a run names is what C119_exact_partial proves; the stronger statement is refuted (C55)."
  },
  {
   "property": "C144",
   "status": "proved",
   "theorems": [
    "C144_decomposed",
    "C144_decomposed_checks",
    "C144_equivalence"
   ],
   "note": "Joins C137 (printed tables), C118 (Standard) and C47 (UTF-8 overloads). scalar_data: surrogates have no decomposition and are in none; decides/computes are defined in Spec_NormApi."
  },
  {
   "property": "C145",
   "status": "partial",
   "theorems": [
    "C145_true_is_standard_partial",
    "C145_composed_partial",
    "C145_checks_exact_partial"
   ],
   "note": "Partial as C118/C40: the code writes every starter behind the marks that follow it, which C145_composed_partial states exactly; texts with U+11A7 are left out (C40). C145_true_is_standard_partial adds that is_nfc/is_nfkc are never true of a text that is not in the Standard's form, and C145_checks_exact_partial when they are true (false is wrong of texts the quick check cannot decide in which a mark follows a starter: the comparison is with the library's displaced result)."
  }
 ]
}