{
"eseg_loop|Ok st2": {
"failed": [
"C57_partition",
"C57_segments"
],
"note": "the proof file of C57 (P_Emoji.v) no longer compiles, so no C57 theorem builds"
},
"until_split|": {
"note": "equivalent mutant: the callers only ask segmenters that are not finished, the dropped test never decides; no theorem can fail"
},
"from_utf8i|(st', Invalid) => (st', 0xFFFFFFFF)": {
"note": "claim label imprecise: C04 is the claim about from_utf8i"
},
"peek|Some (p_wb (u c))": {
"failed": [
"C23_words_uax29"
],
"note": "P_Word.v (C23) no longer compiles"
},
"push|l ++ [v]": {
"note": "the bound is used by the script run segmenter claims C54/C55/C58, which fail"
},
"push|mkA c w true (a_total s) w false (a_skip s) ri": {
"note": "claim label imprecise: C26/C63 state the sums, C24/C27 relate two computations that change together"
},
"is_boundary|NFC => true": {
"tightened": [
"C44_stream_partial",
"C44_feed",
"C44_segments",
"C44_composing_partial"
],
"note": "C44_stream_partial took its flush points from the model's own is_boundary and survived; it is now stated with flush_point (Spec_StreamSeg) and C44_feed / C44_segments / C44_composing_partial fix the cuts exactly."
},
"is_cased|gencat_beq (gc cp) Lu || gencat_beq (gc cp) Ll": {
"tightened": [
"C49_titlecase",
"C49_uncased_unchanged",
"C50_title_cased_partial"
],
"note": "survived: the statements took their cased characters from the model's own is_cased; they now use cased_letter (Spec_Case)"
},
"order_step|x :: rp": {
"failed": [
"C37_canonical_order",
"C38_ordered",
"C38_idempotent",
"C38_meaning"
],
"note": "P_Order.v, which every C37/C38 theorem about ordering is proved from, no longer compiles"
},
"decompose_recursive|do x <- Ok [c] ; do y <- go r ; Ok (x ++ y)": {
"failed": [
"C38_fully_decomposed",
"C39_closure"
],
"note": "P_Normalize.v, which C38 and C39 are proved from, no longer compiles"
},
"is_canonically_equivalent8|do x <- normalize8 fuel a NFD ; do y <- normalize8 fuel b NFC ;": {
"note": "the claim about the UTF-8 overload is C47, whose theorem fails"
},
"show_codepoint|(if str_eqb (ci_gc p) (lit \"Format\") then []": {
"tightened": [
"C105_records_partial"
],
"note": "no theorem failed in the first run; C105_records_partial was added for it and fails on the re-run"
},
"fresh|fresh_for s d generated_files": {
"failed": [
"C122_reuse"
],
"note": "the proof of fresh (P_TgMain) no longer checks, on which C122_reuse rests"
},
"is_newer|| _, _ => false": {
"note": "equivalent: the comparison is only reached when every file exists"
},
"slot_of|ToUtf16 _ _ => SimdSize32": {
"note": "equivalent: two functions sharing one guarded static still initialise it once"
},
"is_range|None => true\n  | Some i => match": {
"note": "equivalent: a line without a semicolon is rejected whatever is_range says"
},
"seg_default|: gseg := seg_make u [0%N].": {
"note": "survived at first: no theorem spoke of the default-constructed segmenter itself",
"tightened": [
"C115_default"
]
},
"sstate0|SS dinit 0 (gstate0 u) acc0 0 (Some 0)": {
"note": "the first value of state.next is overwritten by every call; the theorems that fail describe the whole initial state"
},
"configure|Cache None (Some base) (Some dir)": {
"note": "equivalent: the directory is cached by the first call and no later call looks at the version"
},
"h_header|lit \"#include <optional>\"": {
"note": "no claim is about #include lines: C135 compares declarations; the enumerations are C134's file"
}
}