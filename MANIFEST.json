{
 "claims": [
  {
   "property": "C01",
   "status": "proved",
   "theorems": [
    "C01_forward_iteration_string",
    "C01_forward_iteration_view"
   ],
   "note": ""
  },
  {
   "property": "C02",
   "status": "proved",
   "theorems": [
    "C02_backward_iteration"
   ],
   "note": ""
  },
  {
   "property": "C03",
   "status": "proved",
   "theorems": [
    "C03_inc_dec_inverse",
    "C03_postfix"
   ],
   "note": ""
  },
  {
   "property": "C04",
   "status": "proved",
   "theorems": [
    "C04_inside_a_codepoint",
    "C04_inside_a_codepoint_decrement"
   ],
   "note": ""
  },
  {
   "property": "C05",
   "status": "proved",
   "theorems": [
    "C05_equality_is_same_codepoint",
    "C05_equality_is_an_equivalence"
   ],
   "note": ""
  },
  {
   "property": "C06",
   "status": "partial",
   "theorems": [
    "C06_equality_symmetric_refuted",
    "C06_equality_meaning_partial",
    "C06_equality_symmetric_iff_partial"
   ],
   "note": "operator== is symmetric exactly on complete texts (C06_equality_symmetric_iff_partial)."
  },
  {
   "property": "C07",
   "status": "proved",
   "theorems": [
    "C07_forward_loop_memory_safe"
   ],
   "note": ""
  },
  {
   "property": "C08",
   "status": "partial",
   "theorems": [
    "C08_checked_loop_terminates_refuted",
    "C08_loop_terminates_iff_partial"
   ],
   "note": "Refuted: \"A\\x81\" passes check and hangs. Exact termination condition: C09 and C08_*_partial."
  },
  {
   "property": "C09",
   "status": "proved",
   "theorems": [
    "C09_loop_terminates_without_strays",
    "C09_loop_hangs_on_stray",
    "C09_loop_ends_quickly_or_never"
   ],
   "note": ""
  },
  {
   "property": "C10",
   "status": "partial",
   "theorems": [
    "C10_view_loop_reads_only_the_view_refuted",
    "C10_view_loop_reads_one_more_octet_partial",
    "C10_view_before_continuation_octet_hangs_partial",
    "C10_view_loop_iff_partial"
   ],
   "note": "Refuted for every text (also the empty one): operator== always reads the octet at end. With one readable octet after the view the loop is correct exactly if that octet is not a continuation octet; otherwise it never ends (partial theorems)."
  },
  {
   "property": "C11",
   "status": "proved",
   "theorems": [
    "C11_octet_classification",
    "C11_announced_len_is_the_length"
   ],
   "note": ""
  },
  {
   "property": "C12",
   "status": "proved",
   "theorems": [
    "C12_check_accepts_valid_text"
   ],
   "note": ""
  },
  {
   "property": "C13",
   "status": "partial",
   "theorems": [
    "C13_check_sound_refuted",
    "C13_check_meaning_partial",
    "C13_check_sound_on_long_strings_partial"
   ],
   "note": "Refuted (\"\\xE2\"). The exact meaning of the result is proved for every byte string; sound and complete on strings of at least six octets."
  },
  {
   "property": "C14",
   "status": "proved",
   "theorems": [
    "C14_enforce_agrees_with_check"
   ],
   "note": ""
  },
  {
   "property": "C15",
   "status": "proved",
   "theorems": [
    "C15_enforce_effect"
   ],
   "note": ""
  },
  {
   "property": "C16",
   "status": "partial",
   "theorems": [
    "C16_enforced_text_passes_check_refuted",
    "C16_enforced_text_passes_check_iff_partial",
    "C16_enforced_text_passes_check_partial"
   ],
   "note": "Refuted (\"\\x81\\xC3\"). Exact condition proved."
  },
  {
   "property": "C17",
   "status": "partial",
   "theorems": [
    "C17_bounds_functions_are_local_refuted",
    "C17_check_is_local_partial",
    "C17_enforce_is_local_partial",
    "C17_check_of_a_range_partial",
    "C17_check_of_an_empty_range_partial",
    "C17_enforce_is_local_iff_partial",
    "C17_enforce_returns_partial"
   ],
   "note": "Refuted (octet at end is read and may be written). Exact: check of a non-empty range is check of its octets alone together with 'the octet at end is below 0xC0'; enforce changes an octet outside the range exactly if (the octet at end is >= 0xC0 and the range has a non-continuation) or (range and the octet at end are all continuations); it always returns if some octet from begin to end inclusive is no continuation. So local whenever the octet at end is ASCII, as for std::string."
  },
  {
   "property": "C18",
   "status": "partial",
   "theorems": [
    "C18_enforced_text_can_be_iterated_refuted",
    "C18_enforced_text_can_be_iterated_iff_partial",
    "C18_enforced_text_is_safe_partial"
   ],
   "note": "Refuted (\"a\\xE2\\x82\"). Memory safety after enforce is proved for every string; termination exactly when no visited octet is stray."
  },
  {
   "property": "C19",
   "status": "partial",
   "theorems": [
    "C19_append_encodes_refuted",
    "C19_append_encodes_partial",
    "C19_encoding_correct_iff_partial",
    "C19_text_encoded_correctly_iff_partial"
   ],
   "note": "Refuted (U+0900). Proved correct exactly on 1-7FF, 2000-FFFF, 80000-10FFFF."
  },
  {
   "property": "C20",
   "status": "partial",
   "theorems": [
    "C20_encoding_memory_safe_refuted",
    "C20_encoding_defined_iff_partial",
    "C20_text_encoding_defined_iff_partial",
    "C20_any_int_defined_iff_partial",
    "C20_any_ints_defined_iff_partial"
   ],
   "note": "Refuted (U+1F600 overruns the buffer, U+0000 is clz(0)). Exact set of defined values proved, for codepoints and for every value of type int (every negative one overruns)."
  },
  {
   "property": "C21",
   "status": "proved",
   "theorems": [
    "C21_round_trip",
    "C21_each_codepoint_read_back_iff",
    "C21_text_read_back_iff"
   ],
   "note": "Stated for the ranges on which the encoder is correct (C19). Also proved: whatever was written, the loop reads back exactly as many codepoints as were written, each unchanged exactly when it is in these ranges."
  },
  {
   "property": "C22",
   "status": "partial",
   "theorems": [
    "C22_writing_text_refuted",
    "C22_writing_text_partial",
    "C22_writing_text_iff_partial"
   ],
   "note": "Refuted for wrongly encoded codepoints; exact condition C22_writing_text_iff_partial. The room must hold ASCII octets (operator++ after the assignment re-reads the lead octet, the assignment starts by rewinding on continuation octets)."
  },
  {
   "property": "C23",
   "status": "partial",
   "theorems": [
    "C23_read_back_refuted",
    "C23_read_back_partial",
    "C23_read_back_iff_partial"
   ],
   "note": "As C22. Exact: into fresh room the assignment is always defined (except for U+0000) and reads back exactly on the ranges of C19; over other octets a misspelt codepoint can read back by accident."
  },
  {
   "property": "C24",
   "status": "partial",
   "theorems": [
    "C24_assigning_twice_refuted",
    "C24_assigning_twice_ascii_partial",
    "C24_assigning_twice_fails_partial"
   ],
   "note": "Refuted: after a multi-octet assignment the iterator is at the last octet, and the second assignment writes there (C24_assigning_twice_fails_partial: it always goes wrong then). Proved when the first codepoint is ASCII."
  },
  {
   "property": "C25",
   "status": "proved",
   "theorems": [
    "C25_append_whole_codepoints",
    "C25_append_truncates"
   ],
   "note": ""
  },
  {
   "property": "C26",
   "status": "partial",
   "theorems": [
    "C26_append_graphemes_utf8_refuted",
    "C26_append_graphemes_utf8_partial"
   ],
   "note": "Refuted: codepoints are truncated to char. Proved for the part that holds."
  },
  {
   "property": "C27",
   "status": "proved",
   "theorems": [
    "C27_append_graphemes_utf32"
   ],
   "note": ""
  },
  {
   "property": "C28",
   "status": "proved",
   "theorems": [
    "C28_grapheme_cluster_break_lookup",
    "C28_lookup_total"
   ],
   "note": ""
  },
  {
   "property": "C29",
   "status": "proved",
   "theorems": [
    "C29_combining_class_lookup",
    "C29_lookup_total"
   ],
   "note": ""
  },
  {
   "property": "C30",
   "status": "proved",
   "theorems": [
    "C30_canonical_decomposition_lookup",
    "C30_expansion_unique"
   ],
   "note": ""
  },
  {
   "property": "C31",
   "status": "partial",
   "theorems": [
    "C31_canonical_decomposition_standard_refuted",
    "C31_canonical_decomposition_standard_iff_partial"
   ],
   "note": "Refuted for the 11172 Hangul syllables; equal to the standard exactly for the other codepoints."
  },
  {
   "property": "C32",
   "status": "proved",
   "theorems": [
    "C32_compatibility_decomposition_lookup",
    "C32_expands_the_canonical_one",
    "C32_expansion_unique"
   ],
   "note": ""
  },
  {
   "property": "C33",
   "status": "partial",
   "theorems": [
    "C33_compatibility_decomposition_standard_refuted",
    "C33_compatibility_decomposition_standard_iff_partial"
   ],
   "note": "Refuted (U+00B2): mappings with a formatting tag other than <compat> are dropped; exact set of codepoints proved."
  },
  {
   "property": "C34",
   "status": "proved",
   "theorems": [
    "C34_composition_lookup",
    "C34_lookup_false_otherwise",
    "C34_composite_unique"
   ],
   "note": ""
  },
  {
   "property": "C35",
   "status": "proved",
   "theorems": [
    "C35_composing_keeps_the_decomposition",
    "C35_composition_inverse"
   ],
   "note": ""
  },
  {
   "property": "C36",
   "status": "proved",
   "theorems": [
    "C36_strict_weak_order"
   ],
   "note": ""
  },
  {
   "property": "C37",
   "status": "proved",
   "theorems": [
    "C37_boundary_rule",
    "C37_boundary_rule_defined"
   ],
   "note": ""
  },
  {
   "property": "C38",
   "status": "partial",
   "theorems": [
    "C38_follows_uax29_refuted",
    "C38_follows_uax29_modifier_refuted",
    "C38_follows_uax29_partial",
    "C38_follows_uax29_plain_partial"
   ],
   "note": "Refuted (three regional indicators; Extend before E_Modifier without an emoji base). Exact: holds exactly for the texts without these two situations; in particular for all texts without U+1F1E6-1F1FF and U+1F3FB-1F3FF."
  },
  {
   "property": "C39",
   "status": "proved",
   "theorems": [
    "C39_graphemes_partition_the_text",
    "C39_partition_is_unique"
   ],
   "note": ""
  },
  {
   "property": "C40",
   "status": "proved",
   "theorems": [
    "C40_same_graphemes_in_both_encodings"
   ],
   "note": ""
  },
  {
   "property": "C41",
   "status": "partial",
   "theorems": [
    "C41_iterator_at_a_position_refuted",
    "C41_iterator_at_a_position_partial",
    "C41_iterator_at_a_boundary"
   ],
   "note": "Refuted: the search for the start of the grapheme tests the pairs reversed. Proved under the condition that the reversed test agrees."
  },
  {
   "property": "C42",
   "status": "partial",
   "theorems": [
    "C42_end_of_a_view_refuted",
    "C42_end_of_a_view_partial",
    "C42_loop_over_a_view_partial",
    "C42_exact_size_view_refuted",
    "C42_end_of_a_string"
   ],
   "note": "Refuted for views (the grapheme after the view is inspected). Proved when the view ends at a grapheme boundary, and for std::string."
  },
  {
   "property": "C43",
   "status": "proved",
   "theorems": [
    "C43_iterator_equality",
    "C43_equality_with_the_end",
    "C43_equality_with_a_codepoint_iterator"
   ],
   "note": ""
  },
  {
   "property": "C44",
   "status": "proved",
   "theorems": [
    "C44_filter"
   ],
   "note": ""
  },
  {
   "property": "C45",
   "status": "proved",
   "theorems": [
    "C45_decomposition_filter",
    "C45_decomposition_exists"
   ],
   "note": ""
  },
  {
   "property": "C46",
   "status": "proved",
   "theorems": [
    "C46_composition_in_place",
    "C46_greedy_composition_is_unique"
   ],
   "note": ""
  },
  {
   "property": "C47",
   "status": "proved",
   "theorems": [
    "C47_form_d_contents",
    "C47_form_kd_contents",
    "C47_an_allowed_sort_exists"
   ],
   "note": ""
  },
  {
   "property": "C48",
   "status": "proved",
   "theorems": [
    "C48_form_c_contents",
    "C48_form_kc_contents"
   ],
   "note": ""
  },
  {
   "property": "C49",
   "status": "partial",
   "theorems": [
    "C49_form_d_is_nfd_refuted",
    "C49_form_d_is_nfd_iff_partial"
   ],
   "note": "Refuted (Hangul; starters after marks within a grapheme). Exact condition proved."
  },
  {
   "property": "C50",
   "status": "partial",
   "theorems": [
    "C50_form_c_is_nfc_refuted",
    "C50_form_c_is_nfc_iff_partial"
   ],
   "note": "Refuted. Exact condition proved."
  },
  {
   "property": "C51",
   "status": "partial",
   "theorems": [
    "C51_idempotent_refuted",
    "C51_idempotent_iff_partial"
   ],
   "note": "Refuted ([61,316,200D,1F3FB]). Exact condition proved, for a sort that keeps the order of equal classes."
  },
  {
   "property": "C52",
   "status": "partial",
   "theorems": [
    "C52_utf8_is_encoded_utf32_partial",
    "C52_utf8_agrees_iff_partial",
    "C52_utf8_agrees_refuted"
   ],
   "note": "Refuted because of C19. Proved: the UTF-8 output is append_from_utf32ne of the UTF-32 output, so they agree exactly when its codepoints are encoded correctly."
  },
  {
   "property": "C53",
   "status": "partial",
   "theorems": [
    "C53_order_of_equal_classes_refuted",
    "C53_order_of_equal_classes_partial",
    "C53_ties_kept_partial"
   ],
   "note": "Refuted: std::sort is not stable. Proved for sorts keeping ties; see C59 for libstdc++."
  },
  {
   "property": "C54",
   "status": "partial",
   "theorems": [
    "C54_same_form_iff_canonically_equivalent_partial",
    "C54_equivalent_texts_form_c_partial",
    "C54_equivalent_texts_refuted",
    "C54_equivalent_texts_partial"
   ],
   "note": "Refuted (AC00 vs 1100 1161). Proved for texts to which C49 (for form C: C50) applies. For two such texts: same form if and only if canonically equivalent (C54_same_form_iff_canonically_equivalent_partial)."
  },
  {
   "property": "C55",
   "status": "partial",
   "theorems": [
    "C55_form_kd_is_nfkd_refuted",
    "C55_form_kd_is_nfkd_iff_partial"
   ],
   "note": "Refuted. Exact condition proved."
  },
  {
   "property": "C56",
   "status": "partial",
   "theorems": [
    "C56_form_kc_is_nfkc_refuted",
    "C56_form_kc_is_nfkc_iff_partial"
   ],
   "note": "Refuted. Exact condition proved."
  },
  {
   "property": "C57",
   "status": "partial",
   "theorems": [
    "C57_equivalent_to_the_input_refuted",
    "C57_equivalent_to_the_input_iff_partial"
   ],
   "note": "Refuted. Exact condition proved."
  },
  {
   "property": "C58",
   "status": "proved",
   "theorems": [
    "C58_sort_contract",
    "C58_an_allowed_sort"
   ],
   "note": "libstdc++ 13 bits/stl_algo.h and bits/stl_heap.h as installed in the sandbox; the C++ standard's contract is what the other theorems use."
  },
  {
   "property": "C59",
   "status": "proved",
   "theorems": [
    "C59_short_strings",
    "C59_short_graphemes",
    "C59_form_d_is_nfd_for_short_graphemes",
    "C59_seventeen_codepoints_reordered"
   ],
   "note": "Specific to libstdc++ 13."
  },
  {
   "property": "C60",
   "status": "proved",
   "theorems": [
    "C60_graphemes_of_a_concatenation"
   ],
   "note": ""
  },
  {
   "property": "C61",
   "status": "proved",
   "theorems": [
    "C61_normalizing_in_parts",
    "C61_boundary_is_needed"
   ],
   "note": ""
  },
  {
   "property": "C62",
   "status": "proved",
   "theorems": [
    "C62_output_size",
    "C62_compared_sizes"
   ],
   "note": ""
  },
  {
   "property": "C63",
   "status": "proved",
   "theorems": [
    "C63_output_is_ordered",
    "C63_output_is_decomposed"
   ],
   "note": ""
  },
  {
   "property": "C64",
   "status": "proved",
   "theorems": [
    "C64_same_form_c_iff_same_form_d"
   ],
   "note": ""
  },
  {
   "property": "C65",
   "status": "proved",
   "theorems": [
    "C65_form_d_changes_nothing_iff",
    "C65_form_c_changes_nothing_iff",
    "C65_latin_text_is_unchanged_by_form_c",
    "C65_ascii_text_is_unchanged"
   ],
   "note": ""
  },
  {
   "property": "C66",
   "status": "partial",
   "theorems": [
    "C66_truncate_on_grapheme_refuted",
    "C66_truncate_on_grapheme_utf8_partial",
    "C66_truncate_on_grapheme_utf32_partial"
   ],
   "note": "Refuted because of C41. Proved when the reversed test agrees at the position, also inside a codepoint."
  },
  {
   "property": "C67",
   "status": "proved",
   "theorems": [
    "C67_iteration_of_complete_sequences",
    "C67_shortest_forms",
    "C67_overlong_forms"
   ],
   "note": ""
  },
  {
   "property": "C68",
   "status": "proved",
   "theorems": [
    "C68_replacing_in_place"
   ],
   "note": ""
  },
  {
   "property": "C69",
   "status": "partial",
   "theorems": [
    "C69_grapheme_loop_memory_safe_refuted",
    "C69_grapheme_end_defined_iff_partial",
    "C69_grapheme_loop_memory_safe_partial",
    "C69_normalization_memory_safe_partial",
    "C69_checked_text_is_readable_partial"
   ],
   "note": "Exact: grapheme_end() of a string reads past the NUL iff its last lead octet announces two or more octets too many (C69_grapheme_end_defined_iff_partial); otherwise the grapheme loop has no undefined behaviour and normalization none but overflow of the count. The property as stated is false (\"\\xE2\", which passes check())."
  },
  {
   "property": "C70",
   "status": "partial",
   "theorems": [
    "C70_codepoints_of_a_cut_text",
    "C70_graphemes_of_a_cut_text_refuted",
    "C70_graphemes_of_a_cut_text_partial",
    "C70_normalization_of_a_cut_text_partial"
   ],
   "note": "Codepoint loops: proved in full. Graphemes and normalization: exactly when one octet is missing; with two or more missing grapheme_end() reads out of bounds (refuted)."
  },
  {
   "property": "C71",
   "status": "proved",
   "theorems": [
    "C71_iterator_stands_on_its_grapheme",
    "C71_postfix_increment"
   ],
   "note": ""
  },
  {
   "property": "C72",
   "status": "proved",
   "theorems": [
    "C72_class_table"
   ],
   "note": ""
  },
  {
   "property": "C73",
   "status": "proved",
   "theorems": [
    "C73_canonical_table",
    "C73_compatibility_table",
    "C73_runs_forever",
    "C73_cycle_runs_forever"
   ],
   "note": ""
  },
  {
   "property": "C74",
   "status": "partial",
   "theorems": [
    "C74_composition_table_refuted",
    "C74_composition_table_partial",
    "C74_composition_table_iff_partial"
   ],
   "note": "False as stated: a line of CompositionExclusions.txt with exactly one space before its comment is ignored (the key keeps the space). Proved: the table is the one of the file without such lines, and it is right iff each composite they exclude is also excluded by another line (C74_composition_table_iff_partial)."
  },
  {
   "property": "C75",
   "status": "partial",
   "theorems": [
    "C75_break_table_refuted",
    "C75_break_table_partial",
    "C75_break_table_iff_partial"
   ],
   "note": "False as stated: a value without a comment after it loses its last letter (LVT is read as LV). Proved: the generator succeeds with the right table if and only if each value is followed by a space and a comment, as in the UCD file (C75_break_table_iff_partial)."
  },
  {
   "property": "C76",
   "status": "proved",
   "theorems": [
    "C76_reproducible",
    "C76_tables_in_the_repository"
   ],
   "note": ""
  },
  {
   "property": "C77",
   "status": "proved",
   "theorems": [
    "C77_forward_loop_values"
   ],
   "note": ""
  },
  {
   "property": "C78",
   "status": "partial",
   "theorems": [
    "C78_checked_backward_loop_is_safe_refuted",
    "C78_backward_loop_result_partial",
    "C78_checked_backward_loop_is_safe_partial"
   ],
   "note": "Refuted (\"\\xE2\" passes check). Exact result on every string proved; safe on checked strings of six octets or more."
  },
  {
   "property": "C79",
   "status": "proved",
   "theorems": [
    "C79_iterator_operations_on_any_octets",
    "C79_operations_stay_inside_iff",
    "C79_check_means_increments_stay_inside"
   ],
   "note": "Proved in full; note that at a continuation octet after an ASCII octet only the low six bits of the ASCII octet are delivered (\"A\\x81\" at 1 gives U+0001)."
  },
  {
   "property": "C80",
   "status": "proved",
   "theorems": [
    "C80_check_of_a_view",
    "C80_enforce_of_a_view",
    "C80_enforce_runs_away"
   ],
   "note": ""
  },
  {
   "property": "C81",
   "status": "proved",
   "theorems": [
    "C81_enforce_settles"
   ],
   "note": ""
  },
  {
   "property": "C82",
   "status": "proved",
   "theorems": [
    "C82_append_of_any_octets",
    "C82_truncation_of_any_octets"
   ],
   "note": ""
  },
  {
   "property": "C83",
   "status": "proved",
   "theorems": [
    "C83_normalizing_some_graphemes"
   ],
   "note": ""
  },
  {
   "property": "C84",
   "status": "partial",
   "theorems": [
    "C84_view_normalized_as_a_text_refuted",
    "C84_normalizing_a_view_partial"
   ],
   "note": "Refuted (view \"e\" of \"e\" U+0301 gives nothing, because of C42). Proved: a number of leading graphemes is normalized, as a text of their own; all of them exactly if the view ends at a grapheme boundary."
  },
  {
   "property": "C85",
   "status": "partial",
   "theorems": [
    "C85_second_form_refuted",
    "C85_second_form_iff_partial",
    "C85_compatibility_form_later_partial"
   ],
   "note": "Refuted (the text of C51). Proved: for twelve pairs it holds exactly when no grapheme of the first output has a starter after a mark in its decomposition; for the four pairs with a compatibility form second, the same where the text itself has no such grapheme."
  },
  {
   "property": "C86",
   "status": "partial",
   "theorems": [
    "C86_long_grapheme_refuted",
    "C86_nothing_left_to_compose_partial"
   ],
   "note": "Refuted for graphemes of more than 16 codepoints (std::sort is not stable: U+09C7 U+09BE left side by side). Proved where the sort keeps the order of equal classes (C59: up to 16 codepoints)."
  },
  {
   "property": "C87",
   "status": "proved",
   "theorems": [
    "C87_form_c_at_most_three_times"
   ],
   "note": "As its quantifier says: for sorts keeping the order of equal classes (C59: up to 16 codepoints)."
  },
  {
   "property": "C88",
   "status": "proved",
   "theorems": [
    "C88_operations_without_lead_octet",
    "C88_operations_with_lead_octet",
    "C88_dereferencing",
    "C88_values_up_to_FD",
    "C88_one_of_the_two"
   ],
   "note": ""
  },
  {
   "property": "C89",
   "status": "proved",
   "theorems": [
    "C89_forward_loop_over_any_range",
    "C89_forward_loop_depends_on"
   ],
   "note": ""
  },
  {
   "property": "C90",
   "status": "proved",
   "theorems": [
    "C90_backward_loop_over_any_range",
    "C90_backward_loop_to_a_lead_octet"
   ],
   "note": ""
  },
  {
   "property": "C91",
   "status": "proved",
   "theorems": [
    "C91_append_from_any_memory"
   ],
   "note": ""
  },
  {
   "property": "C92",
   "status": "proved",
   "theorems": [
    "C92_distance",
    "C92_length",
    "C92_advance"
   ],
   "note": ""
  },
  {
   "property": "C93",
   "status": "proved",
   "theorems": [
    "C93_find",
    "C93_first_with_unique",
    "C93_count"
   ],
   "note": ""
  },
  {
   "property": "C94",
   "status": "proved",
   "theorems": [
    "C94_equal",
    "C94_less",
    "C94_octets"
   ],
   "note": ""
  },
  {
   "property": "C95",
   "status": "proved",
   "theorems": [
    "C95_search",
    "C95_octets"
   ],
   "note": ""
  },
  {
   "property": "C96",
   "status": "proved",
   "theorems": [
    "C96_reverse_copy"
   ],
   "note": ""
  },
  {
   "property": "C97",
   "status": "proved",
   "theorems": [
    "C97_same_form_iff_equivalent",
    "C97_equivalent_texts_same_form_iff",
    "C97_equivalent_without_hangul"
   ],
   "note": ""
  },
  {
   "property": "C98",
   "status": "partial",
   "theorems": [
    "C98_graphemes_of_the_codepoints_refuted",
    "C98_graphemes_of_octets_partial",
    "C98_graphemes_of_the_codepoints_partial",
    "C98_grapheme_loop_never_ends_partial"
   ],
   "note": "False as stated: the last codepoint of a grapheme is lost when the next codepoint starts among the octets it announces. Exact result and exact condition for never ending proved."
  },
  {
   "property": "C99",
   "status": "proved",
   "theorems": [
    "C99_normalization_grapheme_by_grapheme",
    "C99_same_graphemes_same_form",
    "C99_normalization_of_octets"
   ],
   "note": ""
  },
  {
   "property": "C100",
   "status": "proved",
   "theorems": [
    "C100_simple_iteration",
    "C100_output_tells_the_arguments",
    "C100_any_octets",
    "C100_never_ends_otherwise",
    "C100_first_other_argument"
   ],
   "note": "printf's effect is modelled as the octets it writes."
  },
  {
   "property": "C101",
   "status": "proved",
   "theorems": [
    "C101_grapheme_iteration",
    "C101_output_tells_the_graphemes"
   ],
   "note": ""
  },
  {
   "property": "C102",
   "status": "partial",
   "theorems": [
    "C102_utf32_programs",
    "C102_utf8_programs_iff_partial",
    "C102_utf8_programs_refuted"
   ],
   "note": "False as stated for the UTF-8 programs (normalization_form_c of U+1E69 prints U+1a40000); exact condition proved. The UTF-32 programs do what is claimed."
  },
  {
   "property": "C103",
   "status": "partial",
   "theorems": [
    "C103_smallest_code",
    "C103_truncate_on_codepoint",
    "C103_truncate_on_grapheme_partial",
    "C103_truncate_on_grapheme_ascii_partial",
    "C103_truncate_on_grapheme_refuted"
   ],
   "note": "smallest_code and truncate_on_codepoint as claimed; truncate_on_grapheme false in general (prints the low 8 bits of codepoints, C26, and finds graphemes with the reversed rule, C41); exact result proved."
  },
  {
   "property": "C104",
   "status": "proved",
   "theorems": [
    "C104_histories_on_a_string",
    "C104_histories_on_a_view",
    "C104_encodings_cannot_be_told_apart"
   ],
   "note": ""
  },
  {
   "property": "C105",
   "status": "proved",
   "theorems": [
    "C105_histories_of_strings",
    "C105_histories_from_any_texts"
   ],
   "note": ""
  },
  {
   "property": "C106",
   "status": "proved",
   "theorems": [
    "C106_marks_last_locally",
    "C106_form_d_is_nfd_iff",
    "C106_form_kd_is_nfkd_iff",
    "C106_form_c_is_nfc_iff",
    "C106_form_kc_is_nfkc_iff",
    "C106_equivalent_iff",
    "C106_idempotent_iff",
    "C106_nfd_text_changed"
   ],
   "note": ""
  },
  {
   "property": "C107",
   "status": "proved",
   "theorems": [
    "C107_threads_on_strings",
    "C107_any_other_schedule",
    "C107_texts_in_every_schedule",
    "C107_threads_on_iterators",
    "C107_observations_in_every_schedule"
   ],
   "note": ""
  },
  {
   "property": "C108",
   "status": "proved",
   "theorems": [
    "C108_class_header",
    "C108_canonical_header",
    "C108_compatibility_header",
    "C108_composition_header",
    "C108_break_header",
    "C108_headers_in_the_repository"
   ],
   "note": ""
  },
  {
   "property": "C109",
   "status": "proved",
   "theorems": [
    "C109_single_marks_canonical",
    "C109_single_marks_compatibility",
    "C109_two_marks"
   ],
   "note": ""
  },
  {
   "property": "C110",
   "status": "proved",
   "theorems": [
    "C110_form_c_below_300",
    "C110_form_d_below_C0",
    "C110_compatibility_forms_below_A0",
    "C110_bounds"
   ],
   "note": ""
  },
  {
   "property": "C111",
   "status": "proved",
   "theorems": [
    "C111_graphemes_kept",
    "C111_as_many_graphemes",
    "C111_second_form",
    "C111_idempotent",
    "C111_condition_needed",
    "C111_compatibility_forms"
   ],
   "note": ""
  },
  {
   "property": "C112",
   "status": "proved",
   "theorems": [
    "C112_equivalent_graphemes",
    "C112_equivalent_iff",
    "C112_condition_is_shared",
    "C112_condition_needed"
   ],
   "note": ""
  },
  {
   "property": "C113",
   "status": "proved",
   "theorems": [
    "C113_utf32_exactly",
    "C113_utf32_whole_graphemes",
    "C113_utf32_every_point",
    "C113_utf8_exactly",
    "C113_utf8_whole_codepoints",
    "C113_filter_throws_iff",
    "C113_append_from_utf32ne"
   ],
   "note": ""
  },
  {
   "property": "C114",
   "status": "proved",
   "theorems": [
    "C114_counts_are_of_the_model",
    "C114_normalization_count",
    "C114_normalization_is_linear",
    "C114_normalization_to_utf32_is_linear",
    "C114_grapheme_loop_count",
    "C114_comparison_is_quadratic"
   ],
   "note": ""
  },
  {
   "property": "C115",
   "status": "proved",
   "theorems": [
    "C115_read_back",
    "C115_graphemes_kept",
    "C115_idempotent",
    "C115_same_octets_iff_equivalent"
   ],
   "note": ""
  },
  {
   "property": "C116",
   "status": "proved",
   "theorems": [
    "C116_counts_are_of_the_model",
    "C116_operations",
    "C116_malformed_octets_unbounded",
    "C116_check_reads_at_most_seven",
    "C116_forward_loop",
    "C116_backward_loop",
    "C116_normalization_is_linear",
    "C116_grapheme_loop_is_linear"
   ],
   "note": ""
  },
  {
   "property": "C117",
   "status": "proved",
   "theorems": [
    "C117_a_lookup_is_logarithmic",
    "C117_combining_class",
    "C117_canonical_decomposition",
    "C117_compatibility_decomposition",
    "C117_composition",
    "C117_grapheme_break",
    "C117_sorting"
   ],
   "note": ""
  },
  {
   "property": "C118",
   "status": "proved",
   "theorems": [
    "C118_counts_are_of_the_model",
    "C118_work",
    "C118_n_log_n",
    "C118_linear_for_short_graphemes",
    "C118_to_utf32"
   ],
   "note": ""
  },
  {
   "property": "C119",
   "status": "partial",
   "theorems": [
    "C119_steps",
    "C119_distance",
    "C119_loop_over_bases",
    "C119_utf32_loops",
    "C119_utf32_find_last",
    "C119_utf32_palindrome",
    "C119_utf32_search_last",
    "C119_utf32_count_and_copy",
    "C119_utf32_write",
    "C119_utf8_dereference_refuted",
    "C119_utf8_empty"
   ],
   "note": "Refuted for *r on UTF-8 strings: std::reverse_iterator returns a reference to a dead temporary (reading through base() is proved). Steps, comparisons, distance: both encodings. Loops, algorithms and stores: utf32ne, in full."
  },
  {
   "property": "C120",
   "status": "proved",
   "theorems": [
    "C120_octets",
    "C120_iterators",
    "C120_writing",
    "C120_writing_octets",
    "C120_bounds",
    "C120_texts",
    "C120_grapheme_iterators",
    "C120_normalization"
   ],
   "note": ""
  },
  {
   "property": "C121",
   "status": "proved",
   "theorems": [
    "C121_tables_meet_the_contract",
    "C121_lookups",
    "C121_glibc",
    "C121_musl",
    "C121_scan"
   ],
   "note": ""
  },
  {
   "property": "C122",
   "status": "proved",
   "theorems": [
    "C122_every_text_has_lines",
    "C122_normalized_line_by_line",
    "C122_as_many_lines",
    "C122_gnu_sort",
    "C122_condition_needed",
    "C122_no_grapheme_crosses",
    "C122_graphemes_line_by_line"
   ],
   "note": ""
  },
  {
   "property": "C123",
   "status": "proved",
   "theorems": [
    "C123_only_the_last_grapheme_may_change",
    "C123_codepoints_in_pieces",
    "C123_octets_in_pieces",
    "C123_check_behind_a_marker",
    "C123_check_alone_loses_text"
   ],
   "note": "With an ASCII character in front of the octets for check; check on the octets alone loses text (C123_check_alone_loses_text; the first octet is not examined as a lead, C13)."
  },
  {
   "property": "C124",
   "status": "proved",
   "theorems": [
    "C124_search_with_hangul",
    "C124_search_finds_equivalent_runs",
    "C124_boundaries_needed"
   ],
   "note": "For occurrences that begin and end between graphemes (needed: C124_boundaries_needed)."
  },
  {
   "property": "C125",
   "status": "proved",
   "theorems": [
    "C125_octets_of_the_form",
    "C125_utf8_string",
    "C125_composed_is_not_longer",
    "C125_factors_needed"
   ],
   "note": ""
  },
  {
   "property": "C126",
   "status": "proved",
   "theorems": [
    "C126_mismatch",
    "C126_common_beginning_unique",
    "C126_octets",
    "C126_adjacent_find",
    "C126_first_repeated_unique",
    "C126_copy_if",
    "C126_copy",
    "C126_unique_copy",
    "C126_without_repetitions_unique"
   ],
   "note": ""
  },
  {
   "property": "C127",
   "status": "proved",
   "theorems": [
    "C127_count",
    "C127_canonical_sources",
    "C127_safe_symbols",
    "C127_quotes_are_kept",
    "C127_field_by_field",
    "C127_conditions_needed",
    "C127_octets",
    "C127_quote_octets_are_kept",
    "C127_nul_octets_appear"
   ],
   "note": ""
  },
  {
   "property": "C128",
   "status": "proved",
   "theorems": [
    "C128_compare",
    "C128_compare_texts",
    "C128_less_agrees",
    "C128_find_octets",
    "C128_rfind_octets",
    "C128_find",
    "C128_rfind",
    "C128_find_agrees",
    "C128_conditions_needed",
    "C128_compare_part",
    "C128_starts_with",
    "C128_ends_with"
   ],
   "note": ""
  },
  {
   "property": "C129",
   "status": "proved",
   "theorems": [
    "C129_edit",
    "C129_edit_with_iterators",
    "C129_edit_with_grapheme_iterators",
    "C129_replaced_is_unique",
    "C129_replace_all",
    "C129_positions_needed"
   ],
   "note": ""
  },
  {
   "property": "C130",
   "status": "proved",
   "theorems": [
    "C130_split",
    "C130_split_and_join",
    "C130_split_after_normalization",
    "C130_condition_needed"
   ],
   "note": ""
  }
 ]
}