{
 "C06": "operator== is symmetric exactly on complete texts (C06_equality_symmetric_iff_partial).",
 "C08": "Refuted: \"A\\x81\" passes check and hangs. Exact termination condition: C09 and C08_*_partial.",
 "C10": "Refuted for every text (also the empty one): operator== always reads the octet at end. With one readable octet after the view the loop is correct exactly if that octet is not a continuation octet; otherwise it never ends (partial theorems).",
 "C13": "Refuted (\"\\xE2\"). The exact meaning of the result is proved for every byte string; sound and complete on strings of at least six octets.",
 "C16": "Refuted (\"\\x81\\xC3\"). Exact condition proved.",
 "C17": "Refuted (octet at end is read and may be written). Exact: check of a non-empty range is check of its octets alone together with 'the octet at end is below 0xC0'; enforce changes an octet outside the range exactly if (the octet at end is >= 0xC0 and the range has a non-continuation) or (range and the octet at end are all continuations); it always returns if some octet from begin to end inclusive is no continuation. So local whenever the octet at end is ASCII, as for std::string.",
 "C18": "Refuted (\"a\\xE2\\x82\"). Memory safety after enforce is proved for every string; termination exactly when no visited octet is stray.",
 "C19": "Refuted (U+0900). Proved correct exactly on 1-7FF, 2000-FFFF, 80000-10FFFF.",
 "C20": "Refuted (U+1F600 overruns the buffer, U+0000 is clz(0)). Exact set of defined values proved, for codepoints and for every value of type int (every negative one overruns).",
 "C21": "Stated for the ranges on which the encoder is correct (C19). Also proved: whatever was written, the loop reads back exactly as many codepoints as were written, each unchanged exactly when it is in these ranges.",
 "C22": "Refuted for wrongly encoded codepoints; exact condition C22_writing_text_iff_partial. The room must hold ASCII octets (operator++ after the assignment re-reads the lead octet, the assignment starts by rewinding on continuation octets).",
 "C23": "As C22. Exact: into fresh room the assignment is always defined (except for U+0000) and reads back exactly on the ranges of C19; over other octets a misspelt codepoint can read back by accident.",
 "C24": "Refuted: after a multi-octet assignment the iterator is at the last octet, and the second assignment writes there (C24_assigning_twice_fails_partial: it always goes wrong then). Proved when the first codepoint is ASCII.",
 "C26": "Refuted: codepoints are truncated to char. Proved for the part that holds.",
 "C31": "Refuted for the 11172 Hangul syllables; equal to the standard exactly for the other codepoints.",
 "C33": "Refuted (U+00B2): mappings with a formatting tag other than <compat> are dropped; exact set of codepoints proved.",
 "C38": "Refuted (three regional indicators; Extend before E_Modifier without an emoji base). Exact: holds exactly for the texts without these two situations; in particular for all texts without U+1F1E6-1F1FF and U+1F3FB-1F3FF.",
 "C41": "Refuted: the search for the start of the grapheme tests the pairs reversed. Proved under the condition that the reversed test agrees.",
 "C42": "Refuted for views (the grapheme after the view is inspected). Proved when the view ends at a grapheme boundary, and for std::string.",
 "C49": "Refuted (Hangul; starters after marks within a grapheme). Exact condition proved.",
 "C50": "Refuted. Exact condition proved.",
 "C51": "Refuted ([61,316,200D,1F3FB]). Exact condition proved, for a sort that keeps the order of equal classes.",
 "C52": "Refuted because of C19. Proved: the UTF-8 output is append_from_utf32ne of the UTF-32 output, so they agree exactly when its codepoints are encoded correctly.",
 "C53": "Refuted: std::sort is not stable. Proved for sorts keeping ties; see C59 for libstdc++.",
 "C54": "Refuted (AC00 vs 1100 1161). Proved for texts to which C49 (for form C: C50) applies. For two such texts: same form if and only if canonically equivalent (C54_same_form_iff_canonically_equivalent_partial).",
 "C55": "Refuted. Exact condition proved.",
 "C56": "Refuted. Exact condition proved.",
 "C57": "Refuted. Exact condition proved.",
 "C58": "libstdc++ 13 bits/stl_algo.h and bits/stl_heap.h as installed in the sandbox; the C++ standard's contract is what the other theorems use.",
 "C59": "Specific to libstdc++ 13.",
 "C66": "Refuted because of C41. Proved when the reversed test agrees at the position, also inside a codepoint.",
 "C69": "Exact: grapheme_end() of a string reads past the NUL iff its last lead octet announces two or more octets too many (C69_grapheme_end_defined_iff_partial); otherwise the grapheme loop has no undefined behaviour and normalization none but overflow of the count. The property as stated is false (\"\\xE2\", which passes check()).",
 "C70": "Codepoint loops: proved in full. Graphemes and normalization: exactly when one octet is missing; with two or more missing grapheme_end() reads out of bounds (refuted).",
 "C74": "False as stated: a line of CompositionExclusions.txt with exactly one space before its comment is ignored (the key keeps the space). Proved: the table is the one of the file without such lines, and it is right iff each composite they exclude is also excluded by another line (C74_composition_table_iff_partial).",
 "C75": "False as stated: a value without a comment after it loses its last letter (LVT is read as LV). Proved: the generator succeeds with the right table if and only if each value is followed by a space and a comment, as in the UCD file (C75_break_table_iff_partial).",
 "C78": "Refuted (\"\\xE2\" passes check). Exact result on every string proved; safe on checked strings of six octets or more.",
 "C79": "Proved in full; note that at a continuation octet after an ASCII octet only the low six bits of the ASCII octet are delivered (\"A\\x81\" at 1 gives U+0001).",
 "C84": "Refuted (view \"e\" of \"e\" U+0301 gives nothing, because of C42). Proved: a number of leading graphemes is normalized, as a text of their own; all of them exactly if the view ends at a grapheme boundary.",
 "C85": "Refuted (the text of C51). Proved: for twelve pairs it holds exactly when no grapheme of the first output has a starter after a mark in its decomposition; for the four pairs with a compatibility form second, the same where the text itself has no such grapheme.",
 "C86": "Refuted for graphemes of more than 16 codepoints (std::sort is not stable: U+09C7 U+09BE left side by side). Proved where the sort keeps the order of equal classes (C59: up to 16 codepoints).",
 "C87": "As its quantifier says: for sorts keeping the order of equal classes (C59: up to 16 codepoints).",
 "C98": "False as stated: the last codepoint of a grapheme is lost when the next codepoint starts among the octets it announces. Exact result and exact condition for never ending proved.",
 "C100": "printf's effect is modelled as the octets it writes.",
 "C102": "False as stated for the UTF-8 programs (normalization_form_c of U+1E69 prints U+1a40000); exact condition proved. The UTF-32 programs do what is claimed.",
 "C103": "smallest_code and truncate_on_codepoint as claimed; truncate_on_grapheme false in general (prints the low 8 bits of codepoints, C26, and finds graphemes with the reversed rule, C41); exact result proved.",
 "C119": "Refuted for *r on UTF-8 strings: std::reverse_iterator returns a reference to a dead temporary (reading through base() is proved). Steps, comparisons, distance: both encodings. Loops, algorithms and stores: utf32ne, in full.",
 "C123": "With an ASCII character in front of the octets for check; check on the octets alone loses text (C123_check_alone_loses_text; the first octet is not examined as a lead, C13).",
 "C124": "For occurrences that begin and end between graphemes (needed: C124_boundaries_needed)."
}