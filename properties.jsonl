{"id": "C01", "title": "Forward iteration decodes UTF-8", "statement": "Looping over a valid UTF-8 string from begin to end with != / * / ++ (prefix or postfix) visits exactly the codepoints the string encodes, in order, each once, and then stops; nothing outside the string and the single element at its end position is read.", "quantifier": "every sequence of codepoints 0..2^31-1 (hence every sequence of Unicode scalar values), every text stored before and after the string in memory", "why_tests_cant": "unbounded strings and 2^31 codepoints; tests use the literal \"Ol\u00c1!\"", "anchors": ["include/u5e/utf8_iterator.hpp: operator++, operator*, operator!=, current_codepoint, forward_one_codepoint", "include/u5e/utf8_util.hpp: codepoint_size", "examples/simple_iteration.cpp"]}
{"id": "C02", "title": "Backward iteration decodes UTF-8", "statement": "Starting at the end of a valid UTF-8 string and repeatedly applying -- and * until begin is reached visits the codepoints in exactly the reverse order.", "quantifier": "every sequence of codepoints 0..2^31-1, every surrounding memory", "why_tests_cant": "unbounded strings; the only test walks back over one 5-octet literal", "anchors": ["include/u5e/utf8_iterator.hpp: operator--, rewind_one_codepoint"]}
{"id": "C03", "title": "++ and -- are inverse", "statement": "On valid UTF-8 text, -- after ++ from a codepoint boundary returns to that boundary and ++ after -- returns to the boundary it left.", "quantifier": "every valid text and every codepoint boundary in it (not at the end for ++, not at the beginning for --)", "why_tests_cant": "must hold at each position of every text", "anchors": ["include/u5e/utf8_iterator.hpp: forward_one_codepoint, rewind_one_codepoint"]}
{"id": "C04", "title": "Iterators inside a codepoint behave as at its start", "statement": "An iterator built from a native position in the middle of a multi-octet codepoint dereferences, increments, decrements and converts to a native iterator exactly as one built from the first octet of that codepoint.", "quantifier": "every valid text, every native position in it", "why_tests_cant": "every octet offset of every text; tests only hit one such offset indirectly", "anchors": ["include/u5e/utf8_iterator.hpp: rewind_to_start_of_codepoint", "include/u5e/utf8.hpp: native_const_iterator"]}
{"id": "C05", "title": "Iterator equality is \"same codepoint\"", "statement": "On valid text, a == b holds exactly when both iterators are positioned within the same codepoint (or both at the end); it is reflexive, symmetric and transitive, and != is its negation.", "quantifier": "every valid text, every pair/triple of native positions in it including the end", "why_tests_cant": "a relation over all pairs and triples of positions", "anchors": ["include/u5e/utf8_iterator.hpp: operator==, operator!="]}
{"id": "C06", "title": "Iterator equality is symmetric on arbitrary bytes", "statement": "For any string contents a == b and b == a give the same answer.", "quantifier": "every byte string, every pair of positions", "why_tests_cant": "quantifies over malformed input", "anchors": ["include/u5e/utf8_iterator.hpp: operator=="]}
{"id": "C07", "title": "Forward loops never leave the string", "statement": "For any NUL-terminated byte string whose first octet is not a continuation octet and which contains no 0xFE/0xFF octet, the loop \"while (it != end) { *it; ++it; }\" never reads or moves outside [begin,end] and performs no undefined operation, however malformed the text is.", "quantifier": "every such byte string, any number of loop steps", "why_tests_cant": "all malformed inputs and all loop prefixes", "anchors": ["include/u5e/utf8_iterator.hpp", "README.md: A note on bound checks"]}
{"id": "C08", "title": "Forward loops terminate", "statement": "Looping over a string from begin to end terminates for every string that passes utf8_bounds::check.", "quantifier": "every byte string", "why_tests_cant": "termination over all inputs cannot be observed by a finite test", "anchors": ["include/u5e/utf8_iterator.hpp: forward_one_codepoint, rewind_to_start_of_codepoint", "include/u5e/utf8_bounds.hpp: check"]}
{"id": "C09", "title": "Forward loops terminate on text with no stray continuation octets", "statement": "If every continuation octet lies within the extent announced by the closest preceding non-continuation octet, the loop over the string terminates in at most one step per octet, even if sequences are cut short; conversely a loop that ever stands on a continuation octet outside that extent never terminates.", "quantifier": "every byte string without 0xFE/0xFF octets whose first octet is not a continuation octet (as in C07)", "why_tests_cant": "termination / non-termination over all inputs", "anchors": ["include/u5e/utf8_iterator.hpp"]}
{"id": "C10", "title": "Iterating a string_view does not read past the view", "statement": "Looping over a utf8_string_view from begin to end only reads octets of the view.", "quantifier": "every valid UTF-8 text held in a buffer that ends where the view ends", "why_tests_cant": "depends on memory after the view, invisible to a test that happens to use a literal", "anchors": ["include/u5e/utf8_iterator.hpp: operator==", "include/u5e/utf8_string_view.hpp"]}
{"id": "C11", "title": "codepoint_size and octet classification", "statement": "For every octet exactly one of is_7bit_character / is_codepoint_continuation / is_codepoint_start holds, and codepoint_size equals the length announced by the octet in the UTF-8 definition (1 for ASCII, 2..6 for C0..FD).", "quantifier": "all 256 octets", "why_tests_cant": "exhaustive over octets and the bit-trick has a zero-argument hazard", "anchors": ["include/u5e/utf8_util.hpp"]}
{"id": "C12", "title": "bounds check accepts valid text", "statement": "utf8_bounds::check returns true for every valid UTF-8 std::string, including the empty one.", "quantifier": "every sequence of codepoints 0..2^31-1", "why_tests_cant": "unbounded strings", "anchors": ["include/u5e/utf8_bounds.hpp: check"]}
{"id": "C13", "title": "bounds check is sound", "statement": "If utf8_bounds::check returns true for a string then no octet of the string announces a sequence extending past its end and the first octet is not a continuation octet, so no iterator operation on it over- or underflows.", "quantifier": "every byte string", "why_tests_cant": "adversarial inputs; tests use three literals", "anchors": ["include/u5e/utf8_bounds.hpp: check", "README.md: A note on bound checks"]}
{"id": "C14", "title": "enforce agrees with check", "statement": "utf8_bounds::enforce returns true exactly when check returns true on the same string, and in that case leaves the string unchanged; when it returns false it has changed the string.", "quantifier": "every byte string", "why_tests_cant": "relation between two functions over all inputs", "anchors": ["include/u5e/utf8_bounds.hpp: check, enforce"]}
{"id": "C15", "title": "enforce only substitutes \"?\" at the bounds", "statement": "enforce keeps the length, every octet it changes becomes \"?\", and it changes only leading continuation octets and lead octets among the last five octets; all other octets are untouched.", "quantifier": "every NUL-terminated byte string", "why_tests_cant": "frame condition over all positions of all strings", "anchors": ["include/u5e/utf8_bounds.hpp: enforce"]}
{"id": "C16", "title": "enforced text passes check", "statement": "After enforce, check returns true on the resulting string.", "quantifier": "every byte string", "why_tests_cant": "adversarial inputs", "anchors": ["include/u5e/utf8_bounds.hpp: check, enforce"]}
{"id": "C17", "title": "bounds functions stay in the range they are given", "statement": "check and enforce on [begin,end) depend only on, and enforce only writes to, octets in [begin,end).", "quantifier": "every byte buffer and every sub-range of it", "why_tests_cant": "depends on memory just past the range", "anchors": ["include/u5e/utf8_bounds.hpp: check, enforce"]}
{"id": "C18", "title": "enforced text can be iterated", "statement": "After enforce, the loop over the string from begin to end terminates.", "quantifier": "every byte string", "why_tests_cant": "termination over all inputs", "anchors": ["include/u5e/utf8_bounds.hpp: enforce", "include/u5e/utf8_iterator.hpp"]}
{"id": "C19", "title": "UTF-8 encoding of codepoints", "statement": "Appending UTF-32 codepoints to a utf8_string appends exactly the UTF-8 encoding of each codepoint.", "quantifier": "every sequence of Unicode codepoints U+0000..U+10FFFF", "why_tests_cant": "1.1M codepoints and unbounded strings; tests use U+00C4, U+0308 and ASCII", "anchors": ["include/u5e/utf8.hpp: append_from_utf32ne", "include/u5e/utf8_iterator.hpp: proxyobject::operator=", "include/u5e/utf8_util.hpp: encoded_size"]}
{"id": "C20", "title": "Encoding a codepoint is memory safe", "statement": "Appending any Unicode codepoint to a utf8_string never accesses memory outside the internal buffer and performs no undefined operation.", "quantifier": "every codepoint U+0000..U+10FFFF", "why_tests_cant": "undefined behaviour is not reliably observable by tests", "anchors": ["include/u5e/utf8.hpp: append_from_utf32ne", "include/u5e/utf8_util.hpp: encoded_size"]}
{"id": "C21", "title": "UTF-32 -> UTF-8 -> codepoints round trip", "statement": "Appending a sequence of codepoints to a utf8_string and iterating the result gives back the sequence.", "quantifier": "every sequence of codepoints in the range that the encoder handles (U+0001..U+07FF, U+2000..U+FFFF, U+80000..U+10FFFF)", "why_tests_cant": "unbounded sequences", "anchors": ["include/u5e/utf8.hpp: append_from_utf32ne", "include/u5e/utf8_iterator.hpp"]}
{"id": "C22", "title": "Writing through the mutable iterator", "statement": "Assigning codepoints one after another with \"*it = c; ++it\" into a buffer with enough room writes exactly the concatenated UTF-8 encodings, leaves all other octets unchanged and leaves the iterator just past them (what std::copy into codepoint_begin() does).", "quantifier": "every sequence of codepoints, every initial buffer contents", "why_tests_cant": "unbounded sequences and arbitrary previous buffer contents", "anchors": ["include/u5e/utf8_iterator.hpp: proxyobject::operator=, operator++"]}
{"id": "C23", "title": "Reading back an assigned codepoint", "statement": "After \"*it = c\" into a buffer with enough room, *it yields c without moving the iterator to another codepoint.", "quantifier": "every codepoint, every buffer", "why_tests_cant": "1.1M codepoints", "anchors": ["include/u5e/utf8_iterator.hpp: proxyobject"]}
{"id": "C24", "title": "Assigning twice overwrites", "statement": "\"*it = c; *it = d\" leaves d, and only d, at the position of it.", "quantifier": "every pair of codepoints, every buffer with room", "why_tests_cant": "all pairs", "anchors": ["include/u5e/utf8_iterator.hpp: proxyobject::operator="]}
{"id": "C25", "title": "append(first,last) truncates on codepoint boundaries", "statement": "Appending [first,last) given by arbitrary native positions of a valid UTF-8 string appends exactly the whole codepoints that start at or after the codepoint containing first and before the codepoint containing last; with first = begin it is the longest prefix of whole codepoints that fits into the requested number of octets and it is valid UTF-8.", "quantifier": "every valid text, every pair of native positions first <= last", "why_tests_cant": "every cut position of every text; the example uses a single literal", "anchors": ["include/u5e/basic_encodedstring.hpp: append", "include/u5e/utf8.hpp: native_const_iterator", "examples/truncate_on_codepoint.cpp"]}
{"id": "C26", "title": "append of a grapheme range copies the text of the range (UTF-8)", "statement": "Appending from one grapheme iterator to another on a utf8_string appends exactly the octets between the starts of the two graphemes.", "quantifier": "every valid text, every two grapheme positions", "why_tests_cant": "all texts; the only example is ASCII up to the cut", "anchors": ["include/u5e/basic_encodedstring.hpp: append(basic_grapheme_iterator&,...)", "examples/truncate_on_grapheme.cpp"]}
{"id": "C27", "title": "append of a grapheme range copies the text of the range (UTF-32)", "statement": "Appending from one grapheme iterator to another on a utf32ne_string appends exactly the codepoints between the starts of the two graphemes.", "quantifier": "every text, every two grapheme positions in order", "why_tests_cant": "all texts", "anchors": ["include/u5e/basic_encodedstring.hpp: append(basic_grapheme_iterator&,...)"]}
{"id": "C28", "title": "Grapheme_Cluster_Break lookup", "statement": "props::grapheme_cluster_break::resolve returns for every codepoint value the class assigned by GraphemeBreakProperty.txt (Unicode 9.0), OTHER if none.", "quantifier": "every int value", "why_tests_cant": "2^32 inputs against 1327 ranges, through a binary search", "anchors": ["src/u5e/props/grapheme_cluster_break.cpp", "src/u5e/props/grapheme_cluster_break_data.hpp", "src/u5e/props/GraphemeBreakProperty.txt"]}
{"id": "C29", "title": "Canonical_Combining_Class lookup", "statement": "props::canonical_combining_class::resolve returns for every codepoint value the class in UnicodeData.txt, 0 if none.", "quantifier": "every int value", "why_tests_cant": "2^32 inputs, binary search", "anchors": ["src/u5e/props/canonical_combining_class.cpp", "src/u5e/props/canonical_combining_class_data.hpp", "src/u5e/props/UnicodeData.txt"]}
{"id": "C30", "title": "Canonical decomposition lookup", "statement": "props::canonical_decomposition_mapping::resolve returns, zero-terminated, the complete recursive expansion of the canonical decomposition mappings of UnicodeData.txt, and NULL exactly for values without such a mapping; the result is non-empty, contains no zero before the terminator and nothing in it is decomposable further.", "quantifier": "every int value", "why_tests_cant": "2^32 inputs, recursive closure", "anchors": ["src/u5e/props/canonical_decomposition_mapping.cpp", "src/u5e/props/canonical_decomposition_mapping_data.hpp"]}
{"id": "C31", "title": "Canonical decomposition follows the Unicode Standard", "statement": "Canonical decomposition gives the full canonical decomposition defined by the Unicode Standard (including the arithmetic decomposition of Hangul syllables).", "quantifier": "every codepoint", "why_tests_cant": "11172 Hangul syllables are not table driven", "anchors": ["include/u5e/canonical_decomposition.hpp", "src/u5e/props/canonical_decomposition_mapping_data.pl"]}
{"id": "C32", "title": "Compatibility decomposition lookup", "statement": "props::compatibility_and_canonical_decomposition_mapping::resolve returns the complete recursive expansion of canonical and <compat> mappings of UnicodeData.txt, NULL exactly for values without one; result non-empty, zero-terminated, not decomposable further; it expands the canonical decomposition.", "quantifier": "every int value", "why_tests_cant": "2^32 inputs, recursive closure", "anchors": ["src/u5e/props/compatibility_and_canonical_decomposition_mapping.cpp"]}
{"id": "C33", "title": "Compatibility decomposition follows the Unicode Standard", "statement": "Compatibility decomposition applies every compatibility mapping of UnicodeData.txt whatever its formatting tag.", "quantifier": "every codepoint with a compatibility mapping", "why_tests_cant": "3662 mappings of 16 kinds", "anchors": ["src/u5e/props/compatibility_and_canonical_decomposition_mapping_data.pl"]}
{"id": "C34", "title": "Canonical composition lookup", "statement": "props::canonical_composition_mapping::resolve(a,b) returns true with c exactly when c is the primary composite whose canonical decomposition mapping in UnicodeData.txt is the pair a b, c and a being starters and c not being listed in CompositionExclusions.txt; the composite is unique.", "quantifier": "every pair of int values", "why_tests_cant": "2^64 pairs", "anchors": ["src/u5e/props/canonical_composition_mapping.cpp", "src/u5e/props/canonical_composition_mapping_data.hpp", "src/u5e/props/CompositionExclusions.txt"]}
{"id": "C35", "title": "Composition is inverse to decomposition", "statement": "Whenever (a,b) composes to c, the full canonical decomposition of c is the full canonical decomposition of a followed by that of b; composing never changes the decomposed text.", "quantifier": "every pair / every codepoint sequence", "why_tests_cant": "all pairs and sequences", "anchors": ["include/u5e/canonical_composition.hpp", "src/u5e/props/canonical_composition_mapping.cpp"]}
{"id": "C36", "title": "canonical_combining_order is a strict weak ordering", "statement": "The comparator given to std::sort is irreflexive, asymmetric, transitive and its incomparability is transitive.", "quantifier": "all triples of ints", "why_tests_cant": "all triples", "anchors": ["include/u5e/canonical_combining_order.hpp"]}
{"id": "C37", "title": "Grapheme boundary rule", "statement": "A boundary is reported between two adjacent codepoints exactly as the pairwise reading of UAX #29 rules GB3-GB999 with first-match precedence prescribes.", "quantifier": "every pair of codepoints", "why_tests_cant": "2^62 pairs", "anchors": ["include/u5e/basic_grapheme_iterator.hpp: is_grapheme_boundary"]}
{"id": "C38", "title": "Grapheme segmentation follows UAX #29", "statement": "Iterating graphemes breaks the text exactly at the UAX #29 (Unicode 9.0) extended grapheme cluster boundaries.", "quantifier": "every text", "why_tests_cant": "rules GB10, GB12, GB13 look at unbounded left context", "anchors": ["include/u5e/basic_grapheme_iterator.hpp: is_grapheme_boundary"]}
{"id": "C39", "title": "Grapheme iteration partitions the text", "statement": "Iterating a string from grapheme_begin() to grapheme_end() terminates and yields non-empty graphemes whose codepoints concatenate to the codepoints of the whole text, with a boundary between consecutive graphemes and none inside a grapheme.", "quantifier": "every valid UTF-8 string and every UTF-32 string", "why_tests_cant": "unbounded texts", "anchors": ["include/u5e/basic_grapheme_iterator.hpp: find_end_of_grapheme, operator++, operator!=", "include/u5e/basic_encodedstring.hpp: grapheme_begin, grapheme_end", "examples/grapheme_iteration.cpp"]}
{"id": "C40", "title": "Grapheme iteration does not depend on the encoding", "statement": "The graphemes of a UTF-8 string, decoded, are the graphemes of the UTF-32 string with the same codepoints.", "quantifier": "every text", "why_tests_cant": "all texts", "anchors": ["include/u5e/basic_grapheme_iterator.hpp", "include/u5e/basic_encodedstring.hpp"]}
{"id": "C41", "title": "Grapheme iterator at a given position", "statement": "Constructing a grapheme iterator at an arbitrary position of the text gives the grapheme that contains this position: the same start and end that iterating from the beginning would give.", "quantifier": "every text, every position", "why_tests_cant": "every position of every text", "anchors": ["include/u5e/basic_grapheme_iterator.hpp: find_start_of_grapheme, three-argument constructor", "examples/truncate_on_grapheme.cpp"]}
{"id": "C42", "title": "grapheme_end() of a view denotes the end of the view", "statement": "grapheme_end() of a string_view refers to the end of the view, so a loop to grapheme_end() visits every grapheme, whatever follows the view in memory.", "quantifier": "every text and every sub-view of it", "why_tests_cant": "depends on memory after the view", "anchors": ["include/u5e/basic_encodedstring.hpp: grapheme_end", "include/u5e/basic_grapheme_iterator.hpp: find_start_of_grapheme"]}
{"id": "C43", "title": "Grapheme iterator equality", "statement": "Two grapheme iterators obtained by iterating the same text are equal exactly when they denote the same grapheme or both are at the end; comparison with a codepoint iterator is true exactly when it lies inside the grapheme.", "quantifier": "every text, every pair of graphemes", "why_tests_cant": "all pairs", "anchors": ["include/u5e/basic_grapheme_iterator.hpp: operator==, operator!="]}
{"id": "C44", "title": "filter", "statement": "filter calls the operation once per element of the input range, in order, threading the output through, and returns the sum of the results.", "quantifier": "every input range, every operation and output", "why_tests_cant": "higher-order: every callback", "anchors": ["include/u5e/filter.hpp"]}
{"id": "C45", "title": "Decomposition filter", "statement": "Filtering codepoints through canonical_decomposition / compatibility_and_canonical_decomposition appends to the output the concatenation of the decompositions of the input codepoints (the codepoint itself when it has none) and returns how many codepoints were appended.", "quantifier": "every text", "why_tests_cant": "unbounded texts", "anchors": ["include/u5e/codepoint_decomposition.hpp", "include/u5e/canonical_decomposition.hpp", "include/u5e/compatibility_and_canonical_decomposition.hpp"]}
{"id": "C46", "title": "In-place composition", "statement": "canonical_composition never writes at or beyond the position it still has to read as original input nor outside the string; the retained prefix is the greedy left-to-right pairwise composition of the string, its length plus *count is the original length, and no two adjacent retained codepoints compose.", "quantifier": "every codepoint string", "why_tests_cant": "in-place aliasing for every length", "anchors": ["include/u5e/canonical_composition.hpp"]}
{"id": "C47", "title": "Normalization forms D/KD: contents", "statement": "Normalizing a text in form D (KD) yields, grapheme by grapheme, a permutation of the full canonical (compatibility) decomposition of the grapheme, in non-decreasing combining class order, none of whose codepoints is decomposable; the return value is the number of codepoints appended; existing output is kept as prefix.", "quantifier": "every text, every behaviour of std::sort allowed by the C++ standard", "why_tests_cant": "unbounded texts and unspecified order of equivalent elements", "anchors": ["include/u5e/normalization_form_d.hpp", "include/u5e/normalization_form_kd.hpp"]}
{"id": "C48", "title": "Normalization forms C/KC: contents", "statement": "Normalizing a text in form C (KC) yields, grapheme by grapheme, the greedy composition of form D (KD) of that grapheme; decomposing the output gives exactly the form D (KD) codepoints again; the return value is the number of codepoints appended.", "quantifier": "every text, every behaviour of std::sort allowed by the C++ standard", "why_tests_cant": "unbounded texts", "anchors": ["include/u5e/normalization_form_c.hpp", "include/u5e/normalization_form_kc.hpp"]}
{"id": "C49", "title": "Form D is Unicode NFD", "statement": "Normalizing a text in form D gives its Normalization Form D as defined by the Unicode Standard (UAX #15).", "quantifier": "every text", "why_tests_cant": "all texts", "anchors": ["include/u5e/normalization_form_d.hpp"]}
{"id": "C50", "title": "Form C is Unicode NFC", "statement": "Normalizing a text in form C gives its Normalization Form C as defined by the Unicode Standard (UAX #15).", "quantifier": "every text", "why_tests_cant": "all texts", "anchors": ["include/u5e/normalization_form_c.hpp", "include/u5e/canonical_composition.hpp"]}
{"id": "C51", "title": "Normalization is idempotent", "statement": "Normalizing an already normalized text again in the same form changes nothing.", "quantifier": "every text", "why_tests_cant": "all texts", "anchors": ["include/u5e/normalization_form_d.hpp", "include/u5e/normalization_form_c.hpp"]}
{"id": "C52", "title": "Normalizing UTF-8 agrees with normalizing UTF-32", "statement": "Normalizing a utf8_string gives the UTF-8 encoding of normalizing the utf32ne_string with the same codepoints, with the same count.", "quantifier": "every text and each of the four forms", "why_tests_cant": "all texts", "anchors": ["include/u5e/normalization_form_d.hpp", "include/u5e/utf8.hpp: append_from_utf32ne"]}
{"id": "C53", "title": "The order of equal combining classes is preserved", "statement": "Normalization never exchanges two codepoints of the same grapheme that have the same combining class.", "quantifier": "every text, every behaviour of std::sort allowed by the C++ standard", "why_tests_cant": "std::sort is not stable; small tests run below the insertion sort threshold", "anchors": ["include/u5e/normalization_form_d.hpp: std::sort"]}
{"id": "C54", "title": "Canonically equivalent texts normalize identically", "statement": "Two texts that are canonically equivalent have the same form D output.", "quantifier": "every pair of canonically equivalent texts", "why_tests_cant": "all pairs", "anchors": ["include/u5e/normalization_form_d.hpp"]}
{"id": "C55", "title": "Form KD is Unicode NFKD", "statement": "Normalizing a text in form KD gives its Normalization Form KD as defined by the Unicode Standard (UAX #15).", "quantifier": "every text", "why_tests_cant": "all texts", "anchors": ["include/u5e/normalization_form_kd.hpp", "include/u5e/codepoint_decomposition.hpp"]}
{"id": "C56", "title": "Form KC is Unicode NFKC", "statement": "Normalizing a text in form KC gives its Normalization Form KC as defined by the Unicode Standard (UAX #15).", "quantifier": "every text", "why_tests_cant": "all texts", "anchors": ["include/u5e/normalization_form_kc.hpp", "include/u5e/canonical_composition.hpp"]}
{"id": "C57", "title": "Canonical normalization preserves meaning", "statement": "The output of form D and of form C is canonically equivalent to the input: it has the same Normalization Form D.", "quantifier": "every text", "why_tests_cant": "all texts", "anchors": ["include/u5e/normalization_form_d.hpp", "include/u5e/normalization_form_c.hpp"]}
{"id": "C58", "title": "std::sort of libstdc++ sorts by combining class without undefined behaviour", "statement": "std::sort over the codepoints of a utf32ne_string with canonical_combining_order, as implemented by libstdc++ (introsort with unguarded loops, heap sort at the depth limit, final insertion sort), terminates without reading or writing outside the string and leaves a permutation of the codepoints in which combining classes never decrease.", "quantifier": "every utf32ne_string content of any length, including arbitrary ints that are no codepoints", "why_tests_cant": "The unguarded loops of std::sort run off the array for a comparator that is not a strict weak order; that it never happens with this comparator, at any length and in every branch (median, partition, heap, insertion), cannot be sampled.", "anchors": ["include/u5e/canonical_combining_order.hpp: canonical_combining_order", "include/u5e/normalization_form_d.hpp: std::sort call", "include/u5e/normalization_form_c.hpp: std::sort call"]}
{"id": "C59", "title": "Marks of equal combining class keep their order for graphemes decomposing to at most 16 codepoints, with libstdc++", "statement": "With libstdc++, normalization keeps the relative order of the codepoints of equal combining class in every grapheme whose decomposition has at most 16 codepoints; so form D is the Unicode NFD of every text without Hangul syllables whose graphemes decompose to at most 16 codepoints with no starter after a mark. (It does not hold from 17 codepoints on: 'a' followed by U+0300..U+030F is reordered.)", "quantifier": "every text, every grapheme, every decomposition length", "why_tests_cant": "Stability up to the threshold of introsort must hold for every arrangement of classes; the tests of the library use graphemes of three codepoints.", "anchors": ["include/u5e/normalization_form_d.hpp: normalization_form_d", "include/u5e/normalization_form_kd.hpp", "include/u5e/normalization_form_c.hpp", "include/u5e/normalization_form_kc.hpp"]}
{"id": "C60", "title": "Graphemes of a concatenation", "statement": "The grapheme sequence of a text x followed by a text y is the sequence of x followed by the sequence of y if and only if there is a grapheme boundary between the last codepoint of x and the first of y.", "quantifier": "every two non-empty texts", "why_tests_cant": "all texts of all lengths", "anchors": ["include/u5e/basic_grapheme_iterator.hpp: find_end_of_grapheme", "include/u5e/props/grapheme_cluster_break.hpp", "include/u5e/basic_grapheme_iterator.hpp: operator++"]}
{"id": "C61", "title": "Normalization in parts", "statement": "Normalizing a text in pieces that are cut at grapheme boundaries, one after the other into the same output string, gives the same output contents, the same total count and the same failure (if any) as normalizing the whole text at once; for all four forms and both output encodings. Cutting inside a grapheme does not.", "quantifier": "every text, every cut at a grapheme boundary, every normalization form, every allowed std::sort, both output encodings, every previous output contents", "why_tests_cant": "all texts and all cut positions; tests normalize single words", "anchors": ["include/u5e/filter.hpp: filter", "include/u5e/normalization_form_d.hpp", "include/u5e/normalization_form_kd.hpp", "include/u5e/normalization_form_c.hpp", "include/u5e/normalization_form_kc.hpp"]}
{"id": "C62", "title": "Size of the normalized text", "statement": "Forms D and C produce at most 4 codepoints per input codepoint, forms KD and KC at most 7; forms D and KD never produce fewer codepoints than they are given; form C (KC) never produces more than form D (KD). So the int counter returned by filter cannot overflow for texts of up to (2^31-1)/4 (resp. /7) codepoints, and the returned count is exactly the number of codepoints appended.", "quantifier": "every text, every allowed std::sort", "why_tests_cant": "all texts; the bound is about every row of the tables and every combination of graphemes", "anchors": ["include/u5e/normalization_form_d.hpp", "include/u5e/normalization_form_c.hpp", "src/u5e/props/canonical_decomposition_mapping_data.hpp", "src/u5e/props/compatibility_and_canonical_decomposition_mapping_data.hpp", "include/u5e/filter.hpp"]}
{"id": "C63", "title": "The output of normalization is canonically ordered and decomposed", "statement": "Whatever the input, and whichever way std::sort treats ties, the output of every form contains no reorderable pair (D108), also across grapheme boundaries; the output of form D (KD) contains no codepoint with a listed mapping; it is in Normalization Form D itself if and only if it contains no Hangul syllable.", "quantifier": "every text, every allowed std::sort, all four forms", "why_tests_cant": "all texts; the order across grapheme boundaries depends on all pairs of neighbouring graphemes", "anchors": ["include/u5e/normalization_form_d.hpp", "include/u5e/normalization_form_kd.hpp", "include/u5e/normalization_form_c.hpp", "include/u5e/normalization_form_kc.hpp", "include/u5e/canonical_combining_order.hpp"]}
{"id": "C64", "title": "Comparing texts by form C and by form D is the same", "statement": "Two texts have equal outputs of form C if and only if they have equal outputs of form D; likewise for KC and KD (for a sort that keeps the order of equal classes).", "quantifier": "every pair of texts, in any of the input encodings", "why_tests_cant": "all pairs of texts", "anchors": ["include/u5e/normalization_form_d.hpp", "include/u5e/normalization_form_c.hpp", "include/u5e/canonical_composition.hpp"]}
{"id": "C65", "title": "Which texts normalization leaves unchanged", "statement": "Form D (KD) leaves a text unchanged if and only if none of its codepoints has a listed mapping and each grapheme is in combining class order; form C (KC) if and only if each grapheme's full decomposition is in combining class order and composes back to the grapheme. In particular, with libstdc++'s sort, form C leaves every text of codepoints below U+0300 unchanged, and all four forms leave ASCII text unchanged, in UTF-32 and in UTF-8 output.", "quantifier": "every text", "why_tests_cant": "all texts", "anchors": ["include/u5e/normalization_form_d.hpp", "include/u5e/normalization_form_c.hpp", "include/u5e/normalization_form_kd.hpp", "include/u5e/normalization_form_kc.hpp", "include/u5e/canonical_composition.hpp"]}
{"id": "C66", "title": "Truncating on a grapheme boundary", "statement": "Appending from the first grapheme to the grapheme iterator constructed at an arbitrary native position keeps exactly the whole graphemes before the one that contains the position (examples/truncate_on_grapheme.cpp).", "quantifier": "every text, every native position, also inside a codepoint", "why_tests_cant": "all texts and all positions", "anchors": ["examples/truncate_on_grapheme.cpp", "include/u5e/basic_grapheme_iterator.hpp: find_start_of_grapheme", "include/u5e/basic_encodedstring.hpp: append"]}
{"id": "C67", "title": "Iterating over any complete octet sequences", "statement": "Iterating a UTF-8 text made of complete octet sequences (a lead octet for n octets followed by exactly n-1 continuation octets, shortest form or not, value up to 31 bits) visits each sequence exactly once, in order, and yields its bit value, forwards and backwards; overlong forms are accepted and yield the same codepoints as the shortest forms.", "quantifier": "every text that is a concatenation of complete octet sequences, every position of it", "why_tests_cant": "all texts of any length, including the encodings a conforming encoder never writes", "anchors": ["include/u5e/utf8_iterator.hpp: operator*, forward_one_codepoint, rewind_one_codepoint", "include/u5e/utf8_util.hpp: codepoint_size"]}
{"id": "C68", "title": "Replacing codepoints in place", "statement": "Replacing every codepoint of a UTF-8 text in place through the mutable iterator (for (it = begin; it != end; ++it) *it = f(*it), or std::transform onto the same text) leaves exactly the encoding of the replaced codepoints and touches nothing around the text, for every f that keeps the encoded length and yields codepoints the encoder handles.", "quantifier": "every text, every such function, every surrounding buffer", "why_tests_cant": "all texts, functions and positions", "anchors": ["include/u5e/utf8_iterator.hpp: utf8_iterator, proxyobject", "include/u5e/basic_encodedstring.hpp: codepoint_begin"]}
{"id": "C69", "title": "Grapheme iteration and normalization of arbitrary octets stay inside the string", "statement": "Looping over the graphemes of a std::string from grapheme_begin() to grapheme_end(), or normalizing it, never accesses memory outside of the string and its terminating NUL, whatever octets it holds.", "quantifier": "every octet string (without 0xFE, 0xFF and a leading continuation octet), every number of steps, every form", "why_tests_cant": "all malformed inputs; an out-of-bounds read need not be visible", "anchors": ["include/u5e/basic_grapheme_iterator.hpp: find_start_of_grapheme, find_end_of_grapheme", "include/u5e/basic_encodedstring.hpp: grapheme_begin, grapheme_end", "include/u5e/utf8_bounds.hpp: check", "include/u5e/normalization_form_d.hpp"]}
{"id": "C70", "title": "Texts cut in the middle of a codepoint", "statement": "On a text whose last codepoint has lost some of its octets (a chunk read from a stream), the codepoint loops, the grapheme loop and normalization process exactly the complete codepoints and ignore the rest.", "quantifier": "every sequence of complete octet sequences followed by a proper prefix of one", "why_tests_cant": "all texts and all cuts", "anchors": ["include/u5e/utf8_iterator.hpp: operator==", "include/u5e/basic_grapheme_iterator.hpp", "include/u5e/filter.hpp: filter"]}
{"id": "C71", "title": "Grapheme iterators stand on their grapheme", "statement": "grapheme_begin() incremented k times dereferences to the range of codepoints of grapheme number k, and iterating that range yields its codepoints; postfix ++ returns the iterator as it was before and advances like prefix ++.", "quantifier": "every text in either encoding, every k", "why_tests_cant": "all texts, all positions", "anchors": ["include/u5e/basic_grapheme_iterator.hpp: operator++, operator*", "include/u5e/basic_grapheme.hpp: codepoint_begin, codepoint_end"]}
{"id": "C72", "title": "The generated combining class table answers with the file's classes", "statement": "For every UnicodeData.txt, looking a codepoint up in the table the generator writes gives the class on its line, and 0 for a codepoint without a line.", "quantifier": "every file with one line per codepoint, whatever names, categories and classes; every order in which Perl enumerates a hash; every codepoint", "why_tests_cant": "all files, all hash orders", "anchors": ["src/u5e/props/canonical_combining_class_data.pl", "src/u5e/props/canonical_combining_class.cpp: resolve"]}
{"id": "C73", "title": "The generated decomposition tables hold the full decompositions", "statement": "For every UnicodeData.txt the generators of the two decomposition tables terminate exactly when every codepoint has a full decomposition (no cycle of mappings), and then looking a codepoint up gives its mappings applied until nothing is mapped, followed by 0, and nothing for a codepoint without mapping.", "quantifier": "every file with one line per codepoint, every hash order, every codepoint, every number of rounds of the expansion loop", "why_tests_cant": "all files and mapping graphs; termination", "anchors": ["src/u5e/props/canonical_decomposition_mapping_data.pl", "src/u5e/props/compatibility_and_canonical_decomposition_mapping_data.pl"]}
{"id": "C74", "title": "The generated composition table holds the primary composites", "statement": "For every UnicodeData.txt and CompositionExclusions.txt, looking up a pair in the generated table gives the codepoint canonically mapped to the pair when it and the first of the pair have class 0 and it is not excluded, and nothing otherwise.", "quantifier": "all files with canonical mappings to one or two codepoints and no pair mapped twice, all hash orders, all pairs", "why_tests_cant": "all files", "anchors": ["src/u5e/props/canonical_composition_mapping_data.pl", "src/u5e/props/canonical_composition_mapping.cpp: resolve"]}
{"id": "C75", "title": "The generated grapheme break table answers with the file's values", "statement": "For every GraphemeBreakProperty.txt that gives no codepoint two values, the generator writes a table in which looking up a codepoint gives the value on its line, and OTHER without one.", "quantifier": "every sequence of lines, every codepoint", "why_tests_cant": "all files", "anchors": ["src/u5e/props/grapheme_cluster_break_data.sh", "src/u5e/props/grapheme_cluster_break.cpp: resolve"]}
{"id": "C76", "title": "The tables are reproducible", "statement": "Running a generator twice on the same files gives the same table, and the five tables in the repository are the ones the generators make of files with the contents of Unicode 9.0.", "quantifier": "every pair of hash orders; every file with the Unicode 9.0 classes, mappings, exclusions and break values, whatever else is on the lines and in whatever order", "why_tests_cant": "Perl's hash order changes from run to run", "anchors": ["src/u5e/props/*_data.pl", "src/u5e/props/*_data.hpp", "src/u5e/props/grapheme_cluster_break_data.sh"]}
{"id": "C77", "title": "What the forward loops deliver on arbitrary octets", "statement": "For every string that does not begin with a continuation octet, the two loops from codepoint_begin() to codepoint_end() deliver the numbers made up by the octets announced at each place they stop at, whatever these octets are, and they finish whenever they do not stop at a stray continuation octet.", "quantifier": "every string without 0xFE, 0xFF and without a continuation octet in front; every number of steps", "why_tests_cant": "all octet strings", "anchors": ["include/u5e/utf8_iterator.hpp: current_codepoint, operator++, operator==", "include/u5e/utf8_util.hpp"]}
{"id": "C78", "title": "Checked strings can be iterated backwards", "statement": "The loop that decrements from codepoint_end() to codepoint_begin() is memory safe on every string that utf8_bounds::check accepts, ends, and delivers the values at all lead octets, last first.", "quantifier": "every string without 0xFE and 0xFF", "why_tests_cant": "all octet strings", "anchors": ["include/u5e/utf8_iterator.hpp: operator--, rewind_one_codepoint", "include/u5e/utf8_bounds.hpp: check"]}
{"id": "C79", "title": "Iterator operations at any octet of any string", "statement": "Dereferencing, incrementing, decrementing and converting an iterator at any octet give exactly: the value at the closest lead octet, the end of what it announces, the lead octet before it, itself; and are undefined exactly when the announced octets go beyond the terminator or there is nothing before. From six octets on check() accepts exactly the strings in which no increment leaves the string.", "quantifier": "every string without 0xFE, 0xFF and without a continuation octet in front; every position", "why_tests_cant": "all octet strings and positions", "anchors": ["include/u5e/utf8_iterator.hpp", "include/u5e/utf8_bounds.hpp: check"]}
{"id": "C80", "title": "check and enforce on a range of a larger buffer", "statement": "check and enforce on [begin, end) give exactly the result for the octets of the range as a string, and depend on, and change, nothing else but the octet at end - except when the range and that octet are all continuation octets, in which case enforce runs out of the range in both directions in an exactly described way.", "quantifier": "every buffer and every range in it", "why_tests_cant": "all buffers and ranges", "anchors": ["include/u5e/utf8_bounds.hpp: check, enforce"]}
{"id": "C81", "title": "Applying enforce repeatedly settles", "statement": "After a second enforce every text passes check, and a third changes nothing; if the text does not begin with a continuation octet the second one already changes nothing.", "quantifier": "every octet string", "why_tests_cant": "all octet strings", "anchors": ["include/u5e/utf8_bounds.hpp: check, enforce"]}
{"id": "C82", "title": "append copies octets verbatim", "statement": "append(first, last) with iterators at any octets of any string copies exactly the octets from the closest lead octet of first to that of last, so that truncation to n octets never exceeds n and never ends inside a sequence.", "quantifier": "every string without 0xFE, 0xFF and without a continuation octet in front; every pair of positions, every existing output", "why_tests_cant": "all octet strings and positions", "anchors": ["include/u5e/basic_encodedstring.hpp: append", "include/u5e/utf8.hpp: native_const_iterator"]}
{"id": "C83", "title": "Normalizing some of the graphemes of a text", "statement": "filter over the graphemes number a to k of a text with any of the four normalization forms has the same result and output as normalizing exactly these graphemes as a separate text.", "quantifier": "every text in either encoding in any buffer, every a and k, the four forms, both output encodings, every admissible std::sort, every existing output", "why_tests_cant": "all texts and ranges", "anchors": ["include/u5e/filter.hpp", "include/u5e/basic_grapheme_iterator.hpp", "include/u5e/normalization_form_*.hpp"]}
{"id": "C84", "title": "Normalizing a view", "statement": "Normalizing a view from grapheme_begin() to grapheme_end() has the same result as normalizing its contents as a separate string, whatever follows it in memory.", "quantifier": "every text in either encoding, every following codepoint, the four forms, both output encodings", "why_tests_cant": "all texts and contexts", "anchors": ["include/u5e/basic_grapheme_iterator.hpp", "include/u5e/normalization_form_*.hpp", "include/u5e/basic_encodedstring.hpp: grapheme_begin, grapheme_end"]}
{"id": "C85", "title": "A second normalization in another form", "statement": "Normalizing the result of a normalization in another form gives the form that the Unicode Standard prescribes for the combination: D after C is D, C after D is C, D after KC is KD, KC after KD is KC, and so on, as if the second form had been applied to the original text.", "quantifier": "every text in either encoding, the sixteen pairs of forms, every admissible std::sort", "why_tests_cant": "all texts of all lengths, all admissible sorts", "anchors": ["include/u5e/normalization_form_d.hpp", "include/u5e/normalization_form_c.hpp", "include/u5e/normalization_form_kd.hpp", "include/u5e/normalization_form_kc.hpp", "include/u5e/canonical_composition.hpp"]}
{"id": "C86", "title": "Form C leaves nothing to compose", "statement": "In the output of normalization_form_c and normalization_form_kc no two neighbouring codepoints form a primary composite, neither inside of a grapheme nor across graphemes; canonical_composition applied to the whole output changes nothing and counts nothing.", "quantifier": "every text in either encoding, every admissible std::sort", "why_tests_cant": "all texts of all lengths", "anchors": ["include/u5e/normalization_form_c.hpp", "include/u5e/normalization_form_kc.hpp", "include/u5e/canonical_composition.hpp"]}
{"id": "C87", "title": "Form C at most triples the text", "statement": "The output of normalization_form_c has at most three times as many codepoints as its input.", "quantifier": "every text in either encoding, every existing output, every std::sort that keeps the order of equal combining classes in the graphemes of the text (libstdc++'s does in every grapheme that decomposes to at most 16 codepoints)", "why_tests_cant": "all texts of all lengths", "anchors": ["include/u5e/normalization_form_c.hpp", "include/u5e/canonical_composition.hpp", "src/u5e/props/canonical_decomposition_mapping_data.cpp"]}
{"id": "C88", "title": "Iterator operations at any octet of any memory", "statement": "Each operation of a UTF-8 iterator (dereference, ++, --, ==, conversion to the native iterator) at any octet of any memory has exactly the documented effect of belonging to the closest octet at or before it that is not a continuation octet; it is undefined exactly if there is none, if the announced octets leave the memory, or (dereference only) if the octet is 0xFF or a 0xFE sequence exceeds 32 bits.", "quantifier": "every memory of any octets (0xFE and 0xFF included), every position, every other position compared to", "why_tests_cant": "all memories of all sizes, all positions", "anchors": ["include/u5e/utf8_iterator.hpp", "include/u5e/utf8_util.hpp", "include/u5e/utf8_iterator.hpp: rewind_to_start_of_codepoint, forward_one_codepoint, rewind_one_codepoint, current_codepoint, operator=="]}
{"id": "C89", "title": "Forward loop over any range of any memory", "statement": "The loop over codepoints from b to e delivers the values along the walk of announced extents, starting with the codepoint b lies in, or runs forever because it reaches a stray continuation octet, or is undefined because no codepoint starts at or before b; it depends on no octet after e and none before the codepoint b lies in.", "quantifier": "every memory of octets up to 0xFD, every range in it with a readable end, both loop styles, any number of steps", "why_tests_cant": "all memories and ranges; non-termination", "anchors": ["include/u5e/utf8_iterator.hpp", "include/u5e/utf8_util.hpp", "examples/simple_iteration.cpp", "examples/normalization_form_d.cpp"]}
{"id": "C90", "title": "Backward loop over any range of any memory", "statement": "The loop from the end back to the beginning delivers the values at the lead octets between them, last first, down to the last lead octet whose announced octets contain the beginning; if there is none, or an extent leaves the memory, it is undefined; it always ends.", "quantifier": "every memory of octets up to 0xFD, every pair of positions", "why_tests_cant": "all memories and positions", "anchors": ["include/u5e/utf8_iterator.hpp", "include/u5e/utf8_util.hpp", "t/003_utf8_encoded_iterator.t.cpp"]}
{"id": "C91", "title": "append(first, last) from any memory", "statement": "Appending the range between two iterators at any octets copies exactly the octets from the codepoint of the first to the codepoint of the last, and is undefined if they are in the wrong order or no codepoint starts at or before one of them.", "quantifier": "every memory of octets up to 0xFD, every pair of positions, every output string", "why_tests_cant": "all memories and positions", "anchors": ["include/u5e/utf8.hpp", "include/u5e/basic_encodedstring.hpp", "include/u5e/utf8_iterator.hpp"]}
{"id": "C92", "title": "std::distance and std::advance count codepoints", "statement": "std::distance between two codepoint iterators of a text is the number of codepoints between them (if it fits an int, the iterators' difference type; otherwise the count overflows), and std::advance by n moves by n codepoints, in either direction.", "quantifier": "every text in UTF-8 or UTF-32, in a string or a view, every pair of positions, every n within the text", "why_tests_cant": "unbounded texts and all pairs of positions in them", "anchors": ["include/u5e/utf8_iterator.hpp", "include/u5e/codepoint.hpp"]}
{"id": "C93", "title": "std::find_if and std::count_if on codepoint iterators", "statement": "std::find/find_if stops at the first codepoint of the range with the property, or at the end of the range if there is none; std::count/count_if counts them.", "quantifier": "every text, every range within it, every predicate", "why_tests_cant": "unbounded texts and all pairs of positions in them", "anchors": ["include/u5e/utf8_iterator.hpp", "include/u5e/codepoint.hpp"]}
{"id": "C94", "title": "std::equal and std::lexicographical_compare compare codepoints", "statement": "std::equal of two ranges, in the same or different encodings, holds exactly if the codepoints are the same, std::lexicographical_compare exactly if the first sequence of codepoints is smaller; for UTF-8 these are the equality and the unsigned order of the octets.", "quantifier": "all pairs of texts, in any of the encodings, all ranges within them", "why_tests_cant": "unbounded texts and all pairs of positions in them", "anchors": ["include/u5e/utf8_iterator.hpp", "include/u5e/codepoint.hpp"]}
{"id": "C95", "title": "std::search finds the first occurrence", "statement": "std::search returns the position of the first occurrence of the codepoints of a text in a text, or the end; an occurrence of the octets of a UTF-8 text in a UTF-8 text is always an occurrence of its codepoints.", "quantifier": "all pairs of texts and ranges within them, in any of the encodings", "why_tests_cant": "unbounded texts and all pairs of positions in them", "anchors": ["include/u5e/utf8_iterator.hpp", "include/u5e/codepoint.hpp"]}
{"id": "C96", "title": "std::reverse_copy reverses the codepoints", "statement": "std::reverse_copy over codepoint iterators delivers exactly the codepoints of the range in reverse order.", "quantifier": "every text, every range within it, every output so far", "why_tests_cant": "unbounded texts and all pairs of positions in them", "anchors": ["include/u5e/utf8_iterator.hpp", "include/u5e/codepoint.hpp"]}
{"id": "C97", "title": "Comparing texts by their normalization forms", "statement": "Two texts whose graphemes, decomposed, have no starter after a mark get the same form D (C, KD, KC) exactly if one can be made from the other by replacing codepoints by the mappings the form applies, back and forth, and by exchanging reorderable pairs of marks; for forms D and C and texts without Hangul syllables this is canonical equivalence.", "quantifier": "every pair of texts of that kind, every form, every sort that keeps the order of equal classes in them (C59)", "why_tests_cant": "all pairs of texts; equivalence is an infinite relation", "anchors": ["include/u5e/normalization_form_d.hpp", "include/u5e/normalization_form_c.hpp", "include/u5e/normalization_form_kd.hpp", "include/u5e/normalization_form_kc.hpp"]}
{"id": "C98", "title": "Graphemes of arbitrary octets", "statement": "Whatever the octets of a UTF-8 string (up to FD, the first not a continuation octet, grapheme_end() reading inside of the string): the grapheme loop delivers the grapheme clusters of the codepoints the codepoint loop delivers, and ends exactly if that loop ends.", "quantifier": "every such octet string, every length, every number of loop steps", "why_tests_cant": "all octet strings, including every kind of malformed text, and loops that never end", "anchors": ["include/u5e/basic_grapheme_iterator.hpp: find_end_of_grapheme, operator==", "include/u5e/utf8_iterator.hpp: operator==", "include/u5e/utf8_util.hpp"]}
{"id": "C99", "title": "Normalization looks at nothing but the graphemes", "statement": "If the grapheme loop over a text delivers certain graphemes, normalizing the text in any form into any output is passing each of these graphemes, as a string of its own, to the form in order and adding up the counts; so texts with the same graphemes, wherever and however they are stored, get the same output and count (or the same undefined behaviour).", "quantifier": "every memory, encoding, range and octets for which the grapheme loop ends, every form, sort, output encoding and previous output", "why_tests_cant": "all pairs of texts in all encodings, including malformed ones", "anchors": ["include/u5e/filter.hpp: filter", "include/u5e/normalization_form_d.hpp", "include/u5e/normalization_form_c.hpp", "include/u5e/normalization_form_kd.hpp", "include/u5e/normalization_form_kc.hpp", "include/u5e/basic_grapheme_iterator.hpp"]}
{"id": "C100", "title": "simple_iteration prints the codepoints of its arguments", "statement": "The program simple_iteration prints one line for each argument, in it \" U+\", a hexadecimal number of at least six digits (no more leading zeros than needed) and a space for each codepoint of the argument in order; so its output tells the arguments. For arguments of arbitrary octets up to FD it prints the codepoints the walk over the octets finds, unless an argument begins with a continuation octet (undefined behaviour) or its walk meets a stray one (the program never ends), whichever argument comes first.", "quantifier": "every number of arguments, every text of codepoints below 2^31 other than U+0000, every octets up to FD", "why_tests_cant": "all argument lists and texts of any length", "anchors": ["examples/simple_iteration.cpp: main", "include/u5e/utf8_iterator.hpp", "include/u5e/utf8_string_view.hpp"]}
{"id": "C101", "title": "grapheme_iteration prints the graphemes of its arguments", "statement": "The program grapheme_iteration prints one line for each argument, in it the codepoints of each grapheme of the argument between brackets; different grapheme lists give different output.", "quantifier": "every number of arguments, every text of codepoints below 2^31 other than U+0000", "why_tests_cant": "all argument lists and texts of any length", "anchors": ["examples/grapheme_iteration.cpp: main", "include/u5e/basic_grapheme_iterator.hpp", "include/u5e/utf8_string_view_grapheme.hpp"]}
{"id": "C102", "title": "The normalization programs print the normalization form of their arguments", "statement": "The programs normalization_form_{c,d,kc,kd} print one line for each argument with the codepoints of its normalization form; the programs normalization_form_{c,d,kc,kd}_utf32 print the form of their input.", "quantifier": "every number of arguments, every Unicode text (UTF-8: without U+0000), every form and admissible sort", "why_tests_cant": "all texts in all forms; the output is encoded and decoded again", "anchors": ["examples/normalization_form_c.cpp: main", "examples/normalization_form_d.cpp: main", "examples/normalization_form_kc.cpp: main", "examples/normalization_form_kd.cpp: main", "examples/normalization_form_c_utf32.cpp: main", "examples/normalization_form_d_utf32.cpp: main", "examples/normalization_form_kc_utf32.cpp: main", "examples/normalization_form_kd_utf32.cpp: main"]}
{"id": "C103", "title": "smallest_code and the truncation programs", "statement": "smallest_code returns the first codepoint of its argument (0 for the empty argument); truncate_on_codepoint, for any text and octet count, prints the longest prefix of whole codepoints that fits; truncate_on_grapheme, for any text and octet count, prints the graphemes in front of the one at the count.", "quantifier": "every text and every octet count in it", "why_tests_cant": "all texts and positions", "anchors": ["examples/smallest_code.cpp: main", "examples/truncate_on_codepoint.cpp: main", "examples/truncate_on_grapheme.cpp: main"]}
{"id": "C104", "title": "Iterators are indexes, in any history of operations", "statement": "A program that holds any number of codepoint and grapheme iterators of a text and makes, copies, moves (prefix and postfix ++ and --), reads and compares them in any order, staying inside of the text, never has undefined behaviour and sees exactly what it would see if a codepoint iterator were an index into the codepoints and a grapheme iterator an index into the graphemes (an iterator made from a position inside of an encoded codepoint included). Two texts with the same codepoints cannot be told apart by such a program, whatever their encodings.", "quantifier": "every text, every number of iterators and every finite history of operations", "why_tests_cant": "all histories", "anchors": ["include/u5e/utf8_iterator.hpp: utf8_const_iterator", "include/u5e/basic_grapheme_iterator.hpp: basic_grapheme_iterator", "include/u5e/basic_grapheme.hpp: basic_grapheme", "include/u5e/basic_encodedstring.hpp: basic_encodedstring"]}
{"id": "C105", "title": "Strings hold texts, in any history of operations", "statement": "A program that holds any number of UTF-8 and UTF-32 strings and clears them, appends codepoints, ranges between any two iterators of any of them, ranges of graphemes, whole UTF-32 strings and normalization forms of other strings, assigns through iterators and reads codepoints and graphemes, in any order, writing into UTF-8 strings only codepoints the encoder handles (C19), only ASCII graphemes (C26) and through iterators only codepoints of the old length (C24), never has undefined behaviour, always terminates, sees the texts it would see if the strings were lists of codepoints, and every UTF-8 string is well formed at the end.", "quantifier": "every number of strings, every choice of encodings and every finite history of operations", "why_tests_cant": "all histories", "anchors": ["include/u5e/basic_encodedstring.hpp: basic_encodedstring", "include/u5e/filter.hpp: filter", "include/u5e/normalization_form_c.hpp: normalization_form_c", "include/u5e/utf8_iterator.hpp: utf8_iterator"]}
{"id": "C106", "title": "Which texts are normalized as the standard says, told by neighbours", "statement": "With the sort of libstdc++ and graphemes that decompose to at most 16 codepoints: normalization_form_d writes the NFD of a text exactly if the text has no Hangul syllable and no codepoint that begins with a starter, attaches to what stands before it (Extend, ZWJ, SpacingMark, or E_Modifier after Extend) and stands right after a codepoint that ends with a mark. The same condition on neighbours decides NFC, NFKD and NFKC together with the conditions of C50, C55, C56, decides whether forms D and C stay canonically equivalent to the input and, for the output, whether a second pass changes nothing. A text that meets it can be changed by a second pass.", "quantifier": "every text, in every encoding, all four forms", "why_tests_cant": "all texts", "anchors": ["include/u5e/normalization_form_d.hpp: normalization_form_d", "include/u5e/normalization_form_c.hpp: normalization_form_c", "include/u5e/basic_grapheme_iterator.hpp: find_grapheme_end", "include/u5e/canonical_decomposition.hpp: canonical_decomposition"]}
{"id": "C107", "title": "Threads do not disturb each other, in any schedule", "statement": "Threads that write only to their own strings and read only these and strings nobody writes to, and threads that use their own iterators on one shared text, see in every schedule exactly what each sees when it runs alone, and their strings end as they end alone; the shared strings stay as they are; nothing goes wrong in the schedule exactly if nothing goes wrong in any thread alone. So threads that each keep to what C104 and C105 allow see the right texts in every schedule, and the order in which they take turns does not matter.", "quantifier": "every number of threads, every programs of the threads, every schedule of their operations, all contents of the strings", "why_tests_cant": "all schedules", "anchors": ["include/u5e/basic_encodedstring.hpp: basic_encodedstring", "include/u5e/basic_grapheme_iterator.hpp: basic_grapheme_iterator", "src/u5e/props/canonical_combining_class.cpp: resolve", "include/u5e/filter.hpp: filter"]}
{"id": "C108", "title": "The generated headers compile to the right tables", "statement": "From a UnicodeData.txt, CompositionExclusions.txt and GraphemeBreakProperty.txt of the usual form, the generators write headers that a C++ compiler accepts between the braces of the tables, and from which it reads exactly the rows of C72-C75: every number is read back as the number it was (none as octal), every row ends where it should, every name is an enumerator. So the lookups in the compiled tables give what the files say, and the headers made of the files of Unicode 9.0 compile to the tables in the repository.", "quantifier": "every content of the files in the usual form with numbers that fit an int, every order in which Perl returns the keys of its hashes", "why_tests_cant": "all contents of the files and all hash orders", "anchors": ["src/u5e/props/canonical_combining_class_data.pl", "src/u5e/props/canonical_decomposition_mapping_data.pl", "src/u5e/props/compatibility_and_canonical_decomposition_mapping_data.pl", "src/u5e/props/canonical_composition_mapping_data.pl", "src/u5e/props/grapheme_cluster_break_data.sh"]}
{"id": "C109", "title": "Texts without two marks in a row are normalized as the standard says", "statement": "If the full decomposition of a text (with the mappings the form uses) has no two combining marks in a row and no neighbouring parts of a Hangul syllable, and no codepoint that attaches to what stands before it and begins with a starter follows a codepoint that ends with a mark, then normalization_form_d (kd) appends exactly that decomposition, normalization_form_c appends the NFC of the text, and normalization_form_kc appends the NFKC exactly if no compatibility mapping is left to apply. With two marks in a row form C can be wrong.", "quantifier": "every text of any length meeting the condition, any conforming std::sort that keeps equal classes in order in the text's graphemes (libstdc++'s does up to 16 codepoints), whose decomposition's length fits into an int", "why_tests_cant": "infinitely many texts and combinations of letters and marks; the condition is on the input, so no run has to be inspected", "anchors": ["include/u5e/normalization_form_c.hpp:normalization_form_c", "include/u5e/normalization_form_kc.hpp:normalization_form_kc", "include/u5e/canonical_composition.hpp:canonical_composition"]}
{"id": "C110", "title": "Texts of low codepoints pass normalization unchanged", "statement": "With the sort of libstdc++, a text of codepoints below U+0300 is its own NFC and normalization_form_c appends it unchanged (to a UTF-8 or UTF-32 string) and counts its codepoints; the same for normalization_form_d and NFD below U+00C0, and for normalization_form_kd, normalization_form_kc and NFKD, NFKC below U+00A0 (so all ASCII text, with CR LF, passes all four forms). The bounds cannot be moved.", "quantifier": "every text of any length of codepoints below the bound, whose decomposition's length fits into an int", "why_tests_cant": "infinitely many texts; no finite set of strings covers all neighbours", "anchors": ["include/u5e/normalization_form_c.hpp:normalization_form_c", "include/u5e/normalization_form_d.hpp:normalization_form_d", "include/u5e/normalization_form_kd.hpp:normalization_form_kd", "include/u5e/normalization_form_kc.hpp:normalization_form_kc"]}
{"id": "C111", "title": "Forms D and C keep the graphemes of a text", "statement": "Let no emoji modifier in a text directly follow a ZWJ, a Glue_After_Zwj, another emoji modifier or a codepoint that is, or decomposes into something with, an Extend or a SpacingMark. Then the graphemes (as this library divides texts) of what normalization_form_d or normalization_form_c writes to a UTF-32 string are, in order and one to one, what the same function writes of each grapheme of the text alone; there are as many as in the text. If moreover the graphemes expand to at most 16 codepoints each, then running form D or C on the result of form D or C gives what it gives of the text itself, so that each of the two is idempotent. No part of the condition can be dropped, and the compatibility forms do not have the property.", "quantifier": "every text of any length and encoding that meets the condition, both forms, every sort std::sort allows that keeps ties in the graphemes", "why_tests_cant": "infinitely many texts; the claim depends on all class and decomposition data at once", "anchors": ["include/u5e/normalization_form_d.hpp:normalization_form_d", "include/u5e/normalization_form_c.hpp:normalization_form_c", "include/u5e/basic_grapheme_iterator.hpp:is_grapheme_boundary", "include/u5e/normalize.hpp:normalize"]}
{"id": "C112", "title": "Canonically equivalent texts have equivalent graphemes", "statement": "If two strings, each UTF-8 or UTF-32, hold canonically equivalent texts, and no emoji modifier in the first directly follows a codepoint whose full decomposition holds an Extend or a SpacingMark, then iterating both by graphemes gives equally many graphemes, and each grapheme of the one is canonically equivalent to the corresponding grapheme of the other; the converse holds too, and the second string meets the condition as well. So counting, comparing and truncating by graphemes does not depend on how the text is spelt. Without the condition it is false (U+00E9 U+1F3FB against U+0065 U+0301 U+1F3FB).", "quantifier": "every pair of canonically equivalent texts of any length, in any encoding", "why_tests_cant": "infinitely many pairs of texts; depends on every decomposition mapping, every combining class and every grapheme break value", "anchors": ["include/u5e/basic_grapheme_iterator.hpp:is_grapheme_boundary", "include/u5e/basic_grapheme_iterator.hpp:operator++", "include/u5e/props/grapheme_cluster_break.hpp:resolve"]}
{"id": "C113", "title": "Running out of memory while normalizing leaves the output in a known state", "statement": "If an append of a string throws (bad_alloc, length_error) at any point of filter(s.grapheme_begin(), s.grapheme_end(), output, form), for any of the four forms, the exception leaves the call and the output holds its old contents followed by: with a UTF-32 output, the forms of some number of leading graphemes, each whole, and not all of them; with a UTF-8 output, the encoding of some number of leading codepoints of the complete result, and not all of them - so never part of a codepoint, but possibly part of a grapheme's form. Which number follows from the first append that fails (one append for each codepoint read, and one for each grapheme, resp. codepoint, written), and any number of graphemes is possible, so the output is not restored. If no append fails the result is as without exceptions. filter passes on the exception of any operation, at the first element on which it throws, after calling it on all elements before and on none after it. append_from_utf32ne alone is all or nothing for UTF-32, and codepoint by codepoint for UTF-8.", "quantifier": "every text, output, form, allowed sort, and every pattern of memory allocation failures (every crash point)", "why_tests_cant": "the failure can come at any append, and texts, contents and failure patterns are unbounded; a test would need a failing allocator for each point", "anchors": ["include/u5e/filter.hpp: filter", "include/u5e/codepoint_decomposition.hpp: codepoint_decomposition", "include/u5e/normalization_form_d.hpp: normalization_form_d", "include/u5e/normalization_form_kd.hpp: normalization_form_kd", "include/u5e/normalization_form_c.hpp: normalization_form_c", "include/u5e/normalization_form_kc.hpp: normalization_form_kc", "include/u5e/utf8.hpp: append_from_utf32ne", "include/u5e/utf32ne.hpp: append_from_utf32ne", "include/u5e/basic_encodedstring.hpp: append"]}
{"id": "C114", "title": "Iterating graphemes and normalizing take work linear in the text", "statement": "Counting each ==, !=, *, ++ and -- on a codepoint iterator of the text as one: a loop from grapheme_begin to grapheme_end over a text of n codepoints (filter with an operation that does not touch the text) makes 7n+4g+8 of them if it has g graphemes, and normalizing the text with any of the four forms 10n+5g+8 (5 if the text is empty), so at most 15n+8, wherever the grapheme boundaries lie - however long a grapheme is, no part of the text is scanned more than a fixed number of times. Comparing two grapheme iterators with == takes 3 operations when they stand on the same grapheme; when they stand on different graphemes of a and b codepoints it takes a(3b+4)+2, which is not linear.", "quantifier": "every text of any length in either encoding (strings, and views that end at a boundary), every form, output and sort; every pair of graphemes for the comparison", "why_tests_cant": "a cost bound is about all text lengths and shapes at once; a test times a few texts, and a single very long grapheme is what makes rescanning show", "anchors": ["include/u5e/basic_grapheme_iterator.hpp: basic_grapheme_iterator (find_end_of_grapheme, find_start_of_grapheme, operator++, operator==)", "include/u5e/filter.hpp: filter", "include/u5e/normalization_form_c.hpp: normalization_form_c", "include/u5e/normalization_form_d.hpp: normalization_form_d"]}
{"id": "C115", "title": "A UTF-8 string normalized into a UTF-8 string can be read, compared and normalized again", "statement": "Let a utf8_string holding Unicode codepoints be normalized into an empty utf8_string. If every codepoint of the form lies in U+0001-7FF, U+2000-FFFF or U+80000-10FFFF (and only then) the output is the UTF-8 encoding of the form: iterating it yields the codepoints of the form, and grapheme iteration its graphemes. Then, for forms D and C: if emoji modifiers are placed as in C111 and the sort keeps ties, the graphemes of the output are the forms of the graphemes of the input, one to one; normalizing the output again (libstdc++'s sort, graphemes expanding to at most 16 codepoints) gives the same octets and the same count; and two strings without Hangul syllables, in whose decomposed graphemes no starter follows a mark, are normalized to the same octets exactly if their texts are canonically equivalent.", "quantifier": "every text of any length, every allowed sort; pairs of texts for the comparison; the four forms for reading back", "why_tests_cant": "the octets of the output pass through encoding, decoding, grapheme division and the tables again; tests try a few literals, and all texts and pairs of texts are meant", "anchors": ["include/u5e/utf8.hpp: append_from_utf32ne", "include/u5e/utf8_iterator.hpp: utf8_const_iterator", "include/u5e/normalization_form_c.hpp: normalization_form_c", "include/u5e/normalization_form_d.hpp: normalization_form_d", "include/u5e/basic_grapheme_iterator.hpp: basic_grapheme_iterator"]}
{"id": "C116", "title": "How many octets the UTF-8 iterators read", "statement": "Counting one for each octet read: at a position p whose closest non-continuation octet is q, ++ and == each read p-q+3 octets, -- reads p-q'+2 where q' is the start it moves to, * reads one octet of an ASCII codepoint, one more than its length at the start of another codepoint, and p-q+2 more than the length announced at q from inside it. This holds at any position of any memory where the operation is defined; on malformed octets there is no bound (a run of n continuation octets is walked over). utf8_bounds::check never reads more than 7 octets. Reading a valid text of n codepoints, m octets and a ASCII codepoints forwards reads exactly 7n+m+3-a octets, backwards 6n+2m+3-a. Iterating its graphemes reads at most (2l+1)(11n+8) octets and normalizing it at most (2l+1)(15n+8), l being the length of the longest codepoint.", "quantifier": "every position of every memory; every valid text of any length, every form, sort and output", "why_tests_cant": "the number of octets read is no result of the API; that it grows linearly on all texts is a statement about all lengths", "anchors": ["include/u5e/utf8_iterator.hpp: rewind_to_start_of_codepoint, forward_one_codepoint, rewind_one_codepoint, current_codepoint, operator==", "include/u5e/utf8_bounds.hpp: check", "include/u5e/basic_grapheme_iterator.hpp: basic_grapheme_iterator", "include/u5e/filter.hpp: filter"]}
{"id": "C117", "title": "Lookups and std::sort take logarithmic and n log n time", "statement": "A lookup in a property table makes at most k row comparisons if the table has fewer than 2^k rows, whatever the rows and their order: at most 10 for the combining class, 12 for either decomposition, 10 for a composition, 11 for the grapheme break value (and each number is reached). Sorting a codepoint string of n codepoints by combining class with libstdc++'s std::sort calls the comparator at most n*(7*log2 n+16) times.", "quantifier": "every codepoint value and pair; every table of any size; every string of any length", "why_tests_cant": "the worst case of a sort over all strings of all lengths cannot be found by trying strings; the number of comparisons is no result of the API", "anchors": ["src/u5e/props/canonical_combining_class.cpp: resolve", "src/u5e/props/canonical_decomposition_mapping.cpp: resolve", "src/u5e/props/compatibility_and_canonical_decomposition_mapping.cpp: resolve", "src/u5e/props/canonical_composition_mapping.cpp: resolve", "src/u5e/props/grapheme_cluster_break.cpp: resolve", "include/u5e/canonical_combining_order.hpp: canonical_combining_order"]}
{"id": "C118", "title": "The whole work of normalization is n log n", "statement": "Count, for filter over the graphemes of a text with one of the four forms and libstdc++'s sort, each operation on a codepoint iterator of the text, each table lookup (two for each call of the sort's comparator) and each codepoint copied into a string. For n codepoints in g graphemes, whose graphemes decompose to d1..dg codepoints, the work is at most 13n+5g+8+sum of di*(14*log2 di+35), so at most n*(98*log2(7n)+263)+8 for any text, and linear (n*(98*log2(7M)+263)+8) where no grapheme has more than M codepoints. Into any output, whatever its encoding; into a UTF-32 output the run does end.", "quantifier": "every text of any length in any encoding, valid or malformed, every form, every output", "why_tests_cant": "a worst case over all texts of all lengths; the work is no result of the API", "anchors": ["include/u5e/filter.hpp: filter", "include/u5e/normalization_form_d.hpp: normalization_form_d", "include/u5e/normalization_form_c.hpp: normalization_form_c", "include/u5e/normalization_form_kd.hpp: normalization_form_kd", "include/u5e/normalization_form_kc.hpp: normalization_form_kc", "include/u5e/canonical_composition.hpp: canonical_composition", "include/u5e/codepoint_decomposition.hpp: codepoint_decomposition", "include/u5e/basic_grapheme_iterator.hpp: basic_grapheme_iterator"]}
{"id": "C119", "title": "Reverse iteration yields the codepoints from the last to the first", "statement": "With std::reverse_iterator over the codepoint iterators of a string (the typedefs reverse_iterator and const_reverse_iterator), the loop from the end to the beginning yields the codepoints of the text in reverse order; ++, -- and == step and compare accordingly, and the standard algorithms over them (find_if, count_if, equal, search, reverse_copy, distance) treat the reversed text; a store through a reverse iterator of a utf32ne string replaces one codepoint. FALSE for reading through *r on UTF-8 strings: operator* of std::reverse_iterator returns a reference to a dead temporary; reading through base() works in both encodings.", "quantifier": "every text in either encoding, valid or malformed-but-safe, with anything before and after it in memory; every predicate and pattern", "why_tests_cant": "reversal must hold for all texts; a dangling reference may appear to work in a test run", "anchors": ["include/u5e/basic_encodedstring.hpp: reverse_iterator, const_reverse_iterator", "include/u5e/utf8_iterator.hpp: reference, operator*, operator--", "include/u5e/utf32ne.hpp: iterator"]}
{"id": "C120", "title": "Whether char is signed does not matter", "statement": "On a platform where plain char is unsigned every function on UTF-8 octets (the classification of octets, all iterator operations, check and enforce, writing a codepoint, append, append_from_utf32ne) and everything built on them (loops, grapheme iteration, the four normalization forms, from and into UTF-8) has the same result, undefined behaviour and endless loops included, as where it is signed.", "quantifier": "both kinds of platform; every memory of octets; every position; every codepoint value; every fuel", "why_tests_cant": "tests run on one kind of platform; the property is about all 256 octets in all contexts on two", "anchors": ["include/u5e/utf8_util.hpp: is_7bit_character, is_codepoint_continuation, is_codepoint_start, codepoint_size", "include/u5e/utf8_iterator.hpp: utf8_iterator_base, utf8_const_iterator, utf8_iterator, proxyobject", "include/u5e/utf8_bounds.hpp: check, enforce", "include/u5e/utf8.hpp: append_from_utf32ne"]}
{"id": "C121", "title": "The lookups do not depend on the C library", "statement": "The tables are arrays that the C standard allows bsearch to be called with, whatever is looked up, and with any bsearch that does what the C standard says every lookup (combining class, both decompositions, composition, grapheme break) has the same result.", "quantifier": "every bsearch function that meets the contract of C11 7.22.5.1; every codepoint value and pair", "why_tests_cant": "quantifies over all implementations of bsearch and all ints", "anchors": ["src/u5e/props/canonical_combining_class.cpp: resolve", "src/u5e/props/canonical_decomposition_mapping.cpp: resolve", "src/u5e/props/compatibility_and_canonical_decomposition_mapping.cpp: resolve", "src/u5e/props/canonical_composition_mapping.cpp: resolve", "src/u5e/props/grapheme_cluster_break.cpp: resolve"]}
{"id": "C122", "title": "A text is normalized and cut into graphemes line by line", "statement": "If a text is lines with a separator between them (the line feed or a codepoint of class Control), then what a form writes for it is the forms of the lines, each alone, with the same separator between them, and those are exactly the lines of the output: as many come out as go in. No grapheme crosses the end of a line, except that CR LF is one grapheme; the graphemes of the text are those of its lines and the separators.", "quantifier": "every text, every separator, the four forms, every implementation of std::sort (that keeps CR LF, when the separator is the line feed)", "why_tests_cant": "unbounded texts and all implementations of std::sort", "anchors": ["include/u5e/normalization_form_c.hpp: normalization_form_c", "include/u5e/normalization_form_d.hpp: normalization_form_d", "include/u5e/normalization_form_kc.hpp: normalization_form_kc", "include/u5e/normalization_form_kd.hpp: normalization_form_kd", "include/u5e/basic_grapheme_iterator.hpp: basic_grapheme_iterator"]}
{"id": "C123", "title": "A text that arrives in pieces", "statement": "A program that is handed a text in pieces, keeps its last grapheme back and normalizes the others at once writes exactly what normalizing the whole text writes, with the same count, however the text is cut; for UTF-8 also when pieces end inside of a codepoint, if utf8_bounds::check tells it when to wait and the octets stand behind an ASCII character (without that check accepts the first octets of a codepoint, and text is lost). All graphemes of a text but the last stay graphemes whatever follows.", "quantifier": "every text and every division of it into pieces of codepoints or octets, the four forms, both output encodings, every implementation of std::sort", "why_tests_cant": "unbounded texts and all ways to cut them", "anchors": ["include/u5e/filter.hpp: filter", "include/u5e/basic_grapheme_iterator.hpp: basic_grapheme_iterator", "include/u5e/utf8_bounds.hpp: utf8_bounds::check", "include/u5e/normalization_form_c.hpp: normalization_form_c", "include/u5e/normalization_form_d.hpp: normalization_form_d", "include/u5e/normalization_form_kc.hpp: normalization_form_kc", "include/u5e/normalization_form_kd.hpp: normalization_form_kd"]}
{"id": "C124", "title": "Searching a text irrespective of spelling", "statement": "If a text and a word are normalized into form D (or C) and the second output is looked for in the first, then the occurrences that begin and end between graphemes are exactly the runs of graphemes of the text as it was that are canonically equivalent to the word, at the same grapheme numbers (for texts without Hangul syllables in whose graphemes no starter follows a mark when decomposed, and whose emoji modifiers are placed as in C111; with Hangul syllables the same, up to canonical equivalence that leaves these syllables as they are). Occurrences that end inside of a grapheme are not: e in the form D of e with acute.", "quantifier": "every text and word, forms D and C, every place, every implementation of std::sort that keeps ties in them", "why_tests_cant": "unbounded texts, words and positions", "anchors": ["include/u5e/normalization_form_c.hpp: normalization_form_c", "include/u5e/normalization_form_d.hpp: normalization_form_d", "include/u5e/basic_grapheme_iterator.hpp: basic_grapheme_iterator", "include/u5e/filter.hpp: filter"]}
{"id": "C125", "title": "How many octets a normalized text takes in UTF-8", "statement": "Encoded in UTF-8, normalization form D and C of a text take at most three times, form KD and KC at most six times, as many octets as the text; form C never takes more octets than form D, nor KC than KD. A UTF-8 string normalized into an empty UTF-8 string therefore grows at most by that factor whenever every codepoint of the result is one the library encodes. Three is attained (also in form C), and five is not enough for KD and KC.", "quantifier": "every text with normal counts, every delimited source of codepoints, every sort meeting std::sort's contract", "why_tests_cant": "the bound holds for every text of every length; a test measures one text", "anchors": ["include/u5e/normalization_form_d.hpp: normalization_form_d", "include/u5e/normalization_form_c.hpp: normalization_form_c", "include/u5e/normalization_form_kd.hpp: normalization_form_kd", "include/u5e/normalization_form_kc.hpp: normalization_form_kc", "include/u5e/utf8.hpp: append_from_utf32ne"]}
{"id": "C126", "title": "std::mismatch, adjacent_find, copy_if and unique_copy work on codepoints", "statement": "On two texts in the same or different encodings std::mismatch returns the iterators to where their codepoints first differ or one text ends; for UTF-8 texts that is the codepoint in which their octets first differ. std::adjacent_find finds the first codepoint that is repeated; std::copy_if (copy, remove_copy_if) into a back_inserter appends exactly the codepoints with the property in their order, std::unique_copy the text with every run of one codepoint reduced to one.", "quantifier": "all texts in either encoding as string or view, all ranges in them, all predicates", "why_tests_cant": "every text of every length in every mix of encodings; a test tries some pairs", "anchors": ["include/u5e/utf8_iterator.hpp: utf8_iterator, utf8_const_iterator", "include/u5e/utf8_util.hpp", "include/u5e/codepoint.hpp", "include/u5e/basic_encodedstring.hpp"]}
{"id": "C127", "title": "Quotes, separators and fields pass normalization", "statement": "No normalization form makes or removes a quotation mark, bracket, brace, backslash, at sign, ampersand or another of the characters into which no codepoint decomposes: they stand in the output as often as in the text. For forms D and C the same holds of every printable ASCII character that is no letter, semicolon, grave accent or < = >; a semicolon also comes from U+037E, a grave accent from U+1FEF. A text of fields with a printable ASCII character between them, none of which begins with an attaching codepoint or ends with a Prepend, is normalized field by field, and if nothing in it decomposes into the separator the fields of the output are the forms of the fields. The counts also hold octet by octet for the UTF-8 output, even where the encoder writes other octets than the encoding: what it writes for a non-ASCII codepoint has no ASCII octet but NUL.", "quantifier": "every text, every list of fields, every separator in printable ASCII, the four forms, every implementation of std::sort", "why_tests_cant": "unbounded texts and numbers of fields; every codepoint could be the one that turns into the separator", "anchors": ["include/u5e/normalization_form_c.hpp: normalization_form_c", "include/u5e/normalization_form_d.hpp: normalization_form_d", "include/u5e/normalization_form_kc.hpp: normalization_form_kc", "include/u5e/normalization_form_kd.hpp: normalization_form_kd", "src/u5e/props"]}
{"id": "C128", "title": "std::string's own comparison and search work on codepoints of UTF-8 text", "statement": "compare, == and < of the native strings of two UTF-8 texts order the texts by their codepoints and tell whether they are equal, as std::lexicographical_compare on their codepoint iterators does. find from any octet returns where the first occurrence of the other text, as codepoints, begins at that octet or later, and rfind up to any octet where the last one begins at that octet or before; npos if there is none. So find never stops inside a codepoint and agrees with std::search on the codepoint iterators. Comparing a part of one text at its beginning or end with another tells whether the other is a prefix or suffix of the codepoints. Nothing outside the two strings is read.", "quantifier": "every two texts, every start octet; for compare, == and < also every two octet strings", "why_tests_cant": "that no octet sequence of a text is mistaken for another is a statement about all texts and all offsets", "anchors": ["include/u5e/basic_encodedstring.hpp: basic_encodedstring::native_string", "include/u5e/utf8_string.hpp: utf8_string", "include/u5e/utf8_iterator.hpp: utf8_iterator"]}
{"id": "C129", "title": "Editing a UTF-8 text with std::string's functions", "statement": "replace, insert, erase and substr of the native string of a UTF-8 text, at octets where codepoints begin, give the UTF-8 text of the same edit of the codepoints; a client finds these octets by advancing a codepoint iterator, or takes the two ends of a grapheme from a grapheme iterator and so replaces, removes or copies that grapheme. The usual loop of find and replace terminates and gives the text with every occurrence, from the left and without overlap, replaced; each iteration starts where the last replacement ended. Inside a codepoint the functions leave octets that are no text.", "quantifier": "every text, every replacement, every two codepoint positions, every nonempty text searched for", "why_tests_cant": "it must hold for all texts and positions, and for any number of occurrences", "anchors": ["include/u5e/basic_encodedstring.hpp: basic_encodedstring::native_string", "include/u5e/utf8_string.hpp: utf8_string"]}
{"id": "C130", "title": "Splitting a UTF-8 text at a separator", "statement": "The usual loop of find and substr on the native string of a UTF-8 text, with a separator of one codepoint, terminates and gives exactly the pieces of the text between the separators, each as UTF-8 text; joining them with the separator's octets gives the string back. A text of fields that is normalized in UTF-8 and then split gives the normalized fields, under the conditions of C127 and if the encoder handles the output.", "quantifier": "every text, every separator codepoint, every number and length of pieces; for the last sentence the four forms and every implementation of std::sort", "why_tests_cant": "it must hold for all texts and separators", "anchors": ["include/u5e/basic_encodedstring.hpp: basic_encodedstring::native_string", "include/u5e/utf8_string.hpp: utf8_string", "include/u5e/filter.hpp: filter"]}
