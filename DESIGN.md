# Formal model of ruoso/u5e in Rocq (Coq 8.16.1)

Contents: 1 how the code is modelled, 2 which code is modelled by what, 3 trusted base,
4 what is not modelled, 5 the specifications, 6 plan per property, 7 findings.

## 1. Modelling decisions

* **Outcomes.** Every modelled operation returns `res A`: `Ok a`, `UB u` (undefined
  behaviour, with the kind: read/write/pointer out of bounds, `__builtin_clz(0)`, shift,
  integer overflow, float-to-int conversion), or `OutOfFuel` (a loop that has not finished
  within the given number of iterations).  "Does not terminate" is stated as "`OutOfFuel`
  for every amount of fuel"; "terminates" as "there is an `n` such that for every fuel
  `>= n` the result is ...".
* **Memory and iterators.** A buffer is a `list Z` of octets 0..255 (or of `int`s), an
  iterator is an index into it.  Reading outside the buffer, or *forming* a pointer
  outside `[0, size]`, is `UB`.  A `std::string s` is the buffer `s ++ [0]` with end
  index `length s` (the terminator is readable); a `string_view` is a window into a
  bigger buffer, and theorems about views quantify over the memory before and after it.
* **char** is signed (x86-64), promoted to int before bit operations; `<<` on a negative
  int has gcc's documented meaning (C++14 leaves it undefined).
* **Float arithmetic** in `encoded_size` is computed with the standard library's
  `SpecFloat` (binary32, round to nearest even), then related to integer arithmetic by a
  proof.
* **bsearch** is glibc's binary search over the data tables, which are transcribed
  mechanically from the `*_data.hpp` files (`tools/gen_tables.py`).  The specification
  tables are transcribed independently from `UnicodeData.txt`,
  `GraphemeBreakProperty.txt`, `CompositionExclusions.txt`.
* **std::sort** appears in two ways: as a parameter `sort` constrained only by what the C++
  standard guarantees (`std_sort_ok`: a permutation, no element before a lesser one), which
  all normalization theorems quantify over; and as libstdc++ 13's introsort, modelled line
  by line in `StdSortModel.v` from `bits/stl_algo.h`/`bits/stl_heap.h`, of which C58 proves
  that it satisfies the contract and C59 when it keeps ties.
* **Generic code over codepoint iterators** (graphemes, filter, normalization) is modelled
  once over a record `cp_ops` of iterator operations with two instances, UTF-8 octets
  (`utf8_ops`) and UTF-32 ints (`utf32_ops`).
* **Counts** (`int` return values summed by `filter`) overflow to `UB`; the normalization
  theorems carry the hypothesis `count_fits` (the total fits an `int`).
* **Perl and shell table generators** are modelled at the level of lines of text (lists of
  `ascii`).  Perl's unspecified hash order is an oracle `ord` that the theorems quantify
  over (`some_order`: a permutation at each `keys` call).  `GenModel.v` gives the rows, `GenHeaderModel.v` the
  characters of the `.hpp`; C108 shows that a C++ compiler reads these rows from these characters.  In `sort -k2 -n | ...` of the shell script ties are broken by
  insertion order (no two lines of a file with disjoint ranges tie).

## 2. Code -> model

Every definition carries a comment with file and lines.

| code | model |
|------|-------|
| `include/u5e/utf8_util.hpp`, `utf8_iterator.hpp`, `utf8_bounds.hpp` | `Utf8Model.v` |
| `src/u5e/props/*.cpp`, `include/u5e/props/*.hpp`, `canonical_combining_order.hpp` | `PropsModel.v`, tables in `DataTables.v` |
| `basic_grapheme_iterator.hpp`, `basic_grapheme.hpp`, `filter.hpp`, `codepoint_decomposition.hpp`, `canonical_decomposition.hpp`, `compatibility_and_canonical_decomposition.hpp`, `canonical_composition.hpp`, `utf8.hpp`, `utf32ne.hpp`, `basic_encodedstring.hpp` (`append`, `append_from_utf32ne`, `grapheme_begin/end`, `codepoint_begin/end`), `normalization_form_{d,kd,c,kc}.hpp`, loops of `examples/*.cpp` | `TextModel.v` |
| libstdc++ 13 `std::sort` | `StdSortModel.v` |
| `filter.hpp`, `codepoint_decomposition.hpp`, the four forms, `append_from_utf32ne` when `std::basic_string::append` may throw | `AllocModel.v` |
| `basic_grapheme_iterator.hpp`, `filter.hpp`, the four forms, with a count of codepoint iterator operations | `CostModel.v` (proved to erase to `TextModel.v`; table lookups, std::sort, composition and appends not counted) |
| `utf8_iterator.hpp`, `utf8_bounds.hpp` (check), and the functions above, with a count of octets read | `OctetCostModel.v` (the iterator operations and check are proved to erase to `Utf8Model.v`; comparisons of native iterators are not counted) |
| `basic_encodedstring.hpp` typedefs `reverse_iterator`, `const_reverse_iterator`: libstdc++ 13 `std::reverse_iterator` over the codepoint iterators | `ReverseModel.v` |
| `utf8_util.hpp`, `utf8_iterator.hpp`, `utf8_bounds.hpp`, `append_from_utf32ne`, `append`, for signed or unsigned `char` | `CharModel.v` |
| client programs that normalize a text in pieces with the modelled calls | `StreamModel.v` |
| the five `resolve` with any `bsearch`; musl's `bsearch` (from memory, as an instance) | `LibcModel.v` |
| bsearch(3) and the five `resolve`; libstdc++ 13 `std::sort`, with a count of comparisons | `WorkModel.v`, `SortCostModel.v` (proved to erase to `PropsModel.v`, `StdSortModel.v`) |
| `basic_grapheme_iterator.hpp`, `filter.hpp`, the four forms, with a count of iterator operations, lookups, sort comparisons and codepoints copied | `WorkModel.v` (proved to erase to `TextModel.v` with libstdc++'s sort; arithmetic on single codepoints and the element moves of std::sort not counted) |
| `src/u5e/props/*_data.pl`, `grapheme_cluster_break_data.sh` | `GenModel.v`, `GenHeaderModel.v` |
| libstdc++ 13 `std::distance`, `advance`, `find_if`, `count_if`, `equal`, `lexicographical_compare`, `search`, `reverse_copy`, as instantiated with the codepoint iterators (client code) | `AlgoModel.v` |
| the same for `std::mismatch`, `adjacent_find`, `copy_if`, `unique_copy` | `Algo2Model.v` |
| `std::string`'s `compare`, `==`, `<`, `find`, `rfind`, `compare` of a part on `native_string` (libstdc++ 13) | `NativeModel.v`, `NativeModel2.v` |
| `std::string`'s `replace`, `insert`, `erase`, `substr`, and a client's find-and-replace and splitting loops | `EditModel.v` |
| `examples/*.cpp` (`strlen` and `printf` included) | `ExamplesModel.v` |
| client programs: histories of iterator operations, of string operations | `HistoryModel.v`, `StringHistoryModel.v` |
| client programs: threads that take turns | `ScheduleModel.v` |

## 3. Trusted base

* Coq 8.16.1's kernel, including its `vm_compute` reduction (used for sweeps over the
  tables and over the 256 octets; every such sweep is lifted to a `forall` by a proof).
* `Print Assumptions` of each theorem in `MANIFEST.json` prints *Closed under the global
  context*: no axioms at all, neither ours nor the standard library's.  (The list of axioms
  merely *loaded* contains seven fields `Coq.ssr.ssrunder.Under_rel.*`: the standard library's
  `Lia`/`ZArith` load that module; no theorem depends on them.)
* That the model is the code: the definitions of the model files of section 2, by inspection.  As
  evidence, `RepoTests.v` evaluates every behavioural assertion of the repository's own unit
  tests (`t/002` to `t/019`) in the model; all of them hold.
* `tools/gen_tables.py` for `DataTables.v`/`UcdTables.v` (parsing only: hex to decimal).
  C76 relates the two: the tables of the repository are what the modelled generators
  produce from any files with the contents of `UcdTables.v`.
* The specification files listed in section 5.
* gcc/x86-64 choices: arithmetic on 32-bit `int`, `<<` of negative values and into the sign bit (signed
  `char` and glibc's `bsearch` are choices of the model too, but C120 and C121 show that they do not
  matter); `std::string` keeps a readable NUL after its characters (this is also
  what C++11 guarantees).

## 4. Not modelled

* `iterator_assertion.hpp`, `encoding_assertion.hpp`, `codepoint_traits.hpp`, the typedef
  headers and `version.hpp`: compile-time only, no input-dependent behaviour.
  `codepoint.hpp` is an `int` in a struct: the model uses the `int`.
* `basic_encodedstring::operator=` (lines 105-108): does not compile when instantiated
  (assigns an encoded string to a native string, no return); nothing to model.  Likewise
  `*a = *b` between two proxy objects (ambiguous/deleted).
* `std::reverse_iterator::operator->` and `operator[]` (the `reverse_iterator` typedefs are modelled, C119).
* An iterator kept while the string it points into grows (invalidated, undefined in C++), and a
  normalization whose output is the string its input iterators point into (likewise).
* Memory allocation failure outside the appends of C113 (the strings a client itself creates), that
  `std::basic_string::append` has the strong guarantee (assumed), positions beyond `ptrdiff_t`, locale.  Threads that race (two threads
  use a string and one writes to it: undefined behaviour in C++); without races an operation can be taken as
  one step, which is what C107 does.  Appending to a string a range of the same string is
  modelled as the C++ standard says: `append(first, last)` appends a copy of the range.  In the examples: what was already printed when a program runs into undefined
  behaviour or an endless loop, failure of the output, missing arguments of `smallest_code`.

## 5. Specifications

Small files that do not mention the model's helpers (except the type of buffers and `cp_ops`
to say where a text lies):
`RangeSpec.v`, `MemSpec.v` (what the octets at a position amount to), `Utf8Spec.v` (RFC 2279 encoding, what an octet announces, stray/cut octets),
`UnicodeSpec.v` (properties as in the UCD files, Hangul arithmetic, full expansion),
`GraphemeSpec.v` (the pairwise rules and the rules GB1-GB999 of UAX #29 revision 29,
what a segmentation is), `TextSpec.v` (where a text lies in memory), `NormSpec.v` (canonical
ordering, NFD/NFC/NFKD/NFKC, canonical equivalence, from UAX #15), `FilterSpec.v`, `LinesSpec.v` (the lines of a text),
`GenSpec.v` (lines of the UCD files and what they say), `CxxSpec.v` (what a C++ compiler reads from a header with a table), `AlgoSpec.v` (lexicographic order, occurrences), `Algo2Spec.v` (common beginnings, repetitions), `ExamplesSpec.v` (what the example programs are to print), `ScheduleSpec.v` (schedules, which thread may use what), `HistorySpec.v` (what a program using many iterators in any order is to see), `StringHistorySpec.v` (the same for strings).

Naming: `Cnn_..._refuted` proves that the property as stated in `properties.jsonl` is false
of the code (with a witness); `Cnn_..._partial` is what does hold, whenever possible as an
exact condition (`_iff_`).  `Cnn_example` in the property files shows a concrete case meeting
the hypotheses.  The status in `MANIFEST.json` is `partial` whenever one of a property's
theorems has one of these suffixes.

## 6. Plan per property

| id | modelled | proof |
|----|----------|-------|
| C01-C05 | `utf8_iterator_base`, operators | abstraction "memory = list of codepoint chunks", laws of `*`, `++`, `--`, `==` at every octet, induction over the text |
| C06 | `operator==` on any octets | false; exact condition: symmetric iff the text is made of complete sequences |
| C07-C09 | client loop on arbitrary octets | invariant on positions; progress-or-fixpoint: the loop ends within `length` steps or visits a stray octet and never ends |
| C10 | same, buffer without terminator | false for every text; holds exactly if one more readable octet follows that is not a continuation octet |
| C11 | `utf8_util` | sweep over 256 octets lifted to a forall |
| C12-C18 | `utf8_bounds::check/enforce` | characterisation of the two loops, then corollaries, exact conditions and refutations |
| C19-C21 | `encoded_size`, `append_from_utf32ne` | float-to-integer lemma, exact domain of correctness and of definedness, refutations outside |
| C22-C24, C68 | proxy assignment through the mutable iterator | memory-update lemmas; exact conditions |
| C25-C27, C66 | `basic_encodedstring::append` of codepoint and grapheme ranges | from the iterator laws |
| C28-C34 | `props::*::resolve` with the real tables | bsearch correctness on sorted tables, reflective sweeps over rows |
| C35 | composition vs decomposition tables | sweep over the composition rows |
| C36 | `canonical_combining_order` | order on class values |
| C37-C43, C71 | `basic_grapheme_iterator` | generic over "lawful" texts (`LawfulProofs.v`), induction; UAX #29 by comparing rule lists with an automaton-style invariant |
| C44, C45 | `filter`, `codepoint_decomposition` | induction over the range |
| C46 | `canonical_composition` | loop invariant relating the in-place array to greedy composition |
| C47, C48 | normalization forms | composition of the above for every admissible sort |
| C49-C57 | normalization forms against UAX #15 | canonical order is unique (`OrderProofs.v`), decomposition per grapheme, composition algorithm (`NfcProofs.v`), Hangul (`HangulProofs.v`); exact conditions |
| C58, C59 | libstdc++ `std::sort` | permutation + sortedness + no out-of-range access for introsort, heap sort and insertion sort; stability of insertion sort up to 16 elements; a reordered 17-element witness |
| C60-C65 | whole-text consequences | from C39, C47, C48 and the table sweeps |
| C67 | iteration of any complete sequences (also overlong) | as C01 with chunks instead of codepoints |
| C69, C70 | grapheme iteration and normalization of arbitrary/cut octets | safety invariant without any assumption of validity; exact condition for `grapheme_end()` |
| C77-C79 | loops and operations on arbitrary octets | exact result of each operation at each octet, then induction along the walk (`RangeSpec.v`) |
| C80, C81 | `check`/`enforce` on a range of a buffer, repeated | reduction to the string of the range; the run-away case separately |
| C82 | `append` of arbitrary octets | closest lead octets |
| C83, C84 | `filter` over part of the graphemes, views | the end iterator found by `grapheme_end()` equals the iterator of exactly one grapheme number; then as C47 |
| C85 | two `normalize` runs in sequence | decomposition of the first output equals the reordered decomposition of the text; second run's order agrees exactly when the marks come last in each grapheme |
| C86 | `canonical_composition` on whole outputs | `compose` is a fixpoint of itself; no primary composite across a grapheme boundary (Unicode data) |
| C87 | output size of form C | per-codepoint decomposition table: a mapping of four codepoints recomposes |
| C88 | all iterator operations at any octet of any memory | rewinding to the closest lead octet, or out of the memory; the 36 bits of 0xFE |
| C89-C91 | loops over and `append` of any range of any memory | walk of extents, progress or stray octet; induction on the lead octet backwards |
| C92-C96 | standard algorithms on the codepoint iterators | positions of a text under ++/--; induction on the number of codepoints left; UTF-8 keeps the order, is prefix-free and self-synchronizing |
| C97 | equality of the outputs of two `normalize` runs | equivalence by the listed mappings = equality of the ordered full decomposition (exchanges commute with expanding marks, checked on the tables) |
| C98, C99 | grapheme loop and normalization of arbitrary octets | simulation of the walk over the octets by the iterators of the UTF-32 string of its values, in which the end of a codepoint may compare equal to the next one; endless walks by an invariant |
| C100-C103 | the example programs | loop theorems above; numerals are uniquely readable; UTF-8 output decoded again by the read-back lemmas of C20 |
| C104 | histories of iterator operations | simulation: every register denotes an index (its native position may lie anywhere inside of the encoded codepoint), preserved by every operation; induction on the history |
| C105 | histories of string operations | simulation: every native string is the encoding of its text; per operation by the theorems above; induction on the history |
| C106 | LocalMarks over the model of graphemes and decomposition | table sweeps: every expansion has its marks last, a codepoint ending with a mark is Extend, SpacingMark or Other; then lists; corollaries of C49-C57 and C59 |
| C107 | schedules of the operations of C104, C105 | every operation changes only what it is to write and depends only on what it is to read (cases); induction on the schedule, for any state with such operations |
| C108 | text of the generated headers (`GenHeaderModel.v`) | a lexer and parser for the initializers in `CxxSpec.v`; printing then parsing gives the rows of C72-C76 back (induction on rows, digits) |
| C109 | forms C, KC, D, KD over texts with single marks | composing neighbours keeps any relation between neighbours that composites have with everything (induction), so nothing composable and no two marks stay in the output; then the exact conditions of C50, C56 |
| C110 | the four forms over low codepoints | table sweeps (classes, mappings, second parts of composites) over the codepoints below the bound, then lists of any length |
| C111 | forms D and C over graphemes that emoji modifiers do not disturb | classes of expansions and composites swept with a search tree for the classes (RangeTree.v, proved equal to the table lookup); the sort as starters then marks; induction over a grapheme, its composition, and neighbouring graphemes |
| C112 | grapheme segmentation of canonically equivalent texts | induction over the steps of the equivalence (a mapping, an exchange of marks); a step replaces a part within one grapheme; classes of all mappings and Hangul syllables swept |
| C113 | filter, the four forms and append_from_utf32ne when string appends may throw (AllocModel.v), for every pattern of failures | the appends of a run numbered; the run over [n] elements described by the first append that fails, by induction over the range of graphemes and of codepoints (AllocProofs.v) |
| C114 | grapheme iteration and the forms with a count of codepoint iterator operations (CostModel.v) | the counted functions erase to the model (C114_counts_are_of_the_model); exact counts by induction along the positions of the text: each grapheme is scanned once to find its end, once by != against the end, once by the form; the exact cost of == by induction over both graphemes (CostProofs.v) |
| C115 | the UTF-8 string and iterator, the forms with a UTF-8 output (TextModel.v, Utf8Model.v) | composition of C52 (when the output is the encoding of the form), C01, C39, C111 (graphemes kept, second form) and C54 (same form iff equivalent); the encoding is injective because it is read back |
| C116 | iterator operations, check, loops, graphemes and forms with a count of the octets read (OctetCostModel.v) | the rewind loop reads p-q+1 octets (induction), from this every operation in any memory; loops by induction on the text; graphemes and forms: any computation over iterators is `within` w octets for each operation it makes (structural), with C114 |
| C117 | the lookups and std::sort with a count of comparisons (WorkModel.v, SortCostModel.v) | each step of bsearch halves the interval (induction on k); introsort: a partition of n elements makes at most n comparisons (its scans meet), 2*log2 n levels, a heap sort when they are used up costs at most a level's share, the final insertion sort moves an element less than 16 places because whatever is 16 apart is in order (SortCostProofs.v) |
| C118 | the whole run with a count (WorkModel.v) | the counted functions erase to the model; grapheme iteration by induction along the positions of the text as C114, a grapheme's own cost from C117; the sum over the graphemes bounded by the lengths of the table rows (at most 7) |
| C119 | std::reverse_iterator over either iterator (ReverseModel.v); a reference to a temporary is undefined when read | the reversed operations satisfy `walks` (what the algorithms of C92-C96 need) over the reversed text, so their proofs apply; loops by induction; UTF-8: `*r` is undefined on every non-empty text |
| C120 | the UTF-8 code with the kind of `char` as a parameter (CharModel.v) | the functions on one octet by computation on all 256; the loops by induction, memory stays octets; the text layer by congruence in the iterator operations |
| C121 | the lookups with a `bsearch` given by its contract (LibcModel.v) | ordered tables meet the precondition (induction) and have at most one matching row |
| C122 | the forms and the grapheme iterators over a text of lines (LinesSpec.v) | no row of the data gives a Control from anything else (computed); boundaries at a separator from the rule; induction on the lines |
| C123 | two client programs that normalize a text in pieces (StreamModel.v, made of the modelled calls) | a text's graphemes but the last are graphemes of every extension; C83 for a range of graphemes; a prefix of a UTF-8 text ends between codepoints or in a cut sequence that check sees behind an ASCII character |
| C124 | forms D and C of a text and of a word, occurrences at grapheme boundaries | the output's graphemes are the forms of the text's, one to one (C111), and a run of them has the word's form exactly if it is equivalent (C54) |
| C125 | octets a normalized text takes in UTF-8 (factors 3 and 6) | octets are additive and unchanged by sorting; every row of the decomposition tables and every composite swept in the kernel; composition never adds octets |
| C126 | mismatch, adjacent_find, copy_if, unique_copy | induction over the range, iterators that walk over the text (`Algo2Proofs.v`); octets: the encodings of two codepoints are not prefixes of each other |
| C127 | quotes, separators and fields | occurrences are unchanged by sorting, by mappings without the character and by composites without it (all rows swept in the kernel); a separator is a grapheme of its own; octets (Properties_Fields8.v): the encoder writes only NULs and octets from 128 on for non-ASCII codepoints, so the counts hold for UTF-8 output too |
| C128 | std::string's comparison and search | memcmp/memchr loops against the lexicographic order and first/last occurrences of lists of octets, carried to codepoints by C94_octets and C95_octets |
| C129 | editing a native string | the octets before and behind a codepoint position are the texts before and behind it; replace-all by induction on the text that is left, each find by C128 |
| C130 | splitting at a separator | induction on the pieces; each find by C128, each substr by C129, normalized fields by C127 |
| C72-C76 | table generators | text-level parsing lemmas, expansion loop as a fixpoint computation, independence of hash order, tables of the repository = generator output |

## 7. Findings (all proved, see the theorems)

* `encoded_size` computes `ceil((bits-1)/6)`: encoding is right exactly on U+0001-7FF,
  U+2000-FFFF, U+80000-10FFFF.  U+0000 is `__builtin_clz(0)`; U+800-1FFF with
  `(c/64) mod 64 >= 62` and U+10000-7FFFF with `(c/4096) mod 32 >= 30` write out of bounds (C19, C20).
  Normalizing U+1E69 to a UTF-8 string in form C yields `F9 A9 00 00 00` (C52).
* A text accepted by `check` can make the plain loop run forever (`"A\x81"`), also after
  `enforce` (`"a\xE2\x82"`); `check` accepts `"\xE2"`; `enforce` may yield a text that `check`
  rejects (`"\x81\xC3"`); both touch the octet at `end` (C08, C13, C16-C18);
  on a range of continuation octets `enforce` runs on behind the range and may leave the buffer: `"\x81\x82\x83"` with the range 0..2 (C17).
* Dereferencing at a stray continuation octet after an ASCII octet gives the low six bits of the
  latter: `"A\x81"` at 1 is U+0001 (C79).  A backward loop counts every lead octet, the forward
  loop those it does not jump over (C77, C78).
* `enforce` on a range of continuation octets followed by one runs on to the next other octet,
  overwrites lead octets before the range, and leaves the buffer at the front when the range ends
  within its first six octets (C80).
* In a grapheme of more than 16 codepoints even starters change places, so form C can leave
  neighbours that have a composite (C86).
* Every negative value makes `append_from_utf32ne` leave its buffer (C20).
* Normalizing a view that does not end at a grapheme boundary drops its last grapheme(s) (C84).
* `operator==` reads the octet at `end`, for every text, and the loop over a view of valid text never ends
  if that octet is a continuation octet (C10); it is asymmetric on cut texts (C06).
* Assigning twice through one mutable iterator writes the second codepoint at the last octet of
  the first (C24); in-place replacement is right only between encodings of equal length (C68).
* `utf8_string::append` of a grapheme range truncates codepoints to 8 bits (C26).
* Building a grapheme iterator at a position compares the pairs reversed (C41, C66);
  `grapheme_end()` of a view looks behind the view (C42) and of `"\xE2"` reads behind the NUL (C69).
* The grapheme loop loses a codepoint the codepoint loop delivers when the next one starts among its octets, because `==` compares the extents of codepoints: `"\xC3\xE2\x82\xAC"` has the codepoints U+00E2, U+20AC and the graphemes "", U+20AC (C98).
* The example `normalization_form_c` prints ` U+1a40000` for U+1E69; `truncate_on_grapheme` with "éa\u0301!" cut at 3 prints the octet E9 (C102, C103).
* Boundaries deviate from UAX #29 exactly for three regional indicators in a row and Extend
  between E_Modifier and its base (C38).
* Forms D/C are NFD/NFC iff there are no Hangul syllables, in every grapheme the decomposition has its
  marks last, ties are kept (D), and the output is fully composed (C); with libstdc++ ties are
  kept up to 16 codepoints per grapheme, not from 17 (C49, C50, C53, C59).
* Reading a text in pieces with `utf8_bounds::check` alone loses text: of a piece that is the start of one codepoint check says true, and the loop over it delivers nothing (C123).
* Normalization joins or splits graphemes where an emoji modifier follows a mark: U+00E9 U+1F3FB are two
  graphemes, their form D is one (C111).
* Form D changes some texts that are in NFD: U+0061 U+1D166 U+0301 U+1F3FB (C106).
* Mappings with a tag other than `<compat>` are dropped by KD/KC (C33).
* Generators: a cyclic mapping makes the expansion loop run forever (C73); an exclusion with
  exactly one space before its comment is ignored (C74); a break value without a comment loses its last
  letter (C75).
* Comparing two grapheme iterators on different graphemes of a and b codepoints with `==` takes
  a(3b+4)+2 operations on codepoint iterators (C114); against the end iterator it is linear.
* After a run of n stray continuation octets every `*`, `++` and `==` reads all of it again (C116).
* `*r` for a reverse iterator `r` of a UTF-8 string is undefined: `std::reverse_iterator` takes the
  declared `reference` (`const codepoint&`) and binds it to the value that the iterator's `*` returns (C119).
