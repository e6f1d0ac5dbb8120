# Design of the strtk model

The library is one header, `/repo/strtk.hpp` (24518 lines).  Nothing is compiled
or run here; every model definition cites the header lines it was read from.

## 1. How C++ is represented

* **Outcomes.**  `outcome A := Ok a | UB | OutOfFuel` (`Base.v`).  Undefined
  behaviour (out-of-range read or write through a pointer or iterator, signed
  overflow, reading an uninitialised or null object) is the distinct result `UB`;
  a loop that does not terminate within its fuel is `OutOfFuel`.  A correctness
  theorem has the shape `f x = Ok r /\ ...`, so it includes absence of undefined
  behaviour and termination.
* **Ranges.**  A range `[begin,end)` is a list together with offsets into it.
  `*it` is `rd s i`, which is `UB` outside the list.  Mutable ranges are lists
  updated by `wr s i v`, `UB` outside.
* **Loops.**  `while` is `loop fuel body st`; one Hoare rule (`loop_rule`:
  invariant and decreasing measure) is proved once and used everywhere.  Fuel is a
  function of the input size and shown sufficient by the same theorem.
  `for_up` is a counted loop.
* **Program logic.**  `holds m Q` says that `m` ends in `Ok r` with `Q r`; `post m Q`
  (`Match_Proofs.v`) says the same only for runs that end in `Ok`, for functions that
  can read outside their range.
* **Characters** are `Ascii.ascii`; generic algorithms are polymorphic in the
  element type and in the predicate (a C++ template parameter becomes a Gallina
  parameter).  Predicates are pure functions.
* **Integers.**  `Z`/`N` with explicit wrap (`mod 2^w`) where the code wraps;
  signed overflow is `UB`.  `size_t` is 64 bit, `char` is signed (x86-64, LP64,
  little endian), which is the platform of the refutations that depend on widths.
  Lengths and offsets of ranges that exist in memory are `nat`; they are below 2^64,
  so no wrap is modelled for them except where the code subtracts.
* **Floating point.**  The number parser is modelled over a record of arithmetic
  operations (`Real_Model.reals`) and used with two instances: exact rationals and
  IEEE 754 doubles (`SpecFloat` of the standard library, round to nearest even).
* **Templates over arity** (parse of 1..16 targets) become a list of targets.
* **External effects** (random source, file system, streams, user functions) are
  function parameters or an explicit state; nothing is assumed about them beyond what
  the theorem states.

Layout: for each area `X_Model.v` (code), `X_Spec.v` (independent specification),
`X_Proofs*.v` (lemmas), `X_Props*.v` (theorems closed by `exact`, `Print Assumptions`,
examples).

When the faithful model violates a property as one would naively state it, the violation is
proved as `..._refuted` with a concrete witness, and the property is stated with the
precondition that makes it true.  The refutation shows that the precondition is needed.

## 2. Properties and proofs

| id | property | theorems in | how it is proved |
|----|----|----|----|
| C01 | split cuts a range at every delimiter and loses nothing | Split_Props | loop invariant; specification: chain of adjacent ranges |
| C02 | split with compress_delimiters treats each run of delimiters as one | Split_Props | loop invariant; specification: fields between maximal runs |
| C03 | split with include_delimiters is lossless | Split_Props | loop invariant; concatenation equation |
| C04 | iterating a tokenizer gives the same tokens as split | Split_Props | simulation of the iterator state machine with the split loop; refuted for compressing with inclusion |
| C05 | split_n yields the first n tokens of split | Split_Props | prefix of the split token list; refuted for include_all_delimiters |
| C06 | parse into n variables succeeds exactly when enough tokens exist and all convert | Parse_Props | induction over the list of targets |
| C07 | parse into a container appends exactly the convertible tokens in order | Parse_Props | fold over the tokens |
| C08 | remove_inplace keeps exactly the non-matching elements in their order | Edit_Props | loop invariant on the mutable range |
| C09 | remove_consecutives_inplace collapses each run to its first element | Edit_Props | loop invariant on the mutable range |
| C10 | trimming strips exactly the unwanted ends | Edit_Props | loop invariant; refuted for all-trimmable strings |
| C11 | replace_pattern replaces exactly the leftmost non-overlapping occurrences | Edit_Props | invariant against the leftmost-occurrence specification |
| C12 | wildcard match: exact on simple patterns, sound on arrays | Match_Props | soundness by induction on the pattern; refutations for completeness and memory safety |
| C13 | find_all reports every occurrence once | Edit_Props | loop invariant; refuted for the empty pattern |
| C14 | hex encoding round-trips | Codec_Props | finite sweep over bytes, then induction on the length |
| C15 | hex decoding accepts by length alone and reads foreign characters as digit 0 | Codec_Props | finite sweep over bytes, then induction on the length |
| C16 | base64 encoding round-trips and has the standard shape | Codec_Props | group lemma on 24 bits, induction; out-of-range reads characterised and refuted |
| C17 | base64 decoding never touches memory outside its input | Codec_Props | group lemma on 24 bits, induction; out-of-range reads characterised and refuted |
| C18 | unsigned integers parse exactly | Num_Props | arithmetic of digit lists; refutations at the type limits |
| C19 | signed integers parse exactly, except for the minimum of int and long long | Num_Props | arithmetic of digit lists; refutations at the type limits |
| C20 | integer formatting is canonical and parsing inverts it | Num_Props | arithmetic of digit lists; refutations at the type limits |
| C21 | fast numeric conversion is exact within its widths | Num_Props | per-width arithmetic |
| C22 | endian conversion reverses bytes and is an involution (16 and 64 bit) | Binary_Props | byte-list lemma; 32-bit version refuted |
| C23 | binary writer then reader restores every sequence of values | Binary_Props, Binary_Props2 | state machine with invariants; induction over field and operation lists |
| C24 | binary reader and writer never step outside their buffer | Binary_Props | state machine with invariants; induction over field and operation lists |
| C25 | bloom filter has no false negatives | Bloom_Props, Bloom_Props2 | induction over the history of operations; folding lemma; refutations |
| C26 | bloom filter set operations are bitwise and keep the guarantees | Bloom_Props | induction over the history of operations; folding lemma; refutations |
| C27 | compressing a bloom filter to at least half its size keeps every key | Bloom_Props | induction over the history of operations; folding lemma; refutations |
| C28 | trie prefix lookup answers exactly for inserted keys | Trie_Props | tree invariant, refinement to a map; find refuted |
| C29 | n_choose_k returns the binomial coefficient after any call history | Comb_Props | memo-table invariant, Pascal recurrence |
| C30 | nth_permutation_sequence produces the n-th permutation in lexicographic order | Comb_Props | factorial and combinatorial number systems |
| C31 | nth_combination_sequence produces the n-th k-combination | Comb_Props | factorial and combinatorial number systems |
| C32 | random selection only rearranges what it was given | Comb_Props | permutation invariant for any sequence of draws |
| C33 | token_grid gives the same cells as cutting the text line by line | Grid_Props | refinement of the index structure to a list of rows |
| C34 | removals on a token_grid behave like operations on a list of rows | Grid_Props | refinement of the index structure to a list of rows |
| C35 | join undoes split | Parse_Props | list induction |
| C36 | copying or concatenating files yields exactly the source bytes | IO_Props | block-loop invariants over an abstract file system |
| C37 | text written with write_to_text_file loads back, and the line functions visit every line | IO_Props | block-loop invariants over an abstract file system |
| C38 | key-value parsing assigns each registered key its last value | KV_Props, KV_Props2 | fold invariant over tokens; explicit variable store |
| C39 | bit operations on byte arrays address exactly one bit | Bits_Props | finite sweep per byte, induction on the length |
| C40 | bitwise interleaving is lossless | Bits_Props | finite sweep per byte, induction on the length |
| C41 | text alignment pads to exactly the requested width | Text_Props | loop invariants |
| C42 | consecutive-value search returns the leftmost qualifying run | Text_Props, Text_Props2 | loop invariants |
| C43 | hex and base64 sinks store what the text encodes | Sink_Props, Sink_Props2 | byte-array lemmas |
| C44 | case-insensitive comparison ignores exactly letter case | Codec_Props, Match_Props | finite sweep per character, induction |
| C45 | the hash of a range looks at every element when the length is a whole number of blocks | Hash_Props | every element reaches the state; refuted for tails |
| C46 | offset splitting emits the requested slices and never leaves the range | Scan_Props | loop invariants |
| C47 | next_combination enumerates every k-subset exactly once in order | Comb_Props | factorial and combinatorial number systems |
| C48 | the floating point parser accepts numbers and stays inside its tables | Real_Props | grammar on one side, control flow on the other; exact sums in doubles |
| C49 | remove_duplicates keeps the first occurrence of each character | Edit_Props | loop invariants |
| C50 | begins_with, ends_with and index_of decide prefix, suffix and first position | Edit_Props | loop invariants |
| C51 | convert_to_printable_chars changes exactly the unprintable bytes | Codec_Props | finite sweep per character, induction |
| C52 | ifind and ifind_all find case-insensitive occurrences | Match_Props | finite sweep per character, induction |
| C53 | bitwise_transform acts bit by bit | Bits_Props | finite sweep per byte, induction on the length |
| C54 | left-padded text fields have the exact width | Binary_Props | state machine with invariants; induction over field and operation lists |
| C55 | construct followed by parse returns the same integers | Parse_Props | composition of the parse and format theorems; loop invariants |
| C56 | parse_line consumes exactly one line | Parse_Props | composition of the parse and format theorems; loop invariants |
| C57 | text builders produce exactly the described text | Parse_Props | composition of the parse and format theorems; loop invariants |
| C58 | column selection converts exactly the chosen columns | KV_Props | fold invariant over tokens; explicit variable store |
| C59 | assigned util::value objects do not depend on their source | KV_Props | fold invariant over tokens; explicit variable store |
| C60 | whole-file and offset reads return exactly the bytes asked for | IO_Props | block-loop invariants over an abstract file system |
| C61 | range copies take exactly the selected elements | IO_Props | block-loop invariants over an abstract file system |
| C62 | row objects give exactly the row's cells | Grid_Props | refinement of the index structure to a list of rows |
| C63 | column functions of token_grid select the cells of the rows that have the column | Grid_Props | refinement of the index structure to a list of rows |
| C64 | double-quoted cells are not cut at delimiters | Grid_Props | refinement of the index structure to a list of rows |
| C65 | single-character text edits do what their names say | Text_Props | loop invariants |
| C66 | field checkers accept exactly the fields they describe | Text_Props | loop invariants |
| C67 | range summaries: extremes and consecutive duplicates | Scan_Props | loop invariants |
| C68 | first_non_repeated_char finds the first character that occurs once | Scan_Props, Walk_Props | loop invariants |
| C69 | lexicographically_canonicalize rotates to the smallest suffix | Scan_Props | loop invariants |
| C70 | cursor operations of binary reader and writer do what their names say | Binary_Props2 | state machine with invariants; induction over field and operation lists |
| C71 | truncated_int reads the part before the decimal point | Sink_Props | byte-array lemmas |
| C72 | list sinks append the converted tokens of a field | Sink_Props, Sink_Props2 | byte-array lemmas |
| C73 | the floating point parser computes the number written | Real_Props | grammar on one side, control flow on the other; exact sums in doubles |
| C74 | integers parsed into double are correctly rounded | Real_Props | grammar on one side, control flow on the other; exact sums in doubles |
| C75 | decimal_sink reads fixed-size decimals | Real_Props, Real_Props3 | grammar on one side, control flow on the other; exact sums in doubles |
| C76 | for_each_combination visits every selection once and restores the range | Enum_Props | recursion on the size with a two-range invariant; simulation between the two forms |
| C77 | for_each_permutation visits each permutation from the given one upwards once | Enum_Props | next_permutation is the lexicographic successor; induction on the number of permutations not yet seen |
| C78 | delete_all and delete_if release exactly the owned objects | Cont_Props | loop invariant on the remaining elements and the heap |
| C79 | make_key_list and make_value_list | Cont_Props | loop as fold; decomposition of a sorted multimap into three blocks |
| C80 | Bloom filter salts | Bloom_Props2 | induction on the search; one seed for the refutation |
| C81 | filter_on_match lets through exactly the matching tokens | Filter_Props | loop over the patterns by induction on those left; std::equal as a recursive function of pattern and memory |
| C82 | filter_on_wildcard_match | Filter_Props | the match lemmas of C12 lifted to token lists |
| C83 | size predicates | Filter_Props | integer arithmetic |
| C84 | converting inserters | Filter_Props | induction on the tokens |
| C85 | extract_unique, skip_while_matching and filter_non_empty_range | Filter_Props | induction on the sorted list; loop invariant |
| C86 | write_pod and read_pod in memory | Pod_Props | induction on the list of values over the memory split into three parts |
| C87 | read_pod and write_pod on files | Pod_Props | induction on the variables; loop invariant for the counting version |
| C88 | string_condition | Attr_Props | std::search and match lemmas of the earlier claims; case analysis on the object store |
| C89 | attribute and scoped_restore | Attr_Props | induction on the history from its end; structural induction on programs |
| C90 | semantic_action | Attr_Props | case analysis on the object store |
| C91 | Bloom filter files: saving and loading | BFile_Props, BFile_Props2 | the round trip of the binary reader and writer (C23) on the nine fields; invariants of all programs for the ranges of the members |
| C92 | Bloom filter files: failures | BFile_Props | step by step through the nine fields: a truncated field is refused, an intact one is read |
| C93 | push_back of several values and clear | Cont_Props | push_back as a fold; invariants of insertion |
| C94 | memcmp_n compares exactly N bytes | Mem_Props | induction over the template recursion; alignment of the remaining address; injectivity of loads |
| C95 | make_string, clear_array, set_array, reverse and fill | Mem_Props | loop invariants; the exchange loop by induction on the length of the middle part |
| C96 | iota counts up | Gen_Props | induction on the remaining count; counting modulo the size of the type |
| C97 | min_of_cont and max_of_cont | Gen_Props | invariant: first least element so far; max as min of the reversed order |
| C98 | generate_random_data writes exactly its buffer | Gen_Props | induction on the number of words; alignment invariant |
| C99 | generate_random_values and uniform_real_rng | Gen_Props | induction on the count |
| C100 | Editing an ext_string | Ext_Props | per-operation lemmas reusing the trimming, replacement and case results of C10, C11 and C44; induction over the chain of calls |
| C101 | Operators of ext_string | Ext_Props | from the replication lemmas of C57 and the replacement lemma of C11; lengths for the refutation |
| C102 | Texts of simple values | Ext_Props | computation for single characters, the number round trip of C20, exhaustive check over the 256 characters lifted to all of them |
| C103 | build_string concatenates | Ext_Props | induction over the operands |
| C104 | A token_grid owns exactly the text it copied | Life_Props | an invariant on the heap (the grid owns at most one live block, behind the memory of the caller) preserved by each step, induction over the program; loading reuses C33 |
| C105 | A tokenizer object follows its last text and its iterators count tokens | Tkz_Props, Words_Props | induction over the history with an invariant saying begin and end are what the constructor makes; for moves, induction on the walk loop, and at the end the range does not change |
| C106 | Parsing fills sets, multisets, queues, stacks and priority queues as their comparators say | Stl_Props | Insertion into an ascending list keeps it ascending and adds exactly the value unless an equivalent one is there; by induction over the values this is the first-of-its-kind description. Multisets by permutation, order and the filter of every equivalence class. A priority queue is a bag; its possible pop sequences are shown to be exactly the descending arrangements. |
| C107 | Containers can be written to and loaded from text files by name | Stl_Props | Induction over the lines of the text for any insertion, then the container lemmas of C106; files by the file system lemmas of C36. |
| C108 | Every way of passing delimiters means the set of those characters | Delim_Props | delimiter strings reduce to one membership predicate; loops over extensionally equal predicates agree; copy loops into the inline buffer and the heap by invariant |
| C109 | split_regex reports every match; the predefined expressions match exactly the texts described | Regex_Props | induction over the list of matches; each expression is read by computation and its set of texts derived compositionally; a verified derivative matcher decides the examples and refutations |
| C110 | Joining the cells of a grid with a predicate | GridJoin_Props | the loops are folds over the rows of the represented grid; the fold of the joining step is the one verified for C63 |
| C111 | Column selectors as objects | Csel_Props | invariant: the util::values of every copy point into the selector they were made from, whose buffers name the variables; induction on the texts, on the depth of copying and on the lines |
| C112 | The IPv4 parser of the examples | Ipv4_Props | the default fields of split_n are the parts between the dots, whose decomposition is unique; induction on the octets with C21 for each part |
| C113 | The hex viewer of the examples | Hexview_Props | strong induction on the input for the loop; hexadecimal notation is unique by induction on its digits; column positions by induction on the lines |
| C114 | The word counter of the examples | Wordfreq_Props | tokens of a compressing split are the maximal runs of letters; the map by invariant under ++map[k]; lines by induction on their decomposition |
| C115 | The random line selector of the examples | Rline_Props | the fold over the lines prints the last winner; sequences of draws counted by induction, the telescoping product by induction with bounds on the number of winning draws |
| C116 | The period parser of the examples | Period_Props | induction on the cuts of split_n with a countdown from four; decomposition into parts is unique; exactness of products of whole doubles from the lemmas of C74 |
| C117 | The line filter of the examples | Glober_Props | insertion sort gives the unique ascending rearrangement; literal parts by induction; a star is resolved to the first occurrence; fuel by a measure on the pattern |
| C118 | The combinations of the examples | Choose_Props | composition of C18, C35 and C76; order of selections by induction on the sorted list |
| C119 | The statistics of the examples | Numstats_Props, Numstats_Props2 | composition of C33, C34, C37, C62, C63 and C107; lines and fields reduced to maximal runs by induction on the cuts; order of doubles by a lexicographic key; insertion sort and counting for the median; accuracy by the calculus of C124, with (1 - 2^-53)^n bounded below by 1 - n 2^-53 |
| C120 | A timer reports the time between the last start and the last stop | Timer_Props, Timer_Props2 | induction on the history; the bits shifted out in rounding determined by induction on their number; the product of 10^6 n and the double next to 10^-6 lies just below n; accuracy by the calculus of C124 |
| C121 | type_name tells types apart | Tname_Props | induction on the types: names are decoded from the left, letters ending at the next bracket or comma |
| C122 | type_length bounds the digits of a number | Tname_Props | bounds of canonical decimal notation from C20 |
| C123 | Jumping to the n-th combination or permutation is stepping to it | Jump_Props | the selections with their complements, in order, are what both the unranking and the stepping algorithm produce; strictly sorted lists with the same members are equal |
| C124 | Floating point numbers are read to within a counted number of roundings | Real_Props2 | each operation of the specification arithmetic is the exact result times a factor of at most one rounding, from the invariant of the round and sticky bits; factors multiply along the evaluation |
| C125 | The word lists of the text parser examples | Words_Props | the for_each_token loop is the walk of the tokenizer with a function in between; tokens under compress_delimiters are the words plus the empty ends, by induction over the cuts |
| C126 | Random selection with the numbers of a generator | Rand_Props | the product of a size and a normal double below 1 is rounded to a number below the size: exact product, sticky bits and the two cases of renormalisation; a double is constructed for each index; loops follow the positions picked |
| C127 | Random selection is fair | Rand_Props | draws and picked positions determine each other by induction; the reservoir is counted by the last draw: either it was rejected or it replaced one of the positions not wanted |
| C128 | The Bloom filter example, start to end | Bdemo_Props | the fill loop keeps the buffer as the text of the combinations visited followed by bytes without value; the loops over the buffer are folds over its keys; the rest composes the theorems on n_choose_k, the iterator, the filter and its file |
| C129 | The checks in the converters and trie examples never fail | Selfchk_Props | loop invariants over the buffer sizes and the position in the round; the conversions and the trie enter by C16 and C28; the count of strings is a sum over the piece lengths |
| C130 | Lists of records saved to a buffer and to a file | Serial_Props, Serial_Props2 | records as nested pairs of the wire model; write_good / read_ok lifted to lists by induction over the list with the number of bytes left |
| C131 | Integers as fixed-width text fields | Serial_Props, Serial_Props2 | the exact text grammars of C18-C20 with leading zeros; dec_value of padded digits |
| C132 | A comma separated table comes back, and the totals of a symbol are right | Table_Props | induction over lines and cells on the cut relation; C63 for the accumulation |
| C133 | Sums per period of time | Table_Props, Table_Props2 | stateful predicate replaced by marks on positions, C63 sequential_partition, uniqueness of groups; induction by three |
| C134 | Aligned printing of a table | Table_Props, Table_Props2 | C63 column widths, C41 alignment, indexed folds |
| C135 | The order of the pairs of a key-value text does not matter | Record_Props | adjacent swaps of the field relation of C38 (updates of different variables commute), induction over Permutation |
| C136 | Records with lists come back field by field | Record_Props | C135 with the six targets of the example, C72 for the sinks, C19 for ints; induction over the texts |
| C137 | The converter for points in time accepts exactly seven numbers between its delimiters | Date_Props | direct induction on the conversions of one type, C06 tokens, C18 numbers, C07 for the list |
| C138 | Lists of points in time: printed and read back | Date_Props | tokens of texts with mixed delimiters by induction on the cut relation; C20, C41; C55 and C72 for the record |
| C139 | The combinator example prints every selection once, numbered, in order | Cmbx_Props | loop invariant: position in the list of selections with complements (C47), C20 for the numbers, C96 for the list |
| C140 | A combination iterator advanced by i stands at the i-th selection | Cmbx_Props | invariant of operator++ over positions, for_up rule; insertion sort for std::sort |
| C141 | A declaration is read exactly when its six fields are there | Fields_Props | success of a parse as a chain of the single conversions; acceptance of expect, iexpect and the int converter as equivalences; C06 |
| C142 | Pattern and range fields accept what they describe | Fields_Props | unfolding of the matcher up to the star, then the first occurrence; C19, C48 for the numbers; order of texts by induction |
| C143 | Trimmed and case-converted fields hold the trimmed and converted text | Fields_Props | C66 with uniqueness of trimming; chain of conversions as in C141 |
| C144 | The numbered combinations and the stepped ones make the same table | Nthx_Props | The three functions are followed loop by loop; the rows are the selections with their rests, by the lemmas of C123 and C31; line texts by the number formatting of C20. |
| C145 | Printing a table by columns turns it, and turning twice restores it | Cells_Props | Loading by C33; the loop over the columns with the extraction lemma of C63; transposition is an involution on lists of one length; runs of blanks and newlines cut by the relation of C01. |
| C146 | Removals take exactly the cells and rows they name out of the printed table | Cells_Props | Loading by C33 and the removal theorems of C34 carried over to texts; the raw text of a row is its line, by induction over the splitting of the lines. |
| C147 | Every inner row is averaged with the rows around it | Cells_Props | Loading by C33; the loops over rows and columns with the rows around, by C62. |
| C148 | The checks by split and by tokenizer accept the same expected text | Check_Props | The loop that shows the tokens is followed beside the loop of C04; commas counted and cut for the converse. |
| C149 | split_n delivers as many tokens as asked for from a joined text | Check_Props | C05 and the number of delimiters of a joined text; the tokens by the cutting relation of C01. |
| C150 | Every number of leading fields of a record comes back | Check_Props | C20 and C55, with a token list whose first text may be empty; one step lemma for each number of members. |
| C151 | When a replaced pattern is gone from the result | Check_Props | Leftmost occurrences of C11: an occurrence in the result lies in a gap, as it shares no character with the replacement. |
| C152 | An inserter with the length of a text as interval puts every copy on its own line | Tour_Props | Blocks of the interleaving of C57 are the copies. |
| C153 | Cutting the rotations of a text | Tour_Props | Loop invariant: the text is rotated by a triangular number. |
| C154 | Searching for more and more consecutive characters | Tour_Props | Induction over the searches with C42; the first window after a gap. |
| C155 | split_on_consecutive cuts every run of a class into pieces | Tour_Props | Induction over the runs, shifting the start of the searches of C42 over places without a window. |
| C156 | A parsed set of integers is printed once each, in order | Tour_Props | C106 for the set, C20 for the texts; sorted lists with the same members are equal. |
| C157 | Translating with the tables exchanged undoes a translation | Walk_Props | C57 for the tables; the last pair counts, and without repetitions there is only one. |
| C158 | Searching without regard to case finds at least as many matches | Walk_Props | C13 and C52; the greedy choice of matches is never behind another one; without overlaps it takes all of them. |
| C159 | index_of of every part of a text | Walk_Props | C50; without repetitions a position is determined by its character. |
| C160 | Fields with a fraction are read as truncated integers | Walk_Props | C71 for the two ways to cut, C18 and C19 for the numbers, C55 for the parse. |
| C161 | Selected columns and ignored fields | Walk_Props | C58 for the columns, the results of the fields one by one for ignore_token. |
| C162 | Key and value lists of maps built by any assignments | Walk_Props | Insertion keeps the keys in order; C79 for the lists; insertion into a multimap appends to the values of its key. |
| C163 | Several sinks filled by one parse | Sweep_Props | C72 for each sink, on the texts of its list only; the results of the targets one by one. |
| C164 | Values followed by a list of any length | Sweep_Props | C07 for values followed by a list, with the texts of the list as written. |
| C165 | The trie programs for all keys | Sweep_Props | C28 for each key; the keys inserted later are not alike. |
| C166 | Cleaning a text in several passes | Clean_Props | C08, C09, C10, C49 and C108 for the single passes; runs and first occurrences as recursive functions over what has been seen, which commute with filtering. |
| C167 | Combinations of a range with repeated elements | Multi_Props, Multi_Props2 | The next combination is the least above the present one: the elements behind the place changed are the smallest that remain, and before the change they were the greatest; no assumption that elements differ. |
| C168 | Canonicalizing a text again | Canon_Props | decreasing chain of rotations, at most as many as elements; comparison of suffixes at the first difference |
| C169 | The macros of the floating point parser | Rconf_Props | loop invariant for any number of repetitions; pointwise equality of the two ways to read a digit |

## 3. Which code is modelled

| model file | lines of strtk.hpp (or of the named file) cited by its definitions |
|----|----|
| Attr_Model | 19522-19585, 19591-19600, 19602-19608, 19628-19632, 19634-19641, 20805-20837, 20844-20846, 20848-20852, 20854-20859, 20861-20864, 20902-20905, 20907-20925, 20929-20933, 21004-21015, 21022-21027, 21029-21036, 21049-21054, 21120-21130, 21132-21138, 21145-21149 |
| BFile_Model | 13978-13989, 14408-14412, 20080-20090, 20349-20389, 20391-20434 |
| Bdemo_Model | 50-235 |
| Binary_Model | 13712-13731, 13744-13748, 13750-13755, 13757-13764, 13766-13779, 13781-13834, 13836-13839, 13841-13867, 13880-13887, 13896-13902, 13919-13929, 13931-13948, 13950-13954, 13956-13976, 13978-13989, 13991-14009, 14011-14019, 14021-14050, 14052-14067, 14069-14115, 14117-14129, 14131-14135, 14143-14169, 14171-14189, 14191-14203, 14205-14213, 14221-14224, 14240-14258, 14264-14270, 14272-14285, 14293-14309, 14311-14315, 14328-14334, 14343-14349, 14366-14370, 14372-14388, 14390-14406, 14426-14434, 14436-14439, 14441-14461, 14468-14479, 14481-14532, 14540-14544, 14546-14566, 14568-14600, 14602-14610, 14618-14621, 14637-14652, 14655-14662, 14664-14675, 14683-14701, 14703-14707, 14710-14728, 14756-14769, 14771-14783, 20372-20380 |
| Bits_Model | 4858-4915, 4928-4942, 4951-4967, 4971-4997, 4999-5010, 5012-5035, 5037-5057, 5059-5082, 5084-5098, 5100-5114, 5116-5130, 5132-5165, 5167-5193 |
| Bloom_Model | 19921-19931, 19933-20014, 20018-20068, 20092-20105, 20107-20110, 20112-20129, 20136-20153, 20165-20169, 20171-20181, 20200-20208, 20210-20223, 20241-20269, 20293-20342, 20438-20442, 20444-20521, 20523-20570, 20572-20580, 20583-20602, 20608-20612, 20619-20652, 20656-20664 |
| Canon_Model | strtk_examples.cpp 1245-1265 |
| Cells_Model | strtk_tokengrid_example.cpp 385-402, strtk.hpp 292-306, strtk.hpp 596-616, strtk.hpp 694-705, strtk.hpp 717-735, strtk.hpp 721-724, strtk.hpp 732-735, strtk.hpp 752-792, strtk.hpp 763-773, strtk.hpp 794-834, strtk.hpp 836-877, strtk.hpp 6854-6857, strtk.hpp 11101-11116, strtk.hpp 11176-11185, strtk.hpp 24344-24355 |
| Check_Model | 54-77, 87-107, 548-568, 594-632, 1331-1343, 1345-1434, 2515-2525, 10923-11099 |
| Choose_Model | strtk_combinations.cpp 46-51, 53-57, 59-79 |
| Clean_Model | 1091-1098, 1100-1107, 1109-1116, 1118-1125, 1127-1134, 1136-1143, 1240-1249, 1304-1314 |
| Cmbx_Model | strtk_combinator_example.cpp 36-62, strtk.hpp 11101-11116, strtk.hpp 11185-11195, strtk.hpp 12713-12725, strtk.hpp 12727-12742, strtk.hpp 12744-12756, strtk.hpp 12809-12817 |
| Codec_Model | 4422-4426, 4451-4458, 4467-4522, 4551-4561, 4563-4609, 4618-4626, 4628-4714, 4723-4730, 4770-4776, 4791-4801, 4815-4825, 4844-4856 |
| Comb_Model | 11984-12002, 12030-12051, 12081-12127, 12129-12157, 12177-12207, 12457-12543, 12557-12617, 12619-12635, 12637-12671, 12673-12686, 12688-12699, 12701-12842 |
| Cont_Model | 21337-21356, 21359-21368, 21370-21379, 21381-21396, 21400-21417, 21419-21430, 21432-21447, 21449-21465, 21467-21483, 21485-21500, 21502-21517, 21519-21538, 21540-21560, 21562-21582, 21584-21624, 21626-21758, 21760-21856, 21858-21954, 21956-21971, 21973-21986 |
| Csel_Model | 3337-3470, 21162-21333, 22007-22013, 22025-22028, 22030-22035, 22037-22043, 22053-22058, 22060-22069, 22075-22098, 22105-22110, 22117-22368, 22372-22591, 22593-22728, 22730-22952, 22956-22970 |
| Date_Model | strtk_examples.cpp 698-707, strtk.hpp 443-449, strtk.hpp 709-714, strtk.hpp 716-741, strtk.hpp 733-739, strtk.hpp 743-769, strtk.hpp 8411-8442 |
| Delim_Model | 1037-1103, 1328-1345, 1347-1359, 1507-1518, 1585-1597, 1618-1624, 1626-1631, 1633-1663, 3415-3433, 3455-3471, 3491-3501, 3503-3520, 3621-3634, 3636-3679, 3681-3693 |
| Edit_Model | 1194-1221, 1229-1238, 1251-1261, 1263-1296, 1304-1314, 1361-1372, 1374-1405, 1413-1431, 1433-1449, 1456-1475, 1483-1531, 1533-1553, 1561-1597, 1599-1603, 1605-1616, 1665-1678, 1695-1760, 1762-1867, 1869-1875, 2054-2072, 2102-2122, 2164-2189, 2191-2218, 2220-2252, 2254-2287, 2289-2305 |
| Enum_Model | 12217-12225, 12227-12238, 12249-12269, 12271-12318, 12320-12369, 12371-12394, 12396-12419, 12423-12438, 12440-12455 |
| Ext_Model | 427-435, 11402-11418, 16970-17003, 17848-17875, 17987-17993, 17995-18013, 18015-18027, 18182-18187, 18209-18219, 18231-18235, 18237-18241, 18251-18260, 18270-18279, 18281-18286, 18288-18292, 18294-18298, 18300-18306, 18375-18407, 18414-18422, 18424-18434, 18436-18452 |
| Fields_Model | 956-974, 976-1000, 1002-1024, 1026-1046, 1048-1068, 1070-1083 |
| Filter_Model | 92-110, 372-379, 387-400, 872-880, 2628-2636, 2638-2666, 2668-2672, 2674-2687, 2719-2727, 2729-2745, 2747-2760, 2792-2799, 2801-2818, 2820-2833, 2863-2870, 2926-2934, 2986-2994, 3058-3085, 3168-3177, 3205-3263, 4111-4129, 7621-7641, 7652-7659, 7679-7686, 7688-7694, 7722-7746, 7748-7771, 7786-7798, 7800-7843, 7845-7888, 7890-7933, 7935-8021 |
| Gen_Model | 4151-4157, 4159-4173, 4175-4181, 4183-4197, 11629-11639, 11641-11645, 11647-11692, 11694-11700, 11702-11716, 11832-11864, 11896-11922, 11926-11952, 11954-11982 |
| Glober_Model | strtk_glober.cpp 75-80, 79-79, 82-91, 98-109 |
| GridJoin_Model | 7111-7149, 7151-7158, 7205-7247, 7249-7256 |
| Grid_Model | 1161-1178, 1194-1238, 3301-3399, 5210-5218, 5226-5239, 5241-5265, 5267-5270, 5439-5457, 5470-5487, 5489-5544, 5546-5564, 5566-5570, 5590-5593, 5595-5598, 5610-5622, 5630-5643, 5650-5802, 5804-5932, 5948-5956, 5958-5965, 5967-5991, 5993-6117, 6119-6161, 6163-6190, 6192-6218, 6256-6281, 6293-6295, 6460-6463, 6472-6475, 6477-6480, 6482-6504, 6540-6562, 6571-6720, 6722-6728, 6730-6782, 6790-6847, 6849-6857, 6859-6869, 6876-6887, 6895-6907, 6909-6937, 6939-6947, 6959-6987, 6989-7020, 7028-7066, 7076-7109, 7160-7203, 7258-7293, 7306-7327, 7404-7410, 7412-7424, 7426-7440, 7451-7462, 7475-7526, 7549-7555, 7557-7569, 7571-7581, 7583-7598, 7606-7607 |
| Hash_Model | 20676-20677, 20686-20693, 20700-20711, 20713-20724, 20726-20737, 20739-20760, 20764-20774, 20778-20786, 20788-20792, 20794-20801 |
| Hexview_Model | strtk_hexview.cpp 60-114, 82-82, 101-101 |
| IO_Model | 112-128, 130-148, 175-194, 196-215, 387-400, 451-471, 659-692, 806-816, 818-834, 836-852, 854-870, 882-899, 18462-18466, 18468-18474, 18476-18483, 18485-18489, 18491-18503, 18505-18534, 18536-18575, 18577-18613, 19018-19030, 19042-19054 |
| Ipv4_Model | strtk_ipv4_parser.cpp 44-58, 60-64, 66-75 |
| KV_Model | 4054-4086, 21162-21333, 21990-22115, 22975-23033, 23043-23054, 23059-23256, 23258-23445, 24028-24148, 24150-24214, 24227-24234, 24236-24247, 24280-24294, 24296-24305 |
| Life_Model | 6298-6306, 6308-6318, 6359-6373, 6426-6433, 6895-6907, 7329-7361, 7363-7397, 7475-7526, 7528-7547 |
| Match_Model | 1884-1900, 1902-1949, 1964-1975, 1977-1980, 1982-2020, 2022-2040, 2087-2100, 2102-2122 |
| Mem_Model | 942-945, 966-969, 1003-1011, 23771-23772, 23774-23787, 23789-23790, 23792-23813, 23816-23832, 23884-23902, 23904-23907, 23909-23917, 23919-23931, 23933-23945, 23947-23973, 23975-24000, 24002-24010 |
| Multi_Model | 1369-1380, 1382-1416, 12713-12725 |
| Multi_Model2 | 12802-12807 |
| Nthx_Model | 59-85, 87-121, 123-147, 149-155, 11101-11116, 11197-11214, 15430-15461, 17986-17993 |
| Num_Model | 12854-13165, 13174-13182, 13184-13212, 13214-13481, 13530-13546, 13568-13575, 13617-13644, 13669-13692, 16867-16952, 17377-17433, 17435-17497, 17876-17915, 17934-17985 |
| Numstats_Model | strtk_numstats.cpp 59-75, 73-74, 77-148, 97-147, 126-131, 139-144, strtk.hpp 4216-4226, strtk.hpp 5491-5498 |
| Parse_Model | 2638-2647, 3667-3678, 8023-8619, 8623-8745, 9030-9042, 9058-9493, 9495-9563, 10107-10130, 10132-10290, 10410-10647, 10923-11099, 11101-11116, 11164-11174, 11176-11238, 11248-11273, 11430-11460, 11462-11482, 11567-11627, 11718-11735, 11747-11762, 11786-11818, 11820-11830, 17289-17295, 17377-17433, 17435-17497, 17782-17790, 17792-17800, 17802-17807 |
| Period_Model | strtk_period_parser.cpp 41-41, 44-49, 51-85, 64-82, 66-67, 69-76, strtk.hpp 17616-17777 |
| Pod_Model | 18617-18622, 18632-18760, 18762-18766, 18768-18826, 18958-18962, 19058-19242, 19244-19251, 19289-19473, 19475-19481, 19483-19492 |
| Rand_Model | 37-71, 11984-12002, 12030-12051, 12081-12127, 12129-12157 |
| Rconf_Model | 16669-16703, 17499-17555, 17616-17777 |
| Real_Model | 286-289, 15168-15231, 16781-16841, 17499-17555, 17557-17581, 17583-17614, 17616-17777 |
| Record_Model | 270-285, 309-328, 330-345, 15348-15379 |
| Regex_Model | 3712-3715, 3734-3757, 3797-3823 |
| Rline_Model | strtk_random_line.cpp 56-61, 72-89 |
| Scan_Model | 3871-3916, 3918-4012, 4014-4043, 4131-4149, 4199-4214, 4250-4307, 4323-4382 |
| Selfchk_Model | 64-89, 95-111, 113-149 |
| Serial_Model | strtk_serializer_example.cpp 31-90, strtk.hpp 47-55, strtk.hpp 62-70, strtk.hpp 72-88, strtk.hpp 125-191, strtk.hpp 140-153, strtk.hpp 168-187, strtk.hpp 193-287, strtk.hpp 210-223, strtk.hpp 263-284, strtk.hpp 960-984, strtk.hpp 14191-14203, strtk.hpp 14534-14538, strtk.hpp 14574-14600, strtk.hpp 14710-14728 |
| Sink_Model | 882-899, 14819-14832, 14853-14879, 14893-14904, 14918-14934, 14955-14986, 14995-15006, 15035-15052, 15099-15119, 15242-15337, 15341-15408, 17809-17837, 17839-17846 |
| Split_Model | 1015-1035, 1085-1088, 1105-1145, 2307-2333, 2340-2500, 2513-2523, 3271-3297, 3301-3336, 3339-3399, 3473-3489, 3554-3620 |
| Stl_Model | 150-160, 162-173, 217-227, 229-241, 243-255, 473-577, 579-657, 764-804, 2846-2870, 2926-2994, 10649-10778, 10780-10921 |
| Sweep_Model | 37-59, 61-91, 775-792, 827-844, 878-886 |
| Table_Model | strtk_tokengrid_example.cpp 511-527, 634-643, 940-944, strtk.hpp 371-379, strtk.hpp 568-572, strtk.hpp 645-660, strtk.hpp 669-692, strtk.hpp 940-973, strtk.hpp 6409-6424, strtk.hpp 7258-7293, strtk.hpp 16786-16830 |
| Text_Model | 15421-15487, 15489-15508, 15510-15560, 15562-15603, 15607-15628, 15636-16043, 16248-16665 |
| Timer_Model | 24409-24416, 24418-24422, 24424-24428, 24430-24444, 24446-24449, 24453-24456, 24460-24468, 24472-24495 |
| Tkz_Model | 2353-2371, 2373-2430, 2439-2447, 2449-2452, 2454-2457, 2459-2462, 2469-2484, 2486-2489, 2493-2501, 2513-2534, 2536-2548, 2550-2553, 2555-2558, 2560-2566, 2568-2576, 2580-2585 |
| Tname_Model | 16870-16952, 17876-17915, 17934-17985, 18029-18034, 18036-18052, 18099-18145 |
| Tour_Model | 1348-1359, 1492-1506, 1508-1521, 1886-1953, 1955-1993, 8623-8745 |
| Trie_Model | 19661-19755, 19766-19768, 19770-19799, 19801-19828, 19830-19847, 19849-19852, 19859-19865, 19867-19873, 19875-19881, 19883-19889, 19891-19896, 19898-19903 |
| Walk_Model | 847-859, 919-938, 1557-1582, 1584-1613, 1686-1743, 1814-1839, 1841-1884, 1995-2018, 2036-2074, 11805-11808 |
| Wordfreq_Model | strtk_wordfreq.cpp 61-65, 67-74, 73-73, 90-120, 95-97 |
| Words_Model | strtk_text_parser_example01.cpp 46-52, 60-67; strtk_text_parser_example02.cpp 37-40, 52-62, 57-61, 85-98, strtk.hpp 63-63, strtk.hpp 72-73, strtk.hpp 91-110, strtk.hpp 100-109, strtk.hpp 103-103, strtk.hpp 114-115, strtk.hpp 2610-2710, strtk.hpp 3205-3263, strtk.hpp 4111-4129 |

## 4. Trusted base

* The kernel of Coq 8.16.1, with `vm_compute`.
* Axioms: none.  `Print Assumptions` answers "Closed under the global context" for each of
  the 941 theorems of the 169 properties.  `coqchk -o` additionally lists the seven constants
  of the standard library's sealed module `Coq.ssr.ssrunder.Under_rel` (`Under_rel`,
  `Under_rel_from_rel`, `Under_relE`, `Over_rel`, `over_rel`, `over_rel_done`,
  `under_rel_done`) because the library file is loaded; no theorem depends on them.
* The reading of the C++ code recorded in the comments of the `*_Model.v` files, and the
  representation described in section 1.
* Facts about the standard library of C++ used by the models: `std::string`, `std::vector`,
  `std::deque`, `std::list`, `std::map`, `std::set` behave as lists and finite maps;
  `std::sort`, `std::lower_bound`, `std::copy`, `std::next_permutation` etc. follow the
  standard; `std::getline`, `read`, `write`, `seekg` act on a byte sequence as the standard says.
* For the number parser: the entries of the power table 15168-15231 are the powers of ten
  (rounded to nearest in the double instance).

Simplifications common to all areas:

* allocation failure, exceptions thrown by user-supplied types, and threads are absent;
* elements, predicates and converters given by the user are pure and total;
* object identity is only modelled where the code depends on it (`util::value`, key-value
  tables, semantic actions); elsewhere copies are values;
* input iterators are random-access ranges; the few places where the code needs more than an
  input iterator show up as offset arithmetic.

Not modelled: the branches of `strtk_enable_lexical_cast` and `strtk_enable_regex` (the library's
own parsers and scanners are, and so are `strtk_enable_random`, `strtk_enable_superscalar` and
`strtk_use_lut`), the Windows branch of the timer, `token_grid::store::remove_row_range` and
`remove_column` (private and called from nowhere), iostream formatting of user types
(`operator<<` other than the ones cited), and the example programs other than those named in
section 3.  Functions whose lines appear in no row of section 3 are not modelled.

## 5. Checking the theorems against wrong programs

`seeded/LOG.jsonl` records edits of model definitions made in scratch copies, each with the
claim it breaks and the theorems that stopped proving.  An edit counts as caught only by a
theorem whose statement is about the claim; proofs that break for syntactic reasons were
reviewed by hand.
