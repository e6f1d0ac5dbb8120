{"id": "C01", "title": "split cuts a range at every delimiter and loses nothing", "statement": "strtk::split with default options emits, in order, exactly the maximal delimiter-free sub-ranges of the input: an empty input yields no token; a non-empty input with k delimiter elements yields exactly k+1 tokens (leading, adjacent and trailing delimiters produce empty tokens); no token contains a delimiter; every token is a sub-range of the input; re-inserting the delimiters between consecutive tokens rebuilds the input; the returned count equals the number of emitted tokens.", "quantifier": "every element type, every delimiter predicate, every input range of any length", "why_tests_cant": "A test fixes one string and one delimiter set; the claim is about every string of every length against every predicate.", "anchors": ["strtk.hpp:split(const DelimiterPredicate&, Iterator, Iterator, OutputIterator, split_options)", "strtk.hpp:split_options"]}
{"id": "C02", "title": "split with compress_delimiters treats each run of delimiters as one", "statement": "strtk::split with compress_delimiters emits exactly the tokens obtained by cutting the input at every maximal run of delimiters: interior tokens are never empty, a leading (trailing) run yields one leading (trailing) empty token, and an empty input yields none.", "quantifier": "every element type, every delimiter predicate, every input range", "why_tests_cant": "Run lengths and their placement are unbounded; a finite table of examples cannot cover every combination.", "anchors": ["strtk.hpp:split", "strtk.hpp:split_options::compress_delimiters"]}
{"id": "C03", "title": "split with include_delimiters is lossless", "statement": "With include_all_delimiters the concatenation of the emitted tokens is exactly the input, for every input; with include_1st_delimiter each token is the delimiter-free field followed by the one delimiter that ended it, so concatenation is again the input.", "quantifier": "every element type, every delimiter predicate, every input range, include_all_delimiters with or without compression, include_1st_delimiter without compression", "why_tests_cant": "Losslessness is an equation over all strings; samples only show it for the strings chosen.", "anchors": ["strtk.hpp:split", "strtk.hpp:split_options::include_1st_delimiter", "strtk.hpp:split_options::include_all_delimiters"]}
{"id": "C04", "title": "iterating a tokenizer gives the same tokens as split", "statement": "Walking strtk::std_string::tokenizer from begin() to end() visits exactly the token ranges strtk::split emits for the same input, predicate and options (unless all three options are combined); the walk always terminates and never dereferences an iterator at or past the end of the data.", "quantifier": "every element type, every predicate, every input, every option combination except compress + include_1st + include_all", "why_tests_cant": "Two independent implementations must agree on all inputs and all option sets; a test compares them on a handful.", "anchors": ["strtk.hpp:tokenizer", "strtk.hpp:tokenizer::tokenizer_iterator::operator++", "strtk.hpp:split"]}
{"id": "C05", "title": "split_n yields the first n tokens of split", "statement": "strtk::split_n(pred, begin, end, n, out, options) emits exactly the first min(n, number of tokens) tokens that split would emit with the same options, returns how many it emitted, and never emits more than n.", "quantifier": "every element type, predicate, input, n and every option set in which include_all_delimiters does not occur without include_1st_delimiter", "why_tests_cant": "n and the input are both unbounded; off-by-one errors at the n-th token only show for specific alignments.", "anchors": ["strtk.hpp:split_n"]}
{"id": "C06", "title": "parse into n variables succeeds exactly when enough tokens exist and all convert", "statement": "strtk::parse(begin,end,delims,t1..tn) returns true iff the (delimiter-compressed) token list has at least n tokens and each of the first n converts to its target's type; on success target i holds the conversion of token i; with fewer tokens no target is touched; on failure every target before the first failing one holds its token's value and every later target keeps its previous value, as does the failing one for the integer, char, bool and string converters; parse adds no undefined behaviour of its own.", "quantifier": "every input, delimiter set, arity n>=1, every tuple of target types (conversion functions)", "why_tests_cant": "Arity, types and failure position multiply; the frame condition on the untouched targets must hold at every failure point.", "anchors": ["strtk.hpp:parse(const InputIterator, const InputIterator, const std::string&, T1&, ...)", "strtk.hpp:split_n", "strtk.hpp:string_to_type_converter"]}
{"id": "C07", "title": "parse into a container appends exactly the convertible tokens in order", "statement": "strtk::parse(begin,end,delims,sequence,split_option) appends, in order, the conversion of every token that converts, silently skips tokens that do not, keeps all earlier content of the container, and returns the number of tokens seen; parse_n does so for the first n tokens and returns how many were appended (under every split option but include-all alone, where it is false); parse(t1..tk,container) and parse(argc,argv,sequence) stop at the first token that does not convert.", "quantifier": "every input, delimiter set, split option, container content and conversion function", "why_tests_cant": "The position and number of non-convertible tokens is unbounded.", "anchors": ["strtk.hpp:parse", "strtk.hpp:parse_n", "strtk.hpp:range_to_type_back_inserter", "strtk.hpp:container_adder"]}
{"id": "C08", "title": "remove_inplace keeps exactly the non-matching elements in their order", "statement": "strtk::remove_inplace(pred, begin, end) returns the number of removed elements r and leaves in the first length-r positions exactly the elements not satisfying the predicate, in original relative order.", "quantifier": "every element type, predicate and range", "why_tests_cant": "In-place compaction bugs depend on alternation patterns of arbitrary length.", "anchors": ["strtk.hpp:remove_inplace"]}
{"id": "C09", "title": "remove_consecutives_inplace collapses each run to its first element", "statement": "remove_consecutives_inplace(pred,...) deletes every element that satisfies the predicate and whose predecessor also satisfies it and nothing else; remove_consecutives_inplace(begin,end) deletes every element equal to its predecessor and nothing else; the result has no two such neighbours and the operation is idempotent.", "quantifier": "every element type, predicate and range", "why_tests_cant": "Run structure is unbounded and in-place overwriting can corrupt later comparisons only for particular run lengths.", "anchors": ["strtk.hpp:remove_consecutives_inplace"]}
{"id": "C10", "title": "trimming strips exactly the unwanted ends", "statement": "remove_leading strips exactly the maximal prefix of characters in the given set; remove_trailing strips exactly the maximal suffix of such characters whenever the string is empty or has a character outside the set (a string of trimmable characters only keeps its first character); remove_leading_trailing does both without exception; characters in between are untouched.", "quantifier": "every string and every character set / predicate", "why_tests_cant": "The all-trimmable string and every mix of inner and outer trimmable characters must be covered.", "anchors": ["strtk.hpp:remove_trailing", "strtk.hpp:remove_leading", "strtk.hpp:remove_leading_trailing"]}
{"id": "C11", "title": "replace_pattern replaces exactly the leftmost non-overlapping occurrences", "statement": "replace_pattern(s,p,r) with p non-empty returns s with each leftmost non-overlapping occurrence of p replaced by r; text outside those occurrences is unchanged; the pre-sized string version and the output-iterator version give the same result; remove_pattern is replacement by the empty string; with p absent the result is s.", "quantifier": "every source, non-empty pattern and replacement", "why_tests_cant": "Overlap and near-miss patterns (e.g. aab in aaab) are unbounded, and the result size arithmetic must be right for every ratio of |r| to |p|.", "anchors": ["strtk.hpp:replace_pattern", "strtk.hpp:remove_pattern"]}
{"id": "C12", "title": "wildcard match: exact on simple patterns, sound on arrays", "statement": "match(wild_card, str) is exact for literal patterns (true iff equal), for a literal prefix followed by '*' (true iff str has that prefix), and for patterns without '*' (every '?' takes one character, a last one may take none), without reading outside the string. For arbitrary patterns on an exact array range an answer true implies that the documented glob relation holds. The full reading (match decides the glob) is false: both answers can be wrong on std::string and some patterns read outside the data.", "quantifier": "every pattern and every string", "why_tests_cant": "The interaction of several stars needs search; whether a greedy scan is enough is a question about all inputs.", "anchors": ["strtk.hpp:details::match_impl", "strtk.hpp:match", "strtk.hpp:imatch"]}
{"id": "C13", "title": "find_all reports every occurrence once", "statement": "find_all(pattern,data,out) emits exactly the sub-ranges of the data equal to the pattern that a left-to-right non-overlapping scan finds, in order, and terminates for every non-empty pattern.", "quantifier": "every pattern and data range", "why_tests_cant": "Occurrence structure is unbounded; termination is a property of all inputs.", "anchors": ["strtk.hpp:find_all", "strtk.hpp:ifind", "strtk.hpp:ifind_all"]}
{"id": "C14", "title": "hex encoding round-trips", "statement": "convert_bin_to_hex writes exactly two hex digits per input byte, in order, and convert_hex_to_bin applied to that text returns true and restores the bytes, for every non-empty byte string; lower-case hex text decodes to the same bytes; odd-length and empty text is refused and the output left as it was.", "quantifier": "every byte string of any length", "why_tests_cant": "All 2^(8n) inputs of every length n.", "anchors": ["strtk.hpp:convert_bin_to_hex", "strtk.hpp:convert_hex_to_bin"]}
{"id": "C15", "title": "hex decoding accepts by length alone and reads foreign characters as digit 0", "statement": "convert_hex_to_bin returns true exactly for non-empty text of even length; output byte i is made from characters 2i and 2i+1, where a character that is not a hexadecimal digit counts as 0. So it does not validate its input: text without a single hex digit is accepted.", "quantifier": "every text", "why_tests_cant": "Needs every position and every one of the 234 non-hex byte values.", "anchors": ["strtk.hpp:convert_hex_to_bin"]}
{"id": "C16", "title": "base64 encoding round-trips and has the standard shape", "statement": "convert_bin_to_base64 returns 4*ceil(n/3), writes exactly that many characters, all from the base64 alphabet or trailing '=' padding, equal to the RFC 4648 encoding, and for n > 0 convert_base64_to_bin on that text returns n and restores the bytes.", "quantifier": "every byte string of any length n, including every n mod 3", "why_tests_cant": "All byte strings of all lengths; padding errors appear only for certain residues and byte values.", "anchors": ["strtk.hpp:convert_bin_to_base64", "strtk.hpp:convert_base64_to_bin"]}
{"id": "C17", "title": "base64 decoding never touches memory outside its input", "statement": "convert_base64_to_bin reads only inside [begin,end) and writes at most as many bytes as it reads, for every text of length at least 2 whatever its characters; on shorter text it reads before the beginning.", "quantifier": "every text of every length", "why_tests_cant": "Reading one or two bytes before a buffer is usually invisible at run time.", "anchors": ["strtk.hpp:convert_base64_to_bin"]}
{"id": "C18", "title": "unsigned integers parse exactly", "statement": "string_to_type_converter for unsigned short, unsigned int and unsigned long long always returns, and accepts a string iff it is an optional '+' followed by one or more decimal digits whose value fits the type; the result is that value; on refusal the target is unchanged. For unsigned long the limit is 4294967295 whatever the width of long (so a 64-bit unsigned long does not get its whole range).", "quantifier": "every string; unsigned short, unsigned int, unsigned long, unsigned long long", "why_tests_cant": "The value range boundary and leading zeros of unbounded length make the input space infinite.", "anchors": ["strtk.hpp:details::string_to_type_converter_impl(unsigned_type_tag)", "strtk.hpp:details::numeric<T>"]}
{"id": "C19", "title": "signed integers parse exactly, except for the minimum of int and long long", "statement": "string_to_type_converter for a signed integer type accepts a string iff it is an optional sign followed by one or more decimal digits whose signed value fits the type (for long: fits 32 bits); the result is that value, on refusal the target is unchanged, and no arithmetic overflows, provided the text does not denote the minimum of int or of long long. Every text of that minimum makes the parser overflow (undefined behaviour).", "quantifier": "every string; short, int, long, long long", "why_tests_cant": "Boundary digits, signs and unbounded leading zeros; signed overflow is undefined and tests usually see the wrapped result.", "anchors": ["strtk.hpp:details::string_to_type_converter_impl(signed_type_tag)", "strtk.hpp:details::numeric<T>"]}
{"id": "C20", "title": "integer formatting is canonical and parsing inverts it", "statement": "For every value v of an integer type, type_to_string(v) stays inside its buffer and is the canonical decimal form of v (no leading zeros, '-' only when negative; such a form is unique), and parsing it with string_to_type_converter gives v back, for every v of the type except the minimum of int and long long and, for long and unsigned long, values outside 32 bits.", "quantifier": "every value of short, unsigned short, int, unsigned int, long, unsigned long, long long, unsigned long long", "why_tests_cant": "2^64 values; boundary digits near the top of the range are where digit-pair tables and bound constants go wrong.", "anchors": ["strtk.hpp:details::type_to_string_converter_impl", "strtk.hpp:details::string_to_type_converter_impl", "strtk.hpp:details::numeric<T>", "strtk.hpp:details::rev_3digit_lut", "strtk.hpp:details::rev_2digit_lut"]}
{"id": "C21", "title": "fast numeric conversion is exact within its widths", "statement": "fast::numeric_convert(n,itr,t,true) into an unsigned type of w bits never reads beyond the n characters and returns true iff all n characters are digits and n <= 19, and then t is their value modulo 2^w; without checking, n <= 20 digits give the value modulo 2^w; into any type the result is the exact value when it fits. fast::signed_numeric_convert gives the exact value of a signed text whose magnitude fits the type, and with checking refuses every non-empty text that is not an optional sign and digits.", "quantifier": "every n, every string of n characters, every unsigned width up to 64; signed types for values that fit", "why_tests_cant": "The switch has 20 unrolled cases over all digit strings.", "anchors": ["strtk.hpp:fast::numeric_convert", "strtk.hpp:fast::signed_numeric_convert", "strtk.hpp:fast::all_digits_check"]}
{"id": "C22", "title": "endian conversion reverses bytes and is an involution (16 and 64 bit)", "statement": "convert reverses the byte order of every 16- and 64-bit unsigned value and is its own inverse (also for the signed overloads, on the bytes of the two's complement); on hosts of either byte order convert_to_be / convert_to_le give the value that this host stores as the big- / little-endian bytes (16 and 64 bit, signed and unsigned), native_to_be / native_to_le store the big- / little-endian bytes and be_to_native / le_to_native read the value back. The 32-bit overload is refuted: it loses bytes 0 and 2 of every value, and for int it never returns a negative number. Also refuted: convert_to_le(long long) keeps the sign (it returns an unsigned long long).", "quantifier": "every 16-, 32-, 64-bit value, both host byte orders", "why_tests_cant": "2^64 values; a wrong mask affects only some bytes of some values.", "anchors": ["strtk.hpp:binary::details::convert", "strtk.hpp:binary::reader::be_to_native", "strtk.hpp:binary::writer::native_to_be"]}
{"id": "C23", "title": "binary writer then reader restores every sequence of values", "statement": "Writing any sequence of PODs, strings, short strings, arrays, pairs and containers (deques/lists/sets not nested in containers; vectors of PODs not empty) with binary::writer into a buffer with enough room, then reading the same types in the same order with binary::reader, returns true everywhere and restores every value; exactly the documented encoding is stored and nothing behind it changes. If container elements are PODs, a buffer of exactly the encoded size is enough.", "quantifier": "every finite sequence of fields of any nested types, sizes and values", "why_tests_cant": "Histories of unbounded length over unbounded data.", "anchors": ["strtk.hpp:binary::writer", "strtk.hpp:binary::reader", "strtk.hpp:binary::short_string"]}
{"id": "C24", "title": "binary reader and writer never step outside their buffer", "statement": "For any sequence of reader (writer) operations on any buffer content, including failed ones, mark/reset, rewind, seek, clear and stream loads, no access leaves the buffer and the cursor stays inside it; reading never modifies the buffer; a write changes only bytes between the old and new cursor, and these form a prefix of the encoding; a failed POD, fixed-array or (writer) vector-of-POD operation changes nothing. Excluded: seek(INT_MIN), a vector-of-POD count of zero in ISO C++, right-padded text fields.", "quantifier": "every operation sequence, every buffer content and size", "why_tests_cant": "The corrupting sequence may be arbitrarily long and the length fields come from the data.", "anchors": ["strtk.hpp:binary::reader", "strtk.hpp:binary::writer", "strtk.hpp:binary::details::marker"]}
{"id": "C25", "title": "bloom filter has no false negatives", "statement": "For a filter whose table size is a positive multiple of 8, every sequence of insertions, unions, intersections, differences, assignments and clears over filters of equal parameters stays in bounds, and contains() answers exactly as an ideal set of bit positions would: true for every key inserted (in either operand of a union, in both operands of an intersection) since the last clear. compute_optimal_parameters yields such a size when the size bounds are multiples of 8.", "quantifier": "every parameter set with a usable size, every history, every key, every rand() sequence", "why_tests_cant": "Histories and keys are unbounded; a single lost bit breaks it only for specific hash values.", "anchors": ["strtk.hpp:bloom::filter::insert", "strtk.hpp:bloom::filter::contains", "strtk.hpp:bloom::filter::operator|=", "strtk.hpp:bloom::filter::clear", "strtk.hpp:bloom::parameters::compute_optimal_parameters"]}
{"id": "C26", "title": "bloom filter set operations are bitwise and keep the guarantees", "statement": "filter |= other answers true for every key either filter answers true for; filter &= other answers true exactly for the keys both answer true for; ^= applied twice is undone; combining filters with different parameters changes nothing; operator== decides equality of the whole state.", "quantifier": "every pair of filters built by any history, every key", "why_tests_cant": "All pairs of bit tables of all sizes.", "anchors": ["strtk.hpp:bloom::filter::operator&=", "strtk.hpp:bloom::filter::operator|=", "strtk.hpp:bloom::filter::operator^=", "strtk.hpp:bloom::filter::operator=="]}
{"id": "C27", "title": "compressing a bloom filter to at least half its size keeps every key", "statement": "compressible_filter::compress(p) either returns false and changes nothing, or shrinks the table; as long as every accepted compression keeps at least half of the current table, all accesses are in bounds and contains() stays true for every key inserted before or after, through any interleaving of insertions and compressions.", "quantifier": "every table size, every percentage, every history of inserts and repeated compressions", "why_tests_cant": "Requires all table sizes and all sequences of compressions.", "anchors": ["strtk.hpp:bloom::compressible_filter::compress", "strtk.hpp:bloom::compressible_filter::compute_indices"]}
{"id": "C28", "title": "trie prefix lookup answers exactly for inserted keys", "statement": "After any sequence of insertions, trie::prefix::find_prefix(p) is true iff p is a non-empty prefix of some inserted key; find(k) succeeds for every inserted key and never for a sequence that is not a prefix of one, and returns the value given with the last inserted key that differs from k at most in its last element; destroying the trie deletes every node exactly once.", "quantifier": "every element and value type, every sequence of insertions, every key", "why_tests_cant": "Sharing of nodes between keys makes the answer depend on the whole history.", "anchors": ["strtk.hpp:trie::prefix::insert", "strtk.hpp:trie::prefix::find", "strtk.hpp:trie::prefix::find_prefix", "strtk.hpp:trie::prefix::node"]}
{"id": "C29", "title": "n_choose_k returns the binomial coefficient after any call history", "statement": "For 0 < n <= 6074000999 and every k, n_choose_k(n,k) equals the binomial coefficient modulo 2^64 (0 for k > n), whatever calls with such n were made before (the function keeps a shared static memo table), and its table accesses are always in bounds.  The bounds are necessary: n_choose_k(0,0) is 0, and n = 2^33 makes the table size wrap and indexes out of bounds.", "quantifier": "every 0<n<=6074000999, every k, every history of earlier calls", "why_tests_cant": "The memo table makes the answer depend on unbounded call history.", "anchors": ["strtk.hpp:n_choose_k"]}
{"id": "C30", "title": "nth_permutation_sequence produces the n-th permutation in lexicographic order", "statement": "For a sequence of 1 to 21 elements and n < k!, nth_permutation_sequence emits the n-th permutation in the lexicographic order of positions; different n give different permutations and all permutations are obtained; over a range it emits the iterators to the elements at these positions.  The limits are necessary: the empty sequence and 67 elements are undefined behaviour, and with 22 elements some n give a permutation out of order.", "quantifier": "every 1<=k<=21, every n<k!, every string of that length", "why_tests_cant": "k! grows beyond any enumeration.", "anchors": ["strtk.hpp:details::nth_permutation_sequence", "strtk.hpp:nth_permutation_sequence"]}
{"id": "C31", "title": "nth_combination_sequence produces the n-th k-combination", "statement": "For 2<=k<=|seq|<2^32, C(|seq|,k)<2^64 and n < C(|seq|,k), nth_combination_sequence emits the elements at the positions of the n-th k-subset in lexicographic order (followed, with complete_index, by the remaining elements in order), without reading out of bounds, whatever n_choose_k calls came before.  k=0 and k=1 are undefined behaviour; with complete_index and a plain output iterator the remaining indices overwrite the combination.", "quantifier": "every sequence, k and n within these bounds, every history", "why_tests_cant": "C(n,k) is unbounded.", "anchors": ["strtk.hpp:details::nth_combination_sequence", "strtk.hpp:nth_combination_sequence"]}
{"id": "C32", "title": "random selection only rearranges what it was given", "statement": "For every sequence of draws from [0,1), random_permutation outputs a permutation of the input, random_combination outputs k elements at distinct positions (or false if there are too few), select_k_randomly outputs min(k,size) elements at distinct positions, select_1_randomly one element, and none reads out of bounds.  A generator that can return 1.0 passes the range check and leads out of bounds; the chosen elements come in the order drawn.", "quantifier": "every input, every k, every sequence of random draws", "why_tests_cant": "The random source is arbitrary; every draw sequence is a different execution.", "anchors": ["strtk.hpp:random_permutation", "strtk.hpp:random_combination", "strtk.hpp:select_k_randomly", "strtk.hpp:select_1_randomly"]}
{"id": "C33", "title": "token_grid gives the same cells as cutting the text line by line", "statement": "After loading a text without double-quote support, row_count, min/max_column_count, every cell returned by token(row,column) and every row object equal what one gets by cutting the text into its non-empty lines and each line into fields under the column split option; token refuses out-of-range coordinates with the null range. Fewer than 2^32 cells. row(i) and row.parse do not check: past the grid they are undefined, past the row they read the next row's cells.", "quantifier": "every text, every row and column delimiter set, every split option, every (row,column)", "why_tests_cant": "All texts and all coordinates; the cell index is 32-bit arithmetic over one flat list.", "anchors": ["strtk.hpp:token_grid::load", "strtk.hpp:token_grid::token", "strtk.hpp:token_grid::row", "strtk.hpp:token_grid::row_count", "strtk.hpp:token_grid::min_column_count", "strtk.hpp:token_grid::max_column_count"]}
{"id": "C34", "title": "removals on a token_grid behave like operations on a list of rows", "statement": "remove_row, remove_row_if, remove_token_if, remove_empty_tokens, enforce_column_count, enforce_min_max_column_count and clear, in any order, leave a grid whose rows and cells are those of the list of lists after the corresponding filters; an invalid row range changes nothing. remove_token_if keeps the column counts right. remove_row and remove_row_if leave stale column counts, enforce_column_count ignores its row range, and range() with default bound is rejected.", "quantifier": "every initial text and every finite sequence of operations, all predicates and ranges", "why_tests_cant": "Histories of unbounded length; index shifting after a removal shows only on later rows.", "anchors": ["strtk.hpp:token_grid::remove_row", "strtk.hpp:token_grid::remove_row_if", "strtk.hpp:token_grid::remove_token_if", "strtk.hpp:token_grid::remove_empty_tokens", "strtk.hpp:token_grid::enforce_column_count", "strtk.hpp:token_grid::enforce_min_max_column_count", "strtk.hpp:token_grid::clear", "strtk.hpp:token_grid::range"]}
{"id": "C35", "title": "join undoes split", "statement": "join(delimiter, tokens) places the delimiter between consecutive tokens only, join_if does the same for the tokens accepted by the predicate, and splitting the result on a single-character delimiter gives the tokens back whenever the list is not empty, no token contains the delimiter and the list is not a single empty token.", "quantifier": "every token list, predicate and delimiter", "why_tests_cant": "Equation over all lists of strings.", "anchors": ["strtk.hpp:join", "strtk.hpp:join_if", "strtk.hpp:split"]}
{"id": "C36", "title": "copying or concatenating files yields exactly the source bytes", "statement": "For distinct files, copy_file(src,dst) returns true exactly when src can be opened and dst can be created, and then dst holds the bytes of src whatever its length relative to the block size, with every other file unchanged; concatenate(f1,f2,out) likewise gives the bytes of f1 followed by those of f2; files_identical is true iff both files open and have the same bytes. A destination that cannot be opened is left as it was.", "quantifier": "every file content of every length, every file-system state, every pair of distinct names", "why_tests_cant": "Lengths around multiples of the block size and every file-system state.", "anchors": ["strtk.hpp:fileio::copy_file", "strtk.hpp:fileio::concatenate", "strtk.hpp:fileio::files_identical"]}
{"id": "C37", "title": "text written with write_to_text_file loads back, and the line functions visit every line", "statement": "for_each_line calls its function on exactly the lines of the text in order (each up to a newline, plus a non-empty rest) and returns their number; the _n forms stop after n lines (0 meaning all), leaving the rest of the stream, and the conditional forms at the first refusal, which is not counted. load_from_text_file appends the values of the lines up to the first that does not convert. Writing items with write_to_text_file and newline as delimiter and loading gives back the same items, provided no item's text contains a newline.", "quantifier": "every text, every function with state, every limit, every list of items and converter", "why_tests_cant": "Empty lines, trailing lines and unbounded list lengths.", "anchors": ["strtk.hpp:write_to_text_file", "strtk.hpp:load_from_text_file", "strtk.hpp:for_each_line", "strtk.hpp:for_each_line_n", "strtk.hpp:for_each_line_conditional", "strtk.hpp:for_each_line_n_conditional"]}
{"id": "C38", "title": "key-value parsing assigns each registered key its last value", "statement": "keyvalue::parser cuts the text at every block delimiter, skips empty fields, cuts each field at its first pair delimiter and needs a non-empty value. With failures ignored, every field whose key is registered converts its value into that key's variable, and failure_count is the number of other or unconvertible fields. Without, it stops at the first failing field and returns false (earlier assignments remain), and returns false for an empty text. Variables no field names keep their value; the last field naming a variable decides it, and when no variable is named twice the order of the pairs does not matter (neither to the variables nor to the number of failures, nor to whether the strict parse succeeds). uintkey_map keys are the numbers below key_count in at most 19 digits, stringkey_map keys the exact text, key_map<unsigned int> keys the number modulo 2^32 in at most 19 digits and 2^32 - 1 for any other text; the last registration of a key counts.", "quantifier": "every input text, every key set and registration order, every delimiter pair, every variable and converter", "why_tests_cant": "All orders and repetitions of pairs, unbounded texts.", "anchors": ["strtk_keyvalue_example.cpp:example01", "strtk.hpp:keyvalue::parser", "strtk.hpp:keyvalue::uintkey_map", "strtk.hpp:keyvalue::key_map", "strtk.hpp:keyvalue::stringkey_map", "strtk.hpp:split_pair"]}
{"id": "C39", "title": "bit operations on byte arrays address exactly one bit", "statement": "set_bit_high/low(i) changes bit i and no other bit of the array, bit_state(i) reads it back; high_bit_count equals the number of set bits; hamming_distance of two equally long strings equals the number of differing bits and is a metric, and is SIZE_MAX for different lengths. (hamming_distance_elementwise never returns on non-empty ranges of equal length; it is 0 for empty ones and SIZE_MAX for different lengths.)", "quantifier": "every byte array, every index inside it", "why_tests_cant": "All arrays and indices; table-driven popcount must be right for all 256 entries and all lengths.", "anchors": ["strtk.hpp:set_bit_high", "strtk.hpp:set_bit_low", "strtk.hpp:bit_state", "strtk.hpp:high_bit_count", "strtk.hpp:hamming_distance"]}
{"id": "C40", "title": "bitwise interleaving is lossless", "statement": "twoway_bitwise_interleave spreads bit i of the two inputs to bits 2i and 2i+1 of the result, so both inputs can be recovered, and writes exactly 2n bytes; create_nway_interleave_table<n> moves bit j to bit j*n. The std::string overload of the two-way version makes its output only half as long as what it writes: undefined behaviour for every non-empty input.", "quantifier": "all byte values and all string lengths", "why_tests_cant": "Needs every pair of bytes and every string length.", "anchors": ["strtk.hpp:twoway_bitwise_interleave", "strtk.hpp:create_nway_interleave_table", "strtk.hpp:bitwise_transform"]}
{"id": "C41", "title": "text alignment pads to exactly the requested width", "statement": "text::left_align, right_align and center return the text itself when it is at least as long as the width, and otherwise a string of exactly that width containing the text once, contiguous, at the stated side (centre: left padding at most one shorter than right), all other characters being the pad character.", "quantifier": "every string, width and pad character", "why_tests_cant": "All widths, all parities.", "anchors": ["strtk.hpp:text::center", "strtk.hpp:text::right_align", "strtk.hpp:text::left_align"]}
{"id": "C42", "title": "consecutive-value search returns the leftmost qualifying run", "statement": "For n >= 1 and a range shorter than 2^32 (2^31 for the at-least form), find_exactly_n_consecutive_values returns the leftmost window of n consecutive elements satisfying the predicate, find_atleast_n_consecutive_values the leftmost maximal run of at least n such elements, and both an empty range at the end if there is none; match_exactly answers whether a window starts at the beginning; split_on_consecutive emits the successive windows (runs), each search starting where the last result ended, and the bounded versions the first n+1 of them. The character types stand for the classes they name. For n = 0 the exact searches find nothing (refuted).", "quantifier": "every element type, predicate, n, start position and range", "why_tests_cant": "Run structure is unbounded.", "anchors": ["strtk.hpp:details::find_exactly_n_consecutive_values", "strtk.hpp:details::find_atleast_n_consecutive_values", "strtk.hpp:split_on_consecutive", "strtk.hpp:split_on_consecutive_n", "strtk.hpp:details::match_atleast_n_consecutive_values", "strtk.hpp:find_n_consecutive"]}
{"id": "C43", "title": "hex and base64 sinks store what the text encodes", "statement": "A fresh hex_to_number_sink succeeds exactly for hexadecimal text (optional 0x/0X) of 1 to 2*sizeof(T) digits; the stored value is the number written when the text has 2*sizeof(T) or one fewer digits, and in general that number times 256 to the number of missing bytes (so shorter texts give a wrong number). hex_to_string_sink decodes every even-length text of at least two digits and refuses the rest. base64_to_number_sink stores the decoded bytes but never reports success. Texts that are too long leave the previous success flag in place. As a field of parse the sink reports the same.", "quantifier": "every text, every integer width", "why_tests_cant": "All digit strings of all lengths, and sink states left by earlier calls.", "anchors": ["strtk.hpp:hex_to_number_sink", "strtk.hpp:base64_to_number_sink", "strtk.hpp:hex_to_string_sink"]}
{"id": "C44", "title": "case-insensitive comparison ignores exactly letter case", "statement": "For 7-bit strings imatch is true iff they have the same length and equal characters up to ASCII case, and is an equivalence relation; imatch against a sequence finds the first such element; as_lowercase/as_uppercase change letters only and are idempotent, for every byte string. A byte in 0x80..0xFE that imatch reaches is undefined behaviour.", "quantifier": "all strings", "why_tests_cant": "All pairs of strings.", "anchors": ["strtk.hpp:imatch", "strtk.hpp:convert_to_lowercase", "strtk.hpp:convert_to_uppercase"]}
{"id": "C45", "title": "the hash of a range looks at every element when the length is a whole number of blocks", "statement": "hash(itr,length,seed) never reads outside the range; when the length is a multiple of 64, or 2, 4, 8, 16 or 32, it mixes in every element exactly once in order, so that for multiples of 64 hashing a concatenation equals hashing the second part with the hash of the first as seed.", "quantifier": "every element type, every sequence, every seed", "why_tests_cant": "The block structure depends on the length; all lengths and contents are needed.", "anchors": ["strtk.hpp:hash", "strtk.hpp:details::compute_block", "strtk.hpp:details::compute_pod_hash"]}
{"id": "C46", "title": "offset splitting emits the requested slices and never leaves the range", "statement": "offset_splitter with a fresh or reset offset_predicate emits consecutive slices of the requested lengths starting at the beginning, the last one cut off at the end of the data; it stops at the end or at the first offset that is not positive, returns the number of slices, and with rotation the offsets repeat, so positive offsets cover the whole text. Without a reset, a predicate that ran out of offsets reads beyond its array.", "quantifier": "every range and every list of offsets", "why_tests_cant": "All combinations of offsets and lengths.", "anchors": ["strtk.hpp:offset_splitter", "strtk.hpp:offset_predicate"]}
{"id": "C47", "title": "next_combination enumerates every k-subset exactly once in order", "statement": "Starting from a range sorted strictly, repeated next_combination (or a loop over combination_iterator) visits the k-element combinations in lexicographic order, each once, returns false exactly after the last and restores the sorted order; for any contents it only ever permutes the range.", "quantifier": "every range and k", "why_tests_cant": "C(n,k) steps for unbounded n.", "anchors": ["strtk.hpp:next_combination", "strtk.hpp:combination_iterator"]}
{"id": "C48", "title": "the floating point parser accepts numbers and stays inside its tables", "statement": "For texts below 2^31 characters the parser into float or double returns true or false without undefined behaviour unless the text has 616 or more fraction digits or an exponent of -616 or less (there the power-of-ten table is read past its end). Every decimal number (sign, digits, optional point and digits, exponent of at most four digits, or three with a type suffix) is accepted; from digits, sign, point and exponent characters nothing else is; a failure leaves the variable unchanged. Other accepted texts are exactly numbers with a sloppy exponent (such as 1e5xf) and texts ending in a word for infinity or NaN.", "quantifier": "every text, every arithmetic with the exponent range of double", "why_tests_cant": "Exponent and fraction texts are unbounded; an out-of-range table read usually returns some double silently.", "anchors": ["strtk.hpp:string_to_type_converter_impl(real_type_tag)", "strtk.hpp:pow10"]}
{"id": "C49", "title": "remove_duplicates keeps the first occurrence of each character", "statement": "For a string of 7-bit characters remove_duplicates returns the characters of the string in order of first occurrence, each once; on a string with a character above 0x7F its table index is negative and the behaviour is undefined.", "quantifier": "every string of characters below 0x80; every string with a character above", "why_tests_cant": "Every arrangement of repeated characters; the undefined case depends on the sign of char.", "anchors": ["strtk.hpp:remove_duplicates"]}
{"id": "C50", "title": "begins_with, ends_with and index_of decide prefix, suffix and first position", "statement": "begins_with(p,s) is true iff s starts with p, ends_with(p,s) iff s ends with p, and index_of(s,p) for a non-empty p is the smallest offset at which p occurs, or npos if it does not occur; none of them reads outside s or p.", "quantifier": "every element type with decidable equality, every pattern and sequence", "why_tests_cant": "Overlaps of pattern and text of unbounded length.", "anchors": ["strtk.hpp:begins_with", "strtk.hpp:ends_with", "strtk.hpp:index_of"]}
{"id": "C51", "title": "convert_to_printable_chars changes exactly the unprintable bytes", "statement": "convert_to_printable_chars keeps the length, keeps every byte from 0x21 to 0x7E and turns every other byte into a full stop, for all 256 byte values at every position.", "quantifier": "every byte string", "why_tests_cant": "All byte values at all positions; the table index depends on the sign of char.", "anchors": ["strtk.hpp:convert_to_printable_chars"]}
{"id": "C52", "title": "ifind and ifind_all find case-insensitive occurrences", "statement": "For 7-bit strings and a non-empty pattern, ifind returns the smallest offset at which the pattern occurs up to letter case, or npos if there is none, and ifind_all emits exactly the leftmost non-overlapping such occurrences in order.", "quantifier": "every 7-bit pattern and data string", "why_tests_cant": "Occurrence structure is unbounded.", "anchors": ["strtk.hpp:ifind", "strtk.hpp:ifind_all"]}
{"id": "C53", "title": "bitwise_transform acts bit by bit", "statement": "bitwise_transform(op, a, b, out) writes |a| bytes whose every bit is op of the corresponding bits of a and b and touches nothing else; so XOR-ing twice with the same key restores the input; the string version leaves out unchanged when the lengths differ.", "quantifier": "every pair of byte strings, AND / OR / XOR", "why_tests_cant": "All byte pairs at all positions.", "anchors": ["strtk.hpp:bitwise_transform"]}
{"id": "C54", "title": "left-padded text fields have the exact width", "statement": "binary::writer::operator()(value, size, left_padding, pad) stores exactly size bytes: the padding character repeated, then the text of the value. With right_padding and a text of at least two characters that is shorter than the field it reads beyond its string (refuted).", "quantifier": "every text, width, padding character and buffer state", "why_tests_cant": "The failing mode depends on the relation between two unbounded lengths.", "anchors": ["strtk.hpp:binary::writer"]}
{"id": "C55", "title": "construct followed by parse returns the same integers", "statement": "For any number of integer variables (short, int, long long within their round-trip range, and the unsigned types) and any separator all of whose characters are delimiters that are neither digits nor a minus sign, strtk::construct(s,separator,v1..vn) followed by strtk::parse(s,delimiters,w1..wn) returns true with wi = vi; more generally for any types whose texts are non-empty, free of delimiters and convert back.", "quantifier": "every tuple of values and types, every separator and delimiter set meeting the condition", "why_tests_cant": "Combines formatting, tokenising and parsing over all value tuples.", "anchors": ["strtk.hpp:construct", "strtk.hpp:parse", "strtk.hpp:type_to_string"]}
{"id": "C56", "title": "parse_line consumes exactly one line", "statement": "parse_line(stream,delims,t1..tn) removes exactly the first line and its newline from a good stream, returns false without touching any target if the line or the delimiter set is empty, and otherwise behaves as parse on the text of that line; at the end of the stream it returns false and touches nothing.", "quantifier": "every stream content, delimiter set, arity and target types", "why_tests_cant": "Line structure and failure positions are unbounded; the stream state after each call matters for the next.", "anchors": ["strtk.hpp:parse_line", "strtk.hpp:parse(argc,argv,t1..tn)"]}
{"id": "C57", "title": "text builders produce exactly the described text", "statement": "replicate(n,s) is n copies of s; bracketize wraps every element; inserter with an interval_inserter puts the value after every k-th element and returns the number of elements written; cut(r0,r1) with r0<=r1 keeps the characters [r0,min(r1,size)) of the strings of length at least r0; translate replaces every character by the last entry given for it in the table and leaves the others alone, for characters below 128.", "quantifier": "every string, sequence, interval, range and table", "why_tests_cant": "Unbounded lengths; block boundaries; duplicate table entries.", "anchors": ["strtk.hpp:replicate", "strtk.hpp:bracketize", "strtk.hpp:interval_inserter", "strtk.hpp:cut", "strtk.hpp:translation_table"]}
{"id": "C58", "title": "column selection converts exactly the chosen columns", "statement": "For a strictly increasing column list, parse_columns returns false without touching any target when the text has too few columns, and otherwise converts column c_i (consecutive delimiters count as one) into target i, stopping at the first failure; the sequence form does the same for the first elements of a sequence with at least as many elements; column_selector converts each chosen column it is shown into its own target, records success per target and counts the failures; after reset() it does the same with the next row, a column that row does not reach keeping its value and flag.", "quantifier": "every text, delimiter set, increasing column list, arity, targets and converters", "why_tests_cant": "Unbounded numbers of columns and texts, any failure position.", "anchors": ["strtk.hpp:parse_columns", "strtk.hpp:column_selector_iterator_impl", "strtk.hpp:column_selector_base", "strtk.hpp:util::value"]}
{"id": "C59", "title": "assigned util::value objects do not depend on their source", "statement": "In a program that creates, binds (constructor or assign), copy-assigns and destroys util::value objects (no copy construction), calling a live object converts the text into the variable it was last bound to, directly or by assignment from a bound object, even after the source was rebound or destroyed; an unbound object returns false and changes nothing.", "quantifier": "every sequence of operations over any number of objects", "why_tests_cant": "All interleavings of lifetimes.", "anchors": ["strtk.hpp:util::value"]}
{"id": "C60", "title": "whole-file and offset reads return exactly the bytes asked for", "statement": "After write_file(name,d) returns true, file_size is the length of d and load_file into a string gives d whatever the string held before. load_file returns false and empties the string when the file cannot be opened. read_at_offset(name,offset,string,size) returns true exactly when the file opens and offset+size does not exceed its length (or size is 0), and then the string is those bytes. file_exists is true exactly for the files that can be opened for reading; writing one file changes this for no other.", "quantifier": "every file content, offset, size and previous buffer content", "why_tests_cant": "Offsets and sizes around the end of the file, stale buffer contents.", "anchors": ["strtk.hpp:fileio::load_file", "strtk.hpp:fileio::write_file", "strtk.hpp:fileio::file_size", "strtk.hpp:fileio::read_at_offset"]}
{"id": "C61", "title": "range copies take exactly the selected elements", "statement": "copy_n appends the n elements from the position, provided the range has that many; copy_if appends the elements that satisfy the predicate in order; copy_while and copy_until append the longest prefix whose elements all do, or do not, satisfy it and return its end; range_only_contains is true iff all elements satisfy it.", "quantifier": "every range, predicate and prior output", "why_tests_cant": "All lengths, the predicate failing at the first, a middle, the last or no element.", "anchors": ["strtk.hpp:copy_n", "strtk.hpp:copy_if", "strtk.hpp:copy_while", "strtk.hpp:copy_until", "strtk.hpp:range_only_contains"]}
{"id": "C62", "title": "row objects give exactly the row's cells", "statement": "For a row object of the grid: as_string is the concatenation of its cells, raw_length its length, range spans the first to the last cell; parse, parse_with_index, parse over a range, a sequence or n columns stop at the first cell that does not convert and have assigned exactly the values before it; parse_checked appends the values of the cells that convert; for_each_column visits the range in order. An invalid column range is refused.", "quantifier": "every grid, row, column list, range, converter and prior sequence", "why_tests_cant": "All row lengths and every position of the first bad cell.", "anchors": ["strtk.hpp:token_grid::row_type::parse", "strtk.hpp:token_grid::row_type::parse_with_index", "strtk.hpp:token_grid::row_type::parse_n", "strtk.hpp:token_grid::row_type::parse_checked", "strtk.hpp:token_grid::row_type::for_each_column", "strtk.hpp:token_grid::row_type::as_string"]}
{"id": "C63", "title": "column functions of token_grid select the cells of the rows that have the column", "statement": "extract_column(_checked), column widths, join_column, join_row, accumulate_row, accumulate_column (with and without a row predicate), for_each_row and sequential_partition act on the cells of the given rows that have the column, in row order, and refuse invalid ranges. join_row is right for all rows but the last, whose last cell it drops; accumulate_column also counts rows without the column; a column index equal to the greatest count is accepted; checked extraction through a pointer keeps only one value; sequential_partition merges groups of one row.", "quantifier": "every grid, row range, column, delimiter, converter, predicate and callback", "why_tests_cant": "Ragged rows of all shapes, every range and every failing position.", "anchors": ["strtk.hpp:token_grid::extract_column", "strtk.hpp:token_grid::extract_column_checked", "strtk.hpp:token_grid::get_column_widths", "strtk.hpp:token_grid::join_row", "strtk.hpp:token_grid::join_column", "strtk.hpp:token_grid::accumulate_row", "strtk.hpp:token_grid::accumulate_column", "strtk.hpp:token_grid::for_each_row", "strtk.hpp:token_grid::sequential_partition"]}
{"id": "C64", "title": "double-quoted cells are not cut at delimiters", "statement": "With double-quote support and split options default, compress or include-first, the cells of a line are its fields cut at the delimiters outside quotes, a quote left open staying open in the following lines; with trimming, enclosing quotes are removed from each cell. Trimming needs the text not to end in an empty cell and no cell to be a lone quote; include_all_delimiters toggles a quote after a delimiter twice.", "quantifier": "every text, delimiter set and the three split options", "why_tests_cant": "All placements of quotes and delimiters; the predicate has a state that must follow the scan exactly.", "anchors": ["strtk.hpp:token_grid::load", "strtk.hpp:token_grid::double_quotes_predicate", "strtk.hpp:token_grid::options"]}
{"id": "C65", "title": "single-character text edits do what their names say", "statement": "text::swap exchanges the two characters and changes no other (indices out of range change nothing); remaining_string returns the suffix from the index; the is_... predicates accept exactly the enumerated characters, is_all_letters and is_all_digits exactly the strings of them; remove of the last character and insert at the end give the string without (with) that character. remove and insert anywhere else call memcpy on overlapping ranges and are undefined unless memcpy behaves like memmove, in which case they remove (insert) exactly that character.", "quantifier": "every string, index and character, including bytes above 127", "why_tests_cant": "All lengths and positions; overlapping memcpy usually works by luck.", "anchors": ["strtk.hpp:text::swap_inplace", "strtk.hpp:text::remove_inplace", "strtk.hpp:text::insert_inplace", "strtk.hpp:text::remaining_string", "strtk.hpp:text::is_letter", "strtk.hpp:text::is_all_digits"]}
{"id": "C66", "title": "field checkers accept exactly the fields they describe", "statement": "As targets of parse: expect(s) accepts exactly the field s, iexpect(s) exactly the fields equal to s up to case (7-bit text), like with a star-free pattern exactly its matches, inrange(t,low,hi) exactly the fields that convert to a value in [low,hi] and writes t only then, trim/trim_leading/trim_trailing convert the trimmed field, as_lcase/as_ucase store the field in that case, fill_array copies a field of exactly the given size and touches nothing else.", "quantifier": "every field text, expected text, bounds and old target value", "why_tests_cant": "All texts; the failure paths must leave the target alone.", "anchors": ["strtk.hpp:expect", "strtk.hpp:iexpect", "strtk.hpp:like", "strtk.hpp:inrange", "strtk.hpp:trim", "strtk.hpp:as_lcase", "strtk.hpp:fill_array"]}
{"id": "C67", "title": "range summaries: extremes and consecutive duplicates", "statement": "min_max_of_range, min_of_cont and max_of_cont deliver the smallest and largest element of any non-empty range under a strict total order (undefined on empty ranges), and count_consecutive_duplicates counts exactly the elements equal to their predecessor.", "quantifier": "every element type with ==/<, every range", "why_tests_cant": "Unbounded ranges and arbitrary element types.", "anchors": ["strtk.hpp:min_max_of_range", "strtk.hpp:count_consecutive_duplicates", "strtk.hpp:min_of_cont", "strtk.hpp:max_of_cont"]}
{"id": "C68", "title": "first_non_repeated_char finds the first character that occurs once", "statement": "For text of 7-bit characters the result is the least position whose character occurs nowhere else, and npos exactly when no character occurs once; a byte of 128 or more indexes outside the table (undefined).", "quantifier": "every string shorter than 2^64-2", "why_tests_cant": "All strings; a table entry passes through three states.", "anchors": ["strtk.hpp:first_non_repeated_char"]}
{"id": "C69", "title": "lexicographically_canonicalize rotates to the smallest suffix", "statement": "The result is a rotation of the non-empty input starting at the suffix that is smallest when the end counts as larger than all elements; when the smallest element occurs once it is the least rotation and the same for all rotations of the input; in general two rotations of one word can get different results.", "quantifier": "every element type with a strict total order, every non-empty range", "why_tests_cant": "Tie-breaking needs arbitrarily many rounds on unbounded ranges.", "anchors": ["strtk.hpp:lexicographically_canonicalize"]}
{"id": "C70", "title": "cursor operations of binary reader and writer do what their names say", "statement": "seek(n) and rewind(n) move by exactly n bytes when the target lies in the buffer and otherwise fail without effect; mark / reset_to_mark behave as a stack: after any balanced sequence of other calls the position returns to the mark; reset and clear go to the start, clear zeroes; load replaces exactly the first bytes by what the stream delivered; a text field is exactly its bytes; texts, fields and length prefixes that do not fit are refused without effect.", "quantifier": "every buffer, position and call sequence", "why_tests_cant": "Unbounded call histories and nesting of marks.", "anchors": ["strtk.hpp:binary::reader", "strtk.hpp:binary::writer", "strtk.hpp:seek", "strtk.hpp:rewind", "strtk.hpp:mark", "strtk.hpp:reset_to_mark"]}
{"id": "C71", "title": "truncated_int reads the part before the decimal point", "statement": "With unknown fraction size the integer is converted from the text before the first '.' (the whole text if there is none); with fraction size n from the text without its last n+1 characters, which is the integer part when the text ends in '.' and n characters; shorter texts fail without effect.", "quantifier": "every text, every integer type, every fraction size", "why_tests_cant": "All texts.", "anchors": ["strtk.hpp:truncated_int"]}
{"id": "C72", "title": "list sinks append the converted tokens of a field", "statement": "A sink attached to a container and parsed from a field appends, in order, the values of the tokens that convert (of the first n tokens when a count n is set with count(), under every split option but include-all alone); it succeeds iff there was a token, or with a count iff exactly n values were added; without a container it fails without effect. The constructor taking a container leaves the count without a value, so using it before count() is undefined.", "quantifier": "every field, delimiter set, container, element type and count", "why_tests_cant": "All nestings of lists in fields.", "anchors": ["strtk.hpp:sink_type", "strtk.hpp:container_adder"]}
{"id": "C73", "title": "the floating point parser computes the number written", "statement": "Over exact arithmetic the value stored for a number with at most 615 fraction digits and an exponent from -615 to 308 is exactly the number written; above 308 it is not (the code multiplies by 10 to the ten-fold exponent, so 0e309 becomes NaN in double).", "quantifier": "every number text", "why_tests_cant": "All digit strings, all positions of the point, all exponents.", "anchors": ["strtk.hpp:string_to_type_converter_impl(real_type_tag)", "strtk.hpp:pow10"]}
{"id": "C74", "title": "integers parsed into double are correctly rounded", "statement": "An integer text of value up to 2^53 with an exponent from 0 to 22 is parsed into the IEEE double nearest to its value; without exponent it is exact. With a fraction or a larger exponent the result may be off by one unit in the last place.", "quantifier": "all integer texts up to 2^53, all exponents 0..22", "why_tests_cant": "2^53 integers in unboundedly many notations.", "anchors": ["strtk.hpp:string_to_type_converter_impl(real_type_tag)", "strtk.hpp:pow10"]}
{"id": "C75", "title": "decimal_sink reads fixed-size decimals", "statement": "Text with a point whose integer digits (without leading zeros) fit int_size and whose fraction fits or is cut at frac_size (at most 615) is read as written. Text without a point that fits int_size, and empty text, are undefined behaviour; an integer part longer than int_size loses a digit silently. A character that is no digit within the width of the fraction, or neither digit nor point within that of the integer part, makes it fail without effect.", "quantifier": "every text, every pair of sizes, every arithmetic with the exponent range of double", "why_tests_cant": "All digit strings and sizes.", "anchors": ["strtk.hpp:decimal_sink"]}
{"id": "C76", "title": "for_each_combination visits every selection once and restores the range", "statement": "for_each_combination(begin,end,size,f) calls f with every selection of size elements of the range exactly once, in lexicographic order of the positions, and leaves the range exactly as it was; a size larger than the range makes no call. The conditional form makes the same calls until f returns false; then the range is left rearranged with the rejected selection in front. A size of 2^63 or more passes the check and is undefined behaviour.", "quantifier": "every element type, range, size and function with any state", "why_tests_cant": "All ranges, sizes and stateful functions; exactness of an enumeration whose length is a binomial coefficient.", "anchors": ["strtk.hpp:for_each_combination", "strtk.hpp:for_each_combination_conditional", "strtk.hpp:combine_discontinuous", "strtk.hpp:rotate_discontinuous"]}
{"id": "C77", "title": "for_each_permutation visits each permutation from the given one upwards once", "statement": "for_each_permutation(begin,end,f) calls f with exactly the permutations of the range that are not lexicographically smaller than the given one, each once and in increasing order, and leaves the range sorted; on a sorted range these are all permutations. The conditional form stops at the first rejected permutation, which is what the range then holds, and returns false.", "quantifier": "every element type with a strict total order, every range (also with equal elements), every function with any state", "why_tests_cant": "All ranges and functions; the number of calls is factorial.", "anchors": ["strtk.hpp:for_each_permutation", "strtk.hpp:for_each_permutation_conditional"]}
{"id": "C78", "title": "delete_all and delete_if release exactly the owned objects", "statement": "For a container of pointers in which every pointer is null or the address of a living object and no address occurs twice, util::delete_all deletes every pointed-to object exactly once, touches no other object and leaves the container empty; it is defined for exactly these containers. util::delete_if deletes exactly the objects of the elements its predicate accepts, keeps the other elements in their order, and calls the predicate on elements whose object still lives. A container holding an address twice makes both undefined (refuted without the condition).", "quantifier": "all containers (sequence, map, multimap, and for delete_all set and multiset), all heaps, all predicates on the element and its object", "why_tests_cant": "A double delete or a use after delete is not observable by an assertion, and the condition on sharing ranges over all heaps.", "anchors": ["strtk.hpp:delete_all", "strtk.hpp:delete_if"]}
{"id": "C79", "title": "make_key_list and make_value_list", "statement": "util::make_key_list appends the keys of a map in map order to a sequence, adds to a set exactly the keys it has no equivalent of, and adds all of them to a multiset. util::make_value_list appends the values stored under the key in multimap order, provided multimap::find returns the first of several equivalent elements and operator== of the key agrees with the comparator; without the first condition some values can be missed (only a suffix is written), without the second the walk can stop at once although the key is present (both refuted).", "quantifier": "all maps and multimaps, all strict weak orders, all previous contents", "why_tests_cant": "The choice find makes among equivalent elements is left open by the standard; a test sees one library implementation.", "anchors": ["strtk.hpp:make_key_list_impl", "strtk.hpp:make_key_list", "strtk.hpp:make_value_list"]}
{"id": "C80", "title": "Bloom filter salts", "statement": "A bloom::filter with more than 128 hash functions has as many pairwise different, non-zero salts as hash functions, the first 128 being the predefined ones, whatever rand() returns, once the search ends. With at most 128 hash functions the salts are mixed with the user's seed and can coincide (refuted: seed 86767019 gives two hash functions the same salt).", "quantifier": "all parameter sets and all sequences rand() can return; for the refutation one seed", "why_tests_cant": "The result depends on rand() and on a 64 bit seed; no sample of seeds shows that salts never coincide.", "anchors": ["strtk.hpp:generate_unique_salt"]}
{"id": "C81", "title": "filter_on_match lets through exactly the matching tokens", "statement": "A filter_on_match that ignores case, called for each token of a list of 7 bit tokens, forwards exactly the tokens equal to one of its patterns up to letter case, in order (with allow_through_on_match false: exactly the others). The case-sensitive filter compares without looking at the token's length: over the tokens of a std::string it forwards exactly those at whose start the text begins with one of the patterns (patterns without NUL), which is equality when patterns and tokens have the same length and is not otherwise (refuted: pattern ab lets abc through; pattern a,b lets the token a of a,b through). On an array without NUL a token at the very end that is a proper prefix of a pattern makes the filter read past the array (refuted). The overload for std::string forwards every string when allow_through_on_match is false (refuted).", "quantifier": "all pattern lists, all memories, all token lists, both settings", "why_tests_cant": "The result depends on bytes beyond the token; a test fixes those bytes by accident.", "anchors": ["strtk.hpp:filter_on_match"]}
{"id": "C82", "title": "filter_on_wildcard_match", "statement": "With a pattern made of a literal prefix and one star, filter_on_wildcard_match forwards, in order, exactly the tokens and strings that do NOT have the prefix when allow_through_on_match is true (the default), and exactly those that have it when it is false. The reading suggested by the parameter's name is refuted.", "quantifier": "all prefixes free of the wildcard characters, all memories, all token lists, both settings", "why_tests_cant": "Which tokens pass is a statement about all texts; the memory after the token must be shown irrelevant.", "anchors": ["strtk.hpp:filter_on_wildcard_match"]}
{"id": "C83", "title": "size predicates", "statement": "For ranges and containers of fewer than 2^63 elements and template lengths below 2^63, size_equal_to, size_less_than, size_greater_than, size_is_even, size_is_odd, empty_range and nonempty_range decide what their names say, and the overloads for ranges and for containers agree. For lengths from 2^63 on the range overloads of size_less_than and size_greater_than take the length for a negative number and disagree with the container overloads for every size (refuted).", "quantifier": "all lengths and sizes", "why_tests_cant": "The boundary is at sizes no test can allocate.", "anchors": ["strtk.hpp:size_equal_to", "strtk.hpp:size_less_than", "strtk.hpp:size_greater_than", "strtk.hpp:size_is_even", "strtk.hpp:size_is_odd"]}
{"id": "C84", "title": "converting inserters", "statement": "Tokens written through range_to_type_back_inserter, range_to_type_inserter and range_to_type_push_inserter add exactly the values of the convertible tokens, in order, to the container; range_to_ptr_type stores them one after another from its pointer on, counts them and changes nothing else, provided there is room (with less room the next value is written past the array: refuted). counting_back_inserter adds the number of values modulo 2^64. Assigning one inserter to another overwrites the first one's container instead of redirecting it, and *out++ = x on a functional_inserter acts on a copy of the function object (both refuted as output iterator behaviour). Called with two iterators instead of assigned a token, range_to_type_back_inserter throws where the assignment passes over a text that does not convert.", "quantifier": "all converters, all containers and insert operations, all token lists, all array contents and positions", "why_tests_cant": "Needs all interleavings of convertible and inconvertible tokens, and the room condition for all sizes.", "anchors": ["strtk.hpp:range_to_type_back_inserter_iterator", "strtk.hpp:range_to_ptr_type_iterator", "strtk.hpp:counting_back_inserter_iterator", "strtk.hpp:functional_inserter_iterator"]}
{"id": "C85", "title": "extract_unique, skip_while_matching and filter_non_empty_range", "statement": "For a total order agreeing with operator==, extract_unique writes every distinct element of the range exactly once and in strictly ascending order, whatever arrangement std::sort chooses. skip_while_matching leaves the iterator at the first element the predicate rejects or at the end, and never reads the end. filter_non_empty_range forwards exactly the non-empty ranges, in order.", "quantifier": "all ranges, orders, predicates and sort implementations", "why_tests_cant": "The order of equal elements after std::sort is unspecified; all of them must give the same output.", "anchors": ["strtk.hpp:extract_unique", "strtk.hpp:skip_while_matching", "strtk.hpp:filter_non_empty_range"]}
{"id": "C86", "title": "write_pod and read_pod in memory", "statement": "write_pod(data,t1,...) stores the bytes of the values one after another from data on, changes no other byte and returns the position after them; read_pod(data,t1,...) cuts the same bytes up again, so reading what was written gives the same values and the same position. write_pod of an array writes what writing its elements one by one would. read_pod of an array gives the elements back if data is aligned for the element type; otherwise it reads through a misaligned pointer and is undefined (refuted), for instance after a one byte field. With too little memory both are undefined (refuted).", "quantifier": "all lists of values of any sizes, all memories and positions", "why_tests_cant": "Field boundaries, neighbouring bytes and alignment must be right for every list of types.", "anchors": ["strtk.hpp:write_pod", "strtk.hpp:read_pod"]}
{"id": "C87", "title": "read_pod and write_pod on files", "statement": "fileio::read_pod(stream,t1,...) stores the bytes of the file from the current position on into the variables in order, leaves the bytes it could not fill alone, and returns true exactly if the file had enough bytes. read_pod(stream,count,container) adds min(count, number of whole values left) values in file order and returns true exactly if there were count. The array versions transfer the right bytes, but read_pod of an array returns true exactly when there were too few bytes, and write_pod of an array returns false although the bytes were written (both refuted as success flags).", "quantifier": "all files, positions, lists of sizes, counts and containers", "why_tests_cant": "Every split of the file's length against the sizes has to be considered.", "anchors": ["strtk.hpp:read_pod", "strtk.hpp:write_pod"]}
{"id": "C88", "title": "string_condition", "statement": "A string_condition of type equal, notequal, within, notwithin decides equality and occurrence as a substring for all strings (within with a non-empty string or subject); like without a star is one-for-one matching with ?. begins_with and ends_with hold only for the string itself: with anything before or after they are false (refuted as prefix and suffix tests). The empty string is not within the empty string (refuted). A condition object calls its comparison; a copy does so only while the original lives and is undefined afterwards (refuted).", "quantifier": "all condition strings and subjects, all memory after the subject, all object stores", "why_tests_cant": "Quantifies over all pairs of strings and over object lifetimes.", "anchors": ["strtk.hpp:string_condition"]}
{"id": "C89", "title": "attribute and scoped_restore", "statement": "After any history of assignments and successful conversions an attribute constructed from a value has the value given last, previous() is the value it had just before the last assignment, it is initialised, changed() says whether the two differ, and operator== and the conversion to a string use the current value. A failed conversion does not initialise it, and a default constructed attribute is uninitialised, unchanged, equal to nothing and prints nothing; assigning to one of scalar type copies an indeterminate value (refuted). At the end of a scope with scoped_restore the variable has its old value whatever the scope did, nested scopes included, exactly if restore() was last set to true.", "quantifier": "all value types, all histories, all nested programs", "why_tests_cant": "Histories and nestings of any length.", "anchors": ["strtk.hpp:attribute", "strtk.hpp:scoped_restore"]}
{"id": "C90", "title": "semantic_action", "statement": "A semantic action made from a function object calls it and returns its result; a default constructed one returns false. Once the function object is gone the call is undefined (refuted). A copy works while the original lives and is undefined afterwards; if another action is made in its place, the copy calls the function of that one, and if a default constructed one, the call is undefined (refuted). operator== holds exactly between objects sharing one holder, not between two actions made from the same function.", "quantifier": "all function objects and object stores", "why_tests_cant": "A test cannot observe a dangling pointer reliably.", "anchors": ["strtk.hpp:semantic_action_impl"]}
{"id": "C91", "title": "Bloom filter files: saving and loading", "statement": "write_to_file stores the nine members of any filter a program can build, in a fixed format, touches no other file and returns true; read_from_file on that file restores the filter completely into any other filter object, so every later question and operation gives the same result. This needs a table below 2^32 bytes: a larger one comes back with its table cut to the size modulo 2^32 though both calls report success (refuted). A compressible_filter keeps its own size list when it loads (equal sizes: complete restoration); with another size keys are forgotten or memory outside the table is read (refuted). Saving a filter after a successful compress() reads beyond its table (refuted). A default constructed filter claims to contain every key (refuted).", "quantifier": "all programs of insertions and set operations, all parameters, byte orders, file systems and target filters", "why_tests_cant": "The bytes of an arbitrary table and an arbitrary target object have to be considered.", "anchors": ["strtk.hpp:write_to_file", "strtk.hpp:read_from_file", "strtk.hpp:compressible_filter"]}
{"id": "C92", "title": "Bloom filter files: failures", "statement": "read_from_file on a file that cannot be opened returns false and leaves the filter alone; write_to_file of a filter without a table, or to a file that cannot be written, returns false and changes no file. Every truncated copy of a saved filter is refused without undefined behaviour, and the object is left without a table: it then claims to contain every key, or the question is undefined (refuted as usable). No contents at all make loading undefined if v[0] on an empty vector is harmless. The members of a loaded file are not checked against each other: a file can be accepted whose first lookup is undefined (refuted).", "quantifier": "all file contents, all truncations, all target filters", "why_tests_cant": "All truncations and all corrupt files cannot be tried.", "anchors": ["strtk.hpp:write_to_file", "strtk.hpp:read_from_file"]}
{"id": "C93", "title": "push_back of several values and clear", "statement": "strtk::push_back with any number of values appends them to a sequence in argument order; to a set it adds those that have no equivalent there and keeps what was there, to a multiset it adds all of them, both staying sorted. util::clear leaves an empty container.", "quantifier": "all previous contents, all argument lists, all strict weak orders", "why_tests_cant": "Every order and every previous content has to be considered.", "anchors": ["strtk.hpp:push_back", "strtk.hpp:clear"]}
{"id": "C94", "title": "memcmp_n compares exactly N bytes", "statement": "strtk::memcmp_n<N> on two pointers with eight-byte alignment and N bytes behind each is defined, never reads outside, and returns true exactly if the N bytes agree, for either byte order. Whenever a call is defined its answer is right: true means that both blocks have N equal bytes, false that they differ within the first N. Without alignment the call is undefined on machines that require it (refuted for odd addresses and every N >= 2); the array overload accepts arrays shorter than N and can never answer true for them (refuted).", "quantifier": "all N, all memory contents, addresses, offsets and byte orders", "why_tests_cant": "Every N is another instantiation, and misaligned reads work on the usual test machines.", "anchors": ["strtk.hpp:memcmp_n", "strtk.hpp:memcmp_n_impl", "strtk.hpp:next_size", "strtk.hpp:cmpimpl"]}
{"id": "C95", "title": "make_string, clear_array, set_array, reverse and fill", "statement": "make_string(array,n) is the first n characters, empty if n is too large; make_string of a pair of iterators is the text between them, undefined if they are the wrong way round or the second is behind the end (refuted); clear_array overwrites the first n elements or returns false and leaves the array alone; set_array from a string copies it, pads the rest if asked, and refuses a longer one without change; reverse and fill change exactly the given range. set_array from an array works for equal sizes and refuses longer sources, but for every shorter source it reads beyond it (refuted). reverse and fill cast const away: on a const object they are undefined (refuted).", "quantifier": "all arrays, element types, lengths and ranges", "why_tests_cant": "Each array size is another instantiation; reading a few bytes too many goes unnoticed in a test.", "anchors": ["strtk.hpp:make_string", "strtk.hpp:clear_array", "strtk.hpp:set_array", "strtk.hpp:reverse", "strtk.hpp:fill"]}
{"id": "C96", "title": "iota counts up", "statement": "strtk::iota fills a range with v, v+1, v+2, ... and changes nothing else; with a count it appends that many values to a sequence, adds them to a set (keeping what was there) or a multiset. Unsigned and narrow types go round from their largest to their smallest value. For int and wider signed types one more increment than needed is made: filling up to and including the largest value is undefined although all the values fit (refuted).", "quantifier": "all integer types, start values, ranges, counts and container contents", "why_tests_cant": "The overflow occurs only at the end of the type's range and sanitizer-free tests do not see it.", "anchors": ["strtk.hpp:iota"]}
{"id": "C97", "title": "min_of_cont and max_of_cont", "statement": "On a non-empty sequence min_of_cont (max_of_cont) returns the first element that no other element is smaller (larger) than, by operator<; on a non-empty set or multiset the extreme element in the order of its comparator. On an empty container all of them are undefined (refuted).", "quantifier": "all sequences and sets, all strict weak orders", "why_tests_cant": "Every order and every length has to be considered.", "anchors": ["strtk.hpp:min_of_cont", "strtk.hpp:max_of_cont"]}
{"id": "C98", "title": "generate_random_data writes exactly its buffer", "statement": "For a length that is a multiple of four, generate_random_data writes the consecutive numbers of the generator after skipping pre_gen_cnt, in host byte order, and touches nothing else. For other lengths of at least five the last number is written over the last four bytes, which needs a machine that allows misaligned stores (undefined otherwise, refuted). For lengths 1 to 3 it writes up to three bytes in front of the buffer: undefined if there are none, foreign bytes are overwritten if there are (both refuted).", "quantifier": "all generators, lengths, memory contents, byte orders and addresses", "why_tests_cant": "Bytes in front of the buffer are seldom looked at in a test.", "anchors": ["strtk.hpp:generate_random_data"]}
{"id": "C99", "title": "generate_random_values and uniform_real_rng", "statement": "generate_random_values adds exactly count values, those the distribution draws from the seeded generator after pregen steps, so all lie in the distribution's range. uniform_real_rng gives the values drawn from its seeded generator, but its parameter pregen has no effect whatever (refuted): the steps are taken with a different copy of the generator.", "quantifier": "all generators, distributions, counts and pregen values", "why_tests_cant": "A test of random output cannot know which values were to be expected.", "anchors": ["strtk.hpp:generate_random_values_impl", "strtk.hpp:generate_random_values", "strtk.hpp:uniform_real_rng"]}
{"id": "C100", "title": "Editing an ext_string", "statement": "Any chain of to_lowercase, to_uppercase, remove_leading(set), remove_trailing(set), replace, -=, *= and << / += on an ext_string is well defined whatever the string, and leaves exactly the result of applying the effect of each call in turn: ASCII case mapping, the maximal prefix (suffix) of characters of the set removed, the leftmost non-overlapping occurrences replaced, the text appended. When the value appended has no text, the call throws, the string stays as the calls before it left it and the later calls do not happen. One effect is not the natural one: remove_trailing keeps the first character of a string made of removable characters only (refuted).", "quantifier": "all strings, removal sets, patterns and finite chains of calls", "why_tests_cant": "Chains of operations combine in unboundedly many ways; empty sets, empty patterns and overlapping occurrences are easily left out of tests.", "anchors": ["strtk.hpp:ext_string", "strtk.hpp:remove_leading", "strtk.hpp:remove_trailing", "strtk.hpp:replace_pattern", "strtk.hpp:type_to_string"]}
{"id": "C101", "title": "Operators of ext_string", "statement": "s + t and t + s give the text of t after (before) s and s += t appends it, all of them throwing (with s unchanged) exactly when t has no text; s - p equals what s -= p leaves, namely s without the leftmost non-overlapping occurrences of p. s * n is n copies of s, but s *= n leaves n + 1 copies, so the two never agree on a non-empty string (refuted).", "quantifier": "all strings, patterns and counts", "why_tests_cant": "The agreement of the two spellings is a law over all values.", "anchors": ["strtk.hpp:ext_string"]}
{"id": "C102", "title": "Texts of simple values", "statement": "The text of a char, bool or std::string converts back to the value, as does the text of every unsigned int and every int but the smallest; as_type<T>() throws exactly where as_type(t) reports false and otherwise returns the value stored by it. Sinks and containers have no text: converting them throws. all_digits, all_letters, all_lowercase_letters and all_uppercase_letters hold exactly the characters of these classes, and all_chars holds each of the 256 byte values once, in order, whether char is signed or not.", "quantifier": "all characters, bools, strings, numbers in range and converters", "why_tests_cant": "A round trip law over all strings and numbers.", "anchors": ["strtk.hpp:type_to_string", "strtk.hpp:string_to_type_converter", "strtk.hpp:ext_string"]}
{"id": "C103", "title": "build_string concatenates", "statement": "A chain of << on an empty build_string holds exactly the concatenation of the texts of the operands in order; an operand without text throws and leaves the concatenation of those before it.", "quantifier": "all sequences of operands", "why_tests_cant": "Unboundedly many operand sequences.", "anchors": ["strtk.hpp:build_string", "strtk.hpp:type_to_string"]}
{"id": "C104", "title": "A token_grid owns exactly the text it copied", "statement": "Construct a token_grid from a file, from memory or empty, then load files, load memory and clear it any number of times (every load succeeding), and destroy it. Nothing is freed twice, read after being freed or freed though it belongs to the caller; at every point at most one copy of a file's text is alive and after the destructor none is; the caller's memory is unchanged; every cell reads as the last load cut it, and the grid is empty after clear. The condition on loads is needed: load(file) of a missing or empty file after a load from memory deletes the caller's memory (refuted), and after a load from a file keeps the old rows, whose tokens then point into deleted memory (refuted).", "quantifier": "all texts, delimiters and finite programs of loads and clears", "why_tests_cant": "Double frees and reads of freed memory depend on the order of operations, of which there are unboundedly many, and often go unnoticed at run time.", "anchors": ["strtk.hpp:token_grid", "strtk.hpp:load", "strtk.hpp:clear"]}
{"id": "C105", "title": "A tokenizer object follows its last text and its iterators count tokens", "statement": "However a strtk::tokenizer is built from constructions, assign(text) and operator=, its begin() to end() walk lists exactly the tokens of its current text under its current options (those of split, by C04), provided the tokenizers assigned from use the same delimiter predicate; begin() += k is positioned at token k, where *itr, as_string() and remaining() are that token, its text and the text from its start on, and compares equal to end() exactly when there are at most k tokens; moves add up. for_each_token(text, tokenizer, function) assigns the text and calls the function once for each of its tokens in order, returning their number, and so does for_each_token(text, delimiters, function) for the tokens of split. The predicate condition is needed: operator= does not copy the predicate, so after assigning a tokenizer with another predicate the first token is cut by the source's and the others by the target's (refuted). An iterator moved past the last token equals end() but its remaining() is still the last token (refuted that it is empty).", "quantifier": "all element types, predicates, texts, option sets, histories of assignments and increments", "why_tests_cant": "Which texts, options and predicates meet in one object depends on the history of assignments, of which there are unboundedly many.", "anchors": ["strtk.hpp:tokenizer", "strtk.hpp:tokenizer_iterator", "strtk.hpp:assign", "strtk.hpp:remaining", "strtk.hpp:as_string"]}
{"id": "C106", "title": "Parsing fills sets, multisets, queues, stacks and priority queues as their comparators say", "statement": "parse(text, delimiters, container) converts every token and returns the number of tokens. Afterwards a set holds, in the order of its comparator, the first value of each equivalence class among its old elements followed by the converted values; a multiset holds all of them in order, equivalent ones in the order of insertion; a queue has the values behind its old elements; a stack has them on top, the last one topmost; a priority_queue delivers old elements and values from the greatest down. This needs only that the comparator is a strict weak order, and these descriptions determine the set and the multiset. parse_n uses the first n tokens (under every split option but include-all alone) and returns by how much the container grew, which for a set may be less than the number of values parsed (the stronger claim is refuted). parse_line and parse_line_n take one line off the stream and do the same with it; an empty line, no delimiters or the end of the stream give 0 and leave the container as it was.", "quantifier": "all element types, comparators that are strict weak orders, converters that behave, delimiters, texts, old contents and streams", "why_tests_cant": "Whether every value ends up in its place depends on the order in which equal and equivalent values arrive among unboundedly many.", "anchors": ["strtk.hpp:parse", "strtk.hpp:parse_n", "strtk.hpp:parse_line", "strtk.hpp:parse_line_n", "strtk.hpp:range_to_type_inserter", "strtk.hpp:range_to_type_push_inserter"]}
{"id": "C107", "title": "Containers can be written to and loaded from text files by name", "statement": "load_from_text_file into a set, multiset, queue, stack or priority_queue inserts the values of the lines one after the other and returns the number of lines; a line that does not convert raises an exception, and the container then holds the values of the lines before it. By file name the result is the same, or 0 with nothing inserted when the file cannot be opened. write_to_text_file by file name replaces the file by the elements, each followed by the delimiter, and returns their number; with a newline as delimiter, loading the file of a set into an empty set, multiset or queue gives the same elements, into a stack the reversed ones. for_each_line and its three variants by file name visit exactly the lines that the stream versions visit. read_line_as_value converts the next line and leaves the variable alone at the end of the stream.", "quantifier": "all file systems, file names, contents, element types, comparators, converters and functions", "why_tests_cant": "The effect depends on arbitrary file contents and on whether the files can be opened.", "anchors": ["strtk.hpp:load_from_text_file", "strtk.hpp:write_to_text_file", "strtk.hpp:for_each_line", "strtk.hpp:for_each_line_n", "strtk.hpp:for_each_line_conditional", "strtk.hpp:for_each_line_n_conditional", "strtk.hpp:read_line_as_value"]}
{"id": "C108", "title": "Every way of passing delimiters means the set of those characters", "statement": "Splitting with a C string, a std::string or a single character as delimiters is splitting with the set of those characters, for split and split_n; a C string must be terminated by NUL, otherwise the behaviour is undefined. The overloads of remove_consecutives_inplace, remove_trailing and remove_leading that take a C string remove as with the set of its characters, but only its first 256 characters count (the claim for longer C strings is refuted). multiple_delimiter_predicate over any element type answers exactly membership in the range it was built from, whether the range fits its 32 inline cells or not, allocates only in the second case, and its destructor releases exactly what was allocated. remove_empty_strings keeps exactly the non-empty strings of a container, in their order.", "quantifier": "all delimiter sets, buffers, texts, options, token counts, element types and heaps", "why_tests_cant": "The predicate chosen depends on the number of delimiters, which is unbounded, and on what lies behind the terminating NUL.", "anchors": ["strtk.hpp:split", "strtk.hpp:split_n", "strtk.hpp:multiple_delimiter_predicate", "strtk.hpp:remove_consecutives_inplace", "strtk.hpp:remove_trailing", "strtk.hpp:remove_leading", "strtk.hpp:remove_empty_strings"]}
{"id": "C109", "title": "split_regex reports every match; the predefined expressions match exactly the texts described", "statement": "split_regex emits, for every match the regular expression library reports and in that order, the range of the sub-match asked for (an empty range at the end of the text for a sub-match the expression does not have) and returns the number of matches; split_regex_n emits the first token_count of them for a positive count, and one for a count of 0. The four predefined expressions are well formed. ip_expression matches exactly four numbers of at least two digits with points between them (so 10.0.0.1 is not matched and 999.999.999.999 is: the claim that it matches IP addresses is refuted). ieee754_expression matches exactly an optional sign and an integer, or a number with digits behind a point and possibly an exponent with a sign; whatever it matches within 615 characters and two exponent digits is accepted by the parser for double and float, but not conversely (1e5 is refuted). email_expression and uri_expression match exactly the grammars described in Regex_Spec: local part, at sign and a bracketed dotted quad or a domain whose last label has two to four letters; and scheme http, https or ftp, host, optional port, path segments, optional slash.", "quantifier": "all lists of matches, sub-match numbers, counts and texts", "why_tests_cant": "The set of texts an expression matches is infinite; tests sample a few of them.", "anchors": ["strtk.hpp:split_regex", "strtk.hpp:split_regex_n", "strtk.hpp:uri_expression", "strtk.hpp:email_expression", "strtk.hpp:ip_expression", "strtk.hpp:ieee754_expression"]}
{"id": "C110", "title": "Joining the cells of a grid with a predicate", "statement": "join_row with a token predicate appends to the result what join_row would append if the tokens the predicate refuses were empty: the accepted non-empty texts with the delimiter between them, and one delimiter behind them when the last token is empty or refused. In the last row of the grid its last token is left out (the claim without this exception is refuted), and a row the grid does not have gives false and leaves the result alone. join_column with a row predicate does this for the rows before the last of the range, and the text of the last row of the range, if the row has the column and is accepted, follows without a delimiter: the claim that a predicate accepting all rows gives the same as join_column is refuted. A column above the maximal column count or an invalid row range gives false and leaves the result alone.", "quantifier": "all grids, texts, predicates, rows, columns, row ranges, delimiters and initial results", "why_tests_cant": "The placement of delimiters depends on which of arbitrarily many cells are empty, missing or refused.", "anchors": ["strtk.hpp:token_grid::join_row", "strtk.hpp:token_grid::join_column"]}
{"id": "C111", "title": "Column selectors as objects", "statement": "A column_selector made once from a strictly increasing column list that stays alive, and passed by value to split for each of any number of lines, converts the chosen columns of every line, in column order, into its variables; columns a line does not have leave their variable alone; no reset is needed and the selector itself stays as it was. A selector that is itself assigned the tokens, with reset() after each line, does the same; without the reset the lines behind one that shows all the columns change nothing (refuted that it can be left out). The sequence form takes the first N elements of the sequence as variables and throws, making nothing, if there are fewer. The preconditions are needed, each shown by a refuted claim: a selector whose column list was a temporary reads it after its end as soon as the first of several columns comes; a copy that outlives the selector it was copied from points into it; a variable that ended (an element of a sequence that grew) is written to; and with *out++ = text in place of *out = text, ++out the selector stays at its first column for ever.", "quantifier": "all worlds of variables, column lists and selectors, all lists of lines, texts, delimiters, conversions and depths of parameter passing", "why_tests_cant": "Lifetimes and pointers between objects are not observable in a test that happens to work.", "anchors": ["strtk.hpp:column_list", "strtk.hpp:column_selector", "strtk.hpp:details::column_selector_base", "strtk.hpp:details::compose_st_selector_impl", "strtk.hpp:split"]}
{"id": "C112", "title": "The IPv4 parser of the examples", "statement": "ipv4_parser cuts its text at the dots. With fewer than four parts it returns false and leaves the octets alone. Otherwise it takes the first four parts one after the other, each as an octet if it is made of at most 19 digits whose value modulo 2^32 is at most 255, stores the octets up to the first part that is not one, and returns true exactly if there is no such part. In particular the decimal texts of any four octets joined with dots parse to these octets, and as an integer (on a little-endian machine) to first + 2^8 second + 2^16 third + 2^24 fourth. What one might expect beyond that does not hold, each shown by a refuted claim: texts of more than four parts are taken, parts above 255 are taken (4294967297.0.0.1), parts without a digit are taken as 0, and a failed parse may have changed octets.", "quantifier": "all texts and all earlier contents of the octets or the integer", "why_tests_cant": "An address parser is used to validate: the claim is about every text that must be refused, not about the three addresses of the example.", "anchors": ["strtk_ipv4_parser.cpp:ipv4_parser::operator()(const std::string&, unsigned char[4])", "strtk_ipv4_parser.cpp:ipv4_parser::operator()(const std::string&, unsigned int&)", "strtk_ipv4_parser.cpp:ipv4_parser::process_token", "strtk.hpp:split_n", "strtk.hpp:fast::numeric_convert"]}
{"id": "C113", "title": "The hex viewer of the examples", "statement": "For every input, strtk_hexview writes one line for each sixteen bytes and one for the rest: the address, the bytes as upper-case hexadecimal digits, spaces up to a fixed column and the bytes again with unprintable ones as dots. What the two buffers held before does not matter. For inputs of at most 2^40 bytes the digits and the character of byte i are found at fixed positions (61 (i/16) + 11 + 2 (i mod 16) and 61 (i/16) + 44 + i mod 16), the output has no more characters than that, and different inputs give different outputs. That the address consists of ten hexadecimal digits is refuted: the fill character is set with the first full line only, so an input of fewer than sixteen bytes has its address filled with spaces.", "quantifier": "all inputs and all contents of the buffers", "why_tests_cant": "The layout of the last line depends on the length of the input and on whether a full line came before it.", "anchors": ["strtk_hexview.cpp:main", "strtk.hpp:convert_bin_to_hex", "strtk.hpp:convert_to_printable_chars"]}
{"id": "C114", "title": "The word counter of the examples", "statement": "For every text, strtk_wordfreq counts exactly the words of the text, its maximal runs of the letters a-z and A-Z: the word count is their number modulo 2^64, and the map has one entry for each lower-case form that occurs, in dictionary order, with the number of times it occurs modulo 2^32; the counts add up to the word count modulo 2^32. Texts whose words are the same up to order have the same table. A file is counted like its contents, and a file that does not open has no words.", "quantifier": "all texts, whether char is signed or not", "why_tests_cant": "Line ends, runs of delimiters and words at the ends of lines combine in unboundedly many ways.", "anchors": ["strtk_wordfreq.cpp:line_parser", "strtk_wordfreq.cpp:main", "strtk.hpp:ext_string::all_chars", "strtk.hpp:ext_string operator-", "strtk.hpp:for_each_line", "strtk.hpp:split", "strtk.hpp:convert_to_lowercase"]}
{"id": "C115", "title": "The random line selector of the examples", "statement": "For a file of n lines and draws j/M with 0 <= j < M, strtk_random_line prints the last line whose draw is below 1/(its number). If each of 1, ..., n divides M, each of n different lines is printed for exactly M^n / n of the M^n sequences of draws, that is with chance 1/n. For any M the chance of line i (from 0) is between (1-1/M)^(n-i-1)/n and (1+i/M)/n. That the chance is exactly 1/n, as the description of the program says, is refuted for every generator with 2^b values and three lines. For a file without lines, or one that does not open, an empty line is printed.", "quantifier": "all files, all numbers of lines, all generators with a finite number M of equally likely values", "why_tests_cant": "A distribution cannot be tested, only sampled.", "anchors": ["strtk_random_line.cpp:random_line_selector::operator()", "strtk_random_line.cpp:main", "strtk.hpp:for_each_line"]}
{"id": "C116", "title": "The period parser of the examples", "statement": "period_parser accepts exactly the texts that begin with four numbers, each followed by a unit letter (D, H, M or S in either case, then any further separators), with four different units in any order, where only the days may be negative and every conversion and sum fits a long long; the period is then the sum of the amounts in milliseconds, each rounded towards zero, whatever it was before, and whatever follows the fourth part. Reordering the parts does not change the sum. Whole numbers whose amounts do not exceed 2^53 are summed exactly. The claims that a period may be given by some of the units only (\"5D\" is refused), that a refused text leaves the period unchanged, that exponents may be used, and that every text has a defined result (letters above 127 reach toupper as negative numbers, sums may overflow, a range ending with a separator is read beyond its end) are refuted.", "quantifier": "all texts, all arithmetics (IEEE double for the sums of whole numbers)", "why_tests_cant": "Numbers, units, orders and separators combine in unboundedly many ways.", "anchors": ["strtk_period_parser.cpp:period_parser::operator()", "strtk.hpp:split_n", "strtk.hpp:string_to_type_converter"]}
{"id": "C117", "title": "The line filter of the examples", "statement": "strtk_glober writes, for each line of its input and each pattern it matches, in the order of the dictionary whatever the order of the arguments, one line; without patterns it writes its usage and returns 1; for patterns without wildcards or with a star at the end only this is globbing. For a pattern l1*c l2 with literal l1, c and l2, strtk::match is true exactly if the text is l1 a c l2 with no c in a, and undefined exactly if l2 is not empty and the text is l1 a with a not empty and no c in a. So the documented usage (*.hpp on a directory listing) is refuted: a name without a dot is read beyond its end, and a name with another dot is not matched.", "quantifier": "all patterns and texts of the forms named, all inputs", "why_tests_cant": "The result depends on where the characters after the star occur in texts of any length.", "anchors": ["strtk_glober.cpp:line_glober::line_glober", "strtk_glober.cpp:line_glober::operator()", "strtk_glober.cpp:main", "strtk.hpp:match", "strtk.hpp:match_impl", "strtk.hpp:for_each_line", "strtk.hpp:parse"]}
{"id": "C118", "title": "The combinations of the examples", "statement": "strtk_combination r s1 ... sk with 1 <= r <= k, r <= 4294967295, writes one line for each way to select r of the strings at ascending positions of the sorted list, k!/(r!(k-r)!) lines in the order of the positions, with the strings separated by tabs. If the strings are different the selections are different and in ascending lexicographic order; with equal strings that is refuted. Any other first argument gives a message and status 1, except 0, which gives neither.", "quantifier": "all arguments", "why_tests_cant": "The number of lines grows exponentially with the number of arguments.", "anchors": ["strtk_combinations.cpp:usage", "strtk_combinations.cpp:print", "strtk_combinations.cpp:main", "strtk.hpp:for_each_combination", "strtk.hpp:join", "strtk.hpp:parse"]}
{"id": "C119", "title": "The statistics of the examples", "statement": "strtk_numstats writes for each column and then for each row of the texts between commas and blanks, in the lines of its input that hold any, the least and the greatest number, the sum (in order, in doubles), the sum divided by the number of values and the upper median of those texts that are numbers, and nothing for a column or row without any; texts that are no numbers keep their column. This requires an input shorter than 2^32 - 1 characters, conversions that are defined and no NaN; the text nan beside two different numbers is undefined behaviour. The median is determined by the numbers up to the sign of zero; sums of natural numbers are exact up to 2^53. For n numbers that are zero or at least 10^-290 and sum up to at most 10^307, the sum is the exact one changed by at most n - 1 roundings of 53 bits and the mean by at most n, so the mean is off by at most n/2^52 of it. Refuted: with negative numbers a sum may lose everything (1 + 2^53 - 2^53 is 0); the median of an even number of values is not the mean of the two in the middle; an empty cell shifts the rest of its row to the left.", "quantifier": "all inputs of less than 2^32 - 1 characters, all ways of writing doubles", "why_tests_cant": "Rows, columns and values are arbitrary in number; the median and the sums depend on all of them.", "anchors": ["strtk_numstats.cpp:compute_stats", "strtk_numstats.cpp:main", "strtk.hpp:min_max_of_cont", "strtk.hpp:min_max_of_range", "strtk.hpp:extract_column_checked", "strtk.hpp:parse_checked", "strtk.hpp:remove_empty_tokens", "strtk.hpp:max_column_count", "strtk.hpp:load_from_text_file"]}
{"id": "C120", "title": "A timer reports the time between the last start and the last stop", "statement": "After any calls of start and stop on a util::timer, in_use tells whether the last call was a start; usec_time is 2^64 - 1 while it is in use and otherwise the number of microseconds from the last start to the last stop, across the boundaries of seconds, if the clock did not go back and the difference is at most 2^63 - 10^6 (0 for a fresh timer; 2^64 - 1 if the stop is in an earlier second). time, and what a scoped_timer stores, is exactly n for n whole seconds with 10^6 n < 2^53, and for every difference off by at most 2^-51 of the elapsed seconds. Refuted: time is not always the double nearest to the elapsed seconds (5 microseconds); a clock set back within one second gives 2^64 - d; more than 9223372036854 seconds are undefined behaviour.", "quantifier": "all histories of calls, all readings of the clock, all whole numbers of seconds up to 2^53 microseconds", "why_tests_cant": "The readings of the clock are not under the control of a test, and the rounding of the product has to be right for nine thousand million numbers of seconds.", "anchors": ["strtk.hpp:util::timer", "strtk.hpp:timer::start", "strtk.hpp:timer::stop", "strtk.hpp:timer::usec_time", "strtk.hpp:timer::time", "strtk.hpp:timer::in_use", "strtk.hpp:util::scoped_timer"]}
{"id": "C121", "title": "type_name tells types apart", "statement": "strtk::type_name gives every type a name. The registered scalars, arrays of scalars, pairs of these nested to any depth, and vectors, deques, lists, sets and multisets of scalars are named as they are written in C++ (sizes in decimal), so different types of this kind have different names. Refuted: anything but a scalar inside an array or a container, and any container inside a pair, is Unknown whatever it is.", "quantifier": "all types built from scalars, other types, pairs, arrays and the five containers", "why_tests_cant": "There are infinitely many types; that no two share a name is a claim about all pairs of them.", "anchors": ["strtk.hpp:type_name", "strtk.hpp:details::type_name", "strtk.hpp:strtk_register_type_name", "strtk.hpp:strtk_register_sequence_type_name", "strtk.hpp:strtk_register_set_type_name"]}
{"id": "C122", "title": "type_length bounds the digits of a number", "statement": "For short, int, long long and their unsigned forms, type_to_string writes no value with more than type_length characters, not counting the sign, and some value with exactly as many. Refuted for long and unsigned long of 64 bits: their length is 10, and exactly the values from 10^10 on have more digits.", "quantifier": "all values of the eight integer types", "why_tests_cant": "A buffer sized by type_length has to suffice for all 2^64 values.", "anchors": ["strtk.hpp:type_length", "strtk.hpp:details::numeric::length", "strtk.hpp:type_to_string"]}
{"id": "C123", "title": "Jumping to the n-th combination or permutation is stepping to it", "statement": "For a sorted range of distinct elements and k >= 2, what nth_combination_sequence(i,k,range) delivers (the i-th selection, then the other elements) is what i calls of next_combination make of the range, all of which return true; going on with next_combination from there shows the i-th and all later selections and ends with the sorted range. Likewise nth_permutation_sequence(n,s) is what n calls of next_permutation make of a string of increasing characters, and for_each_permutation visits them in the same numbering. Refuted for unsorted ranges: stepping ends early.", "quantifier": "all ranges of fewer than 2^32 elements with fewer than 2^64 selections, all i, k and all earlier calls; all strings of 1 to 21 characters, all n", "why_tests_cant": "Two independent algorithms have to agree at every one of up to 2^64 positions.", "anchors": ["strtk_nth_combination_example.cpp:nth_combination_example02", "strtk_nth_combination_example.cpp:nth_combination_example03", "strtk.hpp:nth_combination_sequence", "strtk.hpp:next_combination", "strtk.hpp:nth_permutation_sequence", "strtk.hpp:for_each_permutation"]}
{"id": "C124", "title": "Floating point numbers are read to within a counted number of roundings", "statement": "string_to_type_converter into a double, given a decimal number with up to 308 digits in front of the point (leading zeros not counted), up to 307 behind it and an exponent from -307 to 308 whose value is zero or between 10^-307 and 10^308, yields the number written times a factor between r^-k and r^k with r = 2^53/(2^53-1), where k counts the roundings: two for each digit after the first 15, one for adding the two parts, one or two for each power of ten. So the error is never above 10^-13 of the number, and not above 2^-51 of it for up to 15 digits on either side (at most 22 places behind the point) and an exponent of up to 22; into a float it is not above 2^-23 of it for numbers between 10^-37 and 10^38. Refuted: beyond these bounds digits are lost, or a moderate number becomes infinite.", "quantifier": "all decimal texts within the bounds, in every notation the parser takes", "why_tests_cant": "The error of a chain of up to 600 roundings cannot be found from samples; the worst case is rarely met.", "anchors": ["strtk.hpp:string_to_type_converter_impl(real_type_tag)", "strtk.hpp:pow10"]}
{"id": "C125", "title": "The word lists of the text parser examples", "statement": "For a file that opens, strtk_text_parser_example01 lists, line by line, the words of the line in order, where words are maximal runs of characters other than blanks, tabs, line ends and the digits and punctuation of ASCII, with an empty string in front if the line starts with a separator and one behind if it ends with one; without the empty strings the list is the words of the whole file. So the token count it prints is not the number of words (refuted). For a file of 7-bit characters strtk_text_parser_example02 lists exactly the words that differ, letter case ignored, from each of the sixteen words of no interest, in order; the empty tokens are gone because the list ends with an empty string. With other characters the comparison can be undefined (shown for a letter of two bytes). A file that does not open gives an empty list.", "quantifier": "all files, of any number and length of lines, all contents (7-bit ones for the second program)", "why_tests_cant": "A test runs on one text; that no word is lost, split or kept wrongly for any text, at any line end, is a statement about unboundedly many files.", "anchors": ["strtk_text_parser_example01.cpp:parse_line", "strtk_text_parser_example01.cpp:parse_text", "strtk_text_parser_example02.cpp:parse_line", "strtk_text_parser_example02.cpp:parse_text", "strtk_text_parser_example02.cpp:not_of_interest_list", "strtk.hpp:for_each_token", "strtk.hpp:for_each_line", "strtk.hpp:filter_on_match"]}
{"id": "C126", "title": "Random selection with the numbers of a generator", "statement": "If the generator returns doubles that are at least 0 and below 1 (and not subnormal) and the container has at most 2^53 elements, the index static_cast<std::size_t>(size * rng()) is always below size, for every rounding of the product. So random_permutation writes a permutation, random_combination k elements at different positions (or returns false if there are fewer), select_k_randomly min(k,size) elements at different positions and returns how many, and select_1_randomly one element; none reads outside or writes an uninitialised value. Nothing is excluded by rounding either: for up to 2^51 elements every permutation, every ordered choice of k elements, every choice by select_k_randomly and every element of select_1_randomly comes out for some numbers of the generator. strtk_randomizer writes the lines of its input in some order. A generator that returns 1.0 is let through by the range check and makes random_permutation read past the end (refuted).", "quantifier": "all containers of up to 2^53 elements (2^51 for reachability), all sequences of doubles of [0,1)", "why_tests_cant": "The index depends on the rounding of a product for each of 2^62 doubles and each size; a test that never sees the last double below 1 cannot tell whether size * rng() can round up to size.", "anchors": ["strtk_randomizer.cpp:main", "strtk.hpp:random_permutation", "strtk.hpp:random_combination", "strtk.hpp:select_k_randomly", "strtk.hpp:select_1_randomly"]}
{"id": "C127", "title": "Random selection is fair", "statement": "If all sequences of draws are equally likely, so are all outcomes, for containers of different elements: each arrangement comes from exactly one sequence of draws of random_permutation (the j-th below size - j), each ordered choice of k elements from exactly one sequence of k draws of random_combination. In select_k_randomly, where the element with n others before it is kept with probability k / (n + 1) and then replaces one of the k elements selected, every one equally likely, each set of k elements comes from exactly (size - k)! of the sequences; in select_1_randomly each element comes from exactly (size - 1)! of them.", "quantifier": "all containers of different elements, all k, all outcomes", "why_tests_cant": "A test can only sample frequencies; that no outcome is favoured is a count over all sequences of draws, whose number grows as the factorial of the size.", "anchors": ["strtk.hpp:random_permutation", "strtk.hpp:random_combination", "strtk.hpp:select_k_randomly", "strtk.hpp:select_1_randomly"]}
{"id": "C128", "title": "The Bloom filter example, start to end", "statement": "strtk_bloom_filter_example, for any sorted string of different letters (at most 6074000999) and any even k up to its length whose buffer size fits size_t: n_choose_k counts exactly the combinations the combination_iterator visits, so the buffer is filled completely and nothing is written beyond it; no inserted string is ever reported missing; the false positive count is the number of halves the filter contains; with a writable and readable file the filter read back equals the saved one, no string is missing in it, and the program ends with the line that it was replicated and status 0. With an unwritable or unreadable file it reports exactly that. As written (26 letters, k = 14) it inserts 19315400 strings and looks up 38630800 halves. With an odd k the last half can lie behind the buffer, and with unsorted or repeated letters the buffer is read where it has no value (refuted).", "quantifier": "all sorted strings of different letters, all even k, all results of the floating point search for the table size from 1 to 2^35 - 8 bits, all file systems", "why_tests_cant": "The example runs one alphabet and one k; that the counts of n_choose_k, the iterator, the buffer and the filter agree for every alphabet is a statement about all of them together, and its own run takes millions of strings.", "anchors": ["strtk_bloom_filter_example.cpp:main", "strtk.hpp:combination_iterator", "strtk.hpp:n_choose_k", "strtk.hpp:filter", "strtk.hpp:write_to_file", "strtk.hpp:read_from_file"]}
{"id": "C129", "title": "The checks in the converters and trie examples never fail", "statement": "example03 of strtk_converters_example, which encodes k bytes as base64, decodes them and compares, reports no position for any buffer size and any first contents, and stays inside its three buffers; with a text buffer as small as the data it would not (refuted). trie_example02 of strtk_search_trie_example inserts all its strings and finds each of them by find_prefix in every round: for any list of non-empty strings the count is rounds times the number of strings, 11724200 as written; the strings it creates from a text of n characters are the pieces of its rotations, n*n*(n-1)/2 of them, none empty. An empty string would be reported as missing although inserted (refuted).", "quantifier": "all buffer sizes and contents; all lists of strings, all numbers of rounds, all texts to create strings from", "why_tests_cant": "The examples run one size and one alphabet; that the check can never fire needs the conversions and the trie to be right for every input.", "anchors": ["strtk_converters_example.cpp:example03", "strtk_search_trie_example.cpp:create_string_list", "strtk_search_trie_example.cpp:trie_example02", "strtk.hpp:convert_bin_to_base64", "strtk.hpp:convert_base64_to_bin", "strtk.hpp:find_prefix"]}
{"id": "C130", "title": "Lists of records saved to a buffer and to a file", "statement": "strtk_serializer_example: writing any list of person records (any values, names below 2^32 characters, heights and weights that are numbers) one after the other with binary::writer succeeds exactly when their encodings fit into the buffer, otherwise the first record that does not fit is the one reported and no file is created; example03 then creates a file consisting of exactly the encodings, touches no other file, and after loading it with binary::reader every record compares equal, in order; an unwritable or unreadable file is reported. A record whose height is not a number (NaN) is restored but reported as different (refuted).", "quantifier": "all lists of records, all buffer sizes and contents, both byte orders, all file systems", "why_tests_cant": "The example uses a thousand records made by one rule and one buffer size; which record fails and that no combination of names and buffer size corrupts a later record needs every list.", "anchors": ["strtk_serializer_example.cpp:person", "strtk_serializer_example.cpp:example02", "strtk_serializer_example.cpp:example03", "strtk.hpp:strtk_binary_reader_begin", "strtk.hpp:strtk_binary_writer_begin", "strtk.hpp:file_size"]}
{"id": "C131", "title": "Integers as fixed-width text fields", "statement": "binary::writer with left_padding and padding 0, followed by binary::reader with the same width at the same place, gives back every non-negative value of every integer type whose text fits into the field, and moves both by exactly the width; a text that is too long is refused without effect. A text that fills the field comes back whatever its sign. A negative number padded with zeros, and any number padded with the default blank or another character that is neither digit nor sign, is written but not accepted by the reader; padded with one minus sign the number comes back negated (refuted).", "quantifier": "all values of short, int, long, long long and their unsigned types, all widths below 2^32, all buffers and positions", "why_tests_cant": "example07 tries the number 123 in a field of 4; the failing combinations depend on sign, padding and width together.", "anchors": ["strtk_serializer_example.cpp:example07", "strtk.hpp:padding_mode", "strtk.hpp:type_to_string", "strtk.hpp:string_to_type_converter"]}
{"id": "C132", "title": "A comma separated table comes back, and the totals of a symbol are right", "statement": "token_grid over a text made of rows of cells (a delimiter between the cells, a newline after each row; no cell contains the delimiter, LF or CR) has exactly those rows and cells: with compressed delimiters if no cell is empty, with the default split option also with empty cells, provided no row is a single empty cell. In strtk_tokengrid_example (token_grid_test10) day_count is then the number of rows that have the symbol in the second cell and have a seventh cell, total_volume the sum of these seventh cells modulo 2^64; if one of them is not a number below 2^64, day_count is 0 and total_volume the sum of those before it. With an empty cell before the volume the value of the next column is added instead (refuted).", "quantifier": "all tables of fewer than 2^32 cells, all delimiters other than LF and CR, all symbols", "why_tests_cant": "The example reads one fixed text; which column is read depends on every cell before it and the count on every row.", "anchors": ["strtk_tokengrid_example.cpp:token_grid_test10", "strtk_tokengrid_example.cpp:symbol_predicate", "strtk.hpp:class token_grid", "strtk.hpp:accumulate_column"]}
{"id": "C133", "title": "Sums per period of time", "statement": "strtk_tokengrid_example (token_grid_test12): for a table whose first column holds times (unsigned numbers up to 4294967295) and whose second holds convertible values, sequential_partition calls the summarizer on consecutive ranges covering all rows, one sum per range, in order; a range ends before the first row that starts a period (the first time at or after the last start + 3), provided some row after the first of the range did not start one. For rows one unit apart these are the sums of three rows each. Rows three or more units apart all start a period but end up in one single sum (refuted). If a second cell of a range cannot be converted the partition ends there with false and the sums of the ranges before it stay; a range whose rows have no second cell sums to the start value.", "quantifier": "all tables of fewer than 2^32 cells, all times and values, any addition", "why_tests_cant": "The example has one list of consecutive times; the merging of periods with a single row only shows with gaps.", "anchors": ["strtk_tokengrid_example.cpp:token_grid_test12", "strtk_tokengrid_example.cpp:summarizer", "strtk.hpp:sequential_partition"]}
{"id": "C134", "title": "Aligned printing of a table", "statement": "strtk_tokengrid_example (token_grid_test16): for every table whose cells contain no comma, LF, CR or NUL, what is printed is every row on its own line and every cell in brackets followed by a blank, in order; a cell is padded with blanks to exactly the length of the longest cell of its column, centred (at most one blank more after it than before) in the first row and the first two columns, right-aligned elsewhere. A cell with a NUL is shown up to it.", "quantifier": "all tables of fewer than 2^32 cells, rows of any lengths, empty cells included", "why_tests_cant": "Column widths depend on all rows, and rows of different lengths or empty cells take different branches; the example has one table.", "anchors": ["strtk_tokengrid_example.cpp:token_grid_test16", "strtk.hpp:get_column_widths", "strtk.hpp:center", "strtk.hpp:right_align"]}
{"id": "C135", "title": "The order of the pairs of a key-value text does not matter", "statement": "A text written as key, pair delimiter, value, with the block delimiter between the pairs (keys free of both delimiters, values non-empty and free of the block delimiter), has exactly these pairs as its fields. If no two pairs are for the same variable, then every rearrangement of the pairs gives the same result: parse_ignore_failures reports the same number of failures and leaves the same variables, and a parse that succeeds succeeds for every rearrangement and leaves the same variables. A parse that fails may leave different variables, and for two pairs of one variable the last one counts (both refuted).", "quantifier": "all lists of pairs, all rearrangements, all delimiters, all key maps, all variables with any conversions", "why_tests_cant": "The example shows 12 of the 720 orders of one record; independence of order is about all rearrangements of all records.", "anchors": ["strtk_keyvalue_example.cpp:example02", "strtk.hpp:class parser", "strtk.hpp:class uintkey_map"]}
{"id": "C136", "title": "Records with lists come back field by field", "statement": "strtk_keyvalue_example (example02): for every sequence of texts, each holding the six fields of a record in any order, what is printed for each text is its own record: the int (-2147483647 to 2147483647, any accepted text), the double, the string, and the lists of ints, doubles and strings (non-empty, elements non-empty and without comma), nothing of the records before it; keys may be written with leading zeros (up to 19 digits). The sinks append, so this relies on reset; a text that is refused is not followed by a reset and its elements are printed with the next record (refuted), and values missing from a text are those of the record before (refuted).", "quantifier": "all sequences of records, all orders of the fields, any conversion to double", "why_tests_cant": "The example has one record in twelve orders; leftovers appear only after a refused text, which the example does not contain.", "anchors": ["strtk_keyvalue_example.cpp:struct complex_data", "strtk_keyvalue_example.cpp:example02", "strtk.hpp:class uintkey_map"]}
{"id": "C137", "title": "The converter for points in time accepts exactly seven numbers between its delimiters", "statement": "The user-defined converter of strtk_examples (datetime, made with strtk_string_to_type_begin) always returns; it succeeds exactly if the text, cut at runs of the characters - : . and blank, has at least seven tokens and the first seven are unsigned numbers up to 4294967295 (optional +, digits), which become year, month, day, hour, minute, second and millisecond; further tokens are ignored. Parsing a text with | into a sequence of them appends, in order, exactly the items the converter accepts and returns the number of items. Neither the ranges of the parts nor the order of the delimiters nor the end of the text are checked (refuted).", "quantifier": "all texts, all earlier contents of the target and of the sequence", "why_tests_cant": "What is accepted is a language of texts; the example only has well-formed items.", "anchors": ["strtk_examples.cpp:struct datetime", "strtk_examples.cpp:strtk_string_to_type_begin(datetime)", "strtk_examples.cpp:void parse_example05", "strtk.hpp:strtk_string_to_type_begin"]}
{"id": "C138", "title": "Lists of points in time: printed and read back", "statement": "strtk_examples (parse_example05, parse_example06): every datetime whose parts fit 32 bits is printed as year-mm-dd hh:mm:ss.mmm (parts padded with zeros to two, milliseconds to three digits, longer ones in full); any list of them, printed and joined with |, is read back unchanged, and the program prints exactly the items of such a text. For any text whatsoever it prints only such items. A record of an id (up to 4294967295), two non-empty texts without | and a non-empty list of these items with commas is read into id, texts and list.", "quantifier": "all lists of datetimes with 32-bit parts, all texts", "why_tests_cant": "The example holds twelve fixed items; padding and the re-reading depend on the length of every number.", "anchors": ["strtk_examples.cpp:void parse_example05", "strtk_examples.cpp:void parse_example06", "strtk.hpp:right_align", "strtk.hpp:deque_sink"]}
{"id": "C139", "title": "The combinator example prints every selection once, numbered, in order", "statement": "strtk_combinator_example, for any 0 < n < 2^32 and k <= n instead of 6 and 4 (and fewer than 2^64 selections): the output is one line for each way to take k of the numbers 0 .. n-1, that is n!/(k!(n-k)!) lines, in lexicographic order of the selections; line i holds the decimal number i with zeros in front up to four digits, a tab and the k numbers separated by single blanks. For n = 0 nothing is printed although there is one selection, and k > n is undefined (refuted).", "quantifier": "all n and k in these ranges", "why_tests_cant": "The program runs for one n and k; the order and completeness are statements about every state of the iteration.", "anchors": ["strtk_combinator_example.cpp:int main", "strtk.hpp:class combination_iterator", "strtk.hpp:inline bool next_combination", "strtk.hpp:inline std::string right_align"]}
{"id": "C140", "title": "A combination iterator advanced by i stands at the i-th selection", "statement": "For a strictly sorted, non-empty range and k <= its length: combination_iterator += i leads from the first selection to the i-th in order, and to the end iterator, with the range as it was at first, if there are no more than i; += a then += b is += a+b; distances <= 0 change nothing (it cannot go back: refuted). Constructed with sorted = false over a range of different elements in any order the loop gives all selections of the sorted range once, in order; with the default, selections of an unsorted range are missed (refuted).", "quantifier": "all ranges over an ordered type, all k and distances", "why_tests_cant": "Every step permutes the range; that i steps land on the i-th selection needs an invariant over all steps.", "anchors": ["strtk.hpp:class combination_iterator", "strtk.hpp:inline bool next_combination"]}
{"id": "C141", "title": "A declaration is read exactly when its six fields are there", "statement": "parse_example11, first part, for any text: parse with expect(var), a string, expect(:), iexpect(Integer), expect(=) and an int succeeds exactly when the fields between blanks and semicolons begin with var, a name, a colon, the word integer in any mixture of cases, an equal sign and the decimal text of an int other than the least one, and then the variables hold that name and number; every declaration written with single blanks and a final semicolon is such a text. A text that is not read leaves the number as it was; the name may have been overwritten. For 7-bit texts whose number is not -2147483648 the call is defined; otherwise not (refuted). Anything may follow the number, delimiters may replace each other, but a leading blank makes the declaration unreadable (refuted as a strict grammar).", "quantifier": "all texts and all previous contents of the variables", "why_tests_cant": "The set of accepted texts is infinite, and what is rejected or left in the variables cannot be enumerated by examples.", "anchors": ["strtk_examples.cpp:void parse_example11", "strtk.hpp:class expect_impl", "strtk.hpp:class iexpect_impl"]}
{"id": "C142", "title": "Pattern and range fields accept what they describe", "statement": "parse_example11, second and third part, for any text: the named tokens are read exactly when the first field is to, then anything, then its first n and at most one more character, the third is token and at most one more character, the fifth is token2 in any mixture of cases and the others convert; the ranged record is read exactly when the words temperature and name are there, the temperature converts and is neither less than the lower nor greater than the upper bound, and the name is neither before aaa nor after zzz in the order of char codes, which is a strict total order; then the variables hold the values. The star does not retry a later n and runs past the end of a field without n, which needs two more characters of memory; not-a-number is accepted in every range (refuted).", "quantifier": "all texts, bounds and previous contents", "why_tests_cant": "Acceptance is a statement about all texts, including those for which a search leaves the field.", "anchors": ["strtk_examples.cpp:void parse_example11", "strtk.hpp:class like_impl", "strtk.hpp:class inrange_impl"]}
{"id": "C143", "title": "Trimmed and case-converted fields hold the trimmed and converted text", "statement": "parse_example11, last parts, for any text with enough fields between commas: the strings hold the field without the given characters at both ends, at the start, or at the end; an int or double is read exactly when what is left after trimming converts, to that value; as_lcase and as_ucase store the field in lower and upper case, always. trim_trailing leaves one character of a field made up of nothing but the given characters (refuted as trimming).", "quantifier": "all texts and previous contents", "why_tests_cant": "The trimmed texts range over all fields; the case of a field of only such characters is easily missed.", "anchors": ["strtk_examples.cpp:void parse_example11", "strtk.hpp:class trim_impl", "strtk.hpp:class conv_to_lcase_impl", "strtk.hpp:class conv_to_ucase_impl"]}
{"id": "C144", "title": "The numbered combinations and the stepped ones make the same table", "statement": "strtk_nth_combination_example.cpp for any n and k with 2 <= k <= n <= 190 and fewer than 2^64 combinations: the first table has one line for each selection of k of n, in lexicographic order, numbered from 0 with at least four digits, with the selected numbers and behind them the others in order, and the letters from A on at these positions; in the second table the list stepped by next_combination shows, in every line, the letters that nth_combination_sequence gives for the number of the line; from any selection on, next_combination gives the rest of the table with the same numbers and then stops. The comment of the program shows the selected elements alone: that is not what is written whenever k < n (refuted); with k = 1 the calls are undefined (refuted).", "quantifier": "all n, k, starting numbers and states of the static table of n_choose_k", "why_tests_cant": "The number of lines grows beyond any test, and agreement of the direct and the stepped computation must hold for every line and every n and k.", "anchors": ["strtk_nth_combination_example.cpp:void nth_combination_example01", "strtk_nth_combination_example.cpp:void nth_combination_example02", "strtk_nth_combination_example.cpp:void nth_combination_example03", "strtk.hpp:inline void nth_combination_sequence", "strtk.hpp:inline bool next_combination"]}
{"id": "C145", "title": "Printing a table by columns turns it, and turning twice restores it", "statement": "token_grid_test07 of strtk_tokengrid_example.cpp for any text: after a complaint that names the smallest and the greatest number of columns when they differ, one line for each column that all rows have, with the cells of that column separated by single blanks. For words in rows of one length, with any positive number of blanks between the words and any positive number of newlines after the rows, the output is the transposed table; the same function on its own output gives back the words in their rows. A text without rows has 2^64-1 as its smallest number of columns, so the loop writes an empty line for each of them (refuted).", "quantifier": "all texts with fewer than 2^32 cells, all tables of words, all spacings", "why_tests_cant": "The number of rows, columns and blanks is unbounded, and the round trip is an equation over all tables.", "anchors": ["strtk_tokengrid_example.cpp:void token_grid_test07", "strtk.hpp:inline bool extract_column"]}
{"id": "C146", "title": "Removals take exactly the cells and rows they name out of the printed table", "statement": "token_grid_test14, 13 and 04 of strtk_tokengrid_example.cpp for any table and any range of rows: remove_empty_tokens takes the empty cells out of the rows of the range, and the rows that had no other cells, and changes no other row; remove_token_if with size_equal_to<0> does the same; a range that is not one of the table changes nothing; remove_row_if with the predicate that looks for a 6 in the text of the row removes exactly the rows of the range that have a cell with a 6; enforce_column_count keeps exactly the rows with that number of cells; the rows left keep their order and are printed with consecutive numbers.", "quantifier": "all tables with fewer than 2^32 cells, all ranges, all column counts", "why_tests_cant": "Which cells are empty and where is arbitrary; the index of the grid is shifted by every removal, and an error shows only for certain combinations of removed cells and rows.", "anchors": ["strtk_tokengrid_example.cpp:void token_grid_test04", "strtk_tokengrid_example.cpp:void token_grid_test13", "strtk_tokengrid_example.cpp:void token_grid_test14", "strtk.hpp:inline std::size_t remove_token_if", "strtk.hpp:inline bool remove_row_if"]}
{"id": "C147", "title": "Every inner row is averaged with the rows around it", "statement": "token_grid_test11 of strtk_tokengrid_example.cpp for any table of numbers in which no inner row is longer than its neighbours: the first and the last line have no numbers, and line i has at column j the average of the cells in column j of row i, row i+1 and row i-1. Without this precondition the cells of a later row are used, or cells that do not exist (refuted, the second outcome is undefined). In a table of at least three rows of equal length a cell that is no number, wherever it stands, ends the program with an exception, modelled as the undefined outcome.", "quantifier": "all tables with fewer than 2^32 cells, all conversions and all averages", "why_tests_cant": "Numbers of rows and columns are unbounded; mixing up neighbours at the first or the last row depends on positions a test may not have.", "anchors": ["strtk_tokengrid_example.cpp:void token_grid_test11", "strtk.hpp:inline T get"]}
{"id": "C148", "title": "The checks by split and by tokenizer accept the same expected text", "statement": "test_tokenizer_split and test_tokenizer_itr of strtk_tokenizer_test.cpp for any predicate and any text, with and without compression: both accept exactly one expected text, the tokens separated by commas with <> for each empty one, and they give the same answer. If the comma is a delimiter and the texts have no <, equal shown texts mean equal lists of tokens; without these conditions different token lists can be shown alike (refuted).", "quantifier": "all predicates, all texts of less than 2^64-1 characters, both modes", "why_tests_cant": "The tests compare a list of chosen texts with texts written by hand; that two algorithms agree everywhere is not settled by that.", "anchors": ["strtk_tokenizer_test.cpp:bool test_tokenizer_split", "strtk_tokenizer_test.cpp:bool test_tokenizer_itr", "strtk.hpp:class tokenizer_iterator"]}
{"id": "C149", "title": "split_n delivers as many tokens as asked for from a joined text", "statement": "test_split_n of strtk_tokenizer_test.cpp for any delimiters and any characters: after join(delimiters,characters) the call split_n(...,i,...) returns i for every i less than the number of characters, exactly if there is a delimiter or there are at most two characters, whether or not characters are delimiters themselves. If none is, the list collects for each i the first i of: the characters in order, with m-1 empty tokens after each but the last, for m delimiters.", "quantifier": "all delimiter strings and all character sequences", "why_tests_cant": "The test has one string of 36 characters and one set of delimiters.", "anchors": ["strtk_tokenizer_test.cpp:bool test_split_n", "strtk.hpp:inline std::size_t split_n"]}
{"id": "C150", "title": "Every number of leading fields of a record comes back", "statement": "test_construct_and_parse of strtk_tokenizer_test.cpp for any record of a string, char, int, unsigned int, double, float, short, unsigned short, bool and unsigned char: for every k from 1 to 10, parsing the text made by construct into the first k members returns true, gives these members the values written, and leaves the others alone. The string may be empty or anything without the delimiter, the two characters must not be the delimiter, the int must not be the smallest; for double and float it is required that their texts are non-empty, have no delimiter and convert. A delimiter as the value of the char makes the parse fail (refuted).", "quantifier": "all records in range, any text form of the floating point types that converts back", "why_tests_cant": "The test has one record; the claim is over all values of ten members.", "anchors": ["strtk_tokenizer_test.cpp:bool test_construct_and_parse", "strtk_tokenizer_test.cpp:struct data_block", "strtk.hpp:inline void construct"]}
{"id": "C151", "title": "When a replaced pattern is gone from the result", "statement": "The condition checked by test_replace_pattern of strtk_tokenizer_test.cpp, that the result of replace_pattern does not have the pattern (unless pattern and replacement are the same): it holds for every text if the pattern is not empty and has no character in common with the replacement, and the replacement is not empty or the pattern is one character; for one character it holds exactly if the replacement is that character, or does not have it, or the text does not have it. It does not hold in general: removing a pattern can make a new occurrence, so can a replacement that shares a character without having the pattern, and the empty pattern is always found (refuted).", "quantifier": "all texts, patterns and replacements", "why_tests_cant": "The test tries 20 pairs on seven texts, for all of which the condition happens to hold.", "anchors": ["strtk_tokenizer_test.cpp:bool test_replace_pattern", "strtk.hpp:inline void replace_pattern"]}
{"id": "C152", "title": "An inserter with the length of a text as interval puts every copy on its own line", "statement": "inserter_example of strtk_examples.cpp for any number of copies n and any text: replicate followed by an interval_inserter with the length of the text writes n lines, each the text. The text must not be empty; for the empty one no line is written (refuted).", "quantifier": "all n, all non-empty texts of less than 2^64 characters", "why_tests_cant": "The example prints five copies of one sentence.", "anchors": ["strtk_examples.cpp:void inserter_example", "strtk.hpp:struct interval_inserter"]}
{"id": "C153", "title": "Cutting the rotations of a text", "statement": "cut_example of strtk_examples.cpp for any text and any r0 <= r1 <= length: as many lines as the text has characters, and the j-th character of line i is character (r0 + j + i(i+1)/2) mod length of the text, since the loop rotates what it rotated before.", "quantifier": "all texts, all bounds in order and inside the text", "why_tests_cant": "The example has one text of ten digits and one pair of bounds.", "anchors": ["strtk_examples.cpp:void cut_example", "strtk.hpp:inline void cut("]}
{"id": "C154", "title": "Searching for more and more consecutive characters", "statement": "find_n_consecutive_example of strtk_examples.cpp for any text, any character class and any numbers n: each line tells the leftmost n consecutive characters of the class after the last ones found, with position and length; the first n for which there are none ends the output with its own line. If the text is made of words of the class with gaps in front of them, asking for the lengths of the words finds exactly the words. In general a run of n characters can be missed, because exactly n does not ask that the run ends there (refuted).", "quantifier": "all texts of less than 2^31 characters, all classes, all positive numbers", "why_tests_cant": "The example has two texts built so that all nine searches succeed.", "anchors": ["strtk_examples.cpp:void find_n_consecutive_example", "strtk.hpp:find_n_consecutive"]}
{"id": "C155", "title": "split_on_consecutive cuts every run of a class into pieces", "statement": "split_on_consecutive_example of strtk_examples.cpp for any text and class: for i > 0 the tokens of the line for i are the pieces of i characters, from the left, of every maximal run of the class, in order, so a run of m characters gives m / i of them; there is no line for i = 0 nor for an i without tokens.", "quantifier": "all texts of less than 2^31 characters, all classes, all i", "why_tests_cant": "The example has one text and i up to 6.", "anchors": ["strtk_examples.cpp:void split_on_consecutive_example", "strtk.hpp:split_on_consecutive"]}
{"id": "C156", "title": "A parsed set of integers is printed once each, in order", "statement": "bracketize_example of strtk_examples.cpp for any integers (except the smallest int) and any words: the first line has every integer that occurs, once, in ascending order, in braces and canonical form, the second has all words in their order in angle brackets; the order and the number of repetitions of the integers do not matter.", "quantifier": "all lists of ints, all lists of non-empty words without blanks", "why_tests_cant": "The example has the integers 1 to 10, already in order.", "anchors": ["strtk_examples.cpp:void bracketize_example", "strtk.hpp:bracketize"]}
{"id": "C157", "title": "Translating with the tables exchanged undoes a translation", "statement": "translation_table_example of strtk_examples.cpp for any tables of equal size and any text of characters below 128: each character of the first table becomes the one at the same place of the second, all others stay. Tables of different sizes are refused. If neither table repeats a character, translating with the two tables exchanged gives the text back if and only if none of its characters is in the second table without being in the first. A text that had such a character before does not come back (refuted), nor can any table undo one that maps two characters to the same (refuted).", "quantifier": "all tables of equal size and all texts with characters below 128", "why_tests_cant": "The example has one pair of tables and one text, and never translates back.", "anchors": ["strtk_examples.cpp:void translation_table_example", "strtk.hpp:class translation_table", "strtk.hpp:inline std::string translate("]}
{"id": "C158", "title": "Searching without regard to case finds at least as many matches", "statement": "find_example of strtk_examples.cpp for any pattern and text: the lines of find_all show the pattern once for each of its leftmost matches that do not overlap, the lines of ifind_all show texts equal to the pattern up to case. ifind_all never finds fewer matches than find_all. If two overlapping copies of the pattern always differ, even up to case, the matches of find_all are exactly those of ifind_all that equal the pattern; otherwise find_all can find one that ifind_all does not (refuted).", "quantifier": "all non-empty patterns and all texts of characters below 128", "why_tests_cant": "The example has one pattern that cannot overlap itself and one text.", "anchors": ["strtk_examples.cpp:void find_example", "strtk.hpp:inline std::size_t find_all", "strtk.hpp:inline std::size_t ifind_all"]}
{"id": "C159", "title": "index_of of every part of a text", "statement": "index_of_example of strtk_examples.cpp for any text and any non-empty patterns: each line shows where the pattern occurs first, and 18446744073709551615 if it does not occur. In a text without repeated characters every non-empty part is found where it begins. The empty pattern is never found, though it occurs at 0 (refuted).", "quantifier": "all texts of less than 2^64 - 1 characters, all lists of patterns", "why_tests_cant": "The example has ten suffixes of one text and one pattern that does not occur.", "anchors": ["strtk_examples.cpp:void index_of_example", "strtk.hpp:inline std::size_t index_of"]}
{"id": "C160", "title": "Fields with a fraction are read as truncated integers", "statement": "truncatedint_example of strtk_examples.cpp for any signed integer, any unsigned integer and any two fractions without the delimiter: the parse succeeds and stores both integers, whether the size of the fractions is left open or given and right. Without a size, texts without a fraction are read whole. With a size the last characters are dropped without a look, so a text without a fraction loses digits and the parse still succeeds (refuted).", "quantifier": "all ints except the smallest, all unsigned ints, all fractions", "why_tests_cant": "The example has one number and the fraction 0000.", "anchors": ["strtk_examples.cpp:void truncatedint_example", "strtk.hpp:truncated_int"]}
{"id": "C161", "title": "Selected columns and ignored fields", "statement": "parse_example10 and parse_example08 of strtk_examples.cpp for any text. Fields of integers separated by commas: the first parse stores columns 0, 2, 4, 6, 8 if there are nine fields, the second columns 1, 3, 5, 7, 9 if there are ten; with fewer fields a parse fails and changes nothing. With ignore_token the parse succeeds if and only if there are five fields, the first an integer and the third of the other type, and stores the first, the third and the fifth. Empty fields do not count, so a field after an empty one is stored in the place of another (refuted).", "quantifier": "all texts, all types for the third field", "why_tests_cant": "The examples have one text each, with enough fields.", "anchors": ["strtk_examples.cpp:void parse_example10", "strtk_examples.cpp:void parse_example08", "strtk.hpp:struct column_list_impl", "strtk.hpp:class ignore_token"]}
{"id": "C162", "title": "Key and value lists of maps built by any assignments", "statement": "make_key_lists and make_value_lists of strtk_examples.cpp. For any sequence of assignments to a map all four containers show each key once, in the order of strings. For any sequence of pairs inserted into a multimap the list of a key shows its values in the order of insertion, provided find gives the first of several equal keys. The standard does not say which one it gives, and with another one values are missing (refuted).", "quantifier": "all sequences of assignments and insertions, all keys, values except the smallest int", "why_tests_cant": "The examples have one map of six keys and one multimap of six pairs, on one implementation of find.", "anchors": ["strtk_examples.cpp:void make_key_lists", "strtk_examples.cpp:void make_value_lists", "strtk.hpp:make_key_list", "strtk.hpp:make_value_list"]}
{"id": "C163", "title": "Several sinks filled by one parse", "statement": "parse_example07 of strtk_examples.cpp (its vector, deque and list blocks) for any three lists of values and any numbers of values asked for: with no number given every container gets its whole list. With count(n) it gets the first n values and the parse goes on. If a list has fewer values than asked for the parse fails there: the containers before it are filled, this one has all of its values, and those after it are unchanged.", "quantifier": "all lists of ints except the smallest, of texts and of reals, all counts", "why_tests_cant": "The example has lists that are always long enough, and never looks at the containers after a failure.", "anchors": ["strtk_examples.cpp:void parse_example07", "strtk.hpp:class sink_type", "strtk.hpp:inline sink_type& count"]}
{"id": "C164", "title": "Values followed by a list of any length", "statement": "parse_example09 of strtk_examples.cpp (the block with a set) for any two texts, any integer, any list and any container: the values are stored and the whole list is added in order. A text in the list that is no value ends it: what stands before has been added and the result is false. Without a list nothing is stored, not even the values before it.", "quantifier": "all texts without commas, all ints except the smallest, all lists, all containers and starting contents", "why_tests_cant": "The example has one text and a list in which every text is a value.", "anchors": ["strtk_examples.cpp:void parse_example09", "strtk.hpp:inline bool parse(const InputIterator begin,"]}
{"id": "C165", "title": "The trie programs for all keys", "statement": "trie_example00 and trie_example01 of strtk_search_trie_example.cpp for any non-empty keys of which no two have the same length and agree up to the last element: every key is found as a prefix and every key is found with its own value, in the order of insertion. Keys that differ in the last element only share one value, the last one given (refuted for ab and ac).", "quantifier": "all lists of such keys over any type with an equality, all values", "why_tests_cant": "The programs have three keys of different lengths and four without a common element.", "anchors": ["strtk_search_trie_example.cpp:void trie_example00", "strtk_search_trie_example.cpp:void trie_example01", "strtk.hpp:class prefix"]}
{"id": "C166", "title": "Cleaning a text in several passes", "statement": "The programs remove_inplace_example01, remove_consecutives_example01 to 03, remove_leading_example and remove_trailing_example of strtk_examples.cpp print, for every text and every choice of characters, the text and the cleaned text. Combining the functions: trimming left then right, right then left, and remove_leading_trailing agree on every text and trimming again changes nothing. Removing characters and then runs leaves exactly the other characters that occur and no two equal neighbours, and squeezing runs before as well changes nothing; without the squeezing at the end runs can remain (refuted). For 7-bit texts removing duplicates and removing characters commute, and squeezing runs before or after removing duplicates, or removing them twice, changes nothing.", "quantifier": "all texts, all predicates, all sets of characters of a C string", "why_tests_cant": "Each program has one text; the order of the passes matters only for texts in which what is removed separates equal characters or in which everything is trimmed.", "anchors": ["strtk_examples.cpp:void remove_inplace_example01", "strtk_examples.cpp:void remove_consecutives_example01", "strtk_examples.cpp:void remove_consecutives_example02", "strtk_examples.cpp:void remove_consecutives_example03", "strtk_examples.cpp:void remove_trailing_example", "strtk_examples.cpp:void remove_leading_example", "strtk.hpp:inline void remove_leading_trailing", "strtk.hpp:remove_duplicates"]}
{"id": "C167", "title": "Combinations of a range with repeated elements", "statement": "From an ascending range with any repetitions, next_combination called until it returns false shows every ascending list of k of the elements exactly once, in lexicographic order, and leaves the range as it was. A loop over a combination_iterator shows the same, and with sorted = false it does so for every range, which is then sorted; constructed with k above the length of the range it is undefined. combination_example01 prints them with their numbers, combination_example02 without. it += n goes to the n-th combination, past the last one to the end with the range as it was, and does nothing for n <= 0; the iterator returned by it++ shows the combination after the increment (refuted), as the elements themselves are moved. From a range that is not ascending and an iterator not told so combinations are left out (refuted).", "quantifier": "all types with a total order, all ranges and sizes", "why_tests_cant": "The examples and the tests use ranges of different elements, for which the comparison of equal elements never matters.", "anchors": ["strtk_examples.cpp:void combination_example01", "strtk_examples.cpp:void combination_example02", "strtk.hpp:bool next_combination(const Iterator first", "strtk.hpp:class combination_iterator"]}
{"id": "C168", "title": "Canonicalizing a text again", "statement": "A call of lexicographically_canonicalize leaves the range as it is or makes it lexicographically smaller; it is left as it is exactly when each of its suffixes comes after it, the end counting as larger than every element, in particular when it is its own least rotation. After as many calls as there are elements no further call changes anything. When the last element is larger than all others the first call gives the least rotation and a second one changes nothing. In general one call is not enough, and even after any number of calls two rotations of one text can end differently (refuted). lexicographically_canonicalize_example prints each text with its rotation; an empty text is undefined (refuted).", "quantifier": "every element type with a strict total order, every non-empty range, every number of calls; all lists of texts", "why_tests_cant": "Only some texts with repeated smallest elements need a second call; the examples call it once.", "anchors": ["strtk_examples.cpp:void lexicographically_canonicalize_example", "strtk.hpp:lexicographically_canonicalize"]}
{"id": "C169", "title": "The macros of the floating point parser", "statement": "With strtk_enable_superscalar, and in general however often the digit step is repeated in the digit loops, a text is converted to a floating point number as without, with the same operations in the same order. The same holds with strtk_use_lut for every text read as unsigned char and for 7-bit texts read as char. Hence with every setting of the macros every decimal notation (up to 615 fraction digits and exponents from -615 on) gives the number it denotes. Refuted: with strtk_use_lut and char, a byte from 128 on behind the sign and digits is a read outside digit_table, where without the macro the text is refused.", "quantifier": "every setting of the two macros, every text, every arithmetic", "why_tests_cant": "The macros are chosen at compile time; one build tests one setting, and a read in front of a table mostly returns something.", "anchors": ["strtk.hpp:digit_table", "strtk.hpp:parse_digit_1", "strtk.hpp:parse_digit_2", "strtk.hpp:strtk_process_digit"]}
