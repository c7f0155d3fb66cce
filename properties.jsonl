{"id": "C01", "title": "Packed vector round trip", "statement": "After pushing n values of at most w bits (1<=w<=64) into a compact_vector builder of size n and building, operator[](i) returns the i-th value pushed for every i<n, without touching memory outside the vector. The same holds for compact_vector::build(begin,n), which picks the width itself, for every sequence of 64-bit values whose maximum is below 2^64-1.", "quantifier": "every n, every width 1..64, every sequence of values that fit the width, every index", "why_tests_cant": "values straddle 64-bit words at every possible offset; tests sample a few widths and random values", "anchors": ["include/vectors/compact_vector.hpp: builder::builder, push_back, fill, build, compact_vector::operator[], compact_vector::build"]}
{"id": "C02", "title": "Packed vector random-order writes", "statement": "compact_vector::builder::set behaves like assignment in an array: after any sequence of set(i,v) with in-range indexes and values that fit the width, reading slot j gives the last value written to j (0 if none) and no other slot changes.", "quantifier": "every width 1..64, every size, every history of set calls (any order, repeated indexes)", "why_tests_cant": "depends on the whole history of writes and on every alignment of neighbouring slots", "anchors": ["include/vectors/compact_vector.hpp: builder::set, builder::operator[]"]}
{"id": "C03", "title": "Packed vector iterator", "statement": "Iterating a compact_vector from begin(pos), alternating one dereference with one increment, yields exactly operator[](pos), operator[](pos+1), ... up to the end.", "quantifier": "every vector, every start position, every number of steps", "why_tests_cant": "the iterator carries a (block, shift) cursor whose drift depends on the whole walk", "anchors": ["include/vectors/compact_vector.hpp: iterator::read, operator*, operator++, begin, end"]}
{"id": "C04", "title": "Bit buffer appends", "statement": "A bit_vector_builder holds exactly the concatenation of everything appended: after any mix of append_bits, append, zero_extend, set and set_bits, the built bit_vector has the length and bits of the corresponding list of bits, and operator[], get_bits (all lengths 0..64) and get_word64 read those bits.", "quantifier": "every history of builder operations, every position and length read", "why_tests_cant": "any alignment and length combination, any history", "anchors": ["include/vectors/bit_vector.hpp: bit_vector_builder, bit_vector::operator[], get_bits, get_word64"]}
{"id": "C05", "title": "Key/payload table slots", "statement": "hash_compact_vector with 64-bit keys and payload widths 1..64, or 32-bit keys and payload widths 1..32: after any sequence of set(i,hash,value) on in-range slots, operator[](j) returns the last (hash,value) pair stored in j and no other slot changes. (With 32-bit keys and payload width 33 the claim is false: C05_width33_refuted.)", "quantifier": "every table size, every payload width, every history of set calls, 32- and 64-bit hash keys", "why_tests_cant": "slot alignment, neighbours and call order vary without bound", "anchors": ["include/vectors/hash_compact_vector.hpp: builder::set, operator[]"]}
{"id": "C06", "title": "Triplet table slots", "statement": "compact_triplets_vector: after setting slots with (first,second,third) triplets that fit their widths, reading slot j returns the triplet stored there and no other slot changes.", "quantifier": "every combination of widths that fit, every size, every history", "why_tests_cant": "three sub-word fields straddling words at every alignment", "anchors": ["include/vectors/compact_triplets_vector.hpp"]}
{"id": "C07", "title": "Population count and in-word select", "statement": "popcount(x) is the number of one bits of x, and for every k below it select_in_word(x,k) is the position of the (k+1)-th lowest one bit.", "quantifier": "all 2^64 words and every rank k", "why_tests_cant": "the domain has 2^64 words; the broadword code mixes carries between bytes and a 2048-entry table", "anchors": ["include/utils/util.hpp: byte_counts, bytes_sum, popcount, select_in_word, tables::select_in_byte"]}
{"id": "C08", "title": "Word scanning helpers", "statement": "msb/lsb return the highest/lowest one bit, ceil_log2(x) is the least k with x<=2^k, floor_log2 the greatest k with 2^k<=x, ceil_div(a,b) is the rounded-up quotient (no overflow), and predecessor1(p) is the position of the last one at or before p.", "quantifier": "all 64-bit inputs; all bit vectors and positions with a preceding one", "why_tests_cant": "domain of size 2^64 and arbitrary bit vectors", "anchors": ["include/utils/util.hpp: msb, lsb, ceil_log2, floor_log2, ceil_div", "include/vectors/bit_vector.hpp: predecessor1"]}
{"id": "C09", "title": "Unary cursor over bit vectors", "statement": "A unary_iterator started at position p enumerates by next() the positions of the ones >= p in increasing order; skip(k)/skip0(k) move to the k-th next one/zero.", "quantifier": "every bit vector, every start, every number of calls for which such a bit exists", "why_tests_cant": "cursor state depends on the whole call history and word boundaries", "anchors": ["include/vectors/bit_vector.hpp: unary_iterator"]}
{"id": "C10", "title": "Select index", "statement": "darray built on a bit vector: select(i) is the position of the i-th one for every i below the number of ones; the zero variant does the same for zeros; both stay in bounds.", "quantifier": "every bit vector (dense and sparse blocks, any size), every rank", "why_tests_cant": "sparse/dense block switching at 2^16 distance and 1024/32 sampling need huge inputs", "anchors": ["include/sequences/darray.hpp: darray::build, flush_cur_block, select"]}
{"id": "C11", "title": "Elias-Fano round trip", "statement": "ef_sequence built from any non-decreasing sequence returns every element by operator[], every adjacent pair by pair(i), and enumerates it by its iterator; a sequence that is not non-decreasing is rejected with an error.", "quantifier": "every non-decreasing sequence of 64-bit values, every universe >= the last value, every index", "why_tests_cant": "unbounded inputs; low-bit width depends on the universe/size ratio", "anchors": ["include/sequences/ef_sequence.hpp: build, operator[], pair, iterator"]}
{"id": "C12", "title": "Variable-length code sequence", "statement": "indexed_codewords_sequence and prefix_summed_sequence return every value they were built from.", "quantifier": "every sequence of values (below 2^64-2 for codewords), every index", "why_tests_cant": "codeword lengths and their prefix sums vary without bound", "anchors": ["include/sequences/indexed_codewords_sequence.hpp", "include/sequences/prefix_summed_sequence.hpp"]}
{"id": "C13", "title": "Integer codes", "statement": "Reading back a stream of gamma (delta) codes written by write_gamma/write_delta gives the integers written, and leaves the cursor exactly after each code.", "quantifier": "every list of integers in range, at every stream offset", "why_tests_cant": "code lengths and alignments are unbounded", "anchors": ["include/sequences/integer_codes.hpp", "include/vectors/bit_vector.hpp: bits_iterator"]}
{"id": "C14", "title": "Gram-id sequence: access and find on present ids", "statement": "fast_ef_sequence built from consecutive ranges of increasing ids: operator[] gives back the stored running values, and find(range,id) on a non-empty range returns the unique position in that range holding id, or not_found if no position of the range holds it.", "quantifier": "every list of ranges, every range, every queried id", "why_tests_cant": "scan/binary-search/sampling paths switch on run lengths and thresholds", "anchors": ["include/sequences/fast_ef_sequence.hpp: build, find, operator[]"]}
{"id": "C15", "title": "Gram-id sequence: find on an empty range", "statement": "find on an empty range (an n-gram with no extensions) must answer not_found.", "quantifier": "every sequence, every empty range, every id", "why_tests_cant": "depends on what data follows the empty range", "anchors": ["include/sequences/fast_ef_sequence.hpp: find", "include/trie_count_lm.hpp: lookup"]}
{"id": "C16", "title": "Partitioned Elias-Fano access and find", "statement": "uniform_pef_sequence built from consecutive ranges of increasing ids returns the stored values by operator[] and, for an id present in a range, find returns its position; for an absent id it answers not_found.", "quantifier": "every list of ranges, every range, every id", "why_tests_cant": "partition boundaries, encodings chosen per partition", "anchors": ["include/sequences/uniform_pef_sequence.hpp", "include/sequences/compact_elias_fano.hpp"]}
{"id": "C17", "title": "Distinct-value dictionaries", "statement": "A sequence_collection built from count values maps each value to a rank and access(order,rank) returns the value; ranks are below the number of distinct values.", "quantifier": "every multiset of values per order", "why_tests_cant": "unbounded inputs", "anchors": ["include/sequences/sequence_collections.hpp: sequence_collection", "include/vectors/sorted_array.hpp"]}
{"id": "C18", "title": "Quantizer", "statement": "quantized_sequence_collection: with 2^q at least the number of distinct values quantization is lossless, bin centres are non-decreasing, and the rank chosen for a value is that of a nearest bin centre.", "quantifier": "every list of values and every quantization width", "why_tests_cant": "unbounded inputs", "anchors": ["include/sequences/sequence_collections.hpp: quantized_sequence_collection"]}
{"id": "C19", "title": "Minimal perfect hash", "statement": "The minimal perfect hash function built on n distinct keys maps them one-to-one onto 0..n-1, and every key at all to a value below the number of graph nodes.", "quantifier": "every key set for which construction succeeds, every hash function", "why_tests_cant": "depends on the random hypergraph; unbounded key sets", "anchors": ["include/utils/mphf.hpp"]}
{"id": "C20", "title": "Hash tables return the stored value", "statement": "Every key inserted in a minimal-perfect-hash table gets back exactly the value stored with it.", "quantifier": "every key set, every value assignment", "why_tests_cant": "unbounded key sets; bit-packed storage", "anchors": ["include/utils/mph_tables.hpp"]}
{"id": "C21", "title": "Hash tables reject by fingerprint", "statement": "A key that was not inserted is either reported not_found or, only if its fingerprint equals that of the inserted key stored at its slot, given that key's value.", "quantifier": "every key set, every queried key", "why_tests_cant": "unbounded", "anchors": ["include/utils/mph_tables.hpp: lookup"]}
{"id": "C22", "title": "Count trie finds every indexed n-gram", "statement": "In a trie_count_lm over fast_ef_sequence grams and Elias-Fano or indexed-codeword ranks, built from prefix-sorted n-gram files, lookup of every indexed n-gram of any order returns its count, with and without vocabulary remapping.", "quantifier": "every well-formed data set, every order, every n-gram in it, any previous queries", "why_tests_cant": "whole-structure property over unbounded data", "anchors": ["include/trie_count_lm.hpp", "include/mappers.hpp"]}
{"id": "C23", "title": "Count trie rejects absent n-grams", "statement": "lookup of an n-gram that was not indexed returns not_found, without reading out of bounds.", "quantifier": "every data set, every absent n-gram of any length", "why_tests_cant": "depends on neighbouring data; false positives need special layouts", "anchors": ["include/trie_count_lm.hpp: lookup", "include/sequences/fast_ef_sequence.hpp: find"]}
{"id": "C24", "title": "Hash count model lookups", "statement": "mph_count_lm lookup of every indexed n-gram returns its count; an absent n-gram is answered not_found or, on fingerprint collision, some stored count, never out-of-bounds access.", "quantifier": "every data set, every query", "why_tests_cant": "unbounded; out of bounds accesses need not crash", "anchors": ["include/mph_count_lm.hpp"]}
{"id": "C25", "title": "Sentence scoring equals Katz back-off", "statement": "Scoring the words of a sentence one at a time gives for each word the log probability of the longest matching context plus the back-off weights of the longer contexts, as defined recursively by Katz back-off on the ARPA entries.", "quantifier": "every model (closed under prefixes and suffixes), every sentence of every length, every position", "why_tests_cant": "stateful context truncation across unbounded sentences", "anchors": ["include/score.hpp", "include/mph_prob_lm.hpp: score", "include/trie_prob_lm.hpp: score", "include/state.hpp"]}
{"id": "C26", "title": "Score state is the longest useful context", "statement": "After each scored word the state's word window contains exactly the last words in order, its length never exceeds order-1, and re-initialising the state makes the next sentence's scores independent of everything scored before.", "quantifier": "every history of scored sentences", "why_tests_cant": "history-dependent", "anchors": ["include/state.hpp", "include/utils/circular_buffer.hpp", "include/score.hpp"]}
{"id": "C27", "title": "Circular window", "statement": "A circular_buffer of capacity n returns, for the i-th element from the back, the i-th most recently pushed value among the last n pushed; after init it starts afresh.", "quantifier": "every capacity, every push history", "why_tests_cant": "wrap-around depends on the history length", "anchors": ["include/utils/circular_buffer.hpp"]}
{"id": "C28", "title": "External sort keeps and orders lines", "statement": "Sorting and merging produces a file that contains exactly the input records, in non-decreasing order of the comparator, with the record count in its header.", "quantifier": "every input size, every split into batches, every comparator", "why_tests_cant": "depends on where memory fills up", "anchors": ["include/sorters/sorter.hpp", "src/sort_grams.cpp", "src/sort_arpa.cpp"]}
{"id": "C29", "title": "Sorting order", "statement": "The prefix (suffix) comparator orders n-grams lexicographically by vocabulary ids of the words left-to-right (right-to-left) and is a strict weak order on n-grams of the same order made of vocabulary words.", "quantifier": "every vocabulary, every pair/triple of n-grams", "why_tests_cant": "unbounded", "anchors": ["include/sorters/sorter_common.hpp", "include/sorters/sorter.hpp"]}
{"id": "C30", "title": "Save/load round trip", "statement": "Loading a saved structure gives back an identical structure and consumes exactly the bytes written, so structures saved one after the other load back one after the other.", "quantifier": "every structure value, every following file content", "why_tests_cant": "unbounded values", "anchors": ["include/vectors/compact_vector.hpp: save/load", "include/sequences/*: save/load", "include/utils/util.hpp: save/load"]}
{"id": "C31", "title": "Header byte", "statement": "The model-type header byte written by the builders is decoded by the header parser to the same configuration, and distinct configurations get distinct bytes.", "quantifier": "every supported configuration", "why_tests_cant": "tests load a couple of configurations only", "anchors": ["include/utils/binary_header.hpp"]}
{"id": "C32", "title": "Count line parsing", "statement": "Formatting a count record and parsing the line gives back the gram bytes and the count.", "quantifier": "every gram without a tab, every 64-bit count", "why_tests_cant": "unbounded", "anchors": ["include/utils/parsers.hpp", "include/lm_types.hpp"]}
{"id": "C33", "title": "Gram byte navigation", "statement": "For an n-gram text of words separated by single spaces, predecessor drops the last word, suffix drops the first, to(k)/back_to(k) select the documented word, next/prev move one word.", "quantifier": "every word list, every offset", "why_tests_cant": "unbounded", "anchors": ["include/utils/util.hpp: bytes"]}
{"id": "C34", "title": "Probability packing", "statement": "unpack after pack returns the same bit patterns of probability and back-off; quantized rank packing of (prob rank, back-off rank) is undone by the lookup.", "quantifier": "all float bit patterns; all ranks that fit", "why_tests_cant": "2^64 inputs", "anchors": ["include/utils/util.hpp: bits::pack/unpack", "include/mph_prob_lm.hpp", "include/trie_prob_lm.hpp"]}
{"id": "C35", "title": "Record pool", "statement": "A grams pool hands back every record appended, in order, until it reports itself full; appending never invalidates earlier records.", "quantifier": "every sequence of appends", "why_tests_cant": "history dependent", "anchors": ["include/utils/pools.hpp"]}
{"id": "C36", "title": "Range pointers", "statement": "pointer_sequence gives for the i-th n-gram exactly the half-open range of its successors' positions in the next level.", "quantifier": "every list of range sizes", "why_tests_cant": "unbounded", "anchors": ["include/sequences/pointer_sequence.hpp", "include/trie_count_lm.hpp"]}
{"id": "C37", "title": "Binary search helper", "statement": "util::binary_search on a sorted sequence finds x iff it occurs and returns its rank; for absent x it returns false within bounds.", "quantifier": "every sorted sequence and every x", "why_tests_cant": "unbounded", "anchors": ["include/utils/util.hpp: binary_search"]}
{"id": "C38", "title": "Argument checks", "statement": "The build tools accept exactly orders 2..8, remapping orders 0..2 and negative unk log-probabilities.", "quantifier": "every integer given by the user", "why_tests_cant": "integer narrowing at the call boundary", "anchors": ["include/utils/util.hpp: building_util::check_order, check_remapping_order, check_unk_logprob"]}
{"id": "C39", "title": "Query tokenization", "statement": "Splitting a query text into words yields the maximal runs of non-space bytes, in order, so that joining with single spaces and splitting again is the identity.", "quantifier": "every text", "why_tests_cant": "unbounded", "anchors": ["include/utils/iterators.hpp", "include/mappers.hpp", "include/utils/parsers.hpp"]}
{"id": "C40", "title": "ARPA files are read exactly", "statement": "For every file in the ARPA layout (blank lines, \\data\\, one 'ngram i=count' line per order, the sections with their titles, \\end\\), reading the header returns the numbers of lines of the sections, reading the values of the orders one after the other returns the probabilities and back-offs written on the lines of each section, the recorded positions are those of the sections so that an iterator opened there yields exactly the lines of that section, and the probability models built from the bytes of the file are those built from its sections; an order different from that of the file is refused, and no header is accepted whose counts are not the ones written in it.", "quantifier": "all ARPA texts: any number of orders, lines, blank lines and trailing bytes; all orders requested", "why_tests_cant": "the file layouts are infinitely many; stream state (end of file, blank lines, offsets) interacts with each of them", "anchors": ["include/utils/parsers.hpp: arpa_parser::read_header, read_values, read_line, skip_blanklines, parse_eof, expect", "include/utils/iterators.hpp: arpa_iterator", "include/mph_prob_lm.hpp: builder", "include/trie_prob_lm.hpp: builder"]}
{"id": "C41", "title": "The score program reports the Katz probabilities of the corpus", "statement": "For every probability model built from an ARPA file (hash model, or trie with remapping order 0, 1 or 2; for the trie also after the index has been written to a file and loaded back) and every corpus that ends with a newline (a line is split at every single space, so a blank line, two spaces in a row or a space at the end of a line hold empty words, and an empty word is a word like the others), the score program reports: the number of lines as sentences, the number of words as tokens, the number of words missing from the vocabulary as OOVs, the sum over the sentences of the sums of the back-off log probabilities of their words (binary32, left to right), and that sum over the OOV words only; each sentence is scored as if it were the first, and the count of known words used for the second perplexity never wraps around.", "quantifier": "all ARPA files, quantization bits, corpora (any number of lines, any lengths) and unk values", "why_tests_cant": "a test fixes one corpus; the state is reused from line to line, so every prefix of the corpus is a different history", "anchors": ["src/score.cpp: score_corpus", "include/utils/iterators.hpp: text_lines", "include/score.hpp: score_impl", "include/state.hpp: prob_model_state::init", "include/mph_prob_lm.hpp: score"]}
{"id": "C42", "title": "Count tries over partitioned Elias-Fano find every indexed n-gram", "statement": "In a trie_count_lm whose grams are a uniform_pef_sequence, or whose ranks are a prefix_summed_sequence<uniform_pef_sequence>, built from prefix-sorted n-gram files, every lookup of an indexed n-gram in any history of such lookups returns its count, although each lookup moves the enumerators kept inside the sequences.", "quantifier": "every well-formed data set, the three remapping orders, every combination of sequences of lm_types.hpp, every history of lookups of indexed n-grams", "why_tests_cant": "the answer depends on the enumerator state left by all earlier queries and on the values at partition boundaries", "anchors": ["include/trie_count_lm.hpp", "include/lm_types.hpp", "include/sequences/uniform_pef_sequence.hpp", "include/sequences/prefix_summed_sequence.hpp"]}
{"id": "C43", "title": "sort_arpa puts a section in suffix order", "statement": "For every well-formed ARPA file, every order it contains and every limit on the memory, sort_arpa writes the title of the section followed by its entries, each exactly once, in suffix order of the given vocabulary, with their probability and back-off; an order that the file does not contain is refused.", "quantifier": "all ARPA files, orders, vocabularies, memory limits (splits into batches), and every std::sort meeting its contract", "why_tests_cant": "the result depends on where the memory limit cuts the section into batches and on the order in which temporary files are merged; tests use one file and one limit", "anchors": ["src/sort_arpa.cpp: main", "include/utils/sorters.hpp: sorter", "include/utils/parsers.hpp: arpa_parser, prob_backoff_line_handler"]}
{"id": "C44", "title": "A count file is read line by line as announced", "statement": "Opening an n-gram count file and iterating over it yields exactly the lines announced by the number on the first line, in order, whether or not the last line ends with a newline and whatever follows it; a file without a number, or announcing zero lines, is refused.", "quantifier": "all files, all numbers of lines, all line contents without newlines", "why_tests_cant": "the reader depends on where the end of the file falls relative to the announced count; tests read a few complete files", "anchors": ["include/utils/parsers.hpp: grams_gzparser", "include/utils/util.hpp: open_file"]}
{"id": "C45", "title": "build_trie / build_hash write a file that test_count_model accepts in full", "statement": "For value type 'count', every data set, order, remapping order, ranks and hash width: the builder writes a file whose header names the requested type, and the checker, given that file and the same directory, picks that type, restores the model and finds every n-gram of every order with its count; unknown structures and widths give exit code 1 and no file.", "quantifier": "all data sets of well-formed count files, all argument combinations (Elias-Fano tries with IC and PSEF ranks, the three remapping orders, both hash widths)", "why_tests_cant": "the shipped test runs this loop on one data set; the composition of arguments, header, dispatch, build, save, load and lookup must agree for all fourteen types and all data", "anchors": ["src/build_trie.cpp: main", "src/build_hash.cpp: main", "test/test_count_model.cpp: check_model, main", "include/lm_types.hpp"]}
{"id": "C46", "title": "The Python bindings answer as the C++ models", "statement": "CountModel(file).lookup(s) returns the count of the indexed n-gram s and 0 for one that is not indexed; ProbModel(file).score_sentence(s, len(s)) returns the Katz back-off log probability of the sentence and its number of words, and score_corpus the total of the text; a file holding another class is refused.", "quantifier": "all data sets and index files written by build_trie, all Python strings, all histories of calls", "why_tests_cant": "the bindings have no tests; the string conversion (UTF-8, sizes in bytes), the missing check of the file's type and the static arrays shared by calls matter only for some strings, files and histories", "anchors": ["python/tongrams.cpp: load_from_binary, PyCountLM_lookup, PyProbLM_score_sentence, PyProbLM_score_corpus", "python/example.py"]}
{"id": "C47", "title": "Probability tries over uniform_pef score like those over Elias-Fano", "statement": "trie_prob_lm instantiated with uniform_pef_sequence gives every sentence the Katz back-off score over the (quantized) ARPA table, like the instance with fast_ef_sequence: listed n-grams get their listed probability, unlisted ones back off.", "quantifier": "all ARPA tables, remapping orders, quantizations, sentences and histories of queries", "why_tests_cant": "the shipped tests compare pef models on one corpus whose n-grams are mostly listed; the search over uniform_pef misreports some absent ids only for certain partitions, positions and previous queries", "anchors": ["include/lm_types.hpp: pef_trie_prob_lm, pef_rtrie_prob_lm", "include/trie_prob_lm.hpp", "include/score.hpp", "include/sequences/uniform_pef_sequence.hpp: find"]}
{"id": "C48", "title": "build_trie / build_hash for probabilities, then score, compute Katz totals", "statement": "For value type 'prob', every well-formed ARPA file and argument combination: the builder writes an index whose header names the requested class, and the score program given that file and a text picks the class, restores the model and reports the number of words, of unknown words, of sentences and the total log probabilities of Katz back-off; bad arguments are refused and write nothing.", "quantifier": "all ARPA files, orders 2..8, quantization bits, unknown-word probabilities, remapping orders, hash widths and texts", "why_tests_cant": "the composition argument parsing, ARPA parsing, quantization, building, saving, header dispatch, loading and scoring must agree for all types and all data; tests run one model", "anchors": ["src/build_trie.cpp: main", "src/build_hash.cpp: main", "src/score.cpp: score_corpus, main", "include/lm_types.hpp"]}
{"id": "C49", "title": "print_stats, size() and order() describe the data a model was built from", "statement": "For a model file written by a build, the statistics program reports the order, the total number of n-grams, the file size in bytes and, for each order of a trie, the number of n-grams, the number of pointers, of n-grams with extensions, the smallest, largest and total number of extensions, the largest ranges in decreasing order, the terms of the entropies and how often each word ends a bigram; for counts the number of distinct counts of each order. The bytes attributed to the parts never exceed the file's; for hash models the three shares add up to the file size.", "quantifier": "all collections of n-grams, orders, remapping orders, rank structures, hash widths, heap implementations and capacities of the queue", "why_tests_cant": "the report is recomputed from the compressed structures (gap-coded ids, pointers, remapped ids); it must agree with the input for every data set, and no test in the repository checks it", "anchors": ["src/print_stats.cpp", "include/utils/stats.cpp: print_stats, topk_queue", "include/trie_count_lm.hpp: size, order", "include/vectors/sorted_array.hpp: grams_bytes, counts_ranks_bytes, pointers_bytes"]}
{"id": "C50", "title": "The lookup benchmark asks the model for exactly the grams of the query file, the same in every run", "statement": "Given the index file a build wrote from count files and a query file whose lines hold indexed grams, alone or followed by a tab and anything, lookup_perf_test prints the number of bytes of the index and the number of n-grams of all orders, and in each of the requested runs performs one lookup per line, in order, whose answer is the count of that gram; zero runs and files of probability models are refused.", "quantifier": "all collections of counts, orders 2..8, remapping orders, ranks encodings and hash widths; all query files of indexed grams, of any length, with or without text after the grams; all numbers of runs up to 2^60", "why_tests_cant": "the queries are concatenated into one pool without separators and addressed by offsets: whether each lookup sees exactly its gram depends on every line before it, and answers of later runs on the state earlier lookups left", "anchors": ["src/lookup_perf_test.cpp:perf_test", "src/lookup_perf_test.cpp:main", "include/utils/pools.hpp:strings_pool", "include/utils/util.hpp:split_upon_check_end", "include/trie_count_lm.hpp:size", "include/trie_count_lm.hpp:lookup", "include/mph_count_lm.hpp:size"]}
{"id": "C51", "title": "An Elias-Fano encoding inside a bit vector answers every history of calls like the list it encodes", "statement": "Writing a non-empty non-decreasing list of values below a universe into a bit vector that already holds bits, and to which more bits are appended afterwards, takes exactly bitsize(universe, n) bits and leaves the others unchanged; an enumerator over it then answers every sequence of move, next_geq, next and prev_value calls, forwards and backwards, with the position and value a search in the list gives. A list that decreases somewhere is refused.", "quantifier": "all lists of up to 2^40 values below universes up to 2^57, whatever precedes and follows them in the buffer, all finite sequences of calls with positions up to the end (and no search past the universe once at the end)", "why_tests_cant": "short moves walk the high bits, long ones restart from sampled pointers to every 256th one or 512th zero that are written while the values stream by: whether a jump lands right depends on every value before it and on where the enumerator was left", "anchors": ["include/sequences/compact_elias_fano.hpp:offsets", "include/sequences/compact_elias_fano.hpp:bitsize", "include/sequences/compact_elias_fano.hpp:write", "include/sequences/compact_elias_fano.hpp:enumerator::move", "include/sequences/compact_elias_fano.hpp:enumerator::next_geq", "include/sequences/compact_elias_fano.hpp:enumerator::next", "include/sequences/compact_elias_fano.hpp:enumerator::prev_value", "include/sequences/compact_elias_fano.hpp:enumerator::slow_move", "include/sequences/compact_elias_fano.hpp:enumerator::slow_next_geq", "include/vectors/bit_vector.hpp:unary_iterator"]}
{"id": "C52", "title": "Counts in any order, sorted and indexed, are all found with their counts", "statement": "Given count files whose grams are listed in any order, running sort_grams on every file of order two or more and then build_trie gives a file on which test_count_model finds nothing wrong and from which every lookup of a listed gram returns its count; the sorted files hold exactly the given grams with their counts, in an order that does not depend on the memory granted or on how std::sort arranges equal records. Each sorted file must have at least two records and its last batch more than one (sort_grams loses a record otherwise, C28).", "quantifier": "all collections of counts of orders 2 to 8 closed under prefixes (and suffixes when remapped), all orders of the lines, all amounts of memory, all correct std::sort implementations, all trie types with Elias-Fano grams and IC or PSEF ranks", "why_tests_cant": "the sorter and the index agree only if the order the comparator puts the lines in is exactly the one the trie builder assumes (vocabulary ids, prefix before longer gram); that link must hold for every vocabulary, batch boundary and merge", "anchors": ["src/sort_grams.cpp:main", "include/sorters/sorter.hpp", "include/sorters/sorter_common.hpp:prefix_order_comparator", "include/trie_count_lm.hpp:builder", "src/build_trie.cpp:main", "test/test_count_model.cpp:main", "src/lookup_perf_test.cpp:main"]}
{"id": "C53", "title": "An unsorted ARPA file, sorted section by section and indexed, scores as its entries say", "statement": "Given an ARPA file whose sections are in any order, running sort_arpa on every section after the unigrams and putting the outputs together gives a file from which build_trie makes a trie, and score reports for every text the back-off totals over the given entries with their values as written by std::to_string and read back; the sorted sections hold exactly the given n-grams and do not depend on the memory granted or on std::sort. Each sorted section must have at least two entries and its last batch more than one (sort_arpa loses an entry otherwise, C43).", "quantifier": "all ARPA tables of orders 2 to 8 closed under suffixes (and contexts, when remapped), all orders of the lines within the sections, all amounts of memory, all correct std::sort implementations, all ways in which the C library prints and reads numbers, all texts", "why_tests_cant": "the trie builder relies on the suffix order that the sorter's comparator produces through vocabulary ids, and the scores on values that went through two text formats; both links must hold for every table, batch boundary and merge", "anchors": ["src/sort_arpa.cpp:main", "include/sorters/sorter.hpp", "include/sorters/sorter_common.hpp:prob_backoff_line_handler", "include/utils/parsers.hpp:arpa_parser", "include/trie_prob_lm.hpp:builder", "src/build_trie.cpp:main", "src/score.cpp:main"]}
{"id": "C54", "title": "The project's own randomised checks accept every sequence of draws", "statement": "The programs test_compact_vector, test_hash_compact_vector, test_fast_ef_sequence and test_uniform_pef_sequence, which draw random data, build a structure and compare everything read back (by index, by iterator, by find, and after a save and a load) with what was put in, exit with status 0 whatever they draw within the bounds of their distributions. (Refuted for test_uniform_pef_sequence with at most 64 values, and for maximal range lengths near 2^64.)", "quantifier": "all numbers of values, all widths, all maximal range lengths, all sequences of draws within the distributions' bounds, all valid peeling orders of the sampled ranges, all contents of the memory after the arrays", "why_tests_cant": "these programs are the tests: one run covers one sequence of draws, and the abort on three values in ranges of two and one needs a particular one", "anchors": ["test/test_compact_vector.cpp:main", "test/test_hash_compact_vector.cpp:perf_test", "test/test_fast_ef_sequence.cpp:main", "test/test_uniform_pef_sequence.cpp:main", "include/utils/util.hpp:check"]}
{"id": "C55", "title": "print_stats on the file of any model type reports what the input files hold", "statement": "For a model file of any of the eighteen types (Elias-Fano or partitioned Elias-Fano tries of counts or probabilities with every remapping and rank encoding, hash models with 32- or 64-bit keys) that a builder program wrote, the print_stats program recognises the type from the header, loads the file in a process of its own, and reports the order, the number of n-grams, the number of bytes of the file, the numbers of distinct values, and for every level the size, the universe, the pointers with smallest, largest and listed largest ranges, and the occurrences of ids as the last word, as they follow from the input files; the parts of the space it reports do not add up to more than the file.", "quantifier": "all collections of n-grams and ARPA files, all types, remapping orders and quantization widths, all valid peeling orders, all contents of the memory after the arrays in either process, all heap functions and queue capacities the standard library may have", "why_tests_cant": "it is a whole-program statement over all inputs and over both processes; the enumerators of the partitioned sequences read words that follow the arrays, which differ from run to run", "anchors": ["src/print_stats.cpp:main", "src/print_stats.cpp:print_stats", "include/utils/stats.cpp:print_stats", "include/sequences/uniform_pef_sequence.hpp:bytes", "include/lm_types.hpp:TONGRAMS_TYPES"]}
{"id": "C56", "title": "the index types are interchangeable", "statement": "Indexes of different types over the same data give the same answers. For counts: every trie (any remapping order, Elias-Fano or uniform_pef gram sequences, any rank encoding) and every hash model (32- or 64-bit keys) over the same files answer a history of queries for indexed n-grams with the same counts. For probabilities: every trie and every hash model built from the same ARPA file with the same quantization and unknown probability give each word of a sentence the same score, bit for bit, and the same unknown-word flag, and the score program reports the same totals of a text.", "quantifier": "all pairs of index types and remapping orders, all collections of n-grams and ARPA files, all hash functions and valid peeling orders of either index, all histories of queries or calls, all sentences and texts", "why_tests_cant": "it relates two different data structures on all inputs; a test compares two types on one file and one text", "anchors": ["include/lm_types.hpp:TONGRAMS_TYPES", "include/trie_count_lm.hpp:lookup", "include/mph_count_lm.hpp:lookup", "include/score.hpp:score", "include/mph_prob_lm.hpp:score", "src/score.cpp:main"]}
{"id": "C57", "title": "a trie that was built has a complete input", "statement": "Whatever the input files contain, if building a trie ends normally then the input was complete and in order: for counts, every n-gram of order 2 and more without its last word is an n-gram of the file of the order below, and these prefixes come in the order of that file; for probabilities, the same with every n-gram without its first word and the section below, and the order asked for is the order of the ARPA file. So an n-gram whose prefix (suffix) is not listed, or files whose prefixes come in different orders, never give an index; neither do build_trie runs leave a file. These checks are not complete: a last word outside the vocabulary or a repeated n-gram is not noticed, and hash models do not compare the orders at all.", "quantifier": "all files, whether or not their lines are n-grams, sorted or repeated, all hash functions and peeling orders, every trie type and remapping order, every order", "why_tests_cant": "it is about all malformed inputs: a test feeds a few of them and cannot show that none is accepted", "anchors": ["include/trie_count_lm.hpp:build_ngrams", "include/trie_prob_lm.hpp:build_ngrams", "include/utils/util.hpp:predecessor", "include/utils/util.hpp:suffix", "include/mph_count_lm.hpp:build", "src/build_trie.cpp:main"]}
{"id": "C58", "title": "n-grams over their vocabulary are indexed exactly or refused", "statement": "Let the files of a count trie with Elias-Fano n-grams and no remapping contain distinct n-grams whose words are listed unigrams, in any order and possibly with missing prefixes. If building the trie ends normally, then the files were sorted (by the places of the words in the unigram file) and complete, and every n-gram of the files is answered with its count. The same holds of an ARPA file whose distinct n-grams are made of listed words: if the Elias-Fano probability trie is built without remapping then the n-grams, read from right to left, were sorted, with every suffix listed, and the scores are those of the file. So unsorted input never gives an index that answers wrongly.", "quantifier": "all such files, orders 2 to 8, all hash functions with a peeling order for the vocabulary, all counts and float values, rank encodings, all later histories of lookups and corpora", "why_tests_cant": "it is about every way of violating the order of the lines: a test tries a few permutations and cannot show that no unsorted input slips through the checks made while the index is built", "anchors": ["include/trie_count_lm.hpp:build_ngrams", "include/sequences/fast_ef_sequence.hpp:build", "include/utils/util.hpp:predecessor", "include/trie_prob_lm.hpp:build_ngrams", "include/trie_prob_lm.hpp:build"]}
