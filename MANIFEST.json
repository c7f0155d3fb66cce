{
 "claims": [
  {
   "property": "C01",
   "status": "proved",
   "theorems": [
    "C01_fill_roundtrip",
    "C01_back",
    "C01_build_roundtrip",
    "C01_build_max_word_refuted",
    "C01_access_agrees",
    "C01_access_last_refuted"
   ],
   "note": "round trip for every width 1..64 and for build(begin,n) with values < 2^64-1; refuted beyond that bound and for access() at the end of the vector"
  },
  {
   "property": "C02",
   "status": "proved",
   "theorems": [
    "C02_set_history",
    "C02_back"
   ],
   "note": "every history of set() calls"
  },
  {
   "property": "C03",
   "status": "proved",
   "theorems": [
    "C03_iterator",
    "C03_loop",
    "C03_double_deref_refuted"
   ],
   "note": "every start and length; a second dereference without ++ is refuted (operator* advances)"
  },
  {
   "property": "C04",
   "status": "proved",
   "theorems": [
    "C04_builder_history",
    "C04_append_after_resize_refuted",
    "C04_init"
   ],
   "note": "every program of builder operations; append after resize() refuted (m_cur_word dangling); C04_init: init() gives a new builder"
  },
  {
   "property": "C05",
   "status": "proved",
   "theorems": [
    "C05_set_history",
    "C05_in_order",
    "C05_width33_refuted"
   ],
   "note": "All histories of set(); hash_t=64 with widths 1..64, hash_t=32 with widths 1..32. Width 33 with 32-bit keys is refuted (C05_width33_refuted). C05_in_order covers every width when the slots are set in increasing order."
  },
  {
   "property": "C06",
   "status": "proved",
   "theorems": [
    "C06_set_history"
   ],
   "note": "All histories of set() for all widths 1..64."
  },
  {
   "property": "C07",
   "status": "proved",
   "theorems": [
    "C07_popcount",
    "C07_select_in_word"
   ],
   "note": "all 64-bit words"
  },
  {
   "property": "C08",
   "status": "proved",
   "theorems": [
    "C08_msb",
    "C08_lsb",
    "C08_ceil_log2",
    "C08_floor_log2",
    "C08_ceil_div",
    "C08_predecessor1"
   ],
   "note": "all inputs satisfying the C++ assertions"
  },
  {
   "property": "C09",
   "status": "proved",
   "theorems": [
    "C09_cursor_history",
    "C09_enumerates",
    "C09_skip0"
   ],
   "note": "every history of next/skip moves, full enumeration, skip0"
  },
  {
   "property": "C10",
   "status": "proved",
   "theorems": [
    "C10_select"
   ],
   "note": "both variants, any vector below 2^63 bits"
  },
  {
   "property": "C11",
   "status": "proved",
   "theorems": [
    "C11_roundtrip",
    "C11_unsorted_rejected"
   ],
   "note": "any non-decreasing sequence below 2^56 elements; unsorted sequences throw"
  },
  {
   "property": "C12",
   "status": "proved",
   "theorems": [
    "C12_prefix_summed",
    "C12_codewords",
    "C12_increment_alone_refuted",
    "C12_double_deref_refuted"
   ],
   "note": "prefix sums and indexed codewords, access and iteration"
  },
  {
   "property": "C13",
   "status": "proved",
   "theorems": [
    "C13_codes_round_trip",
    "C13_code_lengths",
    "C13_stale_buffer_refuted",
    "C13_max_refuted"
   ],
   "note": "Round trip of gamma, gamma_nonzero, delta and raw fields (<64 bits) at any offset with any surrounding bits; cursor position after each code. Values up to the stated range; 2^64-1 (UB) and a raw field of exactly 64 bits before a code (stale buffer) are refuted in separate theorems."
  },
  {
   "property": "C14",
   "status": "proved",
   "theorems": [
    "C14_find",
    "C14_find_present",
    "C14_two_long_ranges_refuted"
   ],
   "note": "All pointer lists, all id lists non-decreasing inside ranges, all ids, including ranges of 128 elements or more that go through the sampling tree. With exactly two such ranges construction never ends (C14_two_long_ranges_refuted)."
  },
  {
   "property": "C15",
   "status": "partial",
   "theorems": [
    "C15_empty_range_false_positive_refuted",
    "C15_empty_range_read_past_end_refuted",
    "C15_empty_range_partial",
    "C15_empty_range_exact"
   ],
   "note": "REFUTED: find() on an empty range can answer a position of a later range (C15_empty_range_false_positive_refuted) or read past the bit vector (C15_empty_range_read_past_end_refuted). C15_empty_range_exact characterises the behaviour for every empty range and every id: it says exactly when the read runs past the end, that any answer is not_found or a later position holding the searched sum, and exactly when it is not_found; C15_empty_range_partial is the case of a later value not below the searched one."
  },
  {
   "property": "C16",
   "status": "partial",
   "theorems": [
    "C16_get_and_find_partial",
    "C16_find_absent_partial",
    "C16_enumeration",
    "C16_universe_get",
    "C16_absent_zero_refuted",
    "C16_past_range_refuted",
    "C16_equal_values_refuted",
    "C16_wide_refuted",
    "C16_history_refuted",
    "C16_past_bounds_refuted",
    "C16_overread_refuted",
    "C16_scan",
    "C16_read"
   ],
   "note": "Proved for every history of get/find calls: operator[] returns the stored values, find returns the position of every id present, absent ids give not_found or a position whose stored value equals the searched one; enumeration exact (C16_scan, C16_read: also for short sequences whose values are all equal); universe build exact. REFUTED parts (each with a theorem): id 0 is found in every non-empty range; the search can leave the range; single-piece sequences with all values equal, or spread over 2^31, lose values; answer depends on history of operator[] for the first range of single-piece sequences; search beyond the last piece and set-up read past the arrays."
  },
  {
   "property": "C17",
   "status": "proved",
   "theorems": [
    "C17_rank_access",
    "C17_rank_below_minimum_refuted"
   ],
   "note": "rank/access are mutually inverse on every collection built from count files; an absent count below the minimum reads out of bounds (refuted)"
  },
  {
   "property": "C18",
   "status": "partial",
   "theorems": [
    "C18_no_values",
    "C18_prob_centres_partial",
    "C18_backoff_centres_partial",
    "C18_nearest_prob",
    "C18_nearest_backoff",
    "C18_own_group_lossless",
    "C18_one_value_per_group_lossless",
    "C18_few_distinct_lossless_refuted",
    "C18_too_few_values_abort",
    "C18_width_32_never_ends_refuted",
    "C18_large_group_refuted",
    "C18_prob_centres_large_partial",
    "C18_backoff_centres_large_partial"
   ],
   "note": "Proved: one centre per equal-frequency group, each centre between the smallest and largest value of its group, centres non-decreasing (finite values, groups of at most 2^24 values), the chosen centre is a nearest one with distances computed in floats, values that fill their group are stored without loss. REFUTED: few distinct values do not make quantization lossless (C18_few_distinct_lossless_refuted); width 32 never terminates. C18_no_values: without values every centre is -infinity. C18_large_group_refuted: beyond 2^24 values in a group (67 million n-grams of one order at 2 bits) the size of the group is rounded to a float and the centre can leave the group and be below the centres before it. C18_prob_centres_large_partial / C18_backoff_centres_large_partial: groups of up to 2^29 values are fine if all their sizes are floats."
  },
  {
   "property": "C19",
   "status": "proved",
   "theorems": [
    "C19_bijection",
    "C19_two_keys_refuted",
    "C19_no_keys_refuted"
   ],
   "note": "Relative to what the external hypergraph sorter returns (valid_order). Two keys: no order exists, the constructor never returns (refuted); no keys: division by zero (refuted)."
  },
  {
   "property": "C20",
   "status": "proved",
   "theorems": [
    "C20_single",
    "C20_double",
    "C20_uint"
   ],
   "note": "single_valued_mpht, double_valued_mpht (built without client keys), uint_mpht."
  },
  {
   "property": "C21",
   "status": "partial",
   "theorems": [
    "C21_reject_partial",
    "C21_reject_pair_partial",
    "C21_past_the_end_refuted",
    "C21_lookup_exact",
    "C21_lookup_pair_exact"
   ],
   "note": "REFUTED: a key that was not inserted can hash past the end of the table (C21_past_the_end_refuted). C21_lookup_exact and C21_lookup_pair_exact say what a lookup of any key does: out-of-bounds read exactly if the hash function answers the number of keys, otherwise a comparison with the fingerprint of the inserted key of the same rank; C21_reject_partial and C21_reject_pair_partial are the cases where not_found is answered."
  },
  {
   "property": "C22",
   "status": "proved",
   "theorems": [
    "C22_lookup_indexed"
   ],
   "note": "for trie_count_lm over fast_ef grams with both kinds of count ranks and remapping orders 0, 1, 2 (lm_types.hpp 40-60); the instances with pef sequences are C42. Construction is proved to succeed."
  },
  {
   "property": "C23",
   "status": "partial",
   "theorems": [
    "C23_absent_partial",
    "C23_any_answer_partial",
    "C23_false_positive_refuted",
    "C23_long_query_refuted"
   ],
   "note": "REFUTED as stated: false positive after a gram without continuations, reads past the arrays for queries of order+1 words, writes past word_ids for more than 8 words. C23_absent_partial gives not_found under the conditions listed there. C23_any_answer_partial: for every text (any bytes), whatever the state of the static arrays, a lookup that ends answers not_found or the count of an indexed gram of the order of the text."
  },
  {
   "property": "C24",
   "status": "partial",
   "theorems": [
    "C24_lookup_indexed",
    "C24_absent_refuted",
    "C24_any_answer",
    "C24_long_query_refuted"
   ],
   "note": "REFUTED as stated for absent grams: the lookup does not test the rank for not_found and reads the dictionary out of bounds; queries with more words than the order index past the tables. Indexed grams proved (build + lookup). C24_any_answer: for every text, a lookup that ends answers the count of an indexed gram of the same order and fingerprint; a text whose fingerprint no gram has makes the lookup read out of bounds."
  },
  {
   "property": "C25",
   "status": "partial",
   "theorems": [
    "C25_mph_file_partial",
    "C25_trie_file_partial",
    "C25_supported_all",
    "C25_mph_kept_partial",
    "C25_mph_katz_partial",
    "C25_zero_backoff_refuted",
    "C25_unclosed_refuted",
    "C25_trie_kept_partial",
    "C25_trie_katz_partial",
    "C25_trie_overread_refuted"
   ],
   "note": "Proved for both scoring models (hash model mph_prob_lm; trie_prob_lm with fast_ef levels and remapping orders 0..2) built from an ARPA file, after any history: every score equals Katz back-off over the quantized table, and OOV flags/counts and kept context are right, provided extended contexts have a non-zero quantized back-off and the hash functions tell the unlisted n-grams (trie: only the unknown words) of the sentence from listed ones. REFUTED without the first condition (C25_zero_backoff_refuted): a context with back-off 0 is dropped even if it has extensions. The trie also needs ranks of at most 57 bits and a readable word after each rank vector: without it scoring a listed n-gram is undefined behaviour (C25_trie_overread_refuted). Without the non-zero condition the exact behaviour for every table, closed or not, is proved too (C25_*_kept_partial): Katz back-off over the supported entries (all of them if the table is closed, C25_supported_all; C25_unclosed_refuted shows that an entry with an unlisted part is ignored) and over the kept context, the longest part of the context listed with a non-zero back-off."
  },
  {
   "property": "C26",
   "status": "proved",
   "theorems": [
    "C26_reinit_independent",
    "C26_window",
    "C26_trie_reinit_independent",
    "C26_trie_window"
   ],
   "note": "for mph_prob_lm and trie_prob_lm; the longest-useful-context part is in C25_mph_katz_partial and C25_trie_katz_partial"
  },
  {
   "property": "C27",
   "status": "proved",
   "theorems": [
    "C27_window_holds_most_recent",
    "C27_iterator_wraps"
   ],
   "note": ""
  },
  {
   "property": "C28",
   "status": "partial",
   "theorems": [
    "C28_batches_exist",
    "C28_sorted_partial",
    "C28_empty_refused",
    "C28_one_record_refuted",
    "C28_last_record_refuted",
    "C28_two_batches_refuted",
    "C28_memory_irrelevant",
    "C28_no_room_refuted"
   ],
   "note": "REFUTED for inputs of one record and for a last batch of a single record (driver loop of sort_grams.cpp: i < n - 1); proved for every other split into batches. sort_arpa is C43. C28_memory_irrelevant: two runs with different memory, hash function and std::sort write the same file. C28_empty_refused: an input declaring 0 records is refused. C28_no_room_refuted: with less memory than any n-gram needs (--ram is not checked) every record is dropped silently."
  },
  {
   "property": "C29",
   "status": "proved",
   "theorems": [
    "C29_comparator",
    "C29_total_order",
    "C29_strict_weak",
    "C29_unknown_word_refuted"
   ],
   "note": "Both comparators decide the lexicographic order by vocabulary position, over the vocabulary built from the file; strict total order; usable by std::sort. C29_unknown_word_refuted shows the restriction to vocabulary words is needed."
  },
  {
   "property": "C30",
   "status": "proved",
   "theorems": [
    "C30_built_pef_trie_prob_restored_partial",
    "C30_structures_restored",
    "C30_model_files_restored",
    "C30_built_trie_restored",
    "C30_built_mph_count_restored",
    "C30_built_mph_prob_restored",
    "C30_trie_prob_file_restored",
    "C30_built_trie_prob_restored",
    "C30_pef_restored",
    "C30_queries_leave_file",
    "C30_pef_trie_files_restored",
    "C30_built_pef_trie_restored_partial"
   ],
   "note": "every structure and every model file (count trie over fast_ef or uniform_pef, probability trie, both hash models) comes back member by member and consumes exactly its bytes; plus every built model (for tries over uniform_pef under the restrictions of C42/C47, with the answers after loading: C30_built_pef_trie_restored_partial, C30_built_pef_trie_prob_restored_partial); queries do not change what is saved; uniform_pef enumerators are not members of the file and start anew; the essentials/emphf byte formats are assumptions (ext_ok)"
  },
  {
   "property": "C31",
   "status": "proved",
   "theorems": [
    "C31_roundtrip",
    "C31_injective",
    "C31_unset_field_throws"
   ],
   "note": "every supported configuration of build_hash and build_trie; unset fields throw"
  },
  {
   "property": "C32",
   "status": "proved",
   "theorems": [
    "C32_any_number",
    "C32_roundtrip",
    "C32_no_count",
    "C32_decimal"
   ],
   "note": "every gram without a tab and every 64-bit count; C32_any_number: any number after blanks and a sign, saturation, negation modulo 2^64"
  },
  {
   "property": "C33",
   "status": "partial",
   "theorems": [
    "C33_predecessor",
    "C33_suffix",
    "C33_to",
    "C33_back_to_partial",
    "C33_back_to_first_refuted",
    "C33_next",
    "C33_prev",
    "C33_next_last_refuted",
    "C33_equal_bytes",
    "C33_back_to_first"
   ],
   "note": "predecessor, suffix, to, next, prev, equal_bytes proved; back_to proved except for the first word, where it is REFUTED (C33_back_to_first: for every gram the first byte is dropped); next() past the last word runs over the buffer (refuted)"
  },
  {
   "property": "C34",
   "status": "proved",
   "theorems": [
    "C34_ranks",
    "C34_pack"
   ],
   "note": "float pair packing and packing of quantized rank pairs"
  },
  {
   "property": "C35",
   "status": "proved",
   "theorems": [
    "C35_history",
    "C35_load",
    "C35_load_all_or_error",
    "C35_empty_gram_refuted"
   ],
   "note": "every history of append/clear; records with an empty gram are dropped while append answers true (refuted)"
  },
  {
   "property": "C36",
   "status": "proved",
   "theorems": [
    "C36_ranges"
   ],
   "note": "any list of range sizes"
  },
  {
   "property": "C37",
   "status": "partial",
   "theorems": [
    "C37_found_partial",
    "C37_below_minimum_refuted",
    "C37_empty_refuted"
   ],
   "note": "REFUTED for every x below the minimum and for the empty sequence (out-of-bounds read, whatever x: C37_below_minimum_refuted, C37_empty_refuted); proved for every other x, so the behaviour is known for every sorted sequence."
  },
  {
   "property": "C38",
   "status": "partial",
   "theorems": [
    "C38_order_partial",
    "C38_remapping_partial",
    "C38_order_any",
    "C38_remapping_any",
    "C38_order_258_refuted",
    "C38_unk",
    "C38_unk_nan_refuted"
   ],
   "note": "exact for values below 256; C38_order_any and C38_remapping_any give the answer for every value (taken modulo 256), so the claim is REFUTED above 255 (order 258 is accepted as 2), and for every NaN."
  },
  {
   "property": "C39",
   "status": "proved",
   "theorems": [
    "C39_forward",
    "C39_double_space_refuted",
    "C39_backward",
    "C39_corpus",
    "C39_any_text",
    "C39_no_final_newline_refuted"
   ],
   "note": "every text that is empty or ends with a newline splits into lines in one way (C39_any_text), which is the one the reader gives (C39_corpus); a double space gives an empty token, and a corpus without final newline is read past its end (C39_no_final_newline_refuted)"
  },
  {
   "property": "C40",
   "status": "partial",
   "theorems": [
    "C40_header",
    "C40_header_sound",
    "C40_values",
    "C40_iterator",
    "C40_mph_from_file",
    "C40_trie_from_file",
    "C40_order_refused",
    "C40_blank_before_end_refuted",
    "C40_dropped_line_refuted",
    "C40_short_section_refuted",
    "C40_header_without_equals_refuted",
    "C40_endless_refuted",
    "C40_iterator_order_refuted"
   ],
   "note": "Proved for every file of the expected layout: counts, values, offsets, iterators and both builders (also composed with C25: C25_mph_file_partial, C25_trie_file_partial), and the header check is sound. REFUTED for malformed or unusual files (each with a theorem): more than one blank line before the end marker aborts; a line may be dropped silently; too large a count or a header line without '=' reads past a line; blank lines up to the end of the file are read for ever; an iterator of too high an order reads outside the counts."
  },
  {
   "property": "C41",
   "status": "partial",
   "theorems": [
    "C41_trie_accepted_partial",
    "C41_mph_partial",
    "C41_mph_kept_partial",
    "C41_trie_partial",
    "C41_trie_kept_partial",
    "C41_trie_programs_partial",
    "C41_blank_line_refuted",
    "C41_trailing_space_refuted"
   ],
   "note": "Proved under the conditions of C25 (closed table, extended contexts have a non-zero back-off, hash functions distinguish the unlisted grams), from the bytes of the ARPA file to the totals, and through the saved index file for the trie. Every corpus that is empty or ends with a newline is covered (C39_any_text); blank lines and trailing spaces therefore count as empty unknown words (the C41_*_refuted instances refute the naive reading). pow() and the printed text are not modelled. C41_*_kept_partial: the totals for every table, over its supported entries and with the kept contexts of C25. C41_trie_accepted_partial: the same through the saved trie without assuming any order of the lines, for every file whose build ended normally."
  },
  {
   "property": "C42",
   "status": "partial",
   "theorems": [
    "C42_benchmark_partial",
    "C42_programs_partial",
    "C42_pef_lookup_partial",
    "C42_pef_absent_partial",
    "C42_ef_pspef_lookup_partial",
    "C42_equal_level_refuted",
    "C42_absent_refuted"
   ],
   "note": "REFUTED as stated: C42_equal_level_refuted (a short level whose first gram alone has a non-zero id, e.g. bigrams \"a b\", \"b a\", \"c a\": looking up \"a b\" reads outside the partition) and C42_absent_refuted (absent grams answered with another gram's count). C42_pef_lookup_partial: every history of lookups of indexed grams is answered exactly when no level is of that kind and the stored sums fit (56 bits, 31 bits for one-piece levels). C42_pef_absent_partial: for every remapping order, histories may also contain absent grams that are told apart (query_told_apart: the unindexed inner grams the mapper searches or, if there are none, the first unindexed prefix is not the first choice and has a later indexed sibling): answered not_found. C42_programs_partial: the same through the programs build_trie, save, load and test_count_model. C42_benchmark_partial: the same through lookup_perf_test. C58_pef_refuted: unsorted input is accepted by uniform_pef and answered wrongly (Elias-Fano refuses it)."
  },
  {
   "property": "C43",
   "status": "partial",
   "theorems": [
    "C43_memory_irrelevant",
    "C43_sorted_partial",
    "C43_batches_exist",
    "C43_one_record_refuted",
    "C43_last_record_refuted",
    "C43_order_refused",
    "C43_rounding_refuted",
    "C43_two_blank_lines_refuted"
   ],
   "note": "REFUTED as stated: a section of one entry or a last batch of one entry is lost (C43_one_record_refuted, C43_last_record_refuted), a second blank line between sections shifts the reading by one line (C43_two_blank_lines_refuted), values are printed with six decimals (C43_rounding_refuted). C43_sorted_partial: title, then all entries in suffix order, as printed by std::to_string, for files with single blank lines and non-empty sections, at least two entries and a last batch of at least two. Options of the command line are not modelled. C43_memory_irrelevant: the amount of memory does not change the output."
  },
  {
   "property": "C44",
   "status": "proved",
   "theorems": [
    "C44_any_first_line",
    "C44_lines",
    "C44_no_last_newline",
    "C44_short_file",
    "C44_refused",
    "C44_overflow"
   ],
   "note": "C44_lines and C44_no_last_newline; C44_refused for bad files; C44_short_file states what a file with fewer lines than announced gives (empty lines or copies of the last line: not noticed by the reader). C44_any_first_line: which first lines are accepted, and with which number."
  },
  {
   "property": "C45",
   "status": "proved",
   "theorems": [
    "C45_tries",
    "C45_hash",
    "C45_bad_arguments",
    "C45_unknown_ranks"
   ],
   "note": "C45_tries (Elias-Fano tries, IC and PSEF ranks, three remapping orders), C45_hash (both widths), C45_bad_arguments, C45_unknown_ranks (an unknown --ranks is silently IC). The structures over uniform_pef are under C42 (C42_programs_partial). The command line is given parsed: external/cmd_line_parser is not in /repo."
  },
  {
   "property": "C46",
   "status": "partial",
   "theorems": [
    "C46_lookup",
    "C46_absent_partial",
    "C46_sentence_partial",
    "C46_sentence_kept_partial",
    "C46_corpus_partial",
    "C46_corpus_kept_partial",
    "C46_sentence_length_refuted",
    "C46_sentence_size_refuted",
    "C46_other_type_refuted"
   ],
   "note": "C46_lookup: from the arguments of build_trie through the file to the count, any history, any Unicode words. C46_absent_partial under the conditions of C23; C46_sentence_partial and C46_corpus_partial under those of C25/C41, with the size in bytes; C46_sentence_kept_partial and C46_corpus_kept_partial: every table, over its supported entries and with the kept contexts of C25. REFUTED: len(s) counts code points, so the documented call cuts non-ASCII text (C46_sentence_length_refuted); a size past the buffer reads beyond it (C46_sentence_size_refuted); the type in the file's header is not checked (C46_other_type_refuted)."
  },
  {
   "property": "C47",
   "status": "partial",
   "theorems": [
    "C47_ef_partial",
    "C47_pef_partial",
    "C47_unlisted_refuted"
   ],
   "note": "REFUTED for uniform_pef: C47_unlisted_refuted (unlisted bigram of listed words is scored as listed, both remapping orders). C47_pef_partial: for every table with searchable levels, texts whose unlisted n-grams are told apart are scored as C41 says (the Katz scores of the supported quantized entries with kept contexts). C47_ef_partial: the same generic model over Elias-Fano meets C25/C41 (with their restrictions)."
  },
  {
   "property": "C48",
   "status": "partial",
   "theorems": [
    "C48_trie_accepted_partial",
    "C48_trie_accepted_kept_partial",
    "C48_trie_partial",
    "C48_trie_kept_partial",
    "C48_hash_partial",
    "C48_hash_kept_partial",
    "C48_bad_arguments",
    "C48_bits_wrap",
    "C48_count_file_refused",
    "C48_pef_partial"
   ],
   "note": "C48_trie_partial, C48_pef_partial and C48_hash_partial: from the arguments and the bytes of the ARPA file through the index file to the totals printed by score, under the restrictions of C25, C41 and, for pef_trie, C47 (words told apart by the hash; closed table and extended contexts with a non-zero back-off for ef_trie and hash, texts clear of the wrong answers of uniform_pef for pef_trie). C48_trie_kept_partial and C48_hash_kept_partial: every table, over its supported entries and with the kept contexts of C25. C48_bad_arguments, C48_count_file_refused; C48_bits_wrap: --p and --b are cut to 8 bits. The command line is given parsed; formatting of the printed numbers is not modelled. C48_trie_accepted_partial / C48_trie_accepted_kept_partial: the same, for every index build_trie wrote without remapping, from sections in any order."
  },
  {
   "property": "C49",
   "status": "proved",
   "theorems": [
    "C49_component_bytes",
    "C49_trie",
    "C49_trie_prob",
    "C49_hash_count",
    "C49_hash_prob"
   ],
   "note": "Integers only: the printed averages, percentages and entropies are floating point expressions of the reported integers and are not modelled; the uniform_pef instances and the print_stats program are C55. universe is specified for levels whose ids are not remapped. Observations: occs_end is kept across insertions into an unordered_map, formally an invalidated iterator; the bytes of the never built unigram gram sequence are counted although the file does not hold it (the sum of the parts is still below the file size). C49_component_bytes: the exact relation between the bytes reported for a component and its bytes in a file."
  },
  {
   "property": "C50",
   "status": "proved",
   "theorems": [
    "C50_tries",
    "C50_hash",
    "C50_refused",
    "C50_hash_blank_line_refuted"
   ],
   "note": "C50_tries (fast_ef, IC and PSEF ranks, every remapping order), C50_hash, C50_refused; the structures over uniform_pef under the restrictions of C42: C42_benchmark_partial. C50_hash_blank_line_refuted: outside the statement (a blank line with a hash model) the program reads out of bounds. The query file is given as the lines emphf::file_lines yields; times are not modelled."
  },
  {
   "property": "C51",
   "status": "proved",
   "theorems": [
    "C51_history",
    "C51_size_and_frame",
    "C51_bitsize",
    "C51_unsorted_refused",
    "C51_past_the_end_refuted"
   ],
   "note": "C51_history, C51_size_and_frame, C51_bitsize (closed form), C51_unsorted_refused. C51_past_the_end_refuted shows the side condition is needed: next_geq past the universe with the enumerator already at the end reports position n+1, and on an enumerator never moved uses an uninitialised cursor. The word after the buffer, which get_word56 may read, is arbitrary."
  },
  {
   "property": "C52",
   "status": "proved",
   "theorems": [
    "C52_sorted_files",
    "C52_unsorted_to_index",
    "C52_sorted_unique",
    "C52_fits"
   ],
   "note": "C52_sorted_files (sort_grams on each file gives the collection build_trie needs), C52_unsorted_to_index (build, check, look up), C52_sorted_unique, C52_fits (a file that fits in memory only needs two records). The limits of sort_grams shown in C28_*_refuted are hypotheses (record sortable) and part of the property's statement. Compression of the files is not modelled."
  },
  {
   "property": "C53",
   "status": "partial",
   "theorems": [
    "C53_sorted_sections",
    "C53_sorted_unique",
    "C53_scores_kept_partial",
    "C53_scores_partial",
    "C53_fits"
   ],
   "note": "C53_sorted_sections (the sections sort_arpa writes are read as the entries in the order a trie needs), C53_sorted_unique, C53_fits; C53_scores_kept_partial and C53_scores_partial: through build_trie and score to the totals, under the restrictions of C25/C41/C48 (words of the text told apart by the hash; for plain Katz, extended contexts with a non-zero back-off; enough values per order for the quantizer). Values change to what std::to_string prints (rr in the statement; C43_rounding_refuted)."
  },
  {
   "property": "C54",
   "status": "partial",
   "theorems": [
    "C54_refused",
    "C54_compact_vector",
    "C54_hash_compact_vector",
    "C54_fast_ef",
    "C54_fast_ef_short",
    "C54_uniform_pef_partial",
    "C54_uniform_pef_refuted",
    "C54_wide_ranges_refuted",
    "C54_check"
   ],
   "note": "C54_compact_vector, C54_hash_compact_vector, C54_fast_ef (and C54_fast_ef_short, which needs no hash function), C54_uniform_pef_partial (more than 64 values). REFUTED: C54_uniform_pef_refuted (n = 3: the program aborts), C54_wide_ranges_refuted (offsets wrap). C54_refused: arguments refused."
  },
  {
   "property": "C55",
   "status": "partial",
   "theorems": [
    "C55_tries_partial",
    "C55_tries",
    "C55_trie_probs",
    "C55_pef_trie_probs_partial",
    "C55_hash_counts",
    "C55_hash_probs"
   ],
   "note": "C55_tries, C55_trie_probs, C55_hash_counts, C55_hash_probs need no restriction; C55_tries_partial and C55_pef_trie_probs_partial cover the tries over uniform_pef under the restrictions of C42 and C47 (the file is built under them). Integers only, as C49."
  },
  {
   "property": "C56",
   "status": "partial",
   "theorems": [
    "C56_counts_partial",
    "C56_scores_partial",
    "C56_texts_partial",
    "C56_absent_refuted"
   ],
   "note": "C56_counts_partial, C56_scores_partial (bit for bit, Elias-Fano tries and hash models) and C56_texts_partial (uniform_pef tries too). REFUTED for n-grams that are not indexed: C56_absent_refuted (the trie answers not_found, the hash model has undefined behaviour). The restrictions are those of C24, C25, C42, C47: indexed n-grams for counts; for probabilities words and n-grams of the text that are not listed distinguished by their fingerprints, and for uniform_pef texts that stay clear of its wrong answers."
  },
  {
   "property": "C57",
   "status": "proved",
   "theorems": [
    "C57_counts",
    "C57_pef_counts",
    "C57_count_grams",
    "C57_missing_prefix",
    "C57_probs",
    "C57_pef_probs",
    "C57_prob_grams",
    "C57_missing_suffix",
    "C57_count_program",
    "C57_prob_program",
    "C57_unknown_last_word_refuted",
    "C57_duplicate_refuted",
    "C57_hash_refuted"
   ],
   "note": "C57_counts, C57_pef_counts, C57_probs, C57_pef_probs (arbitrary lines, of less than 2^63 bytes), C57_count_grams, C57_prob_grams, C57_missing_prefix, C57_missing_suffix (n-grams), C57_count_program, C57_prob_program (build_trie). The limits of the checks, by counterexample: C57_unknown_last_word_refuted (a last word that is not in the vocabulary: the build ends normally and the n-gram is lost), C57_duplicate_refuted (an n-gram listed twice), C57_hash_refuted (hash models check nothing)."
  },
  {
   "property": "C58",
   "status": "proved",
   "theorems": [
    "C58_sorted",
    "C58_answers",
    "C58_unsorted",
    "C58_pef_refuted",
    "C58_probs_sorted",
    "C58_probs_file",
    "C58_probs_unsorted",
    "C58_program"
   ],
   "note": "Count tries: C58_sorted (the input of a build that ended normally is a collection: sorted and complete), C58_answers (hence every n-gram is answered with its count), C58_unsorted (unsorted input is never accepted), C58_program (build_trie and test_count_model: what was written passes the check, whatever the order of the lines). Probability tries: C58_probs_sorted, C58_probs_file (from the text of the ARPA file), C58_probs_unsorted; the scores follow with C25/C41 (C41_trie_accepted_partial and, for the programs, C48_trie_accepted_partial do not assume any order of the lines). The conditions that the n-grams are distinct and their words listed are needed: C57_duplicate_refuted, C57_unknown_last_word_refuted. The restriction to Elias-Fano n-grams is needed: C58_pef_refuted (with uniform_pef a 65th bigram out of order is accepted, and then not found)."
  }
 ]
}