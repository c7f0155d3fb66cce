# Formal model of tongrams in Rocq (Coq 8.16.1)

This file says, for each property of `properties.jsonl`, what is modelled and how it is proved;
then what is trusted.  (Kept up to date as the development grows.)

## Approach

* `Prelude.v` fixes the semantics of `uint64_t` (wrap-around written explicitly), of out-of-range vector
  access and over-wide shifts (outcome `UB`), and of exceptions (outcome `Throw`).
* Model files (`M_*.v`) contain only definitions, each citing the C++ lines; proof files (`P_*.v`) contain the
  lemmas; `Props_*.v` contain only the property theorems, their `Print Assumptions` and non-vacuity examples.
* A disagreement between the code and the English property is proved as a `_refuted` theorem.

## Plan per property

* **C01 Packed vector round trip** - Word-array model of builder/operator[]; the packed words are read as one big number V and each slot is the field V/2^(i*w) mod 2^w; induction over pushes.
* **C02 Packed vector random-order writes** - Refinement of set to array update, by a testbit characterisation of the two-word masked write; induction over the history.
* **C03 Packed vector iterator** - Cursor invariant (block,shift)=(i*w/64,i*w mod 64), induction over steps.
* **C04 Bit buffer appends** - Refinement of the builder to a list of bits (list bool); each operation commutes with the abstraction.
* **C05 Key/payload table slots** - Refinement to an array of pairs for 64-bit keys; `_refuted` witnesses for the 32-bit instances that misbehave.
* **C06 Triplet table slots** - Refinement to an array of triplets.
* **C07 Population count and in-word select** - Byte-wise decomposition of a word + finite sweep over the 256 bytes and the 2048 table entries, lifted to all words.
* **C08 Word scanning helpers** - Direct proofs on N.log2 / division; scanning loop by well-founded induction on the block.
* **C09 Unary cursor over bit vectors** - Invariant: buffer = words above the cursor; enumeration proved against the filter list of one positions.
* **C10 Select index** - Invariant over build (flushed blocks) + select decomposition; spec is the filter list.
* **C11 Elias-Fano round trip** - High/low split: position of i-th one is high_i+i; uses C10.
* **C12 Variable-length code sequence** - Prefix sums of code lengths + C04 fields + C10.
* **C13 Integer codes** - Round trip by induction on the list with the stream cursor invariant.
* **C14 Gram-id sequence: access and find on present ids** - C11-like access + sortedness of the values inside a range; loop invariants of scan, binary search and sampling tree.
* **C15 Gram-id sequence: find on an empty range** - `_refuted` witnesses (model and code disagree with the property); the walk of the search that starts at the end of its range is followed to characterise the answer (`P_FastEF4.v`), including the case where it runs past the end (`P_FastEF5.v`).
* **C16 Partitioned Elias-Fano access and find** - `M_Pef.v` models uniform_pef_sequence.hpp and compact_elias_fano.hpp bit by bit (gamma/delta headers, per-piece Elias-Fano, partition endpoints, upper bounds, the shared mutable enumerator). Proved (P_Pef1-5) by an invariant of the enumerator state preserved by every call, so `get`/`find` are correct after ANY history of calls; enumeration; universe build. `_refuted` witnesses for absent ids, id 0, short sequences, history, over-reads. The memory after the two arrays is a parameter (`mkpads x0 x1`): results do not depend on it.
* **C17 Distinct-value dictionaries** - sort+unique dictionary; binary search.
* **C18 Quantizer** - Binary32 arithmetic is modelled with the standard library's `spec_float` (SpecFloat); bin sums and centres are computed by the code's float operations; order facts are transported through Flocq's correctness theorems (P_Float, P_Quant2).
  Groups of more than 2^24 values: `Props_QuantBig.v`, `P_Quant3.v`, `Props_QuantBig2.v`. The sum of 2^24+1 equal values is exact in doubles, the divisor float(2^24+1) is 2^24.
* **C19 Minimal perfect hash** - Peeling order as an oracle with a checkable validity predicate; assignment in reverse order by induction.
* **C20 Hash tables return the stored value** - C19 + C05 refinement.
* **C21 Hash tables reject by fingerprint** - C05 refinement, fingerprint comparison; the slot past the end is followed to its out-of-bounds read (`P_MphPast.v`), which gives the exact behaviour for every key.
* **C22 Count trie finds every indexed n-gram** - End-to-end model of build and lookup; uses C11, C14, C17, C36.
* **C23 Count trie rejects absent n-grams** - Statement kept in full; `_refuted` by witness; positive theorem for the lookups whose intermediate ranges are non-empty; for arbitrary bytes, any answer is shown to be not_found or some indexed count of that order (`P_TrieAny.v`).
* **C24 Hash count model lookups** - C17+C20; `_refuted` for absent grams.
* **C25 Sentence scoring equals Katz back-off** - Binary32 `spec_float` additions in the code's order; `Spec` Katz recursion over a table; induction on the sentence with a state invariant; instantiated by the built hash model and the built trie, from the bytes of the ARPA file. For tables that are not closed: one step uses only entries all of whose parts are listed (`Spec_Supported`), so that the closed case applies to them. Conditions of the code (closed table, non-zero back-off of extended contexts, no fingerprint collisions) are hypotheses, so the theorems are `_partial`, and their necessity is shown by `_refuted` theorems. `C25_*_kept_partial` drops the non-zero condition: exact scores over the kept context (`kept` in Spec_Katz.v) for every closed table.
* **C26 Score state is the longest useful context** - Same invariant.
* **C27 Circular window** - Refinement to the list of the last n pushes.
* **C28 External sort keeps and orders lines** - Permutation+Sorted proof for the k-way merge; driver loop `_refuted`. `Props_Sort2.v`: the amount of memory (--ram) does not change what is written, by uniqueness of the sorted list, when every record fits; when none fits every record is dropped.
* **C29 Sorting order** - Comparator = lexicographic order on id lists.
* **C30 Save/load round trip** - Byte-list model of save/load of every structure and model (essentials/emphf formats as the record `ext_ok`); round trip with arbitrary tail bytes; composed with the build theorems so that a *built* model is what is restored. `M_SavePef.v` adds uniform_pef sequences and the count tries over them: the enumerator is not saved and starts anew in the loading process (other memory after the arrays), so the statement is equality of members plus the answers after loading (C42's restrictions); queries leave the saved bytes unchanged.
* **C31 Header byte** - Finite sweep over all configurations.
* **C32 Count line parsing** - Byte lists, decimal printing/parsing.
* **C33 Gram byte navigation** - Byte buffers with indexes; `_refuted` for back_to on the first word.
* **C34 Probability packing** - Bit patterns only.
* **C35 Record pool** - History induction.
* **C36 Range pointers** - Prefix sums, uses C11.
* **C37 Binary search helper** - Loop invariant; `_refuted` for x below the first element.
* **C38 Argument checks** - Finite sweep + uint8_t narrowing `_refuted`.
* **C39 Query tokenization** - Byte lists; induction.
* **C40 ARPA files are read exactly** - `M_ArpaFile.v` models the stream (position, eofbit, failbit; getline, tellg, seekg), the parser, the iterators and the reading part of both builders on the BYTES of the file; `Spec_ArpaFile.arpa_text` describes the layout. Proved by following the position through the text; the converse for the header by inversion of the parser. Composed with C25: from the bytes of the file to Katz scores. `_refuted` for malformed files.
* **C41 The score program** - `M_ScoreCorpus.v` models the loop of `src/score.cpp` over `text_lines` (lines, words, the oov counts and the three running sums, in the order of the float additions); composed with C25 (hash model and trie) and C30 (the trie after save/load). Perplexity (`pow`) is not modelled.
* **C42 Count tries over partitioned Elias-Fano** - `M_TriePef.v`: the same builder, mapper and lookup as M_Trie for all twelve types of lm_types.hpp, with the arrays threaded through every find/operator[] (the enumerators inside uniform_pef_sequence are mutable). P_TriePef1 turns the C16 results into invariants of a level ("finds every gram whatever was asked before"), P_TriePef2-3 redo the construction, P_TriePef4 the lookup of an indexed gram, P_TriePef6 that of an absent one, P_TriePef5 relates stored id 0 to the legible condition of Spec_TriePef. Levels of one piece with all stored values equal are refuted by a run of the model.
* **C43 sort_arpa** - `M_SortArpa.v`: main of src/sort_arpa.cpp over the sorter of `M_Sort.v` (generic in the line handler; `prob_handler` is prob_backoff_line_handler) and the arpa_parser of `M_ArpaFile.v`. P_SortArpa follows the parser from the header to the section and through the batches; the merge is the one of C28. strtod and std::to_string are parameters with the contract `prints` (Spec_SortArpa); `fixed6` writes down what the C++ standard prescribes for the latter and is used only to refute the preservation of values.
* **C44 Reading a count file** - `M_GramFile.v`: grams_gzparser (header line through strtoull's checks, then `getline` as in M_ArpaFile); proved: exactly the announced lines are read whatever follows, with or without the last newline; what a short file gives; which files are refused.
* **C45 Builders and checker for counts** - `M_Programs.v`: main of build_trie/build_hash for value type count (argument checks, header, dispatch over the fourteen types, reading the files, build, save) and of test_count_model (dispatch by header, load, the loop over all lines), given the parsed command line; composed from C44, C22/C42/C24, C30, C31: the file written is found complete by the checker. uniform_pef instances inherit the restrictions of C42 (`C42_programs_partial`).
* **C46 Python bindings** - `M_Python.v`: strings as code points handed over in UTF-8, load_from_binary, lookup, score_sentence, score_corpus; composed with C45/C22/C23, C48/C25/C41 and C30; the documented size argument, oversized sizes and files of another class are refuted.
* **C47 Probability tries over uniform_pef** - `M_TrieProbPef.v`: trie_prob_lm for all four instances, the enumerators' state threaded through the searches; shown equal to M_TrieProb for Elias-Fano (`P_TrieProbBridge.v`), refuted over uniform_pef by an unlisted bigram scored as listed; `P_TrieProbPef1-4.v` redo the construction and the scoring with the enumerators' invariants, for texts that stay clear of such bigrams (`Spec_TrieProbPef.v`).
* **C48 Builders and score for probabilities** - `M_ProbPrograms.v`: main of build_trie/build_hash for value type prob and of score (argument checks, header, dispatch over the types, build, save, load, totals), given the parsed command line; composed from C40, C25/C41, C30, C31; `P_TrieProbPef5.v` and `Props_ProbProgramsPef.v` do the same for pef_trie, with the loading process's own words after the arrays.
* **C49 Statistics** - `M_Stats.v`: print_stats of the four model classes, topk_queue over arbitrary heap functions, bytes()/size()/order(); the Elias-Fano iterators are shown to read back the pointers and prefix-summed ids, from which fan-outs, ends and universes are recomputed (`Spec_Stats.v`, `Spec_Report.v`); the byte sums are bounded by the length of the saved file (P_Stats6, P_Stats7); composed with C30.
* **C50 Lookup benchmark** - `M_Perf.v`: main and perf_test of lookup_perf_test (pool of the queries, offsets, load, size(), runs); composed from C45's built files, C30, C22/C42/C24. The lines of the query file are what emphf::file_lines yields.
* **C51 compact_elias_fano** - the writer and the enumerator are in `M_Pef.v`, bitsize, prev_value and runs of calls in `M_CEF.v`. The writer's invariant gives the exact contents of the pointer fields for any number of values (`P_CEF1.v`); the enumerator's invariant (position, value, cursor after the element's high bit) is kept by every call, short or through a pointer (`P_CEF2.v`, `P_CEF3.v`).
* **C52 from unsorted counts to an index** - `M_Pipeline.v` has the main of sort_grams with files as bytes and applies it to each file of a directory; `Spec_Pipeline.v` says what the unsorted input is (`unsorted`) and what its sorted version is. C28 gives the sorted records; the comparator's order on vocabulary ids is shown to be the lexicographic order of `collection` (`P_Pipeline.v`), and C45/C50 do the rest (`Props_Pipeline.v`).
* **C53 from an unsorted ARPA file to scores** - `Spec_PipelineArpa.v`: the unsorted table, printing and reading back a value (`rereads`, `reread`), the sorted table. C43 gives the printed, sorted sections; they are shown to be read back as a table in the order of C25 (`P_PipelineArpa.v`), and C48 does the rest (`Props_PipelineArpa.v`).
* **C54 the self-check programs** - `M_SelfTests.v`: the four programs of test/ that draw random data, as functions of the draws. The data they make is shown to satisfy the hypotheses of C01/C03/C05/C14/C16/C30 (`P_SelfTests1.v` to `P_SelfTests3.v`); the histories of the enumerator shared by the two loops of the uniform_pef program are followed explicitly. Not expressible: the generators themselves (only the bounds of their outputs are used).
* **C55 print_stats for every type** - `M_StatsPef.v`: print_stats of the tries over uniform_pef and over either rank encoding, main of print_stats.cpp with the dispatch over the eighteen types. `P_StatsPef1.v` follows the enumerator of a uniform_pef sequence from begin to end (all-equal short sequences included), `P_StatsPef2.v` turns every built and reloaded level into the level C49 speaks of, `P_StatsPef3.v` bounds the bytes; composed with C30, C45, C48 (`Spec_StatsProgram.v`, `Props_StatsPef.v`).
* **C56 interchangeable types** - `Props_Agree.v`: one inductive predicate per kind of answer collects what an index of any type over the same data answers; any two such answers are equal. Composed from C22/C24/C42 (counts) and C25/C41/C47 (scores), plus the fact that all builders read the quantizers from the same code.
* **C57 complete input** - `Spec_Complete.v`, `P_Complete.v`, `Props_Complete.v`: the converse of C22/C25: from a normal end of the build, for any files and any environment, inversion of the fold over the lines shows that the pointer into the file of the order below only moves forward and stops at a line whose n-gram equals the prefix (suffix); then byte ranges are turned into n-grams by uniqueness of the split at the last (first) space.
* **C58 indexed exactly or refused** - `Spec_Complete.v` (`gram_files`), `P_Accept.v`, `P_Accept2.v`, `P_Accept3.v`, `Props_Accepted.v`: the Elias-Fano encoder throws on a decreasing value. The pointers handed to it are the numbers of lines continuing the first j lines of the order below (invariant of the fold), so two lines continuing the same line lie in one range and get the same base; non-decreasing sums without wrap-around give non-decreasing ids, and by induction on the order the level is in lexicographic order. C22 then applies.
  Only for Elias-Fano: `Props_AcceptedPef.v` (C58_pef_refuted): uniform_pef_sequence checks the order of the values only within a partition; a concrete set of 127 words and 65 bigrams, its hypotheses decided by verified checkers.
  The programs: `Props_AcceptedProg.v`. C58_program is C45_tries without the hypothesis that the files are sorted and complete: that build_trie wrote an index supplies it.
  Probability tries: `P_AcceptProb.v`, `Props_AcceptedProb.v`. One level, whatever the builder, is `level_sorted`; the fold of trie_prob_lm.hpp's build_ngrams has the same invariant with suffixes and first words, and the reversed n-grams (`revD`) play the part of the n-grams. `C41_trie_accepted_partial` is C41 without the hypothesis that the sections are sorted: a build that ended supplies it.
  For probabilities: `Props_AcceptedProbProg.v` (C48_trie_accepted_partial, C48_trie_accepted_kept_partial).
* **Corner cases** - `Props_Edges.v`: C04_init, C18_no_values, C32_any_number, C44_any_first_line, C49_component_bytes and C54_refused; most were added after an edit of the model survived (seeded/LOG.jsonl).

## Trusted base

* **Kernel.** Coq 8.16.1, including `vm_compute`. No axiom, functor, module type or plugin is declared here.
* **Print Assumptions.** Every property theorem is "Closed under the global context" except these, which go
  through Flocq's theorems about rounding and therefore list the standard library's axioms
  `ClassicalDedekindReals.sig_not_dec`, `ClassicalDedekindReals.sig_forall_dec`,
  `FunctionalExtensionality.functional_extensionality_dep` and `Classical_Prop.classic`:
  the C18 theorems except `C18_few_distinct_lossless_refuted`, `C18_width_32_never_ends_refuted`, `C18_no_values`, `C18_too_few_values_abort`, `C30_built_mph_prob_restored`,
  `C30_built_trie_prob_restored`, `C30_built_pef_trie_prob_restored_partial`, `C48_pef_partial`, `C41_trie_programs_partial`, `C41_trie_accepted_partial`, `C48_trie_accepted_partial`, `C48_trie_accepted_kept_partial`, `C46_sentence_partial`, `C46_corpus_partial`, `C46_sentence_kept_partial`, `C46_corpus_kept_partial`,
  `C48_trie_partial`, `C48_hash_partial`, `C48_trie_kept_partial`, `C48_hash_kept_partial`, `C49_trie_prob`, `C49_hash_prob`, `C55_trie_probs`, `C55_pef_trie_probs_partial`, `C55_hash_probs`, `C53_scores_kept_partial` and `C53_scores_partial`.
  Each `Props_*.v` prints its own list.
* **Libraries.** Coq's standard library; Flocq (IEEE 754 correctness of `spec_float`) in P_Float, P_Quant2, P_Typed3.
* **Faithfulness.** The models are hand-written from the C++ text; each definition cites the file and lines.
  Undefined behaviour (out-of-range access, over-wide shift, reading an unbuilt member, division by zero) is the
  outcome `UB`, `throw`/`exit(1)` is `Throw`; loops whose termination is not structural carry fuel whose
  exhaustion is `UB`, and the theorems that say `Ok` therefore include termination.

### Modelled

| /repo | model |
|---|---|
| utils/util.hpp, util_types.hpp (words, masks, ranges, `pack`, binary_search, argument checks, header) | Prelude, M_Word, M_Text, M_Header |
| vectors/bit_vector.hpp, compact_vector.hpp, hash_compact_vector.hpp, compact_triplets_vector, sorted_array.hpp | M_Bits, M_CompactVector, M_HashVec, M_Trie, M_TrieProb |
| sequences/darray*, ef_sequence, fast_ef_sequence, uniform_pef_sequence, compact_elias_fano, indexed_codewords, prefix_summed, sequence_collection, quantized_sequence_collection, integer codes | M_DArray, M_EF, M_FastEF, M_Pef, M_SeqColl, M_Codes, M_Quant |
| utils/mphf.hpp and the hash tables built on it | M_Mph |
| utils/pools.hpp, iterators.hpp, parsers.hpp (count files and ARPA files) | M_Pool, M_Text, M_GramFile, M_ArpaFile |
| trie_count_lm, trie_prob_lm, mph_count_lm, mph_prob_lm, mappers.hpp, score.hpp, state.hpp, circular_buffer | M_Trie, M_TriePef, M_TrieProb, M_TrieProbPef, M_MphCount, M_MphProb, M_Score |
| sorters/* and the drivers of src/ that use them, src/score.cpp | M_Sort, M_SortArpa, M_ScoreCorpus |
| src/build_trie.cpp and src/build_hash.cpp for counts, test/test_count_model.cpp, lm_types.hpp | M_Programs |
| src/build_trie.cpp and src/build_hash.cpp for probabilities, src/score.cpp | M_ProbPrograms, M_ScoreCorpus |
| python/tongrams.cpp (CPython's argument conversions as documented) | M_Python |
| src/print_stats.cpp, utils/stats.cpp | M_Stats, M_StatsPef |
| src/lookup_perf_test.cpp, strings_pool | M_Perf |
| save/load of all of the above | M_Save, M_Save2, M_SavePef |

### Not modelled

gzip streams (a file is its decompressed bytes), the floating point arithmetic of `print_stats`, the times of
`lookup_perf_test`, `std::pow`/perplexity printing, threads (the library starts none), memory exhaustion, and
`external/` (not in /repo).

### Assumed about code outside /repo

* emphf: the hypergraph sorter returns a peeling order (`valid_order`) for a hash function for which one exists;
  `bitpair_vector` and `ranked_bitpair_vector` store and rank; the hash functions themselves are arbitrary functions
  (theorems quantify over them).
* emphf: `file_lines` yields the lines of a file without their newlines (lookup_perf_test).
* essentials: `words_for`, and the byte formats of `save`/`load` of PODs and vectors (`ext_ok`).
* C and C++ libraries: `strtoull`, `strtod`, `std::to_string`, iostreams (`getline`, `tellg`, `seekg`), `std::sort` (a
  sorted permutation), fresh temporary file names.  `1.23` is the exact rational.
* Reads a few bytes past a vector that the code really performs (`trie_prob_lm::score`, `uniform_pef_sequence`)
  are given an arbitrary value as an explicit parameter where a theorem needs them to be readable.

## Disagreements found

Proved as `_refuted` theorems, next to the property they contradict; the MANIFEST notes list them: empty ranges in
`fast_ef_sequence::find` (C15, and through it C23), `uniform_pef_sequence` searches (C16), order and length bounds of
`lookup` (C23, C24), the absent-key rank (C21, C24), 33-bit payloads with 32-bit keys (C05), `i < n - 1` in the sort
drivers (C28, C43), dropped contexts with back-off zero and over-reads in the trie (C25), malformed ARPA files (C40),
`uint8_t` narrowing (C38), empty-gram records (C35), `binary_search` below the minimum (C37), unsorted input accepted by `uniform_pef` (C58), sizes above 2^24 in the quantizer (C18), and others.
