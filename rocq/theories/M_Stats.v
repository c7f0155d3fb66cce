(** * Model of the statistics report: src/print_stats.cpp, include/utils/stats.cpp, and the
    bytes() / size() / order() members it calls

    What is modelled: every integer that is printed, and the integers from which the printed
    floating point numbers (averages, percentages, entropies) are computed.  The floating point
    divisions and logarithms are not modelled.  Sums of sizes in bytes are written with plain
    additions: they count bytes in memory, so they do not reach 2^64; subtractions wrap around.

    [essentials::vec_bytes] is external: the bytes of the elements plus [vo] bytes, where [vo] is
    0 or the size of the vector's length, depending on the version of the library. *)
From Coq Require Import Floats.SpecFloat.
From Verif Require Import Prelude M_Word M_Bits M_CompactVector M_DArray M_EF M_HashVec M_Mph M_FastEF M_SeqColl
  M_Trie M_MphCount M_Score M_Quant M_MphProb M_TrieProb M_Save M_Save2.

(** ** bytes() *)
(** bit_vector.hpp 233-235 *)
Definition bytes_bv (v : bv) : N := 8 + lenN (v_bits v) * 8.
(** compact_vector.hpp 294-297 *)
Definition bytes_cv (c : cv) : N := lenN (c_bits c) * 8 + 8 + 8 + 8.
(** hash_compact_vector.hpp 160-163 *)
Definition bytes_hcv (hb : N) (c : hcv) : N := 8 + 8 + 8 + lenN (h_bits c) * (hb / 8).
(** compact_triplets_vector.hpp 93-96 *)
Definition bytes_ct (c : ct) : N := 8 + 8 + 8 + 8 + bytes_bv (t_bits c).
(** essentials::vec_bytes, elements of k bytes *)
Definition vec_bytes (vo k : N) {A} (l : list A) : N := lenN l * k + vo.
(** darray.hpp 94-98 *)
Definition bytes_darr (vo : N) (d : darr) : N := 8 + vec_bytes vo 8 (d_blk d) + vec_bytes vo 2 (d_sub d) + vec_bytes vo 8 (d_ovf d).
(** a member that was never built *)
Definition of_opt {A} (dflt : A) (o : option A) : A := match o with Some x => x | None => dflt end.
(** ef_sequence.hpp 120-123 *)
Definition bytes_ef (vo : N) (e : ef) : N :=
  1 + bytes_bv (e_high (ef_core e)) + bytes_darr vo (e_d1 (ef_core e)) + bytes_darr vo (of_opt darr0 (ef_d0 e)) +
  bytes_bv (e_low (ef_core e)) + 8.
(** prefix_summed_sequence.hpp 33-35 *)
Definition bytes_pss (vo : N) (p : pss) : N := 8 + bytes_ef vo (ps_seq p).
(** indexed_codewords_sequence.hpp 114-117 *)
Definition bytes_icw (vo : N) (s : icw) : N := 8 + bytes_bv (ic_cw s) + bytes_bv (ic_idx s) + bytes_darr vo (ic_d1 s).
Definition bytes_ranks (vo : N) (r : ranks) : N := match r with RIC s => bytes_icw vo s | RPS p => bytes_pss vo p end.
(** fast_ef_sequence.hpp 217-224; uint_mpht::data_bytes, mph_tables.hpp 328-330 *)
Definition bytes_fef (vo : N) (f : fef) : N :=
  8 + bytes_bv (e_high (f_core f)) + bytes_darr vo (e_d1 (f_core f)) + bytes_bv (e_low (f_core f)) + 1 +
  (lenN (f_samp f) * 8 + match f_off f with Some t => bytes_cv (ut_values t) | None => bytes_cv cv0 end).
(** sequence_collections.hpp 294-300 *)
Definition bytes_sc (l : list cv) : N := fold_left (fun b c => b + bytes_cv c) l 0.
(** sequence_collections.hpp 144-150 *)
Definition bytes_qsc (q : qsc) : N := fold_left (fun b (s : list F) => b + lenN s * 4) (q_seqs q) (lenN (q_bits q) * 1).
(** sorted_array.hpp 172-186 *)
Definition a_grams_bytes (vo : N) (a : sarr) : N := bytes_fef vo (of_opt fef0 (s_grams a)).
Definition a_ranks_bytes (vo : N) (k : rkind) (a : sarr) : N := bytes_ranks vo (of_opt (ranks0 k) (s_ranks a)).
Definition a_pb_bytes (a : parr) : N := bytes_cv (of_opt cv0 (a_pb a)).
Definition a_ptrs_bytes (vo : N) (a : sarr) : N := bytes_ef vo (of_opt ef0 (s_ptrs a)).

(** ** topk_queue, stats.cpp 102-141 *)
(** std::push_heap and std::pop_heap with std::greater, on the whole vector *)
Record heap_ops := mkheap { ho_push : list N -> list N; ho_pop : list N -> list N }.
(** add, lines 107-122; [k]: the capacity that reserve(5) gave the vector *)
Definition topk_add (ho : heap_ops) (k : N) (data : list N) (x : N) : res (list N) :=
  if lenN data <? k then Ok (ho_push ho (data ++ [x]))
  else
    front <- rd data 0 ;;
    if front <? x then
      let data := ho_pop ho data in
      data <- wr data (sub64 (lenN data) 1) x ;;
      Ok (ho_push ho data)
    else Ok data.
(** finalize, lines 128-130: std::sort with std::greater *)
Fixpoint insert_desc (x : N) (l : list N) : list N :=
  match l with [] => [x] | y :: r => if y <? x then x :: l else y :: insert_desc x r end.
Definition sort_desc (l : list N) : list N := fold_right insert_desc [] l.

(** ** sorted_array::print_stats *)
(** the locals of lines 160-168; [ps_it]: it, [ps_top]: the heap *)
Record pstat := mkpstat { ps_it : efit; ps_begin : N; ps_sum : N; ps_max : N; ps_min : N; ps_nn : N; ps_top : list N }.
(** one iteration of lines 170-185 *)
Definition ptr_step (ho : heap_ops) (k : N) (e : ef) (s : pstat) (i : N) : res pstat :=
  ' (end_, it) <- efit_next (ef_core e) (ps_it s) ;;
  let range := sub64 end_ (ps_begin s) in
  if range =? 0 then Ok (mkpstat it end_ (ps_sum s) (ps_max s) (ps_min s) (ps_nn s) (ps_top s))
  else
    let min := if range <? ps_min s then range else ps_min s in
    let max := if ps_max s <? range then range else ps_max s in
    top <- topk_add ho k (ps_top s) range ;;
    Ok (mkpstat it end_ (add64 (ps_sum s) range) max min (add64 (ps_nn s) 1) top).
(** what is printed about the pointers: their number, non-empty ranges, smallest, largest, sum
    (of the average), the largest ranges *)
Record ptr_report := mkptrr { pr_num : N; pr_nonempty : N; pr_min : N; pr_max : N; pr_sum : N; pr_top : list N }.
(** lines 158-195 *)
Definition ptr_stats (ho : heap_ops) (k : N) (e : ef) : res ptr_report :=
  let m := ef_size e in
  it <- efit_new (ef_core e) 0 ;;
  ' (b, it) <- efit_next (ef_core e) it ;;
  s <- foldM (ptr_step ho k e) (range (sub64 m 1)) (mkpstat it b 0 0 not_found 0 []) ;;
  Ok (mkptrr m (ps_nn s) (ps_min s) (ps_max s) (ps_sum s) (sort_desc (ps_top s))).

(** occs[original_v], lines 268-273: keys and counters are uint32_t *)
Definition w32 (x : N) : N := N.land x (N.ones 32).
Definition occ_add (occs : list (N * N)) (v : N) : list (N * N) :=
  if existsb (fun p => fst p =? w32 v) occs
  then map (fun p => if fst p =? w32 v then (fst p, w32 (snd p + 1)) else p) occs
  else occs ++ [(w32 v, 1)].
(** what the report reads of a gram sequence: size(), universe(), begin() and the iterator's next() *)
Record gview := mkgview { gv_size : N; gv_univ : res N; gv_it : Type; gv_begin : res gv_it; gv_next : gv_it -> res (N * gv_it) }.
(** fast_ef_sequence.hpp 205-216 (universe: the last value); None: a sequence that was never built *)
Definition view_fef (o : option fef) : gview :=
  let f := of_opt fef0 o in
  mkgview (f_size f) (efc_get (f_core f) (sub64 (f_size f) 1)) efit (efit_new (f_core f) 0) (efit_next (f_core f)).
(** locals of lines 248-257: the grams iterator, prev_upper, occs; [hs_terms]: the ranges added to H_1 *)
Record hstat (I : Type) := mkhstat { hs_pit : efit; hs_begin : N; hs_git : I; hs_upper : N; hs_occs : list (N * N); hs_terms : list N }.
Arguments mkhstat {I}. Arguments hs_pit {I}. Arguments hs_begin {I}. Arguments hs_git {I}. Arguments hs_upper {I}. Arguments hs_occs {I}. Arguments hs_terms {I}.
(** one iteration of the inner loop, lines 266-278 *)
Definition gram_step {I} (next : I -> res (N * I)) (range : N) (s : I * N * list (N * N)) (j : N) : res (I * N * list (N * N)) :=
  let '(it, upper, occs) := s in
  ' (v, it) <- next it ;;
  let occs := occ_add occs (sub64 v upper) in
  Ok (it, (if j =? sub64 range 1 then v else upper), occs).
(** one iteration of lines 259-281 *)
Definition range_step {I} (next : I -> res (N * I)) (e : ef) (s : hstat I) (i : N) : res (hstat I) :=
  ' (end_, pit) <- efit_next (ef_core e) (hs_pit s) ;;
  let range := sub64 end_ (hs_begin s) in
  ' (it, upper, occs) <- foldM (gram_step next range) (Prelude.range range) (hs_git s, hs_upper s, hs_occs s) ;;
  Ok (mkhstat pit end_ it upper occs (if range =? 0 then hs_terms s else hs_terms s ++ [range])).
(** lines 247-299: the terms of H_1 and the counters of which H_0 is computed *)
Definition entropy_stats (g : gview) (e : option ef) : res (list N * list (N * N)) :=
  let e := of_opt ef0 e in
  pit <- efit_new (ef_core e) 0 ;;
  ' (b, pit) <- efit_next (ef_core e) pit ;;
  git <- gv_begin g ;;
  s <- foldM (range_step (gv_next g) e) (range (sub64 (ef_size e) 1)) (mkhstat pit b git 0 [] []) ;;
  Ok (hs_terms s, hs_occs s).

(** the level report: size, universe of the gram ids, pointers, entropies (H_0's counters are only
    printed for order 2) *)
Record level_report := mklevr { lr_size : N; lr_universe : option N; lr_ptrs : option ptr_report; lr_terms : option (list N); lr_occs : option (list (N * N)) }.
(** one array as the report reads it: size(), the grams, the pointers *)
Record level := mklevel { l_size : N; l_grams : gview; l_ptrs : option ef }.
Definition level_of (a : sarr) : level := mklevel (s_size a) (view_fef (s_grams a)) (s_ptrs a).
(** print_stats, lines 143-300; [ranges]: the pointers of the previous array (not read for order 1) *)
Definition level_stats (ho : heap_ops) (k : N) (order : N) (a : level) (ranges : option ef) : res level_report :=
  universe <- (if gv_size (l_grams a) =? 0 then Ok None else u <- gv_univ (l_grams a) ;; Ok (Some u)) ;;
  ptrs <- (match l_ptrs a with
           | Some e => if ef_size e =? 0 then Ok None else p <- ptr_stats ho k e ;; Ok (Some p)
           | None => Ok None
           end) ;;
  ' (terms, occs) <- (if (order =? 2) || (order =? 3) then
            ' (t, o) <- entropy_stats (l_grams a) ranges ;;
            Ok (Some t, if order =? 2 then Some o else None)
          else Ok (None, None)) ;;
  Ok (mklevr (l_size a) universe ptrs terms occs).

(** ** the tries *)
(** trie_count_lm.hpp 285-291, trie_prob_lm.hpp 317-323 *)
Definition arrays_size (l : list level) : N := fold_left (fun s a => add64 s (l_size a)) l 0.
(** the levels, stats.cpp 368-374 and 425-431: arrays[i-1].ptrs() *)
Fixpoint levels_stats (ho : heap_ops) (k : N) (order : N) (prev : option ef) (l : list level) : res (list level_report) :=
  match l with
  | [] => Ok []
  | a :: r => x <- level_stats ho k order a prev ;; xs <- levels_stats ho k (order + 1) (l_ptrs a) r ;; Ok (x :: xs)
  end.
(** trie_count_lm::print_stats, stats.cpp 302-375 *)
Record trie_report := mktrier {
  tr_arrays : list (N * N * N); (* grams, ranks and pointers bytes of each array *)
  tr_order : N; tr_grams : N; tr_bytes : N; tr_vocab : N; tr_values : N;
  tr_grams_bytes : N; tr_ranks_bytes : N; tr_ptrs_bytes : N;
  tr_unique : list N; (* number of unique values of each order *)
  tr_levels : list level_report }.
Definition trie_stats (ho : heap_ops) (k vo : N) (kind : rkind) (t : trie) (bytes : N) : res trie_report :=
  let sizes := map (fun a => (a_grams_bytes vo a, a_ranks_bytes vo kind a, a_ptrs_bytes vo a)) (t_arrays t) in
  let sum f := fold_left (fun s (x : N * N * N) => s + f x) sizes 0 in
  unique <- mapM (fun i => c <- rd (t_counts t) i ;; Ok (c_size c)) (range (t_order t)) ;;
  levels <- levels_stats ho k 1 None (map level_of (t_arrays t)) ;;
  Ok (mktrier sizes (t_order t) (arrays_size (map level_of (t_arrays t))) bytes (bytes_hcv 64 (sv_data (t_vocab t))) (bytes_sc (t_counts t))
        (sum (fun x => fst (fst x))) (sum (fun x => snd (fst x))) (sum snd) unique levels).
(** print_stats.cpp 12-17: load, then print; the size is what load returns *)
Definition print_trie (x : ext) (ho : heap_ops) (k vo : N) (kind : rkind) (f : list N) : res trie_report :=
  ' (t, bytes) <- load_file (load_trie x kind) f ;; trie_stats ho k vo kind t bytes.

(** trie_prob_lm::print_stats, stats.cpp 377-432 *)
Record tprob_report := mktpr {
  qr_arrays : list (N * N * N);
  qr_order : N; qr_grams : N; qr_bytes : N; qr_vocab : N; qr_probs : N; qr_backoffs : N;
  qr_grams_bytes : N; qr_ranks_bytes : N; qr_ptrs_bytes : N;
  qr_levels : list level_report }.
Definition tprob_stats (ho : heap_ops) (k vo : N) (m : tpl) (bytes : N) : res tprob_report :=
  let sizes := map (fun a => (a_grams_bytes vo (a_sa a), a_pb_bytes a, a_ptrs_bytes vo (a_sa a))) (tp_arrays m) in
  let sum f := fold_left (fun s (x : N * N * N) => s + f x) sizes 0 in
  levels <- levels_stats ho k 1 None (map (fun a => level_of (a_sa a)) (tp_arrays m)) ;;
  Ok (mktpr sizes (tp_order m) (arrays_size (map (fun a => level_of (a_sa a)) (tp_arrays m))) bytes (bytes_ct (dv_data (tp_vocab m)))
        (bytes_qsc (tp_probs m)) (bytes_qsc (tp_backoffs m))
        (sum (fun x => fst (fst x))) (sum (fun x => snd (fst x))) (sum snd) levels).
Definition print_tprob (x : ext) (ho : heap_ops) (k vo : N) (f : list N) : res tprob_report :=
  ' (m, bytes) <- load_file (load_tpl x) f ;; tprob_stats ho k vo m bytes.

(** ** the hash models *)
(** size: mph_count_lm.hpp 86-92, mph_prob_lm.hpp 267-273; single_valued_mpht::size, mph_tables.hpp 89-91 *)
Definition tables_size (l : list svt) : N := fold_left (fun s t => add64 s (m_n (sv_h t))) l 0.
(** what is printed: the order, the number of grams, all bytes, the bytes of the values; for each order the number of
    distinct values (counts only) and the bytes of the table; bytes of the hash keys, of the counts or
    ranks, of the hash functions *)
Record mph_report := mkmphr {
  mr_order : N; mr_grams : N; mr_bytes : N; mr_values : N * N; mr_unique : list N; mr_tables : list N;
  mr_keys : N; mr_counts : N; mr_functions : N }.
Definition mph_shares (hb bytes num_grams values : N) (tables : list N) : N * N * N :=
  let data_bytes := fold_left N.add tables values in
  let keys := hb / 8 * num_grams in
  (keys, sub64 data_bytes keys, sub64 bytes data_bytes).
(** stats.cpp 13-56 *)
Definition mcl_stats (hb : N) (m : mcl) (bytes : N) : res mph_report :=
  let n := tables_size (mc_tables m) in
  let values := bytes_sc (mc_counts m) in
  unique <- mapM (fun i => c <- rd (mc_counts m) i ;; Ok (c_size c)) (range (lenN (mc_tables m))) ;;
  let tables := map (fun t => bytes_hcv hb (sv_data t)) (mc_tables m) in
  let '(keys, counts, functions) := mph_shares hb bytes n values tables in
  Ok (mkmphr (mc_order m) n bytes (values, 0) unique tables keys counts functions).
Definition print_mcl (x : ext) (hb : N) (f : list N) : res mph_report :=
  ' (m, bytes) <- load_file (load_mcl x hb) f ;; mcl_stats hb m bytes.
(** stats.cpp 58-100 *)
Definition mpl_stats (hb : N) (m : mpl) (bytes : N) : mph_report :=
  let n := tables_size (mp_tables m) in
  let p := bytes_qsc (mp_probs m) in
  let b := bytes_qsc (mp_backoffs m) in
  let tables := map (fun t => bytes_hcv hb (sv_data t)) (mp_tables m) in
  let '(keys, ranks, functions) := mph_shares hb bytes n (p + b) tables in
  mkmphr (mp_order m) n bytes (p, b) [] tables keys ranks functions.
Definition print_mpl (x : ext) (hb : N) (f : list N) : res mph_report :=
  ' (m, bytes) <- load_file (load_mpl x hb) f ;; Ok (mpl_stats hb m bytes).
