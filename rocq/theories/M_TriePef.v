(** * Model of trie_count_lm for all twelve instances of lm_types.hpp 40-86

    The same functions as in M_Trie (include/trie_count_lm.hpp, include/mappers.hpp,
    include/vectors/sorted_array.hpp), for Grams = fast_ef_sequence or uniform_pef_sequence and
    Ranks = indexed_codewords_sequence, prefix_summed_sequence<ef_sequence> or
    prefix_summed_sequence<uniform_pef_sequence>.  find() and operator[] of
    uniform_pef_sequence move the enumerator of the sequence, which is mutable and kept between
    calls: each search and each access below returns the arrays it leaves behind. *)
From Verif Require Import Prelude M_Word M_Bits M_CompactVector M_DArray M_EF M_HashVec M_Mph M_FastEF M_Text M_SeqColl M_Pool M_Pef M_Trie.

(** ** what the build and the queries depend on besides the files *)
Record penv := mkpenv {
  pe_t : tenv;                   (* as in M_Trie: hash functions, peeling orders, sorts, mapper, memory *)
  pe_pef : bool;                 (* Grams = uniform_pef_sequence instead of fast_ef_sequence *)
  pe_pspef : bool;               (* Ranks = prefix_summed_sequence<uniform_pef_sequence> instead of te_kind *)
  pe_gpad : N -> pads;           (* the words in memory after the arrays of the gram sequence of array i *)
  pe_rpad : N -> pads;           (* the same for its ranks *)
  pe_swap : bool                 (* which operand of the minus of prefix_summed_sequence.hpp 27 is evaluated first *) }.

(** ** gram sequences *)
Inductive gseq := SEF (f : fef) | SPEF (f : pef) (e : pen).
(** build(begin, n, pointers, order): fast_ef_sequence.hpp 26-55; uniform_pef_sequence.hpp 17-46,
    at the end of which the enumerator is initialised (lines 150-152) *)
Definition g_build (env : penv) (k : N) (ids ptrs : list N) (order : N) : res gseq :=
  if pe_pef env then
    f <- pef_build ids ptrs order ;; e <- pef_init (pe_gpad env k) f ;; Ok (SPEF f e)
  else f <- fef_build (te_hu (pe_t env) k) (te_orders (pe_t env) k) ids ptrs ;; Ok (SEF f).
(** find(range, id): fast_ef_sequence.hpp 72-124; uniform_pef_sequence.hpp 159-190 *)
Definition g_find (env : penv) (k : N) (g : gseq) (r : N * N) (id : N) : res (N * gseq) :=
  match g with
  | SEF f => p <- fef_find (te_hu (pe_t env) k) f r id ;; Ok (p, SEF f)
  | SPEF f e => ' (p, e) <- pef_find (pe_gpad env k) f e (fst r) (snd r) id ;; Ok (p, SPEF f e)
  end.

(** ** count ranks *)
Inductive rseq := RR (r : ranks) | RPEF (f : pef) (e : pen).
(** build, prefix_summed_sequence.hpp 11-24 (the sums: [prefix_sums] of M_EF); prefix_sums.back() of an empty vector is undefined *)
Definition rk_build (env : penv) (k : N) (vs : list N) (order : N) : res rseq :=
  if pe_pspef env then
    let sums := prefix_sums 0 vs in
    u <- rd sums (sub64 (lenN sums) 1) ;;
    f <- pef_build_u sums u order ;; e <- pef_init (pe_rpad env k) f ;; Ok (RPEF f e)
  else r <- ranks_build (te_kind (pe_t env)) vs order ;; Ok (RR r).
(** operator[], prefix_summed_sequence.hpp 26-28 *)
Definition rk_get (env : penv) (k : N) (r : rseq) (i : N) : res (N * rseq) :=
  match r with
  | RR r => x <- ranks_get r i ;; Ok (x, RR r)
  | RPEF f e =>
      let pd := pe_rpad env k in
      if i =? 0 then ' (x, e) <- pef_get pd f e 0 ;; Ok (x, RPEF f e)
      else if pe_swap env then
        ' (y, e) <- pef_get pd f e (i - 1) ;; ' (x, e) <- pef_get pd f e i ;; Ok (sub64 x y, RPEF f e)
      else
        ' (x, e) <- pef_get pd f e i ;; ' (y, e) <- pef_get pd f e (i - 1) ;; Ok (sub64 x y, RPEF f e)
  end.

(** ** sorted_array (sorted_array.hpp 111-240); None: a member that was never built *)
Record parr := mkparr { p_size : N; p_grams : option gseq; p_ranks : option rseq; p_ptrs : option ef }.
(** line 113 *)
Definition parr_new (size : N) : parr := mkparr size None None None.
(** range, lines 115-118, of array k *)
Definition pa_range (arrays : list parr) (k pos : N) : res (N * N) :=
  a <- rd arrays k ;; match p_ptrs a with Some e => ptr_range e pos | None => UB end.
(** position, lines 139-143, of array k *)
Definition pa_position (env : penv) (arrays : list parr) (k : N) (r : N * N) (id : N) : res (N * list parr) :=
  a <- rd arrays k ;;
  match p_grams a with
  | Some g => ' (p, g) <- g_find env k g r id ;; arrays <- wr arrays k (mkparr (p_size a) (Some g) (p_ranks a) (p_ptrs a)) ;; Ok (p, arrays)
  | None => UB
  end.
(** next, lines 120-127, of array k: the position, the updated range, the arrays *)
Definition pa_next (env : penv) (arrays : list parr) (k : N) (r : N * N) (id : N) : res (N * (N * N) * list parr) :=
  ' (pos, arrays) <- pa_position env arrays k r id ;;
  if pos =? not_found then Ok (not_found, r, arrays) else r' <- pa_range arrays k pos ;; Ok (pos, r', arrays).
(** count_rank, lines 129-132, of array k *)
Definition pa_count_rank (env : penv) (arrays : list parr) (k pos : N) : res (N * list parr) :=
  a <- rd arrays k ;;
  match p_ranks a with
  | Some r => ' (x, r) <- rk_get env k r pos ;; arrays <- wr arrays k (mkparr (p_size a) (p_grams a) (Some r) (p_ptrs a)) ;; Ok (x, arrays)
  | None => UB
  end.

(** sorted_array::builder::build_counts_ranks, lines 78-83, for array k *)
Definition pab_build_ranks (env : penv) (k : N) (b : sab) (s : parr) (order : N) : res parr :=
  vs <- cv_all (cv_of_builder (ab_ranks b)) ;;
  r <- rk_build env k vs order ;; Ok (mkparr (p_size s) (p_grams s) (Some r) (p_ptrs s)).
(** build, lines 57-76, for value_type::count, for array k *)
Definition pab_build (env : penv) (k : N) (b : sab) (s : parr) (ptrs : list N) (order : N) : res parr :=
  ids <- cv_all (cv_of_builder (ab_grams b)) ;;
  g <- g_build env k ids ptrs order ;;
  pab_build_ranks env k b (mkparr (p_size s) (Some g) (p_ranks s) (p_ptrs s)) order.
(** build_pointers, lines 92-95 *)
Definition pa_build_pointers (s : parr) (ptrs : list N) : res parr :=
  e <- ptr_build ptrs ;; Ok (mkparr (p_size s) (p_grams s) (p_ranks s) (Some e)).

(** ** sorted_array_mapper (mappers.hpp 64-239) *)
(** map_id(pointer_range, id, ngrams), lines 117-128; the ngrams are array k *)
Definition pmap_in (env : penv) (arrays : list parr) (k : N) (r : N * N) (id : N) : res (N * list parr) :=
  ' (pos, arrays) <- pa_position env arrays k r id ;;
  if pos =? not_found then Ok (not_found, arrays) else Ok (sub64 pos (fst r), arrays).
(** map_id(byte_range, ...), lines 83-115, with reversed = false *)
Definition pmap_gram (env : penv) (v : svt) (arrays : list parr) (remap : N) (buf : list N) (gram : byte_range) (id : N) : res (N * list parr) :=
  begin_ <- back_to buf gram remap ;;
  parent_id <- vlook (te_h (pe_t env)) v buf begin_ ;;
  r <- pa_range arrays 0 parent_id ;;
  ' (r, arrays) <-
    (if remap =? 2 then
       next_word <- next buf begin_ ;;
       next_id <- vlook (te_h (pe_t env)) v buf next_word ;;
       ' (_, r, arrays) <- pa_next env arrays 1 r next_id ;; Ok (r, arrays)
     else Ok (r, arrays)) ;;
  pmap_in env arrays remap r id.
(** the private map_id, lines 227-238 *)
Definition pmap_parents (env : penv) (arrays : list parr) (id : N) (pids : list N) (order remap : N) : res (N * list parr) :=
  parent_id <- rd pids (sub64 (add64 order 1) remap) ;;
  r <- pa_range arrays 0 parent_id ;;
  ' (r, arrays) <-
    (if remap =? 2 then
       p <- rd pids order ;;
       ' (_, r, arrays) <- pa_next env arrays 1 r p ;; Ok (r, arrays)
     else Ok (r, arrays)) ;;
  pmap_in env arrays remap r id.

(** the result of a mapping: order - 1 or not_found, word_ids, parent_ids, the arrays *)
Definition mqres : Type := N * list N * list N * list parr.
(** sorted_array_mapper::map_query: the inner loop, lines 169-212 *)
Fixpoint pmq_inner (fuel : nat) (env : penv) (v : svt) (arrays : list parr) (remap : N) (buf : list N) (last pos prev order : N) (wids pids : list N)
  : res mqres :=
  if pos =? last then
    id <- vlook (te_h (pe_t env)) v buf (prev, pos) ;;
    if id =? not_found then Ok (not_found, wids, pids, arrays) else
    ' (mapped, arrays) <- (if negb (order =? 2) || negb (remap =? 2) then pmap_parents env arrays id pids order remap else Ok (id, arrays)) ;;
    if mapped =? not_found then Ok (not_found, wids, pids, arrays) else
    wids <- wr wids order mapped ;; Ok (order, wids, pids, arrays)
  else
  match fuel with
  | O => UB
  | S f =>
      c <- rd buf pos ;;
      if c =? c_space then
        id <- vlook (te_h (pe_t env)) v buf (prev, pos) ;;
        if id =? not_found then Ok (not_found, wids, pids, arrays) else
        ' (mapped, arrays) <- (if (order =? 2) && (remap =? 2) then Ok (id, arrays) else pmap_parents env arrays id pids order remap) ;;
        if mapped =? not_found then Ok (not_found, wids, pids, arrays) else
        wids <- wr wids order mapped ;;
        pids <- wr pids (order + 1) id ;;
        pmq_inner f env v arrays remap buf last (pos + 1) (pos + 1) (order + 1) wids pids
      else pmq_inner f env v arrays remap buf last (pos + 1) prev order wids pids
  end.
(** the outer loop, lines 132-225 *)
Fixpoint pmq_sorted (fuel : nat) (env : penv) (v : svt) (arrays : list parr) (remap : N) (buf : list N) (first last pos prev order : N) (wids pids : list N)
  : res mqres :=
  let finish pos :=
    id <- vlook (te_h (pe_t env)) v buf (prev, pos) ;;
    if id =? not_found then Ok (not_found, wids, pids, arrays)
    else wids <- wr wids order id ;; Ok (order, wids, pids, arrays) in
  if pos =? last then finish pos else
  match fuel with
  | O => UB
  | S f =>
      c <- rd buf pos ;;
      if c =? c_space then
        if pos =? first then finish (pos + 1)
        else
          id <- vlook (te_h (pe_t env)) v buf (prev, pos) ;;
          if id =? not_found then Ok (not_found, wids, pids, arrays) else
          wids <- wr wids order id ;;
          let order := order + 1 in
          pids <- wr pids order id ;;
          if order =? 2 then pmq_inner f env v arrays remap buf last (pos + 1) (pos + 1) order wids pids
          else pmq_sorted f env v arrays remap buf first last (pos + 1) (pos + 1) order wids pids
      else pmq_sorted f env v arrays remap buf first last (pos + 1) prev order wids pids
  end.

(** ** the trie *)
(** members, lines 316-322 of trie_count_lm.hpp *)
Record ptrie := mkptrie { pt_order : N; pt_remap : N; pt_counts : list cv; pt_vocab : svt; pt_arrays : list parr }.
Definition with_arrays (t : ptrie) (arrays : list parr) : ptrie := mkptrie (pt_order t) (pt_remap t) (pt_counts t) (pt_vocab t) arrays.

(** the loop of lines 261-269 *)
Fixpoint pdescend (n : nat) (env : penv) (arrays : list parr) (wids : list N) (i pos : N) : res (N * list parr) :=
  match n with
  | O => Ok (pos, arrays)
  | S n =>
      r <- pa_range arrays (i - 1) pos ;;
      w <- rd wids i ;;
      ' (pos, arrays) <- pa_position env arrays i r w ;;
      if pos =? not_found then Ok (not_found, arrays) else pdescend n env arrays wids (i + 1) pos
  end.
(** lookup, lines 251-273, on the bytes [r] of [buf]; also returns the static arrays and the trie *)
Definition ptrie_lookup (env : penv) (t : ptrie) (st : statics) (buf : list N) (r : byte_range) : res (N * statics * ptrie) :=
  let '(wids, pids) := st in
  ' (o, wids, pids, arrays) <-
    (if te_map (pe_t env) then pmq_sorted (S (length buf)) env (pt_vocab t) (pt_arrays t) (pt_remap t) buf (fst r) (snd r) (fst r) (fst r) 0 wids pids
     else ' (o, wids) <- mq_identity (S (length buf)) (te_h (pe_t env)) (pt_vocab t) buf (fst r) (snd r) (fst r) (fst r) 0 wids ;; Ok (o, wids, pids, pt_arrays t)) ;;
  if (o =? not_found) || (pt_order t <? o) then Ok (not_found, (wids, pids), with_arrays t arrays) else
  w0 <- rd wids 0 ;;
  ' (pos, arrays) <- pdescend (N.to_nat o) env arrays wids 1 w0 ;;
  if (pos =? not_found) && negb (o =? 0) then Ok (not_found, (wids, pids), with_arrays t arrays) else
  ' (rank, arrays) <- pa_count_rank env arrays o pos ;;
  c <- sc_access (pt_counts t) o rank ;;
  Ok (c, (wids, pids), with_arrays t arrays).

(** ** builder *)
(** one iteration of lines 175-240; exit(1) is Throw *)
Definition pngram_step (env : penv) (v : svt) (cb : scb) (order remap : N) (s : bstate * list parr) (l : list N) : res (bstate * list parr) :=
  let '(s, arrays) := s in
  ' (gram, count) <- parse_count_line l ;;
  let buf := c_str l in
  pattern <- predecessor buf gram ;;
  let token := (snd pattern + 1, snd gram) in
  ' (prv, ptrs) <- advance buf pattern (bs_prv s) (bs_ptrs s) (bs_pointer s) ;;
  match prv with
  | [] => Throw
  | _ =>
      let pointer := bs_pointer s + 1 in
      token_id <- vlook (te_h (pe_t env)) v buf token ;;
      ' (token_id, arrays) <-
        (if te_map (pe_t env) && (remap + 1 <? order) then
           ' (m, arrays) <- pmap_gram env v arrays remap buf gram token_id ;;
           if m =? not_found then Throw else Ok (m, arrays)
         else Ok (token_id, arrays)) ;;
      g <- cvb_push_back (ab_grams (bs_sab s)) token_id ;;
      rank <- sc_rank cb (order - 1) count ;;
      rk <- cvb_push_back (ab_ranks (bs_sab s)) rank ;;
      Ok (mkbst prv ptrs pointer (mksab g rk), arrays)
  end.
(** build_ngrams, lines 160-246: the pointers, the finished builder, the arrays *)
Definition pbuild_ngrams (env : penv) (v : svt) (arrays : list parr) (cb : scb) (order remap : N) (cur prv : list (list N)) (b : sab)
  : res (list N * sab * list parr) :=
  ' (s, arrays) <- foldM (pngram_step env v cb order remap) cur (mkbst prv [0] 0 b, arrays) ;;
  Ok (bs_ptrs s ++ repeat (bs_pointer s) (length (bs_prv s)), bs_sab s, arrays).

(** build_vocabulary, lines 119-158 *)
Definition pbuild_vocabulary (env : penv) (cb : scb) (lines : list (list N)) (arrays : list parr) : res (svt * list parr) :=
  p <- pool_load (pool_new (te_ram (pe_t env))) lines ;;
  let n := lenN (p_index p) in
  recs <- mapM (pool_record p) (range n) ;;
  size0 <- sc_size cb 0 ;;
  b <- sab_new n 0 size0 ;;
  rk <- foldM (fun c (rc : list N * N) => rank <- sc_rank cb 0 (snd rc) ;; cvb_push_back c rank) recs (ab_ranks b) ;;
  a0 <- rd arrays 0 ;;
  a0 <- pab_build_ranks env 0 (mksab (ab_grams b) rk) a0 1 ;;
  arrays <- wr arrays 0 a0 ;;
  ids <- cvb_new n (ceil_log2 (add64 n 1)) ;;
  ids <- foldM cvb_push_back (range n) ids ;;
  v <- svt_build 64 (te_h (pe_t env)) (hash_domain n) (te_vorder (pe_t env)) (map fst recs) (cv_of_builder ids) ;;
  Ok (v, arrays).

(** the body of the loop of lines 47-84, for order [ord] *)
Definition pbuild_order (env : penv) (v : svt) (cb : scb) (remap : N) (files : list (list (list N))) (arrays : list parr) (ord : N) : res (list parr) :=
  prv <- rd files (ord - 2) ;;
  cur <- rd files (ord - 1) ;;
  let n := lenN cur in
  maxr <- sc_size cb (ord - 1) ;;
  b <- sab_new n (m_n (sv_h v)) maxr ;;
  ' (ptrs, b, arrays) <- pbuild_ngrams env v arrays cb ord remap cur prv b ;;
  a <- rd arrays (ord - 1) ;;
  a <- pab_build env (ord - 1) b a ptrs ord ;;
  arrays <- wr arrays (ord - 1) a ;;
  a' <- rd arrays (ord - 2) ;;
  a' <- pa_build_pointers a' ptrs ;;
  wr arrays (ord - 2) a'.

(** the constructor of the builder and build(), lines 16-100 *)
Definition ptrie_build (env : penv) (files : list (list (list N))) (order remap : N) : res ptrie :=
  _ <- check_order order ;;
  _ <- check_remapping_order remap ;;
  fs <- mapM (rd files) (range order) ;;
  values <- mapM (fun lines => mapM (fun l => ' (_, c) <- parse_count_line l ;; Ok c) lines) fs ;;
  cb <- sc_add_all scb_empty values (te_sorts (pe_t env)) ;;
  lines1 <- rd files 0 ;;
  ' (v, arrays) <- pbuild_vocabulary env cb lines1 (map (fun f => parr_new (lenN f)) fs) ;;
  arrays <- foldM (pbuild_order env v cb remap files) (seqN 2 (N.to_nat (order - 1))) arrays ;;
  Ok (mkptrie order remap (sb_seqs cb) v arrays).
