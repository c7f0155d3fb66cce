(** * Model of trie_count_lm (include/trie_count_lm.hpp), with include/vectors/sorted_array.hpp
    and include/mappers.hpp

    Instances: Vocabulary = single_valued_mpht64, Values = sequence_collection,
    Ranks = indexed_codewords_sequence or prefix_summed_sequence<ef_sequence>,
    Grams = fast_ef_sequence, Pointers = ef_sequence, Mapper = identity_mapper or
    sorted_array_mapper (lm_types.hpp 40-60).  The uniform_pef_sequence instances are
    not modelled here.

    An n-gram file is the list of its lines after the header line, whose number is taken to
    be the number of lines (parsers.hpp 256-309); gzip and iostreams are not modelled. *)
From Verif Require Import Prelude M_Word M_Bits M_CompactVector M_DArray M_EF M_HashVec M_Mph M_FastEF M_Text M_SeqColl M_Pool.

(** ** count ranks *)
Inductive rkind := IC | PSEF.
Inductive ranks := RIC (s : icw) | RPS (p : pss).
Definition ranks_build (k : rkind) (vs : list N) (order : N) : res ranks :=
  match k with
  | IC => s <- icw_build vs ;; Ok (RIC s)
  | PSEF => p <- pss_build vs order ;; Ok (RPS p)
  end.
Definition ranks_get (r : ranks) (i : N) : res N := match r with RIC s => icw_get s i | RPS p => pss_get p i end.

(** ** sorted_array (sorted_array.hpp 111-240); None: a member that was never built *)
Record sarr := mksarr { s_size : N; s_grams : option fef; s_ranks : option ranks; s_ptrs : option ef }.
(** line 113 *)
Definition sarr_new (size : N) : sarr := mksarr size None None None.
(** range, lines 115-118 *)
Definition sa_range (s : sarr) (pos : N) : res (N * N) := match s_ptrs s with Some e => ptr_range e pos | None => UB end.
(** position, lines 139-143; [h]: the hash function inside the gram sequence *)
Definition sa_position (h : N -> triple) (s : sarr) (r : N * N) (id : N) : res N :=
  match s_grams s with Some f => fef_find h f r id | None => UB end.
(** next, lines 120-127: the position and the updated range *)
Definition sa_next (h : N -> triple) (s : sarr) (r : N * N) (id : N) : res (N * (N * N)) :=
  pos <- sa_position h s r id ;;
  if pos =? not_found then Ok (not_found, r) else r' <- sa_range s pos ;; Ok (pos, r').
(** count_rank, lines 129-132 *)
Definition sa_count_rank (s : sarr) (pos : N) : res N := match s_ranks s with Some r => ranks_get r pos | None => UB end.

(** sorted_array::builder, lines 34-109 (the probs/backoffs vector is not used here) *)
Record sab := mksab { ab_grams : cvb; ab_ranks : cvb }.
(** lines 37-42 *)
Definition sab_new (num_grams max_gram_id max_count_rank : N) : res sab :=
  g <- cvb_new num_grams (ceil_log2 (add64 max_gram_id 1)) ;;
  r <- cvb_new num_grams (ceil_log2 (add64 max_count_rank 1)) ;; Ok (mksab g r).
(** reading a finished vector through its iterator *)
Definition cv_all (c : cv) : res (list N) := cvit_take c (cvit_new c 0) (N.to_nat (c_size c)).
(** build_counts_ranks, lines 78-83 *)
Definition sab_build_ranks (k : rkind) (b : sab) (s : sarr) (order : N) : res sarr :=
  vs <- cv_all (cv_of_builder (ab_ranks b)) ;;
  r <- ranks_build k vs order ;; Ok (mksarr (s_size s) (s_grams s) (Some r) (s_ptrs s)).
(** build, lines 57-76, for value_type::count *)
Definition sab_build (k : rkind) (h : N -> triple) (eo : list edge) (b : sab) (s : sarr) (ptrs : list N) (order : N) : res sarr :=
  ids <- cv_all (cv_of_builder (ab_grams b)) ;;
  f <- fef_build h eo ids ptrs ;;
  sab_build_ranks k b (mksarr (s_size s) (Some f) (s_ranks s) (s_ptrs s)) order.
(** build_pointers, lines 92-95 *)
Definition sa_build_pointers (s : sarr) (ptrs : list N) : res sarr :=
  e <- ptr_build ptrs ;; Ok (mksarr (s_size s) (s_grams s) (s_ranks s) (Some e)).

(** ** what the build depends on besides the files *)
Record tenv := mktenv {
  te_h : list N -> triple;            (* hash function of the vocabulary *)
  te_vorder : list edge;              (* peeling order found for the vocabulary [emphf] *)
  te_hu : N -> N -> triple;           (* hash function of the gram sequence of array i *)
  te_orders : N -> list edge;         (* its peeling order [emphf] *)
  te_sorts : list (list (N * N));     (* the result of std::sort in sequence_collection, per order *)
  te_kind : rkind;                    (* type of the count ranks *)
  te_map : bool;                      (* sorted_array_mapper instead of identity_mapper *)
  te_ram : N                          (* bytes granted to the unigram pool *) }.

(** the bytes of a range *)
Definition bytes_at (buf : list N) (r : byte_range) : res (list N) :=
  if (fst r <=? snd r) && (snd r <=? lenN buf)
  then Ok (firstn (N.to_nat (snd r - fst r)) (skipn (N.to_nat (fst r)) buf)) else UB.
(** vocab->lookup(byte range, identity_adaptor()) *)
Definition vlook (h : list N -> triple) (v : svt) (buf : list N) (r : byte_range) : res N :=
  g <- bytes_at buf r ;; svt_lookup 64 h v g.

(** ** sorted_array_mapper (mappers.hpp 64-239) *)
(** map_id(pointer_range, id, ngrams), lines 117-128 *)
Definition map_in (h : N -> triple) (r : N * N) (id : N) (ngrams : sarr) : res N :=
  pos <- sa_position h ngrams r id ;; if pos =? not_found then Ok not_found else Ok (sub64 pos (fst r)).
(** map_id(byte_range, ...), lines 83-115, with reversed = false (as trie_count_lm.hpp 219-222 calls it) *)
Definition map_gram (env : tenv) (v : svt) (arrays : list sarr) (remap : N) (buf : list N) (gram : byte_range) (id : N) : res N :=
  begin_ <- back_to buf gram remap ;;
  parent_id <- vlook (te_h env) v buf begin_ ;;
  a0 <- rd arrays 0 ;;
  r <- sa_range a0 parent_id ;;
  r <- (if remap =? 2 then
          next_word <- next buf begin_ ;;
          next_id <- vlook (te_h env) v buf next_word ;;
          a1 <- rd arrays 1 ;;
          ' (_, r) <- sa_next (te_hu env 1) a1 r next_id ;; Ok r
        else Ok r) ;;
  a <- rd arrays remap ;;
  map_in (te_hu env remap) r id a.
(** the private map_id, lines 227-238 *)
Definition map_parents (env : tenv) (arrays : list sarr) (id : N) (pids : list N) (order remap : N) : res N :=
  parent_id <- rd pids (sub64 (add64 order 1) remap) ;;
  a0 <- rd arrays 0 ;;
  r <- sa_range a0 parent_id ;;
  r <- (if remap =? 2 then
          p <- rd pids order ;;
          a1 <- rd arrays 1 ;;
          ' (_, r) <- sa_next (te_hu env 1) a1 r p ;; Ok r
        else Ok r) ;;
  a <- rd arrays remap ;;
  map_in (te_hu env remap) r id a.

(** identity_mapper::map_query, lines 25-61; the result is the order minus 1, or not_found,
    with the array word_ids *)
Fixpoint mq_identity (fuel : nat) (h : list N -> triple) (v : svt) (buf : list N) (first last pos prev order : N) (wids : list N) : res (N * list N) :=
  let finish pos :=
    id <- vlook h v buf (prev, pos) ;;
    if id =? not_found then Ok (not_found, wids)
    else wids <- wr wids order id ;; Ok (order, wids) in
  if pos =? last then finish pos else
  match fuel with
  | O => UB
  | S f =>
      c <- rd buf pos ;;
      if c =? c_space then
        if pos =? first then finish (pos + 1)
        else
          id <- vlook h v buf (prev, pos) ;;
          if id =? not_found then Ok (not_found, wids)
          else wids <- wr wids order id ;; mq_identity f h v buf first last (pos + 1) (pos + 1) (order + 1) wids
      else mq_identity f h v buf first last (pos + 1) prev order wids
  end.

(** sorted_array_mapper::map_query: the inner loop, lines 169-212 *)
Fixpoint mq_inner (fuel : nat) (env : tenv) (v : svt) (arrays : list sarr) (remap : N) (buf : list N) (last pos prev order : N) (wids pids : list N)
  : res (N * list N * list N) :=
  if pos =? last then
    id <- vlook (te_h env) v buf (prev, pos) ;;
    if id =? not_found then Ok (not_found, wids, pids) else
    mapped <- (if negb (order =? 2) || negb (remap =? 2) then map_parents env arrays id pids order remap else Ok id) ;;
    if mapped =? not_found then Ok (not_found, wids, pids) else
    wids <- wr wids order mapped ;; Ok (order, wids, pids)
  else
  match fuel with
  | O => UB
  | S f =>
      c <- rd buf pos ;;
      if c =? c_space then
        id <- vlook (te_h env) v buf (prev, pos) ;;
        if id =? not_found then Ok (not_found, wids, pids) else
        mapped <- (if (order =? 2) && (remap =? 2) then Ok id else map_parents env arrays id pids order remap) ;;
        if mapped =? not_found then Ok (not_found, wids, pids) else
        wids <- wr wids order mapped ;;
        pids <- wr pids (order + 1) id ;;
        mq_inner f env v arrays remap buf last (pos + 1) (pos + 1) (order + 1) wids pids
      else mq_inner f env v arrays remap buf last (pos + 1) prev order wids pids
  end.
(** the outer loop, lines 132-225 *)
Fixpoint mq_sorted (fuel : nat) (env : tenv) (v : svt) (arrays : list sarr) (remap : N) (buf : list N) (first last pos prev order : N) (wids pids : list N)
  : res (N * list N * list N) :=
  let finish pos :=
    id <- vlook (te_h env) v buf (prev, pos) ;;
    if id =? not_found then Ok (not_found, wids, pids)
    else wids <- wr wids order id ;; Ok (order, wids, pids) in
  if pos =? last then finish pos else
  match fuel with
  | O => UB
  | S f =>
      c <- rd buf pos ;;
      if c =? c_space then
        if pos =? first then finish (pos + 1)
        else
          id <- vlook (te_h env) v buf (prev, pos) ;;
          if id =? not_found then Ok (not_found, wids, pids) else
          wids <- wr wids order id ;;
          let order := order + 1 in
          pids <- wr pids order id ;;
          if order =? 2 then mq_inner f env v arrays remap buf last (pos + 1) (pos + 1) order wids pids
          else mq_sorted f env v arrays remap buf first last (pos + 1) (pos + 1) order wids pids
      else mq_sorted f env v arrays remap buf first last (pos + 1) prev order wids pids
  end.

(** ** the trie *)
(** members, lines 316-322 *)
Record trie := mktrie { t_order : N; t_remap : N; t_counts : list cv; t_vocab : svt; t_arrays : list sarr }.
(** the two static arrays of the query path: word_ids (line 253) and parent_ids (mappers.hpp 143),
    both of global::max_order = 8 entries; they survive from call to call *)
Definition statics : Type := list N * list N.

(** the loop of lines 261-269 *)
Fixpoint descend (n : nat) (env : tenv) (arrays : list sarr) (wids : list N) (i pos : N) : res N :=
  match n with
  | O => Ok pos
  | S n =>
      a <- rd arrays (i - 1) ;;
      r <- sa_range a pos ;;
      b <- rd arrays i ;;
      w <- rd wids i ;;
      pos <- sa_position (te_hu env i) b r w ;;
      if pos =? not_found then Ok not_found else descend n env arrays wids (i + 1) pos
  end.
(** lookup, lines 251-273, on the bytes [r] of [buf]; also returns the static arrays *)
Definition trie_lookup (env : tenv) (t : trie) (st : statics) (buf : list N) (r : byte_range) : res (N * statics) :=
  let '(wids, pids) := st in
  ' (o, wids, pids) <-
    (if te_map env then mq_sorted (S (length buf)) env (t_vocab t) (t_arrays t) (t_remap t) buf (fst r) (snd r) (fst r) (fst r) 0 wids pids
     else ' (o, wids) <- mq_identity (S (length buf)) (te_h env) (t_vocab t) buf (fst r) (snd r) (fst r) (fst r) 0 wids ;; Ok (o, wids, pids)) ;;
  if (o =? not_found) || (t_order t <? o) then Ok (not_found, (wids, pids)) else
  w0 <- rd wids 0 ;;
  pos <- descend (N.to_nat o) env (t_arrays t) wids 1 w0 ;;
  if (pos =? not_found) && negb (o =? 0) then Ok (not_found, (wids, pids)) else
  a <- rd (t_arrays t) o ;;
  rank <- sa_count_rank a pos ;;
  c <- sc_access (t_counts t) o rank ;;
  Ok (c, (wids, pids)).

(** ** builder *)
(** the loop over prv_order_begin, lines 186-196: the remaining previous lines and the pointers *)
Fixpoint advance (buf : list N) (pattern : byte_range) (prv : list (list N)) (ptrs : list N) (pointer : N) : res (list (list N) * list N) :=
  match prv with
  | [] => Ok ([], ptrs)
  | l :: rest =>
      ' (g, _) <- parse_count_line l ;;
      eq <- equal_bytes buf (c_str l) pattern g ;;
      if (eq : bool) then Ok (prv, ptrs) else advance buf pattern rest (ptrs ++ [pointer]) pointer
  end.
Record bstate := mkbst { bs_prv : list (list N); bs_ptrs : list N; bs_pointer : N; bs_sab : sab }.
(** one iteration of lines 175-240; exit(1) is Throw *)
Definition ngram_step (env : tenv) (v : svt) (arrays : list sarr) (cb : scb) (order remap : N) (s : bstate) (l : list N) : res bstate :=
  ' (gram, count) <- parse_count_line l ;;
  let buf := c_str l in
  pattern <- predecessor buf gram ;;
  let token := (snd pattern + 1, snd gram) in
  ' (prv, ptrs) <- advance buf pattern (bs_prv s) (bs_ptrs s) (bs_pointer s) ;;
  match prv with
  | [] => Throw
  | _ =>
      let pointer := bs_pointer s + 1 in
      token_id <- vlook (te_h env) v buf token ;;
      token_id <- (if te_map env && (remap + 1 <? order) then
                     m <- map_gram env v arrays remap buf gram token_id ;;
                     if m =? not_found then Throw else Ok m
                   else Ok token_id) ;;
      g <- cvb_push_back (ab_grams (bs_sab s)) token_id ;;
      rank <- sc_rank cb (order - 1) count ;;
      rk <- cvb_push_back (ab_ranks (bs_sab s)) rank ;;
      Ok (mkbst prv ptrs pointer (mksab g rk))
  end.
(** build_ngrams, lines 160-246: the pointers and the finished builder *)
Definition build_ngrams (env : tenv) (v : svt) (arrays : list sarr) (cb : scb) (order remap : N) (cur prv : list (list N)) (b : sab) : res (list N * sab) :=
  s <- foldM (ngram_step env v arrays cb order remap) cur (mkbst prv [0] 0 b) ;;
  Ok (bs_ptrs s ++ repeat (bs_pointer s) (length (bs_prv s)), bs_sab s).

(** build_vocabulary, lines 119-158: the vocabulary and the ranks of the unigrams *)
Definition build_vocabulary (env : tenv) (cb : scb) (lines : list (list N)) (arrays : list sarr) : res (svt * list sarr) :=
  p <- pool_load (pool_new (te_ram env)) lines ;;
  let n := lenN (p_index p) in
  recs <- mapM (pool_record p) (range n) ;;
  size0 <- sc_size cb 0 ;;
  b <- sab_new n 0 size0 ;;
  rk <- foldM (fun c (rc : list N * N) => rank <- sc_rank cb 0 (snd rc) ;; cvb_push_back c rank) recs (ab_ranks b) ;;
  a0 <- rd arrays 0 ;;
  a0 <- sab_build_ranks (te_kind env) (mksab (ab_grams b) rk) a0 1 ;;
  arrays <- wr arrays 0 a0 ;;
  ids <- cvb_new n (ceil_log2 (add64 n 1)) ;;
  ids <- foldM cvb_push_back (range n) ids ;;
  v <- svt_build 64 (te_h env) (hash_domain n) (te_vorder env) (map fst recs) (cv_of_builder ids) ;;
  Ok (v, arrays).

(** the body of the loop of lines 47-84, for order [ord] *)
Definition build_order (env : tenv) (v : svt) (cb : scb) (remap : N) (files : list (list (list N))) (arrays : list sarr) (ord : N) : res (list sarr) :=
  prv <- rd files (ord - 2) ;;
  cur <- rd files (ord - 1) ;;
  let n := lenN cur in
  maxr <- sc_size cb (ord - 1) ;;
  b <- sab_new n (m_n (sv_h v)) maxr ;;
  ' (ptrs, b) <- build_ngrams env v arrays cb ord remap cur prv b ;;
  a <- rd arrays (ord - 1) ;;
  a <- sab_build (te_kind env) (te_hu env (ord - 1)) (te_orders env (ord - 1)) b a ptrs ord ;;
  arrays <- wr arrays (ord - 1) a ;;
  a' <- rd arrays (ord - 2) ;;
  a' <- sa_build_pointers a' ptrs ;;
  wr arrays (ord - 2) a'.

(** the constructor of the builder and build(), lines 16-100 *)
Definition trie_build (env : tenv) (files : list (list (list N))) (order remap : N) : res trie :=
  _ <- check_order order ;;
  _ <- check_remapping_order remap ;;
  fs <- mapM (rd files) (range order) ;;
  values <- mapM (fun lines => mapM (fun l => ' (_, c) <- parse_count_line l ;; Ok c) lines) fs ;;
  cb <- sc_add_all scb_empty values (te_sorts env) ;;
  lines1 <- rd files 0 ;;
  ' (v, arrays) <- build_vocabulary env cb lines1 (map (fun f => sarr_new (lenN f)) fs) ;;
  arrays <- foldM (build_order env v cb remap files) (seqN 2 (N.to_nat (order - 1))) arrays ;;
  Ok (mktrie order remap (sb_seqs cb) v arrays).
