(** * Model of trie_prob_lm (include/trie_prob_lm.hpp) and of its score function (include/score.hpp)

    Instances: Vocabulary = double_valued_mpht64, Values = quantized_sequence_collection,
    Ranks = compact_vector, Grams = fast_ef_sequence, Pointers = ef_sequence, Mapper =
    identity_mapper or sorted_array_mapper (lm_types.hpp 79-108).  The uniform_pef_sequence
    instances are not modelled here.

    An ARPA file is the list of the lines of its sections (as in M_MphProb); the line after a
    section is taken to be blank.  std::sort, strtod and the peeling orders are parameters. *)
From Coq Require Import Floats.SpecFloat.
From Verif Require Import Prelude M_Word M_Bits M_CompactVector M_DArray M_EF M_HashVec M_Mph M_FastEF M_Text M_SeqColl M_Pool M_Trie M_Score M_Quant M_MphProb.

(** ** what the build and the queries depend on besides the file *)
Record tpenv := mktpenv {
  tp_h : list N -> triple;            (* hash function of the vocabulary *)
  tp_vorder : list edge;              (* peeling order found for the vocabulary [emphf] *)
  tp_hu : N -> N -> triple;           (* hash function of the gram sequence of array i *)
  tp_orders : N -> list edge;         (* its peeling order [emphf] *)
  tp_map : bool;                      (* sorted_array_mapper instead of identity_mapper *)
  tp_sort : list F -> list F;         (* std::sort *)
  tp_sd : list N -> N -> F * N;       (* strtod and conversion to float *)
  tp_pad : list N                     (* the words that can be read after the end of a rank vector:
                                         [] = none, so that reading there is undefined *) }.
(** reading the values (lines 34-66) and the unk probability (158-164) is the same code as in mph_prob_lm *)
Definition tp_penv (env : tpenv) : penv :=
  mkpenv 64 (fun _ => tp_h env) (fun _ => tp_vorder env) (tp_sort env) (tp_sd env) 0.

(** ** sorted_array with value_type::prob_backoff (sorted_array.hpp 111-240): the gram ids and
    pointers are those of M_Trie, the count ranks are never built *)
Record parr := mkparr { a_sa : sarr; a_pb : option cv }.
(** prob_backoff_rank, sorted_array.hpp 134-137: compact_vector::access, an 8-byte load *)
Definition a_rank (env : tpenv) (a : parr) (pos : N) : res N :=
  match a_pb a with
  | Some c => cv_access (mkcv (c_size c) (c_width c) (c_mask c) (c_bits c ++ tp_pad env)) pos
  | None => UB
  end.
(** sorted_array::builder, lines 37-42: gram ids, the unused count ranks, interleaved ranks *)
Record pab := mkpab { pb_grams : cvb; pb_ranks : cvb }.
Definition pab_new (num_grams max_gram_id quantization_bits : N) : res pab :=
  g <- cvb_new num_grams (ceil_log2 (add64 max_gram_id 1)) ;;
  _ <- cvb_new num_grams (ceil_log2 (add64 0 1)) ;;
  r <- cvb_new num_grams (u8 quantization_bits) ;; Ok (mkpab g r).
(** build, lines 57-76, and build_probs_backoffs_ranks, 85-90 *)
Definition pab_build (h : N -> triple) (eo : list edge) (b : pab) (a : parr) (ptrs : list N) : res parr :=
  ids <- cv_all (cv_of_builder (pb_grams b)) ;;
  f <- fef_build h eo ids ptrs ;;
  rs <- cv_all (cv_of_builder (pb_ranks b)) ;;
  c <- cv_build rs ;;
  Ok (mkparr (mksarr (s_size (a_sa a)) (Some f) (s_ranks (a_sa a)) (s_ptrs (a_sa a))) (Some c)).

(** members, lines 372-379 *)
Record tpl := mktpl { tp_order : N; tp_remap : N; tp_unk : F; tp_probs : qsc; tp_backoffs : qsc; tp_vocab : dvt; tp_arrays : list parr }.

(** vocab->lookup(range, identity_adaptor()) and lookup_pair *)
Definition plook (h : list N -> triple) (v : dvt) (buf : list N) (r : byte_range) : res N :=
  g <- bytes_at buf r ;; dvt_lookup 64 h v g.
Definition plook_pair (h : list N -> triple) (v : dvt) (buf : list N) (r : byte_range) : res (N * N) :=
  g <- bytes_at buf r ;; dvt_lookup_pair 64 h v g.

(** ** sorted_array_mapper *)
(** map_id(byte_range, ...), mappers.hpp 83-115, with reversed = true (trie_prob_lm.hpp 258-263) *)
Definition map_gram_rev (env : tpenv) (v : dvt) (arrays : list parr) (remap : N) (buf : list N) (gram : byte_range) (id : N) : res N :=
  begin_ <- to buf gram remap ;;
  parent_id <- plook (tp_h env) v buf begin_ ;;
  a0 <- rd arrays 0 ;;
  r <- sa_range (a_sa a0) parent_id ;;
  r <- (if remap =? 2 then
          next_word <- prev buf begin_ ;;
          next_id <- plook (tp_h env) v buf next_word ;;
          a1 <- rd arrays 1 ;;
          ' (_, r) <- sa_next (tp_hu env 1) (a_sa a1) r next_id ;; Ok r
        else Ok r) ;;
  a <- rd arrays remap ;;
  map_in (tp_hu env remap) r id (a_sa a).
(** map_id(parent_id, parent_parent_id, id, ...), mappers.hpp 69-81 *)
Definition map_ids (env : tpenv) (arrays : list parr) (parent_id parent_parent_id id remap : N) : res N :=
  a0 <- rd arrays 0 ;;
  r <- (if remap =? 1 then sa_range (a_sa a0) parent_id
        else
          r <- sa_range (a_sa a0) parent_parent_id ;;
          a1 <- rd arrays 1 ;;
          ' (_, r) <- sa_next (tp_hu env 1) (a_sa a1) r parent_id ;; Ok r) ;;
  a <- rd arrays remap ;;
  map_in (tp_hu env remap) r id (a_sa a).

(** ** builder *)
(** the loop of lines 230-241: the head of [prv] is the current line of the previous order;
    moving on reads the next line, which is blank after the last one *)
Fixpoint tp_advance (sd : list N -> N -> F * N) (buf : list N) (pattern : byte_range) (prv : list (list N)) (ptrs : list N) (pos : N) : res (list (list N) * list N) :=
  match prv with
  | [] => Ok ([], ptrs)
  | l :: rest =>
      r <- parse_arpa_line sd l ;;
      eq <- equal_bytes buf (c_str l) pattern (r_gram r) ;;
      if (eq : bool) then Ok (prv, ptrs) else
      _ <- parse_arpa_line sd (hd [] rest) ;;
      tp_advance sd buf pattern rest (ptrs ++ [pos]) pos
  end.
Record pbst := mkpbst { pbs_prv : list (list N); pbs_ptrs : list N; pbs_pos : N; pbs_pab : pab }.
(** one iteration of lines 221-281; exit(1) is Throw *)
Definition tp_step (env : tpenv) (v : dvt) (arrays : list parr) (pb bb : qsc) (order m_order remap : N) (s : pbst) (l : list N) : res pbst :=
  r <- parse_arpa_line (tp_sd env) l ;;
  let buf := c_str l in
  let gram := r_gram r in
  pattern <- suffix buf gram ;;
  let token := (fst gram, sub64 (fst pattern) 1) in
  ' (prv, ptrs) <- tp_advance (tp_sd env) buf pattern (pbs_prv s) (pbs_ptrs s) (pbs_pos s) ;;
  match prv with
  | [] => Throw
  | _ =>
      let pos := pbs_pos s + 1 in
      ' (token_id, _) <- plook_pair (tp_h env) v buf token ;;
      token_id <- (if tp_map env && (remap + 1 <? order) then map_gram_rev env v arrays remap buf gram token_id else Ok token_id) ;;
      g <- cvb_push_back (pb_grams (pbs_pab s)) token_id ;;
      prob_rank <- q_rank pb (order - 2) (r_prob r) 0 ;;
      rank <- (if order =? m_order then Ok prob_rank else
               backoff_rank <- q_rank bb (order - 2) (r_backoff r) 1 ;;
               bits <- q_qbits pb (order - 2) ;;
               Ok (rank_pack bits prob_rank backoff_rank)) ;;
      rk <- cvb_push_back (pb_ranks (pbs_pab s)) rank ;;
      Ok (mkpbst prv ptrs pos (mkpab g rk))
  end.
(** build_ngrams, lines 201-287: the pointers and the finished builder *)
Definition tp_ngrams (env : tpenv) (v : dvt) (arrays : list parr) (pb bb : qsc) (order m_order remap : N) (cur prv : list (list N)) (b : pab) : res (list N * pab) :=
  _ <- parse_arpa_line (tp_sd env) (hd [] prv) ;;
  s <- foldM (tp_step env v arrays pb bb order m_order remap) cur (mkpbst prv [0] 0 b) ;;
  Ok (pbs_ptrs s ++ repeat (pbs_pos s) (length (pbs_prv s)), pbs_pab s).

(** build_vocabulary, lines 141-199: the values, the pool of the unigrams (strings_pool, pools.hpp 14-34:
    appending never fails), the ids *)
Definition tp_vocabulary (env : tpenv) (lines : list (list N)) : res dvt :=
  let n := lenN lines in
  c <- cvb_new n 64 ;;
  ' (data, offs, c) <- foldM (fun s l =>
      let '(data, offs, c) := s in
      r <- parse_arpa_line (tp_sd env) l ;;
      let data := data ++ prec_bytes l r in
      c <- cvb_push_back c (pack (f_bits (r_prob r)) (f_bits (r_backoff r))) ;;
      Ok (data, offs ++ [lenN data], c)) lines ([], [0], c) ;;
  keys <- mapM (fun i => b <- rd offs i ;; e <- rd offs (i + 1) ;; bytes_at data (b, e)) (range (lenN offs - 1)) ;;
  ids <- cvb_new n (ceil_log2 (add64 n 1)) ;;
  ids <- foldM cvb_push_back (range n) ids ;;
  dvt_build 64 (tp_h env) (hash_domain (lenN keys)) (tp_vorder env) keys (cv_of_builder ids) (cv_of_builder c).

(** the body of the loop of lines 74-103, for order [ord] *)
Definition tp_build_order (env : tpenv) (v : dvt) (pb bb : qsc) (remap : N) (secs : list (list (list N))) (order pq bq : N) (arrays : list parr) (ord : N) : res (list parr) :=
  prv <- rd secs (ord - 2) ;;
  cur <- rd secs (ord - 1) ;;
  b <- pab_new (lenN cur) (m_n (dv_h v)) (pq + (if ord =? order then 0 else bq)) ;;
  ' (ptrs, b) <- tp_ngrams env v arrays pb bb ord order remap cur prv b ;;
  a <- rd arrays (ord - 1) ;;
  a <- pab_build (tp_hu env (ord - 1)) (tp_orders env (ord - 1)) b a ptrs ;;
  arrays <- wr arrays (ord - 1) a ;;
  a' <- rd arrays (ord - 2) ;;
  s' <- sa_build_pointers (a_sa a') ptrs ;;
  wr arrays (ord - 2) (mkparr s' (a_pb a')).

(** the constructor of the builder and build(), lines 21-118.  A section left after the last one
    read makes parse_eof abort (line 68; parsers.hpp 182-185). *)
Definition tp_build (env : tpenv) (secs : list (list (list N))) (order remap : N) (unk : F) (pq bq : N) : res tpl :=
  _ <- check_order order ;;
  _ <- check_remapping_order remap ;;
  if lenN secs <? order then Throw else
  ' (pb, bb) <- mp_values (tp_penv env) secs order pq bq ;;
  if order <? lenN secs then Throw else
  uni <- rd secs 0 ;;
  unk <- set_unk (tp_penv env) uni unk ;;
  v <- tp_vocabulary env uni ;;
  arrays <- foldM (tp_build_order env v pb bb remap secs order pq bq) (seqN 2 (N.to_nat (order - 1)))
                  (map (fun l => mkparr (sarr_new (lenN l)) None) secs) ;;
  Ok (mktpl order remap unk pb bb v arrays).

(** ** score.hpp *)
(** state, lines 296-298 of trie_prob_lm.hpp *)
Definition tp_state (m : tpl) : res (pstate N) := ps_new 0 (tp_order m).
(** the variables of the loop besides the state: the range, prev_id, prev_prev_id *)
Definition tp_loop : Type := (N * N) * N * N.
(** one round, score.hpp 39-77.  The word of the window is read before the test of line 39 here,
    after it in the code; reading a word of the window has no effect. *)
Definition tp_probe (env : tpenv) (m : tpl) (order_m1 word : N) (v : tp_loop) : res (option (F * option F * tp_loop)) :=
  let '(r, prev_id, prev_prev_id) := v in
  if sub64 (snd r) (fst r) =? 0 then Ok None else
  id <- (if tp_map env && (tp_remap m <? order_m1) then map_ids env (tp_arrays m) prev_id prev_prev_id word (tp_remap m) else Ok word) ;;
  a <- rd (tp_arrays m) order_m1 ;;
  pos <- sa_position (tp_hu env order_m1) (a_sa a) r id ;;
  if pos =? not_found then Ok None else
  bits <- q_qbits (tp_probs m) (order_m1 - 1) ;;
  rank <- a_rank env a pos ;;
  let '(prob_rank, backoff_rank) := rank_unpack bits rank in
  prob <- q_access (tp_probs m) (order_m1 - 1) prob_rank ;;
  if negb (order_m1 =? sub64 (tp_order m) 1) then
    backoff <- q_access (tp_backoffs m) (order_m1 - 1) backoff_rank ;;
    r <- sa_range (a_sa a) pos ;;
    Ok (Some (prob, Some backoff, (r, word, prev_id)))
  else Ok (Some (prob, None, (r, word, prev_id))).
(** score, score.hpp 8-99: the words of the window are vocabulary ids.
    Simplification: the range of line 35 is computed before the back-off is stored, which makes no difference. *)
Definition tp_score (env : tpenv) (m : tpl) (buf : list N) (st : pstate N) (w : byte_range) : res (F * pstate N * bool) :=
  ' (id, value) <- plook_pair (tp_h env) (tp_vocab m) buf w ;;
  found <- (if id =? not_found then Ok None else
            let '(p, b) := unpack value in
            a0 <- rd (tp_arrays m) 0 ;;
            r <- sa_range (a_sa a0) id ;;
            Ok (Some (f_of_bits p, f_of_bits b, (r, id, id)))) ;;
  score_with (tp_unk m) found (tp_probe env m) st id.
(** scoring the words of a sentence one after the other: the scores, the final state, the OOV flags *)
Fixpoint tp_sentence (env : tpenv) (m : tpl) (buf : list N) (st : pstate N) (ws : list byte_range) : res (list (F * bool) * pstate N) :=
  match ws with
  | [] => Ok ([], st)
  | w :: ws =>
      ' (x, st, oov) <- tp_score env m buf st w ;;
      ' (xs, st) <- tp_sentence env m buf st ws ;;
      Ok ((x, oov) :: xs, st)
  end.
