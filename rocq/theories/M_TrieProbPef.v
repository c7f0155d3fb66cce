(** * Model of trie_prob_lm for the four instances of lm_types.hpp 81-92

    The same functions as in M_TrieProb (include/trie_prob_lm.hpp, include/mappers.hpp,
    include/score.hpp, include/vectors/sorted_array.hpp), for Grams = fast_ef_sequence or
    uniform_pef_sequence.  As in M_TriePef each search returns the arrays it leaves behind: the
    enumerator inside a uniform_pef_sequence moves.  A sorted_array is split in two here: gram ids and
    pointers (the arrays of M_TriePef, whose count ranks are never built) and the vector of the
    interleaved prob and back-off ranks. *)
From Coq Require Import Floats.SpecFloat.
From Verif Require Import Prelude M_Word M_Bits M_CompactVector M_DArray M_EF M_HashVec M_Mph M_FastEF M_Text M_SeqColl M_Pool M_Pef M_Trie
  M_Score M_Quant M_MphProb M_TrieProb M_ArpaFile M_Save M_SavePef M_Save2 M_ScoreCorpus.
From Verif Require Import M_TriePef.

Record qenv := mkqenv {
  qe_t : tpenv;                  (* as in M_TrieProb *)
  qe_pef : bool;                 (* Grams = uniform_pef_sequence instead of fast_ef_sequence *)
  qe_gpad : N -> pads            (* the words in memory after the arrays of the gram sequence of array i *) }.
(** the part of it that the gram sequences need *)
Definition genv (env : qenv) : penv :=
  let t := qe_t env in
  mkpenv (mktenv (tp_h t) (tp_vorder t) (tp_hu t) (tp_orders t) [] IC (tp_map t) 0) (qe_pef env) false (qe_gpad env) (fun _ => mkpads [] []) false.

(** members, lines 372-379 *)
Record qpl := mkqpl { qp_order : N; qp_remap : N; qp_unk : F; qp_probs : qsc; qp_backoffs : qsc; qp_vocab : dvt; qp_arrays : list parr; qp_ranks : list (option cv) }.
Definition qwith (m : qpl) (arrays : list parr) : qpl := mkqpl (qp_order m) (qp_remap m) (qp_unk m) (qp_probs m) (qp_backoffs m) (qp_vocab m) arrays (qp_ranks m).

(** prob_backoff_rank, sorted_array.hpp 134-137 *)
Definition q_rank_at (env : qenv) (o : option cv) (pos : N) : res N :=
  match o with
  | Some c => cv_access (mkcv (c_size c) (c_width c) (c_mask c) (c_bits c ++ tp_pad (qe_t env))) pos
  | None => UB
  end.

(** ** sorted_array_mapper *)
(** mappers.hpp 83-115, with reversed = true *)
Definition qmap_gram_rev (env : qenv) (v : dvt) (arrays : list parr) (remap : N) (buf : list N) (gram : byte_range) (id : N) : res (N * list parr) :=
  begin_ <- to buf gram remap ;;
  parent_id <- plook (tp_h (qe_t env)) v buf begin_ ;;
  r <- pa_range arrays 0 parent_id ;;
  ' (r, arrays) <-
    (if remap =? 2 then
       next_word <- prev buf begin_ ;;
       next_id <- plook (tp_h (qe_t env)) v buf next_word ;;
       ' (_, r, arrays) <- pa_next (genv env) arrays 1 r next_id ;; Ok (r, arrays)
     else Ok (r, arrays)) ;;
  pmap_in (genv env) arrays remap r id.
(** mappers.hpp 69-81 *)
Definition qmap_ids (env : qenv) (arrays : list parr) (parent_id parent_parent_id id remap : N) : res (N * list parr) :=
  ' (r, arrays) <-
    (if remap =? 1 then r <- pa_range arrays 0 parent_id ;; Ok (r, arrays)
     else
       r <- pa_range arrays 0 parent_parent_id ;;
       ' (_, r, arrays) <- pa_next (genv env) arrays 1 r parent_id ;; Ok (r, arrays)) ;;
  pmap_in (genv env) arrays remap r id.

(** ** builder *)
(** one iteration of lines 221-281; exit(1) is Throw *)
Definition qp_step (env : qenv) (v : dvt) (pb bb : qsc) (order m_order remap : N) (s : pbst * list parr) (l : list N) : res (pbst * list parr) :=
  let '(s, arrays) := s in
  r <- parse_arpa_line (tp_sd (qe_t env)) l ;;
  let buf := c_str l in
  let gram := r_gram r in
  pattern <- suffix buf gram ;;
  let token := (fst gram, sub64 (fst pattern) 1) in
  ' (prv, ptrs) <- tp_advance (tp_sd (qe_t env)) buf pattern (pbs_prv s) (pbs_ptrs s) (pbs_pos s) ;;
  match prv with
  | [] => Throw
  | _ =>
      let pos := pbs_pos s + 1 in
      ' (token_id, _) <- plook_pair (tp_h (qe_t env)) v buf token ;;
      ' (token_id, arrays) <-
        (if tp_map (qe_t env) && (remap + 1 <? order) then qmap_gram_rev env v arrays remap buf gram token_id else Ok (token_id, arrays)) ;;
      g <- cvb_push_back (pb_grams (pbs_pab s)) token_id ;;
      prob_rank <- q_rank pb (order - 2) (r_prob r) 0 ;;
      rank <- (if order =? m_order then Ok prob_rank else
               backoff_rank <- q_rank bb (order - 2) (r_backoff r) 1 ;;
               bits <- q_qbits pb (order - 2) ;;
               Ok (rank_pack bits prob_rank backoff_rank)) ;;
      rk <- cvb_push_back (pb_ranks (pbs_pab s)) rank ;;
      Ok (mkpbst prv ptrs pos (mkpab g rk), arrays)
  end.
(** build_ngrams, lines 201-287 *)
Definition qp_ngrams (env : qenv) (v : dvt) (arrays : list parr) (pb bb : qsc) (order m_order remap : N) (cur prv : list (list N)) (b : pab)
  : res (list N * pab * list parr) :=
  _ <- parse_arpa_line (tp_sd (qe_t env)) (hd [] prv) ;;
  ' (s, arrays) <- foldM (qp_step env v pb bb order m_order remap) cur (mkpbst prv [0] 0 b, arrays) ;;
  Ok (pbs_ptrs s ++ repeat (pbs_pos s) (length (pbs_prv s)), pbs_pab s, arrays).
(** sorted_array::builder::build, lines 57-76 and 85-90, for array k *)
Definition qab_build (env : qenv) (k : N) (b : pab) (a : parr) (ptrs : list N) (order : N) : res (parr * cv) :=
  ids <- cv_all (cv_of_builder (pb_grams b)) ;;
  g <- g_build (genv env) k ids ptrs order ;;
  rs <- cv_all (cv_of_builder (pb_ranks b)) ;;
  c <- cv_build rs ;;
  Ok (mkparr (p_size a) (Some g) (p_ranks a) (p_ptrs a), c).
(** the body of the loop of lines 74-103, for order [ord] *)
Definition qp_build_order (env : qenv) (v : dvt) (pb bb : qsc) (remap : N) (secs : list (list (list N))) (order pq bq : N) (s : list parr * list (option cv)) (ord : N)
  : res (list parr * list (option cv)) :=
  let '(arrays, ranks) := s in
  prv <- rd secs (ord - 2) ;;
  cur <- rd secs (ord - 1) ;;
  b <- pab_new (lenN cur) (m_n (dv_h v)) (pq + (if ord =? order then 0 else bq)) ;;
  ' (ptrs, b, arrays) <- qp_ngrams env v arrays pb bb ord order remap cur prv b ;;
  a <- rd arrays (ord - 1) ;;
  ' (a, c) <- qab_build env (ord - 1) b a ptrs ord ;;
  arrays <- wr arrays (ord - 1) a ;;
  ranks <- wr ranks (ord - 1) (Some c) ;;
  a' <- rd arrays (ord - 2) ;;
  a' <- pa_build_pointers a' ptrs ;;
  arrays <- wr arrays (ord - 2) a' ;;
  Ok (arrays, ranks).
(** the constructor of the builder and build(), lines 21-118 *)
Definition qp_build_file (env : qenv) (data : list N) (order remap : N) (unk : F) (pq bq : N) : res qpl :=
  _ <- check_order order ;;
  _ <- check_remapping_order remap ;;
  ' (pb, bb, secs) <- ap_load (tp_penv (qe_t env)) data order pq bq ;;
  uni <- rd secs 0 ;;
  unk <- set_unk (tp_penv (qe_t env)) uni unk ;;
  v <- tp_vocabulary (qe_t env) uni ;;
  ' (arrays, ranks) <- foldM (qp_build_order env v pb bb remap secs order pq bq) (seqN 2 (N.to_nat (order - 1)))
                  (map (fun l => parr_new (lenN l)) secs, map (fun _ => None) secs) ;;
  Ok (mkqpl order remap unk pb bb v arrays ranks).

(** ** score.hpp *)
Definition qp_state (m : qpl) : res (pstate N) := ps_new 0 (qp_order m).
(** one round, score.hpp 39-77; the arrays are those left by the searches *)
Definition qp_probe (env : qenv) (m : qpl) (order_m1 word : N) (v : tp_loop) (arrays : list parr) : res (option (F * option F * tp_loop) * list parr) :=
  let '(r, prev_id, prev_prev_id) := v in
  if sub64 (snd r) (fst r) =? 0 then Ok (None, arrays) else
  ' (id, arrays) <- (if tp_map (qe_t env) && (qp_remap m <? order_m1) then qmap_ids env arrays prev_id prev_prev_id word (qp_remap m) else Ok (word, arrays)) ;;
  ' (pos, arrays) <- pa_position (genv env) arrays order_m1 r id ;;
  if pos =? not_found then Ok (None, arrays) else
  bits <- q_qbits (qp_probs m) (order_m1 - 1) ;;
  o <- rd (qp_ranks m) order_m1 ;;
  rank <- q_rank_at env o pos ;;
  let '(prob_rank, backoff_rank) := rank_unpack bits rank in
  prob <- q_access (qp_probs m) (order_m1 - 1) prob_rank ;;
  if negb (order_m1 =? sub64 (qp_order m) 1) then
    backoff <- q_access (qp_backoffs m) (order_m1 - 1) backoff_rank ;;
    r <- pa_range arrays order_m1 pos ;;
    Ok (Some (prob, Some backoff, (r, word, prev_id)), arrays)
  else Ok (Some (prob, None, (r, word, prev_id)), arrays).

(** score, score.hpp 8-99 *)
Definition qp_score (env : qenv) (m : qpl) (buf : list N) (st : pstate N) (w : byte_range) : res (F * pstate N * bool * qpl) :=
  ' (id, value) <- plook_pair (tp_h (qe_t env)) (qp_vocab m) buf w ;;
  found <- (if id =? not_found then Ok None else
            let '(p, b) := unpack value in
            r <- pa_range (qp_arrays m) 0 id ;;
            Ok (Some (f_of_bits p, f_of_bits b, (r, id, id)))) ;;
  ' (x, st, oov, arrays) <- score_with_s (qp_unk m) found (qp_probe env m) st id (qp_arrays m) ;;
  Ok (x, st, oov, qwith m arrays).
Fixpoint qp_sentence (env : qenv) (m : qpl) (buf : list N) (st : pstate N) (ws : list byte_range) : res (list (F * bool) * pstate N * qpl) :=
  match ws with
  | [] => Ok ([], st, m)
  | w :: ws =>
      ' (x, st, oov, m) <- qp_score env m buf st w ;;
      ' (xs, st, m) <- qp_sentence env m buf st ws ;;
      Ok ((x, oov) :: xs, st, m)
  end.

(** ** src/score.cpp, as in M_ScoreCorpus *)
Fixpoint qp_line (fuel : nat) (env : qenv) (buf : list N) (t : tlines) (st : pstate N) (m : qpl) (sent oovp : F) : res (tlines * pstate N * qpl * F * F) :=
  if tl_eol t then Ok (t, st, m, sent, oovp) else
  match fuel with
  | O => UB
  | S f =>
      ' (w, t) <- tl_next buf t ;;
      ' (x, st, oov, m) <- qp_score env m buf st w ;;
      qp_line f env buf t st m (fadd sent x) (if oov then fadd oovp x else oovp)
  end.
Fixpoint qp_lines (fuel : nat) (env : qenv) (buf : list N) (t : tlines) (st : pstate N) (m : qpl) (tot : totals) : res (tlines * pstate N * totals) :=
  if tl_eof buf t then Ok (t, st, tot) else
  match fuel with
  | O => UB
  | S f =>
      st <- ps_init st ;;
      ' (t, st, m, sent, oovp) <- qp_line (S (length buf)) env buf (tl_begin_line t) st m fzero (tt_oov_prob tot) ;;
      qp_lines f env buf t st m (mktot (add64 (tt_oovs tot) (ps_oovs st)) (add64 (tt_sentences tot) 1) (fadd (tt_prob tot) sent) oovp)
  end.
Definition qp_corpus (env : qenv) (m : qpl) (buf : list N) : res (totals * N) :=
  st <- qp_state m ;;
  ' (t, _, tot) <- qp_lines (S (length buf)) env buf tl_init st m tot_init ;; Ok (tot, tl_words t).

(** ** save and load, trie_prob_lm.hpp 326-350 and sorted_array.hpp 188-232 *)
Definition save_qarr (x : ext) (env : qenv) (k : N) (a : parr) (o : option cv) : list N :=
  save_pod 8 (p_size a) ++
  (if k + 1 =? 1 then [] else save_gseq x (qe_pef env) (p_grams a) ++ save_opt save_cv cv0 o) ++
  save_opt save_ef ef0 (p_ptrs a).
Definition load_qarr (x : ext) (env : qenv) (k : N) (s : list N) : res (parr * option cv * list N) :=
  ' (n, s) <- load_pod 8 s ;;
  ' (g, v, s) <- (if k + 1 =? 1 then Ok (None, None, s) else
                  ' (g, s) <- load_gseq x (genv env) k s ;;
                  ' (v, s) <- load_opt load_cv (fun c => c_size c =? 0) s ;; Ok (g, v, s)) ;;
  ' (p, s) <- load_opt load_ef (fun e => ef_size e =? 0) s ;;
  Ok (mkparr n g None p, v, s).
Fixpoint save_qarrs (x : ext) (env : qenv) (k : N) (l : list parr) (o : list (option cv)) : list N :=
  match l, o with
  | a :: l, c :: o => save_qarr x env k a c ++ save_qarrs x env (k + 1) l o
  | _, _ => []
  end.
Fixpoint load_qarrs (x : ext) (env : qenv) (k : N) (n : nat) (s : list N) : res (list parr * list (option cv) * list N) :=
  match n with
  | O => Ok ([], [], s)
  | S n => ' (a, c, s) <- load_qarr x env k s ;; ' (l, o, s) <- load_qarrs x env (k + 1) n s ;; Ok (a :: l, c :: o, s)
  end.
Definition save_qpl (x : ext) (env : qenv) (m : qpl) : list N :=
  save_pod 1 (qp_order m) ++ save_pod 1 (qp_remap m) ++ save_pod 4 (f_bits (qp_unk m)) ++
  save_qsc (qp_probs m) ++ save_qsc (qp_backoffs m) ++ save_dvt x (qp_vocab m) ++ save_qarrs x env 0 (qp_arrays m) (qp_ranks m).
Definition load_qpl (x : ext) (env : qenv) (s : list N) : res (qpl * list N) :=
  ' (order, s) <- load_pod 1 s ;; ' (remap, s) <- load_pod 1 s ;; ' (u, s) <- load_pod 4 s ;;
  ' (p, s) <- load_qsc (sub64 order 1) s ;; ' (b, s) <- load_qsc (sub64 order 2) s ;;
  ' (v, s) <- load_dvt x s ;;
  if order =? 0 then UB else
  ' (l, o, s) <- load_qarrs x env 0 (N.to_nat order) s ;;
  Ok (mkqpl order remap (f_of_bits u) p b v l o, s).
