(** * Model of mph_prob_lm (include/mph_prob_lm.hpp), with Values = quantized_sequence_collection
    (lm_types.hpp 25-33) and of the reading of an ARPA file (parsers.hpp 94-192, iterators.hpp 66-91).

    An ARPA file is the list of the lines of its sections: the number of lines of a section
    is taken to be the count announced in the header, and the layout (titles, blank lines) is
    taken to be the expected one; the reading of the bytes of the file is modelled in M_ArpaFile.v,
    where both are proved for the files of the expected layout.  std::sort and strtod are parameters. *)
From Coq Require Import Floats.SpecFloat.
From Verif Require Import Prelude M_Word M_Bits M_CompactVector M_HashVec M_Mph M_Text M_Pool M_Trie M_Score M_Quant.

(** what the build depends on besides the file *)
Record penv := mkpenv {
  pe_hb : N;                        (* bits of a hash key: 32 or 64 *)
  pe_h : N -> list N -> triple;     (* hash function of the table of order k+1 *)
  pe_orders : N -> list edge;       (* its peeling order [emphf] *)
  pe_sort : list F -> list F;       (* std::sort *)
  pe_sd : list N -> N -> F * N;     (* strtod and conversion to float *)
  pe_ram : N                        (* bytes granted to the pool *) }.
(** members, lines 288-293 *)
Record mpl := mkmpl { mp_order : N; mp_unk : F; mp_probs : qsc; mp_backoffs : qsc; mp_tables : list svt }.

(** global::default_unk_prob, util.hpp 63: -100.0 *)
Definition default_unk : F := S754_finite true 13107200 (-17).
(** "<unk>" *)
Definition unk_word : list N := [60; 117; 110; 107; 62].

(** the bytes of the gram of a parsed line *)
Definition prec_bytes (line : list N) (r : prec) : list N :=
  firstn (N.to_nat (snd (r_gram r) - fst (r_gram r))) (skipn (N.to_nat (fst (r_gram r))) (c_str line)).

(** arpa_parser::read_values, parsers.hpp 129-154: probs and backoffs of a section *)
Definition read_values (sd : list N -> N -> F * N) (ord : N) (lines : list (list N)) : res (list F * list F) :=
  foldM (fun pb l =>
           r <- parse_arpa_line sd l ;;
           Ok (fst pb ++ [r_prob r],
               if (ord =? 1) || ftrue (r_backoff r) then snd pb ++ [r_backoff r] else snd pb)) lines ([], []).

(** lines 45-66: the quantized values of all orders *)
Definition mp_values (env : penv) (secs : list (list (list N))) (order pq bq : N) : res (qsc * qsc) :=
  foldM (fun (bs : qsc * qsc) ord =>
           lines <- rd secs (ord - 1) ;;
           ' (probs, backoffs) <- read_values (pe_sd env) ord lines ;;
           if ord =? 1 then Ok bs else
           pb <- build_probs (fst bs) (pe_sort env probs) pq ;;
           bb <- (if ord =? order then Ok (snd bs) else build_backoffs (snd bs) (pe_sort env backoffs) bq) ;;
           Ok (pb, bb)) (seqN 1 (N.to_nat order)) (qsc_empty, qsc_empty).

(** the loops of lines 82-85 and 144-155: the pool of a section (the result of append is ignored)
    and the unk probability *)
Definition mp_pool (env : penv) (lines : list (list N)) : res (pool (F * F)) :=
  foldM (fun p l => r <- parse_arpa_line (pe_sd env) l ;;
                    Ok (snd (pool_append p (prec_bytes l r) (r_prob r, r_backoff r)))) lines (pool_new (pe_ram env)).
Definition set_unk (env : penv) (lines : list (list N)) (unk : F) : res F :=
  foldM (fun u l => r <- parse_arpa_line (pe_sd env) l ;;
                    Ok (if (if list_eq_dec N.eq_dec (prec_bytes l r) unk_word then true else false) && feqb u default_unk
                        then r_prob r else u)) lines unk.

(** build_vocabulary, lines 135-176 *)
Definition mp_vocabulary (env : penv) (lines : list (list N)) : res svt :=
  p <- mp_pool env lines ;;
  let n := lenN lines in
  c <- cvb_new n 64 ;;
  recs <- mapM (pool_record p) (range (lenN (p_index p))) ;;
  c <- foldM (fun c (rc : list N * (F * F)) => cvb_push_back c (pack (f_bits (fst (snd rc))) (f_bits (snd (snd rc))))) recs c ;;
  svt_build (pe_hb env) (pe_h env 0) (hash_domain (lenN recs)) (pe_orders env 0) (map fst recs) (cv_of_builder c).

(** the body of the loop of lines 76-112, for order k + 1 *)
Definition mp_table (env : penv) (pb bb : qsc) (secs : list (list (list N))) (order pq bq k : N) : res svt :=
  lines <- rd secs k ;;
  p <- mp_pool env lines ;;
  let n := lenN lines in
  recs <- mapM (pool_record p) (range (lenN (p_index p))) ;;
  c <- cvb_new n (pq + (if k + 1 =? order then 0 else bq)) ;;
  c <- foldM (fun c (rc : list N * (F * F)) =>
                prob_rank <- q_rank pb (k - 1) (fst (snd rc)) 0 ;;
                packed <- (if k + 1 =? order then Ok prob_rank else
                           backoff_rank <- q_rank bb (k - 1) (snd (snd rc)) 1 ;;
                           Ok (rank_pack pq prob_rank backoff_rank)) ;;
                cvb_push_back c packed) recs c ;;
  svt_build (pe_hb env) (pe_h env k) (hash_domain (lenN recs)) (pe_orders env k) (map fst recs) (cv_of_builder c).

(** constructor, lines 19-116, and build, 118-128.  A section left after the last one read
    makes parse_eof abort (line 68; parsers.hpp 182-185). *)
Definition mp_build (env : penv) (secs : list (list (list N))) (order : N) (unk : F) (pq bq : N) : res mpl :=
  _ <- check_order order ;;
  if lenN secs <? order then Throw else
  ' (pb, bb) <- mp_values env secs order pq bq ;;
  if order <? lenN secs then Throw else
  uni <- rd secs 0 ;;
  unk <- set_unk env uni unk ;;
  t0 <- mp_vocabulary env uni ;;
  ts <- mapM (mp_table env pb bb secs order pq bq) (seqN 1 (N.to_nat (order - 1))) ;;
  Ok (mkmpl order unk pb bb (t0 :: ts)).

(** state, lines 183-185 *)
Definition mp_state (m : mpl) : res (pstate N) := ps_new 0 (mp_order m).

(** the lookup of a longer gram, lines 210-237 *)
Definition mp_probe (env : penv) (m : mpl) (buf : list N) (word_end : N) (order_m1 prev_word_begin : N) (_ : unit) : res (option (F * option F * unit)) :=
  g <- bytes_at buf (prev_word_begin, word_end) ;;
  t <- rd (mp_tables m) order_m1 ;;
  rank <- svt_lookup (pe_hb env) (pe_h env order_m1) t g ;;
  if rank =? not_found then Ok None
  else if negb (order_m1 =? sub64 (mp_order m) 1) then
    bits <- q_qbits (mp_probs m) (order_m1 - 1) ;;
    let '(prob_rank, backoff_rank) := rank_unpack bits rank in
    prob <- q_access (mp_probs m) (order_m1 - 1) prob_rank ;;
    backoff <- q_access (mp_backoffs m) (order_m1 - 1) backoff_rank ;;
    Ok (Some (prob, Some backoff, tt))
  else
    prob <- q_access (mp_probs m) (order_m1 - 1) rank ;;
    Ok (Some (prob, None, tt)).

(** score, lines 187-252: the words are the addresses of their first bytes in [buf] *)
Definition mp_score (env : penv) (m : mpl) (buf : list N) (st : pstate N) (w : byte_range) : res (F * pstate N * bool) :=
  g <- bytes_at buf w ;;
  t <- rd (mp_tables m) 0 ;;
  value <- svt_lookup (pe_hb env) (pe_h env 0) t g ;;
  let found := if value =? not_found then None else
               let '(p, b) := unpack value in Some (f_of_bits p, f_of_bits b, tt) in
  score_with (mp_unk m) found (mp_probe env m buf (snd w)) st (fst w).

(** scoring the words of a sentence one after the other: the scores, the final state, the OOV flags *)
Fixpoint mp_sentence (env : penv) (m : mpl) (buf : list N) (st : pstate N) (ws : list byte_range) : res (list (F * bool) * pstate N) :=
  match ws with
  | [] => Ok ([], st)
  | w :: ws =>
      ' (x, st, oov) <- mp_score env m buf st w ;;
      ' (xs, st) <- mp_sentence env m buf st ws ;;
      Ok ((x, oov) :: xs, st)
  end.
