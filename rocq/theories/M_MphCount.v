(** * Model of mph_count_lm (include/mph_count_lm.hpp), with Values = sequence_collection (lm_types.hpp 20-38)

    Files are the lists of their lines after the header, as in M_Trie. *)
From Verif Require Import Prelude M_Word M_Bits M_CompactVector M_HashVec M_Mph M_Text M_SeqColl M_Pool M_Trie.

(** what the build depends on besides the files *)
Record menv := mkmenv {
  me_hb : N;                        (* bits of a hash key: 32 or 64 *)
  me_h : N -> list N -> triple;     (* hash function of the table of order k+1 *)
  me_orders : N -> list edge;       (* its peeling order [emphf] *)
  me_sorts : list (list (N * N));   (* the results of std::sort in sequence_collection *)
  me_ram : N                        (* bytes granted to the pool *) }.
(** members, lines 112-114 *)
Record mcl := mkmcl { mc_order : N; mc_counts : list cv; mc_tables : list svt }.

(** the body of the loop of lines 42-64, for order k + 1 *)
Definition mc_table (env : menv) (cb : scb) (files : list (list (list N))) (k : N) : res svt :=
  lines <- rd files k ;;
  p <- pool_load (pool_new (me_ram env)) lines ;;
  let n := lenN (p_index p) in
  size <- sc_size cb k ;;
  c <- cvb_new n (ceil_log2 (add64 size 1)) ;;
  recs <- mapM (pool_record p) (range n) ;;
  c <- foldM (fun c (rc : list N * N) => rank <- sc_rank cb k (snd rc) ;; cvb_push_back c rank) recs c ;;
  svt_build (me_hb env) (me_h env k) (hash_domain n) (me_orders env k) (map fst recs) (cv_of_builder c).

(** constructor, lines 17-67 *)
Definition mc_build (env : menv) (files : list (list (list N))) (order : N) : res mcl :=
  _ <- check_order order ;;
  fs <- mapM (rd files) (range order) ;;
  values <- mapM (fun lines => mapM (fun l => ' (_, c) <- parse_count_line l ;; Ok c) lines) fs ;;
  cb <- sc_add_all scb_empty values (me_sorts env) ;;
  tables <- mapM (mc_table env cb files) (range order) ;;
  Ok (mkmcl order (sb_seqs cb) tables).

(** lookup, lines 69-76; the assert is not compiled in release mode *)
Definition mc_lookup (env : menv) (m : mcl) (buf : list N) (r : byte_range) : res N :=
  g <- bytes_at buf r ;;
  let order := lenN (filter (fun c => c =? c_space) g) in
  t <- rd (mc_tables m) order ;;
  rank <- svt_lookup (me_hb env) (me_h env order) t g ;;
  sc_access (mc_counts m) order rank.
