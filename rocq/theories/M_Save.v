(** * save / load of every structure

    A stream is the list of its remaining bytes; [save] gives the bytes appended to the output
    stream, [load] consumes bytes from the input stream and gives a new value to every member.
    Reading past the end of the stream leaves members indeterminate: [UB].

    essentials is external: [save_pod] is taken to write the sizeof(T) bytes of the value, least
    significant first; [save_vec] the number of elements as a size_t followed by the elements;
    [load_pod], [load_vec] to read the same.  The hasher and ranked_bitpair_vector of emphf are
    external as well: their save/load are the parameter [ext]. *)
From Coq Require Import Floats.SpecFloat.
From Verif Require Import Prelude M_Word M_Bits M_CompactVector M_DArray M_EF M_HashVec M_Mph M_FastEF M_SeqColl
  M_Trie M_MphCount M_Score M_Quant M_MphProb.

(** ** essentials *)
Fixpoint le_bytes (k : nat) (x : N) : list N :=
  match k with O => [] | S k => x mod 256 :: le_bytes k (x / 256) end.
Fixpoint le_value (l : list N) : N :=
  match l with [] => 0 | b :: r => b + 256 * le_value r end.
Definition save_pod (k : nat) (x : N) : list N := le_bytes k x.
Definition load_pod (k : nat) (s : list N) : res (N * list N) :=
  if (length s <? k)%nat then UB else Ok (le_value (firstn k s), skipn k s).
(** [n] values one after the other *)
Fixpoint load_seq {A} (ld : list N -> res (A * list N)) (n : nat) (s : list N) : res (list A * list N) :=
  match n with
  | O => Ok ([], s)
  | S n => ' (a, s) <- ld s ;; ' (r, s) <- load_seq ld n s ;; Ok (a :: r, s)
  end.
Definition save_seq {A} (sv : A -> list N) (l : list A) : list N := concat (map sv l).
Definition save_vec (k : nat) (l : list N) : list N := save_pod 8 (lenN l) ++ save_seq (save_pod k) l.
Definition load_vec (k : nat) (s : list N) : res (list N * list N) :=
  ' (n, s) <- load_pod 8 s ;; load_seq (load_pod k) (N.to_nat n) s.

(** ** bit_vector.hpp 299-307 *)
Definition save_bv (v : bv) : list N := save_pod 8 (v_size v) ++ save_vec 8 (v_bits v).
Definition load_bv (s : list N) : res (bv * list N) :=
  ' (n, s) <- load_pod 8 s ;; ' (bits, s) <- load_vec 8 s ;; Ok (mkbv bits n, s).

(** ** compact_vector.hpp 306-318 *)
Definition save_cv (c : cv) : list N :=
  save_pod 8 (c_size c) ++ save_pod 8 (c_width c) ++ save_pod 8 (c_mask c) ++ save_vec 8 (c_bits c).
Definition load_cv (s : list N) : res (cv * list N) :=
  ' (n, s) <- load_pod 8 s ;; ' (w, s) <- load_pod 8 s ;; ' (m, s) <- load_pod 8 s ;;
  ' (bits, s) <- load_vec 8 s ;; Ok (mkcv n w m bits, s).

(** ** hash_compact_vector.hpp 172-184; [hb] bits of hash_t (32 or 64): elements of hb/8 bytes *)
Definition save_hcv (hb : N) (c : hcv) : list N :=
  save_pod 8 (h_size c) ++ save_pod 8 (h_width c) ++ save_pod 8 (h_mask c) ++ save_vec (N.to_nat (hb / 8)) (h_bits c).
Definition load_hcv (hb : N) (s : list N) : res (hcv * list N) :=
  ' (n, s) <- load_pod 8 s ;; ' (w, s) <- load_pod 8 s ;; ' (m, s) <- load_pod 8 s ;;
  ' (bits, s) <- load_vec (N.to_nat (hb / 8)) s ;; Ok (mkhcv n w m bits, s).

(** ** compact_triplets_vector.hpp 106-120 *)
Definition save_ct (c : ct) : list N :=
  save_pod 8 (t_size c) ++ save_pod 8 (t_w1 c) ++ save_pod 8 (t_w2 c) ++ save_pod 8 (t_w3 c) ++ save_bv (t_bits c).
Definition load_ct (s : list N) : res (ct * list N) :=
  ' (n, s) <- load_pod 8 s ;; ' (a, s) <- load_pod 8 s ;; ' (b, s) <- load_pod 8 s ;; ' (c, s) <- load_pod 8 s ;;
  ' (bits, s) <- load_bv s ;; Ok (mkct n a b c bits, s).

(** ** darray.hpp 100-112: size_t, int64_t, uint16_t, uint64_t *)
Definition save_darr (d : darr) : list N :=
  save_pod 8 (d_pos d) ++ save_vec 8 (map of_i64 (d_blk d)) ++ save_vec 2 (d_sub d) ++ save_vec 8 (d_ovf d).
Definition load_darr (s : list N) : res (darr * list N) :=
  ' (n, s) <- load_pod 8 s ;; ' (blk, s) <- load_vec 8 s ;; ' (sub, s) <- load_vec 2 s ;; ' (ovf, s) <- load_vec 8 s ;;
  Ok (mkdarr n (map to_i64 blk) sub ovf, s).

(** ** Members that were never built.  The models write [None] for a member that still is as its
    default constructor left it; it is saved and loaded like any other value of its class. *)
Definition save_opt {A} (sv : A -> list N) (dflt : A) (o : option A) : list N :=
  sv (match o with Some x => x | None => dflt end).
Definition load_opt {A} (ld : list N -> res (A * list N)) (is_dflt : A -> bool) (s : list N) : res (option A * list N) :=
  ' (x, s) <- ld s ;; Ok (if is_dflt x then None else Some x, s).

Definition bv0 : bv := mkbv [] 0.
Definition cv0 : cv := mkcv 0 0 0 [].
Definition darr0 : darr := mkdarr 0 [] [] [].
Definition efc0 : efc := mkefc 0 bv0 darr0 bv0.

(** ** ef_sequence.hpp 134-150; the default constructor, line 10 *)
Definition save_ef (e : ef) : list N :=
  let c := ef_core e in
  save_pod 1 (e_l c) ++ save_bv (e_high c) ++ save_darr (e_d1 c) ++ save_opt save_darr darr0 (ef_d0 e) ++
  save_bv (e_low c) ++ save_pod 8 (ef_size e).
Definition load_ef (s : list N) : res (ef * list N) :=
  ' (l, s) <- load_pod 1 s ;; ' (high, s) <- load_bv s ;; ' (d1, s) <- load_darr s ;;
  ' (d0, s) <- load_opt load_darr (fun d => d_pos d =? 0) s ;;
  ' (low, s) <- load_bv s ;; ' (n, s) <- load_pod 8 s ;;
  Ok (mkef (mkefc l high d1 low) d0 n, s).
Definition ef0 : ef := mkef efc0 None 0.

(** ** pointer_sequence.hpp 27-33 is save_ef / load_ef *)

(** ** prefix_summed_sequence.hpp 42-50 *)
Definition save_pss (p : pss) : list N := save_pod 8 (ps_size p) ++ save_ef (ps_seq p).
Definition load_pss (s : list N) : res (pss * list N) :=
  ' (n, s) <- load_pod 8 s ;; ' (e, s) <- load_ef s ;; Ok (mkpss n e, s).
Definition pss0 : pss := mkpss 0 ef0.

(** ** indexed_codewords_sequence.hpp 100-112 *)
Definition save_icw (x : icw) : list N := save_pod 8 (ic_size x) ++ save_bv (ic_cw x) ++ save_bv (ic_idx x) ++ save_darr (ic_d1 x).
Definition load_icw (s : list N) : res (icw * list N) :=
  ' (n, s) <- load_pod 8 s ;; ' (cw, s) <- load_bv s ;; ' (ix, s) <- load_bv s ;; ' (d, s) <- load_darr s ;;
  Ok (mkicw n cw ix d, s).
Definition icw0 : icw := mkicw 0 bv0 bv0 darr0.

(** ** mphf.hpp 118-130 *)
Record ext := mkext {
  x_save : list N -> list N;                     (* m_hasher.save, m_bv.save [emphf] *)
  x_load : list N -> res (list N * list N);      (* m_hasher.load, m_bv.load [emphf] *)
  x_junk : N * N                                 (* m_n, m_hash_domain of mphf() {}: indeterminate *) }.
Definition save_mphf (x : ext) (m : mphf) : list N := save_pod 8 (m_n m) ++ save_pod 8 (m_dom m) ++ x_save x (m_bv m).
Definition load_mphf (x : ext) (s : list N) : res (mphf * list N) :=
  ' (n, s) <- load_pod 8 s ;; ' (d, s) <- load_pod 8 s ;; ' (b, s) <- x_load x s ;; Ok (mkmphf n d b, s).
Definition mphf0 (x : ext) : mphf := mkmphf (fst (x_junk x)) (snd (x_junk x)) [].

(** ** mph_tables.hpp 106-114, 251-259, 337-345 *)
Definition save_svt (x : ext) (hb : N) (t : svt) : list N := save_mphf x (sv_h t) ++ save_hcv hb (sv_data t).
Definition load_svt (x : ext) (hb : N) (s : list N) : res (svt * list N) :=
  ' (m, s) <- load_mphf x s ;; ' (d, s) <- load_hcv hb s ;; Ok (mksvt m d, s).
Definition save_dvt (x : ext) (t : dvt) : list N := save_mphf x (dv_h t) ++ save_ct (dv_data t).
Definition load_dvt (x : ext) (s : list N) : res (dvt * list N) :=
  ' (m, s) <- load_mphf x s ;; ' (d, s) <- load_ct s ;; Ok (mkdvt m d, s).
Definition save_umph (x : ext) (t : uit_t) : list N := save_mphf x (ut_h t) ++ save_cv (ut_values t).
Definition load_umph (x : ext) (s : list N) : res (uit_t * list N) :=
  ' (m, s) <- load_mphf x s ;; ' (c, s) <- load_cv s ;; Ok (mkuitt m c, s).
Definition umph0 (x : ext) : uit_t := mkuitt (mphf0 x) cv0.

(** ** fast_ef_sequence.hpp 236-254; the default constructor, line 24 *)
Definition save_fef (x : ext) (f : fef) : list N :=
  let c := f_core f in
  save_pod 8 (f_size f) ++ save_opt (save_umph x) (umph0 x) (f_off f) ++ save_vec 8 (f_samp f) ++
  save_bv (e_high c) ++ save_darr (e_d1 c) ++ save_bv (e_low c) ++ save_pod 1 (e_l c).
Definition load_fef (x : ext) (s : list N) : res (fef * list N) :=
  ' (n, s) <- load_pod 8 s ;;
  ' (off, s) <- load_opt (load_umph x) (fun t => match m_bv (ut_h t) with [] => true | _ => false end) s ;;
  ' (samp, s) <- load_vec 8 s ;; ' (high, s) <- load_bv s ;; ' (d1, s) <- load_darr s ;; ' (low, s) <- load_bv s ;;
  ' (l, s) <- load_pod 1 s ;; Ok (mkfef n off samp (mkefc l high d1 low), s).
Definition fef0 : fef := mkfef 0 None [] efc0.

(** ** count ranks: the class is fixed by the model type *)
Definition ranks0 (k : rkind) : ranks := match k with IC => RIC icw0 | PSEF => RPS pss0 end.
Definition save_ranks (r : ranks) : list N := match r with RIC x => save_icw x | RPS p => save_pss p end.
Definition load_ranks (k : rkind) (s : list N) : res (ranks * list N) :=
  match k with
  | IC => ' (x, s) <- load_icw s ;; Ok (RIC x, s)
  | PSEF => ' (p, s) <- load_pss s ;; Ok (RPS p, s)
  end.
Definition ranks_dflt (r : ranks) : bool :=
  match r with RIC x => v_size (ic_idx x) =? 0 | RPS p => ef_size (ps_seq p) =? 0 end.

(** ** sorted_array.hpp 188-232, value_type::count *)
Definition save_sarr (x : ext) (k : rkind) (order : N) (a : sarr) : list N :=
  save_pod 8 (s_size a) ++
  (if order =? 1 then [] else save_opt (save_fef x) fef0 (s_grams a)) ++
  save_opt save_ranks (ranks0 k) (s_ranks a) ++
  save_opt save_ef ef0 (s_ptrs a).
Definition load_sarr (x : ext) (k : rkind) (order : N) (s : list N) : res (sarr * list N) :=
  ' (n, s) <- load_pod 8 s ;;
  ' (g, s) <- (if order =? 1 then Ok (None, s) else load_opt (load_fef x) (fun f => f_size f =? 0) s) ;;
  ' (r, s) <- load_opt (load_ranks k) ranks_dflt s ;;
  ' (p, s) <- load_opt load_ef (fun e => ef_size e =? 0) s ;;
  Ok (mksarr n g r p, s).

(** ** sequence_collections.hpp 310-321: the number of sequences is not written *)
Definition save_sc (l : list cv) : list N := save_seq save_cv l.
Definition load_sc (order : N) (s : list N) : res (list cv * list N) := load_seq load_cv (N.to_nat order) s.

(** ** sequence_collections.hpp 165-182: quantized values (floats by their bit patterns);
    resize of a vector to 2^63 elements or more throws std::length_error *)
Definition save_qsc (q : qsc) : list N :=
  save_seq (save_pod 1) (q_bits q) ++ save_seq (fun l => save_vec 4 (map f_bits l)) (q_seqs q).
Definition load_qsc (order : N) (s : list N) : res (qsc * list N) :=
  if 2 ^ 63 <=? order then Throw else
  ' (b, s) <- load_seq (load_pod 1) (N.to_nat order) s ;;
  ' (q, s) <- load_seq (load_vec 4) (N.to_nat order) s ;;
  Ok (mkqsc b (map (map f_of_bits) q), s).

(** the arrays of a trie, of order [order], [order + 1], ... *)
Fixpoint save_arrays (x : ext) (k : rkind) (order : N) (l : list sarr) : list N :=
  match l with [] => [] | a :: r => save_sarr x k order a ++ save_arrays x k (order + 1) r end.
Fixpoint load_arrays (x : ext) (k : rkind) (order : N) (n : nat) (s : list N) : res (list sarr * list N) :=
  match n with
  | O => Ok ([], s)
  | S n => ' (a, s) <- load_sarr x k order s ;; ' (r, s) <- load_arrays x k (order + 1) n s ;; Ok (a :: r, s)
  end.

(** ** trie_count_lm.hpp 293-314; the mapper has no state.  [front()] of an empty vector is
    undefined, and the loops run over m_order arrays. *)
Definition save_trie (x : ext) (k : rkind) (t : trie) : list N :=
  save_pod 1 (t_order t) ++ save_pod 1 (t_remap t) ++ save_sc (t_counts t) ++ save_svt x 64 (t_vocab t) ++
  save_arrays x k 1 (t_arrays t).
Definition load_trie (x : ext) (k : rkind) (s : list N) : res (trie * list N) :=
  ' (order, s) <- load_pod 1 s ;; ' (remap, s) <- load_pod 1 s ;; ' (c, s) <- load_sc order s ;;
  ' (v, s) <- load_svt x 64 s ;; ' (a, s) <- load_arrays x k 1 (N.to_nat order) s ;;
  Ok (mktrie order remap c v a, s).

(** ** mph_count_lm.hpp 94-109 *)
Definition save_mcl (x : ext) (hb : N) (m : mcl) : list N :=
  save_pod 1 (mc_order m) ++ save_sc (mc_counts m) ++ save_seq (save_svt x hb) (mc_tables m).
Definition load_mcl (x : ext) (hb : N) (s : list N) : res (mcl * list N) :=
  ' (order, s) <- load_pod 1 s ;; ' (c, s) <- load_sc order s ;;
  ' (t, s) <- load_seq (load_svt x hb) (N.to_nat order) s ;; Ok (mkmcl order c t, s).

(** ** mph_prob_lm.hpp 275-294; [m_order - 2] is an int converted to uint64_t *)
Definition save_mpl (x : ext) (hb : N) (m : mpl) : list N :=
  save_pod 1 (mp_order m) ++ save_pod 4 (f_bits (mp_unk m)) ++ save_qsc (mp_probs m) ++ save_qsc (mp_backoffs m) ++
  save_seq (save_svt x hb) (mp_tables m).
Definition load_mpl (x : ext) (hb : N) (s : list N) : res (mpl * list N) :=
  ' (order, s) <- load_pod 1 s ;; ' (u, s) <- load_pod 4 s ;;
  ' (p, s) <- load_qsc (sub64 order 1) s ;; ' (b, s) <- load_qsc (sub64 order 2) s ;;
  ' (t, s) <- load_seq (load_svt x hb) (N.to_nat order) s ;; Ok (mkmpl order (f_of_bits u) p b t, s).

(** ** util.hpp 399-428: a file is one header byte and the model; the number of bytes read is returned *)
Definition save_file {A} (header : N) (sv : A -> list N) (a : A) : list N := save_pod 1 header ++ sv a.
Definition load_file {A} (ld : list N -> res (A * list N)) (f : list N) : res (A * N) :=
  ' (_, s) <- load_pod 1 f ;; ' (a, s') <- ld s ;; Ok (a, lenN f - lenN s').
(** get_model_type, util.hpp 430-445: the header byte *)
Definition file_header (f : list N) : res N := ' (h, _) <- load_pod 1 f ;; Ok h.
