(** * Model of the statistics report for every model type, and of src/print_stats.cpp

    As M_Stats, for the tries of M_TriePef and M_TrieProbPef: gram sequences over fast_ef_sequence or
    uniform_pef_sequence, ranks over indexed_codewords_sequence or prefix_summed_sequence. *)
From Coq Require Import String Floats.SpecFloat.
From Verif Require Import Prelude M_Word M_Bits M_CompactVector M_DArray M_EF M_HashVec M_Mph M_FastEF M_SeqColl
  M_Pef M_Trie M_MphCount M_Score M_Quant M_MphProb M_TrieProb M_Save M_Save2 M_SavePef M_Header M_TrieProbPef M_Programs M_ProbPrograms M_Stats.
From Verif Require Import M_TriePef.

(** uniform_pef_sequence.hpp 486-490 *)
Definition bytes_pef (f : pef) : N := 8 + 8 + 8 + bytes_cv (pf_ubs f) + bytes_bv (pf_data f) + 1.
(** begin, size and universe: uniform_pef_sequence.hpp 465-480 (begin makes an enumerator of its own); next, lines 384-411 *)
Definition view_pef (pd : pads) (f : pef) : gview := mkgview (pf_size f) (Ok (pf_univ f)) pen (pef_init pd f) (pef_next pd f).

(** ** the members of array k; None: never built *)
Definition view_gseq (env : penv) (k : N) (o : option gseq) : gview :=
  match o with
  | Some (SEF f) => view_fef (Some f)
  | Some (SPEF f _) => view_pef (pe_gpad env k) f
  | None => if pe_pef env then view_pef (pe_gpad env k) pef0 else view_fef None
  end.
(** grams_bytes, sorted_array.hpp 172-174 *)
Definition bytes_gseq (vo : N) (pef : bool) (o : option gseq) : N :=
  match o with
  | Some (SEF f) => bytes_fef vo f
  | Some (SPEF f _) => bytes_pef f
  | None => if pef then bytes_pef pef0 else bytes_fef vo fef0
  end.
(** counts_ranks_bytes, sorted_array.hpp 176-178; prefix_summed_sequence.hpp 33-35 *)
Definition bytes_rseq (vo : N) (kind : rkind) (psp : bool) (o : option rseq) : N :=
  match o with
  | Some (RR r) => bytes_ranks vo r
  | Some (RPEF f _) => 8 + bytes_pef f
  | None => if psp then 8 + bytes_pef pef0 else bytes_ranks vo (ranks0 kind)
  end.
(** pointers_bytes, sorted_array.hpp 184-186 *)
Definition bytes_ptrs (vo : N) (o : option ef) : N := bytes_ef vo (of_opt ef0 o).
(** the arrays k, k + 1, ... as sorted_array::print_stats reads them *)
Fixpoint plevels (env : penv) (k : N) (l : list parr) : list level :=
  match l with [] => [] | a :: r => mklevel (p_size a) (view_gseq env k (p_grams a)) (p_ptrs a) :: plevels env (k + 1) r end.

(** ** trie_count_lm::print_stats, stats.cpp 302-375 *)
Definition ptrie_stats (ho : heap_ops) (k vo : N) (env : penv) (t : ptrie) (bytes : N) : res trie_report :=
  let sizes := map (fun a => (bytes_gseq vo (pe_pef env) (p_grams a), bytes_rseq vo (te_kind (pe_t env)) (pe_pspef env) (p_ranks a), bytes_ptrs vo (p_ptrs a))) (pt_arrays t) in
  let sum f := fold_left (fun s (x : N * N * N) => s + f x) sizes 0 in
  unique <- mapM (fun i => c <- rd (pt_counts t) i ;; Ok (c_size c)) (range (pt_order t)) ;;
  levels <- levels_stats ho k 1 None (plevels env 0 (pt_arrays t)) ;;
  Ok (mktrier sizes (pt_order t) (arrays_size (plevels env 0 (pt_arrays t))) bytes (bytes_hcv 64 (sv_data (pt_vocab t))) (bytes_sc (pt_counts t))
        (sum (fun x => fst (fst x))) (sum (fun x => snd (fst x))) (sum snd) unique levels).
(** print_stats.cpp 11-17 *)
Definition print_ptrie (x : ext) (ho : heap_ops) (k vo : N) (env : penv) (f : list N) : res trie_report :=
  ' (t, bytes) <- load_file (load_ptrie x env) f ;; ptrie_stats ho k vo env t bytes.

(** ** trie_prob_lm::print_stats, stats.cpp 377-432; probs_backoffs_ranks_bytes, sorted_array.hpp 180-182 *)
Definition qpl_stats (ho : heap_ops) (k vo : N) (env : qenv) (m : qpl) (bytes : N) : res tprob_report :=
  let sizes := map (fun ac : parr * option cv => (bytes_gseq vo (qe_pef env) (p_grams (fst ac)), bytes_cv (of_opt cv0 (snd ac)), bytes_ptrs vo (p_ptrs (fst ac)))) (combine (qp_arrays m) (qp_ranks m)) in
  let sum f := fold_left (fun s (x : N * N * N) => s + f x) sizes 0 in
  levels <- levels_stats ho k 1 None (plevels (genv env) 0 (qp_arrays m)) ;;
  Ok (mktpr sizes (qp_order m) (arrays_size (plevels (genv env) 0 (qp_arrays m))) bytes (bytes_ct (dv_data (qp_vocab m)))
        (bytes_qsc (qp_probs m)) (bytes_qsc (qp_backoffs m))
        (sum (fun x => fst (fst x))) (sum (fun x => snd (fst x))) (sum snd) levels).
Definition print_qpl (x : ext) (ho : heap_ops) (k vo : N) (env : qenv) (f : list N) : res tprob_report :=
  ' (m, bytes) <- load_file (load_qpl x env) f ;; qpl_stats ho k vo env m bytes.

(** ** print_stats.cpp 19-39: the types in the order of TONGRAMS_TYPES, lm_types.hpp 95-107; unknown_type, parsing of the
    header: utils/util.hpp; the command line is given parsed *)
Inductive stats_report := Trie_counts (r : trie_report) | Trie_probs (r : tprob_report) | Hash_counts (r : mph_report) | Hash_probs (r : mph_report) | Unknown_type (ty : string).
Definition print_stats_program (x : ext) (ho : heap_ops) (k vo : N) (tenv : penv) (qenv : qenv) (file : list N) : res stats_report :=
  header <- file_header file ;;
  let ty := bh_parse header in
  match dispatch hash_count_types ty with
  | Some hb => r <- print_mcl x hb file ;; Ok (Hash_counts r)
  | None =>
  match dispatch trie_count_types ty with
  | Some inst => r <- print_ptrie x ho k vo (instance tenv inst) file ;; Ok (Trie_counts r)
  | None =>
  match dispatch trie_prob_types ty with
  | Some inst => r <- print_qpl x ho k vo (prob_instance qenv inst) file ;; Ok (Trie_probs r)
  | None =>
  match dispatch hash_prob_types ty with
  | Some hb => r <- print_mpl x hb file ;; Ok (Hash_probs r)
  | None => Ok (Unknown_type ty)
  end end end end.
