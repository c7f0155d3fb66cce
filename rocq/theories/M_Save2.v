(** * save / load of the probability trie

    Conventions as in M_Save: [None] is a member as its default constructor left it. *)
From Coq Require Import Floats.SpecFloat.
From Verif Require Import Prelude M_Word M_Bits M_CompactVector M_DArray M_EF M_HashVec M_Mph M_FastEF M_SeqColl
  M_Trie M_Score M_Quant M_MphProb M_TrieProb M_Save.

(** sorted_array.hpp 188-232: value_type::none for order 1, value_type::prob_backoff otherwise *)
Definition save_parr (x : ext) (order : N) (a : parr) : list N :=
  save_pod 8 (s_size (a_sa a)) ++
  (if order =? 1 then [] else save_opt (save_fef x) fef0 (s_grams (a_sa a)) ++ save_opt save_cv cv0 (a_pb a)) ++
  save_opt save_ef ef0 (s_ptrs (a_sa a)).
Definition load_parr (x : ext) (order : N) (s : list N) : res (parr * list N) :=
  ' (n, s) <- load_pod 8 s ;;
  ' (g, v, s) <- (if order =? 1 then Ok (None, None, s) else
                  ' (g, s) <- load_opt (load_fef x) (fun f => f_size f =? 0) s ;;
                  ' (v, s) <- load_opt load_cv (fun c => c_size c =? 0) s ;; Ok (g, v, s)) ;;
  ' (p, s) <- load_opt load_ef (fun e => ef_size e =? 0) s ;;
  Ok (mkparr (mksarr n g None p) v, s).
Fixpoint save_parrs (x : ext) (order : N) (l : list parr) : list N :=
  match l with [] => [] | a :: r => save_parr x order a ++ save_parrs x (order + 1) r end.
Fixpoint load_parrs (x : ext) (order : N) (n : nat) (s : list N) : res (list parr * list N) :=
  match n with
  | O => Ok ([], s)
  | S n => ' (a, s) <- load_parr x order s ;; ' (r, s) <- load_parrs x (order + 1) n s ;; Ok (a :: r, s)
  end.

(** trie_prob_lm.hpp 326-350; [m_order - 2] is an int converted to uint64_t; [front()] of an empty
    vector is undefined *)
Definition save_tpl (x : ext) (m : tpl) : list N :=
  save_pod 1 (tp_order m) ++ save_pod 1 (tp_remap m) ++ save_pod 4 (f_bits (tp_unk m)) ++
  save_qsc (tp_probs m) ++ save_qsc (tp_backoffs m) ++ save_dvt x (tp_vocab m) ++ save_parrs x 1 (tp_arrays m).
Definition load_tpl (x : ext) (s : list N) : res (tpl * list N) :=
  ' (order, s) <- load_pod 1 s ;; ' (remap, s) <- load_pod 1 s ;; ' (u, s) <- load_pod 4 s ;;
  ' (p, s) <- load_qsc (sub64 order 1) s ;; ' (b, s) <- load_qsc (sub64 order 2) s ;;
  ' (v, s) <- load_dvt x s ;;
  if order =? 0 then UB else
  ' (a, s) <- load_parrs x 1 (N.to_nat order) s ;;
  Ok (mktpl order remap (f_of_bits u) p b v a, s).
