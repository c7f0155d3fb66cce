(** * A probability trie whose members hold values of their C++ types (see Spec_Save) *)
From Coq Require Import Floats.SpecFloat.
From Verif Require Import Prelude M_Word M_Bits M_CompactVector M_DArray M_EF M_HashVec M_Mph M_FastEF M_SeqColl
  M_Trie M_Score M_Quant M_MphProb M_TrieProb M_Save Spec_Save.

(** the first array has no gram ids and no values; no array has count ranks *)
Definition t_parr (order : N) (a : parr) : Prop :=
  is_u64 (s_size (a_sa a)) /\ s_ranks (a_sa a) = None /\
  (if order =? 1 then s_grams (a_sa a) = None /\ a_pb a = None
   else t_opt t_fef (fun f => f_size f <> 0) (s_grams (a_sa a)) /\ t_opt t_cv (fun c => c_size c <> 0) (a_pb a)) /\
  t_opt t_ef (fun e => ef_size e <> 0) (s_ptrs (a_sa a)).
Definition t_tpl (m : tpl) : Prop :=
  is_u8 (tp_order m) /\ 2 <= tp_order m /\ is_u8 (tp_remap m) /\ is_float (tp_unk m) /\
  t_qsc (tp_order m - 1) (tp_probs m) /\ t_qsc (tp_order m - 2) (tp_backoffs m) /\ t_dvt (tp_vocab m) /\
  lenN (tp_arrays m) = tp_order m /\
  (forall i a, nthN (tp_arrays m) i = Some a -> t_parr (i + 1) a).
