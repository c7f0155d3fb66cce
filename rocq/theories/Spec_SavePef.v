(** * Loading a structure that holds uniform_pef sequences: the same members; the enumerators start anew *)

From Verif Require Import Prelude M_Word M_Bits M_CompactVector M_DArray M_EF M_HashVec M_Mph M_FastEF M_SeqColl
  M_Pef M_Trie M_TriePef M_Save Spec_Save.

(** a uniform_pef_sequence whose members hold values of their C++ types *)
Definition t_pef (f : pef) : Prop :=
  is_u64 (pf_size f) /\ is_u64 (pf_univ f) /\ is_u64 (pf_parts f) /\ t_cv (pf_ubs f) /\ t_bv (pf_data f) /\ is_u8 (pf_log f).

(** equal, the enumerators of the uniform_pef sequences apart *)
Definition same_gseq (g g' : gseq) : Prop :=
  match g, g' with SEF f, SEF f' => f = f' | SPEF f _, SPEF f' _ => f = f' | _, _ => False end.
Definition same_rseq (r r' : rseq) : Prop :=
  match r, r' with RR r, RR r' => r = r' | RPEF f _, RPEF f' _ => f = f' | _, _ => False end.
Definition same_opt {A} (same : A -> A -> Prop) (o o' : option A) : Prop :=
  match o, o' with Some a, Some a' => same a a' | None, None => True | _, _ => False end.
Definition same_parr (a a' : parr) : Prop :=
  p_size a = p_size a' /\ same_opt same_gseq (p_grams a) (p_grams a') /\ same_opt same_rseq (p_ranks a) (p_ranks a') /\ p_ptrs a = p_ptrs a'.
Definition same_members (t t' : ptrie) : Prop :=
  pt_order t = pt_order t' /\ pt_remap t = pt_remap t' /\ pt_counts t = pt_counts t' /\ pt_vocab t = pt_vocab t' /\
  Forall2 same_parr (pt_arrays t) (pt_arrays t').

(** a count trie whose members hold values of their C++ types, and whose uniform_pef sequences can be
    read from the start in the process that loads it ([env]) *)
Definition t_gseq (env : penv) (k : N) (g : gseq) : Prop :=
  match pe_pef env, g with
  | true, SPEF f _ => t_pef f /\ pf_size f <> 0 /\ exists e, pef_init (pe_gpad env k) f = Ok e
  | false, SEF f => t_fef f /\ f_size f <> 0
  | _, _ => False
  end.
Definition t_rseq (env : penv) (k : N) (r : rseq) : Prop :=
  match pe_pspef env, r with
  | true, RPEF f _ => t_pef f /\ pf_size f <> 0 /\ exists e, pef_init (pe_rpad env k) f = Ok e
  | false, RR r => t_ranks (te_kind (pe_t env)) r /\ match r with RIC x => v_size (ic_idx x) <> 0 | RPS p => ef_size (ps_seq p) <> 0 end
  | _, _ => False
  end.
Definition t_parr (env : penv) (k : N) (a : parr) : Prop :=
  is_u64 (p_size a) /\
  match p_grams a with Some g => 0 < k /\ t_gseq env k g | None => True end /\
  match p_ranks a with Some r => t_rseq env k r | None => True end /\
  t_opt t_ef (fun e => ef_size e <> 0) (p_ptrs a).
Definition t_ptrie (env : penv) (t : ptrie) : Prop :=
  is_u8 (pt_order t) /\ is_u8 (pt_remap t) /\ lenN (pt_counts t) = pt_order t /\ Forall t_cv (pt_counts t) /\
  t_svt 64 (pt_vocab t) /\ lenN (pt_arrays t) = pt_order t /\
  (forall k a, nthN (pt_arrays t) k = Some a -> t_parr env k a).
