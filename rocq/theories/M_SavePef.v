(** * save / load of uniform_pef_sequence and of the count tries over it

    As M_Save.  The enumerator is not written: load() initialises it again, reading the words that
    follow the arrays in the memory of the process that loads ([pads]). *)

From Verif Require Import Prelude M_Word M_Bits M_CompactVector M_DArray M_EF M_HashVec M_Mph M_FastEF M_SeqColl
  M_Pef M_Trie M_TriePef M_Save.

(** ** uniform_pef_sequence.hpp 492-499; the default constructor, lines 14-15 *)
Definition save_pef (f : pef) : list N :=
  save_pod 8 (pf_size f) ++ save_pod 8 (pf_univ f) ++ save_pod 8 (pf_parts f) ++ save_cv (pf_ubs f) ++ save_bv (pf_data f) ++ save_pod 1 (pf_log f).
Definition pef0 : pef := mkpef 0 0 0 cv0 bv0 0.
(** lines 501-507: the members *)
Definition load_pef (s : list N) : res (pef * list N) :=
  ' (n, s) <- load_pod 8 s ;; ' (u, s) <- load_pod 8 s ;; ' (p, s) <- load_pod 8 s ;; ' (c, s) <- load_cv s ;; ' (d, s) <- load_bv s ;;
  ' (l, s) <- load_pod 1 s ;; Ok (mkpef n u p c d l, s).
(** lines 501-513: the members and, unless m_size is 0 (None: a sequence that was never built), the enumerator *)
Definition load_pef_enum (pd : pads) (s : list N) : res (option (pef * pen) * list N) :=
  ' (f, s) <- load_pef s ;;
  if pf_size f =? 0 then Ok (None, s) else e <- pef_init pd f ;; Ok (Some (f, e), s).

(** ** the grams of array k: fast_ef_sequence.hpp 236-254 or the above *)
Definition save_gseq (x : ext) (pef : bool) (g : option gseq) : list N :=
  match g with
  | Some (SEF f) => save_fef x f
  | Some (SPEF f _) => save_pef f
  | None => if pef then save_pef pef0 else save_fef x fef0
  end.
Definition load_gseq (x : ext) (env : penv) (k : N) (s : list N) : res (option gseq * list N) :=
  if pe_pef env then
    ' (o, s) <- load_pef_enum (pe_gpad env k) s ;; Ok (option_map (fun fe : pef * pen => SPEF (fst fe) (snd fe)) o, s)
  else ' (o, s) <- load_opt (load_fef x) (fun f => f_size f =? 0) s ;; Ok (option_map SEF o, s).

(** ** the ranks of array k: as in M_Save, or prefix_summed_sequence.hpp 42-50 over
    uniform_pef_sequence, whose m_size equals the size of the sequence in it and is not a member of
    the model *)
Definition save_rseq (k : rkind) (psp : bool) (r : option rseq) : list N :=
  match r with
  | Some (RR r) => save_ranks r
  | Some (RPEF f _) => save_pod 8 (pf_size f) ++ save_pef f
  | None => if psp then save_pod 8 0 ++ save_pef pef0 else save_ranks (ranks0 k)
  end.
Definition load_rseq (env : penv) (k : N) (s : list N) : res (option rseq * list N) :=
  if pe_pspef env then
    ' (_, s) <- load_pod 8 s ;;
    ' (o, s) <- load_pef_enum (pe_rpad env k) s ;; Ok (option_map (fun fe : pef * pen => RPEF (fst fe) (snd fe)) o, s)
  else ' (o, s) <- load_opt (load_ranks (te_kind (pe_t env))) ranks_dflt s ;; Ok (option_map RR o, s).

(** ** sorted_array.hpp 188-232, value_type::count: array k, of order k + 1 *)
Definition save_pea (x : ext) (env : penv) (k : N) (a : parr) : list N :=
  save_pod 8 (p_size a) ++
  (if k + 1 =? 1 then [] else save_gseq x (pe_pef env) (p_grams a)) ++
  save_rseq (te_kind (pe_t env)) (pe_pspef env) (p_ranks a) ++
  save_opt save_ef ef0 (p_ptrs a).
Definition load_pea (x : ext) (env : penv) (k : N) (s : list N) : res (parr * list N) :=
  ' (n, s) <- load_pod 8 s ;;
  ' (g, s) <- (if k + 1 =? 1 then Ok (None, s) else load_gseq x env k s) ;;
  ' (r, s) <- load_rseq env k s ;;
  ' (p, s) <- load_opt load_ef (fun e => ef_size e =? 0) s ;;
  Ok (mkparr n g r p, s).
(** the arrays k, k + 1, ... *)
Fixpoint save_peas (x : ext) (env : penv) (k : N) (l : list parr) : list N :=
  match l with [] => [] | a :: r => save_pea x env k a ++ save_peas x env (k + 1) r end.
Fixpoint load_peas (x : ext) (env : penv) (k : N) (n : nat) (s : list N) : res (list parr * list N) :=
  match n with
  | O => Ok ([], s)
  | S n => ' (a, s) <- load_pea x env k s ;; ' (r, s) <- load_peas x env (k + 1) n s ;; Ok (a :: r, s)
  end.

(** ** trie_count_lm.hpp 293-314 *)
Definition save_ptrie (x : ext) (env : penv) (t : ptrie) : list N :=
  save_pod 1 (pt_order t) ++ save_pod 1 (pt_remap t) ++ save_sc (pt_counts t) ++ save_svt x 64 (pt_vocab t) ++
  save_peas x env 0 (pt_arrays t).
Definition load_ptrie (x : ext) (env : penv) (s : list N) : res (ptrie * list N) :=
  ' (order, s) <- load_pod 1 s ;; ' (remap, s) <- load_pod 1 s ;; ' (c, s) <- load_sc order s ;;
  ' (v, s) <- load_svt x 64 s ;; ' (a, s) <- load_peas x env 0 (N.to_nat order) s ;;
  Ok (mkptrie order remap c v a, s).
