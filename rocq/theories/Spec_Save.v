(** * What a C++ object is: every member holds a value of its declared type

    The records of the models hold mathematical integers and lists; these predicates say that
    the integers fit the C++ types of the members, that vector lengths fit size_t, and that
    the vectors of a model have the lengths its order says.  They also fix the reading of
    [None]: a member still as default-constructed ([Some] is for built members). *)
From Coq Require Import Floats.SpecFloat.
From Verif Require Import Prelude M_Word M_Bits M_CompactVector M_DArray M_EF M_HashVec M_Mph M_FastEF M_SeqColl
  M_Trie M_MphCount M_Score M_Quant M_MphProb M_Save.

Definition is_u8 (x : N) : Prop := x < 2 ^ 8.
Definition is_u16 (x : N) : Prop := x < 2 ^ 16.
Definition is_u64 (x : N) : Prop := x < 2 ^ 64.
Definition is_i64 (z : Z) : Prop := (- 2 ^ 63 <= z < 2 ^ 63)%Z.
Definition is_float (x : F) : Prop := valid_binary 24 128 x = true.
Definition is_vec {A} (elt : A -> Prop) (l : list A) : Prop := Forall elt l /\ is_u64 (lenN l).

Definition t_bv (v : bv) : Prop := is_u64 (v_size v) /\ is_vec is_u64 (v_bits v).
Definition t_cv (c : cv) : Prop := is_u64 (c_size c) /\ is_u64 (c_width c) /\ is_u64 (c_mask c) /\ is_vec is_u64 (c_bits c).
Definition t_hcv (hb : N) (c : hcv) : Prop :=
  is_u64 (h_size c) /\ is_u64 (h_width c) /\ is_u64 (h_mask c) /\ is_vec (fun x => x < 2 ^ hb) (h_bits c).
Definition t_ct (c : ct) : Prop := is_u64 (t_size c) /\ is_u64 (t_w1 c) /\ is_u64 (t_w2 c) /\ is_u64 (t_w3 c) /\ t_bv (t_bits c).
Definition t_darr (d : darr) : Prop :=
  is_u64 (d_pos d) /\ is_vec is_i64 (d_blk d) /\ is_vec is_u16 (d_sub d) /\ is_vec is_u64 (d_ovf d).
Definition t_efc (c : efc) : Prop := is_u8 (e_l c) /\ t_bv (e_high c) /\ t_darr (e_d1 c) /\ t_bv (e_low c).
(** a member that is either unbuilt or holds a built object *)
Definition t_opt {A} (t : A -> Prop) (built : A -> Prop) (o : option A) : Prop :=
  match o with Some x => t x /\ built x | None => True end.
Definition t_ef (e : ef) : Prop :=
  t_efc (ef_core e) /\ t_opt t_darr (fun d => d_pos d <> 0) (ef_d0 e) /\ is_u64 (ef_size e).
Definition t_pss (p : pss) : Prop := is_u64 (ps_size p) /\ t_ef (ps_seq p).
Definition t_icw (x : icw) : Prop := is_u64 (ic_size x) /\ t_bv (ic_cw x) /\ t_bv (ic_idx x) /\ t_darr (ic_d1 x).
(** bit pairs hold 0..3 *)
Definition t_mphf (m : mphf) : Prop := is_u64 (m_n m) /\ is_u64 (m_dom m) /\ is_vec (fun x => x < 4) (m_bv m).
Definition t_svt (hb : N) (t : svt) : Prop := t_mphf (sv_h t) /\ t_hcv hb (sv_data t).
Definition t_dvt (t : dvt) : Prop := t_mphf (dv_h t) /\ t_ct (dv_data t).
Definition t_umph (t : uit_t) : Prop := t_mphf (ut_h t) /\ t_cv (ut_values t).
Definition t_fef (f : fef) : Prop :=
  is_u64 (f_size f) /\ t_opt t_umph (fun t => m_bv (ut_h t) <> []) (f_off f) /\ is_vec is_u64 (f_samp f) /\ t_efc (f_core f).
Definition t_ranks (k : rkind) (r : ranks) : Prop :=
  match k, r with
  | IC, RIC x => t_icw x
  | PSEF, RPS p => t_pss p
  | _, _ => False
  end.
Definition t_sarr (k : rkind) (order : N) (a : sarr) : Prop :=
  is_u64 (s_size a) /\
  (if order =? 1 then s_grams a = None else t_opt t_fef (fun f => f_size f <> 0) (s_grams a)) /\
  t_opt (t_ranks k) (fun r => match r with RIC x => v_size (ic_idx x) <> 0 | RPS p => ef_size (ps_seq p) <> 0 end) (s_ranks a) /\
  t_opt t_ef (fun e => ef_size e <> 0) (s_ptrs a).
Definition t_qsc (n : N) (q : qsc) : Prop :=
  lenN (q_bits q) = n /\ lenN (q_seqs q) = n /\ Forall is_u8 (q_bits q) /\ Forall (is_vec is_float) (q_seqs q).

Definition t_trie (k : rkind) (t : trie) : Prop :=
  is_u8 (t_order t) /\ is_u8 (t_remap t) /\ lenN (t_counts t) = t_order t /\ Forall t_cv (t_counts t) /\
  t_svt 64 (t_vocab t) /\ lenN (t_arrays t) = t_order t /\
  (forall i a, nthN (t_arrays t) i = Some a -> t_sarr k (i + 1) a).
Definition t_mcl (hb : N) (m : mcl) : Prop :=
  is_u8 (mc_order m) /\ lenN (mc_counts m) = mc_order m /\ Forall t_cv (mc_counts m) /\
  lenN (mc_tables m) = mc_order m /\ Forall (t_svt hb) (mc_tables m).
Definition t_mpl (hb : N) (m : mpl) : Prop :=
  is_u8 (mp_order m) /\ 2 <= mp_order m /\ is_float (mp_unk m) /\ t_qsc (mp_order m - 1) (mp_probs m) /\
  t_qsc (mp_order m - 2) (mp_backoffs m) /\ lenN (mp_tables m) = mp_order m /\ Forall (t_svt hb) (mp_tables m).

(** emphf: the bit pairs come back, and only their bytes are read *)
Definition ext_ok (x : ext) : Prop :=
  is_u64 (fst (x_junk x)) /\ is_u64 (snd (x_junk x)) /\
  forall b t, is_vec (fun v => v < 4) b -> x_load x (x_save x b ++ t) = Ok (b, t).
(** [load] undoes [save] on [a], whatever follows in the stream *)
Definition restores {A} (sv : A -> list N) (ld : list N -> res (A * list N)) (a : A) : Prop :=
  forall tail, ld (sv a ++ tail) = Ok (a, tail).
