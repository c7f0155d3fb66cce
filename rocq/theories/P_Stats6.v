(** * Statistics: bytes of the parts against the length of the file *)
From Coq Require Import Floats.SpecFloat.
From Verif Require Import Prelude BitFacts M_Word M_Bits Spec M_CompactVector M_DArray M_EF M_HashVec M_Mph M_FastEF M_SeqColl M_Trie M_MphCount M_Score M_Quant M_MphProb M_TrieProb
  M_Save M_Save2 P_Save M_Stats.

Lemma len_pod k x : lenN (save_pod k x) = N.of_nat k. Proof. unfold lenN, save_pod. rewrite len_le. reflexivity. Qed.
Lemma len_seq_pod k l : lenN (save_seq (save_pod k) l) = lenN l * N.of_nat k.
Proof. unfold save_seq. induction l as [|x l IH]; [reflexivity|]. cbn [map concat]. rewrite lenN_app, len_pod, IH, lenN_cons. lia. Qed.
Lemma len_vec k l : lenN (save_vec k l) = 8 + lenN l * N.of_nat k. Proof. unfold save_vec. rewrite lenN_app, len_pod, len_seq_pod. reflexivity. Qed.
Lemma len_bv v : lenN (save_bv v) = bytes_bv v + 8. Proof. unfold save_bv, bytes_bv. rewrite lenN_app, len_pod, len_vec. lia. Qed.
Lemma len_cv c : lenN (save_cv c) = bytes_cv c + 8. Proof. unfold save_cv, bytes_cv. rewrite !lenN_app, !len_pod, len_vec. lia. Qed.
Lemma len_hcv hb c : lenN (save_hcv hb c) = bytes_hcv hb c + 8.
Proof. unfold save_hcv, bytes_hcv. rewrite !lenN_app, !len_pod, len_vec, N2Nat.id. lia. Qed.
Lemma len_ct c : lenN (save_ct c) = bytes_ct c + 8. Proof. unfold save_ct, bytes_ct. rewrite !lenN_app, !len_pod, len_bv. lia. Qed.
Lemma len_mphf x m : 16 <= lenN (save_mphf x m). Proof. unfold save_mphf. rewrite !lenN_app, !len_pod. lia. Qed.
Lemma len_svt x hb t : bytes_hcv hb (sv_data t) + 24 <= lenN (save_svt x hb t).
Proof. unfold save_svt. rewrite lenN_app, len_hcv. pose proof (len_mphf x (sv_h t)). lia. Qed.
Lemma len_dvt x t : bytes_ct (dv_data t) + 24 <= lenN (save_dvt x t).
Proof. unfold save_dvt. rewrite lenN_app, len_ct. pose proof (len_mphf x (dv_h t)). lia. Qed.
Lemma len_umph x t : bytes_cv (ut_values t) + 24 <= lenN (save_umph x t).
Proof. unfold save_umph. rewrite lenN_app, len_cv. pose proof (len_mphf x (ut_h t)). lia. Qed.
Lemma bytes_sc_acc l : forall a, fold_left (fun b c => b + bytes_cv c) l a = a + fold_left (fun b c => b + bytes_cv c) l 0.
Proof. induction l as [|c l IH]; intros a; cbn [fold_left]; [lia|]. rewrite IH, (IH (0 + _)). lia. Qed.
Lemma len_sc l : lenN (save_sc l) = bytes_sc l + 8 * lenN l.
Proof.
  unfold save_sc, save_seq, bytes_sc. induction l as [|c l IH]; [reflexivity|]. cbn [map concat fold_left]. rewrite lenN_app, len_cv, IH, lenN_cons, (bytes_sc_acc l (0 + _)). lia.
Qed.
Lemma len_qsc q : bytes_qsc q <= lenN (save_qsc q).
Proof.
  unfold save_qsc, bytes_qsc. rewrite lenN_app, len_seq_pod. change (N.of_nat 1) with 1. generalize (lenN (q_bits q) * 1). intros a. unfold save_seq.
  revert a. induction (q_seqs q) as [|s l IH]; intros a; cbn [map concat fold_left]; [change (lenN (@nil N)) with 0; lia|].
  rewrite lenN_app, len_vec, lenN_map. specialize (IH (a + lenN s * 4)). change (N.of_nat 4) with 4. lia.
Qed.

(** ** the sums printed *)
Lemma fold_proj {A} (f : A -> N) (l : list A) : forall a, fold_left (fun s x => s + f x) l a = a + sumN (map f l).
Proof. induction l as [|x l IH]; intros a; cbn [fold_left map]; [change (sumN []) with 0; lia|]. rewrite IH. change (sumN (f x :: map f l)) with (f x + sumN (map f l)). lia. Qed.
Lemma sum_three {A} (f g h : A -> N) l : sumN (map f l) + sumN (map g l) + sumN (map h l) = sumN (map (fun x => f x + g x + h x) l).
Proof.
  induction l as [|x l IH]; [reflexivity|]. cbn [map].
  change (sumN (f x :: map f l)) with (f x + sumN (map f l)). change (sumN (g x :: map g l)) with (g x + sumN (map g l)). change (sumN (h x :: map h l)) with (h x + sumN (map h l)).
  change (sumN (f x + g x + h x :: map (fun x => f x + g x + h x) l)) with (f x + g x + h x + sumN (map (fun x => f x + g x + h x) l)). lia.
Qed.

Section Vo.
Variable vo : N.
Hypothesis HV : vo <= 8.
Lemma len_darr d : bytes_darr vo d <= lenN (save_darr d).
Proof. unfold save_darr, bytes_darr, vec_bytes. rewrite !lenN_app, len_pod, !len_vec, lenN_map. change (N.of_nat 8) with 8. change (N.of_nat 2) with 2. lia. Qed.
Lemma len_ef e : bytes_ef vo e + 16 <= lenN (save_ef e).
Proof.
  unfold save_ef, bytes_ef, save_opt, of_opt. cbv zeta. rewrite !lenN_app, !len_pod, !len_bv. pose proof (len_darr (e_d1 (ef_core e))).
  pose proof (len_darr (match ef_d0 e with Some x => x | None => darr0 end)). change (N.of_nat 8) with 8. change (N.of_nat 1) with 1. lia.
Qed.
Lemma len_pss p : bytes_pss vo p + 16 <= lenN (save_pss p).
Proof. unfold save_pss, bytes_pss. rewrite lenN_app, len_pod. pose proof (len_ef (ps_seq p)). lia. Qed.
Lemma len_icw s : bytes_icw vo s + 16 <= lenN (save_icw s).
Proof. unfold save_icw, bytes_icw. rewrite !lenN_app, len_pod, !len_bv. pose proof (len_darr (ic_d1 s)). lia. Qed.
Lemma len_ranks r : bytes_ranks vo r + 16 <= lenN (save_ranks r).
Proof. destruct r as [s|p]; [apply len_icw|apply len_pss]. Qed.
Lemma len_fef x f : bytes_fef vo f + 48 <= lenN (save_fef x f).
Proof.
  unfold save_fef, bytes_fef, save_opt. cbv zeta. rewrite !lenN_app, !len_pod, !len_bv, len_vec. pose proof (len_darr (e_d1 (f_core f))).
  change (N.of_nat 8) with 8. change (N.of_nat 1) with 1. pose proof (len_umph x (match f_off f with Some t => t | None => umph0 x end)) as U.
  destruct (f_off f) as [t|]; cbn [umph0 ut_values] in *; lia.
Qed.
Lemma bytes_fef0 : bytes_fef vo fef0 <= 81.
Proof. change (bytes_fef vo fef0) with (8 + 8 + (8 + (0 * 8 + vo) + (0 * 2 + vo) + (0 * 8 + vo)) + 8 + 1 + (0 * 8 + (0 * 8 + 8 + 8 + 8))). lia. Qed.
Lemma len_opt {A} (sv : A -> list N) d (o : option A) : save_opt sv d o = sv (of_opt d o). Proof. reflexivity. Qed.

(** the three numbers printed for an array *)
Definition abytes (k : rkind) (a : sarr) : N := a_grams_bytes vo a + a_ranks_bytes vo k a + a_ptrs_bytes vo a.
Lemma len_sarr x k order a : order <> 1 -> abytes k a + 88 <= lenN (save_sarr x k order a).
Proof.
  intros H. unfold save_sarr, abytes, a_grams_bytes, a_ranks_bytes, a_ptrs_bytes. destruct (N.eqb_spec order 1); [contradiction|]. rewrite !len_opt, !lenN_app, len_pod.
  pose proof (len_fef x (of_opt fef0 (s_grams a))). pose proof (len_ranks (of_opt (ranks0 k) (s_ranks a))). pose proof (len_ef (of_opt ef0 (s_ptrs a))). lia.
Qed.
Lemma len_sarr1 x k a : s_grams a = None -> abytes k a + 40 <= lenN (save_sarr x k 1 a) + 81.
Proof.
  intros H. unfold save_sarr, abytes, a_grams_bytes, a_ranks_bytes, a_ptrs_bytes. change (1 =? 1) with true. rewrite H, !len_opt, !lenN_app, len_pod. change (lenN (@nil N)) with 0.
  pose proof bytes_fef0. cbn [of_opt]. pose proof (len_ranks (of_opt (ranks0 k) (s_ranks a))). pose proof (len_ef (of_opt ef0 (s_ptrs a))). change (N.of_nat 8) with 8. lia.
Qed.
Lemma len_arrays x k l : forall order, 1 < order -> sumN (map (abytes k) l) + 88 * lenN l <= lenN (save_arrays x k order l).
Proof.
  induction l as [|a l IH]; intros order H; [reflexivity|]. cbn [save_arrays map]. rewrite lenN_app, lenN_cons. change (sumN (abytes k a :: map (abytes k) l)) with (abytes k a + sumN (map (abytes k) l)).
  pose proof (len_sarr x k order a ltac:(lia)). specialize (IH (order + 1) ltac:(lia)). lia.
Qed.
(** the same for probabilities *)
Definition pbytes (a : parr) : N := a_grams_bytes vo (a_sa a) + a_pb_bytes a + a_ptrs_bytes vo (a_sa a).
Lemma len_parr x order a : order <> 1 -> pbytes a + 80 <= lenN (save_parr x order a).
Proof.
  intros H. unfold save_parr, pbytes, a_grams_bytes, a_pb_bytes, a_ptrs_bytes. destruct (N.eqb_spec order 1); [contradiction|]. rewrite !len_opt, !lenN_app, len_pod, len_cv.
  pose proof (len_fef x (of_opt fef0 (s_grams (a_sa a)))). pose proof (len_ef (of_opt ef0 (s_ptrs (a_sa a)))). lia.
Qed.
Lemma len_parr1 x a : s_grams (a_sa a) = None -> a_pb a = None -> pbytes a + 24 <= lenN (save_parr x 1 a) + 105.
Proof.
  intros H H'. unfold save_parr, pbytes, a_grams_bytes, a_pb_bytes, a_ptrs_bytes. change (1 =? 1) with true. rewrite H, H', !len_opt, !lenN_app, len_pod. change (lenN (@nil N)) with 0.
  pose proof bytes_fef0. cbn [of_opt]. change (bytes_cv cv0) with 24. pose proof (len_ef (of_opt ef0 (s_ptrs (a_sa a)))). change (N.of_nat 8) with 8. lia.
Qed.
Lemma len_parrs x l : forall order, 1 < order -> sumN (map pbytes l) + 80 * lenN l <= lenN (save_parrs x order l).
Proof.
  induction l as [|a l IH]; intros order H; [reflexivity|]. cbn [save_parrs map]. rewrite lenN_app, lenN_cons. change (sumN (pbytes a :: map pbytes l)) with (pbytes a + sumN (map pbytes l)).
  pose proof (len_parr x order a ltac:(lia)). specialize (IH (order + 1) ltac:(lia)). lia.
Qed.

Lemma trie_bytes_ok x header k t : 2 <= lenN (t_arrays t) -> 2 <= lenN (t_counts t) -> (forall a, nthN (t_arrays t) 0 = Some a -> s_grams a = None) ->
  bytes_hcv 64 (sv_data (t_vocab t)) + bytes_sc (t_counts t) + sumN (map (abytes k) (t_arrays t)) <= lenN (save_file header (save_trie x k) t).
Proof.
  intros L2 LC G0. unfold save_file, save_trie. rewrite !lenN_app, !len_pod, len_sc. pose proof (len_svt x 64 (t_vocab t)).
  destruct (t_arrays t) as [|a l]; [change (lenN (@nil sarr)) with 0 in L2; lia|]. specialize (G0 a eq_refl). cbn [save_arrays map]. rewrite lenN_app, lenN_cons in *.
  change (sumN (abytes k a :: map (abytes k) l)) with (abytes k a + sumN (map (abytes k) l)).
  pose proof (len_sarr1 x k a G0). pose proof (len_arrays x k l (1 + 1) ltac:(lia)). lia.
Qed.
Lemma tprob_bytes_ok x header m : 2 <= lenN (tp_arrays m) -> (forall a, nthN (tp_arrays m) 0 = Some a -> s_grams (a_sa a) = None /\ a_pb a = None) ->
  bytes_ct (dv_data (tp_vocab m)) + bytes_qsc (tp_probs m) + bytes_qsc (tp_backoffs m) + sumN (map pbytes (tp_arrays m)) <= lenN (save_file header (save_tpl x) m).
Proof.
  intros L2 G0. unfold save_file, save_tpl. rewrite !lenN_app, !len_pod. pose proof (len_dvt x (tp_vocab m)). pose proof (len_qsc (tp_probs m)). pose proof (len_qsc (tp_backoffs m)).
  destruct (tp_arrays m) as [|a l]; [change (lenN (@nil parr)) with 0 in L2; lia|]. destruct (G0 a eq_refl) as (G1 & G2). cbn [save_parrs map]. rewrite lenN_app, lenN_cons in *.
  change (sumN (pbytes a :: map pbytes l)) with (pbytes a + sumN (map pbytes l)).
  pose proof (len_parr1 x a G1 G2). pose proof (len_parrs x l (1 + 1) ltac:(lia)). lia.
Qed.
End Vo.
