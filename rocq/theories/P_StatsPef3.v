(** * Statistics: sizes and bytes of the tries of M_TriePef and M_TrieProbPef *)
From Coq Require Import String Floats.SpecFloat.
From Verif Require Import Prelude BitFacts M_Word P_Word M_Bits Spec P_Bits M_CompactVector P_CompactVector M_DArray M_EF P_EF P_EF2
  M_HashVec M_Mph P_Mph P_MphTables M_FastEF P_FastEF P_FastEF3 M_Text P_Text P_Text2 M_SeqColl P_SeqColl M_Pool P_Pool M_Pef Spec_Pef M_Trie M_TriePef Spec_Trie
  P_Trie1 P_Trie2 P_Trie3 P_Trie4 P_Trie5 P_TriePef1 P_TriePef2 P_TriePef3 P_TriePef4 M_Save Spec_Save P_Save P_Typed M_SavePef Spec_SavePef P_SavePef1 P_SavePef2 P_SavePef3
  M_Quant M_MphProb M_TrieProb M_Save2 M_ArpaFile M_TrieProbPef P_TrieProbPef5 M_Stats Spec_Stats Spec_Report P_Stats1 P_Stats2 P_Stats3 P_Stats4 P_Stats5 P_Stats6 P_StatsPef1 M_StatsPef P_StatsPef2.
From Verif Require Import M_TriePef.
From Coq Require Import Permutation Sorting.Sorted.

(** ** the sizes of the arrays *)
Lemma same_arrays_sizes l l' : same_arrays l l' -> map p_size l' = map p_size l.
Proof. intros H. apply same_sizes. apply same_Forall2. exact H. Qed.
Lemma sizes_wr (l l' : list parr) k a b : nthN l k = Some a -> p_size b = p_size a -> wr l k b = Ok l' -> map p_size l' = map p_size l.
Proof. intros Ha E H. apply wr_inv in H. destruct H as [_ ->]. apply (map_setN _ _ _ _ _ Ha E). Qed.
Lemma pab_ranks_size env k b a order a' : pab_build_ranks env k b a order = Ok a' -> p_size a' = p_size a.
Proof. intros E. unfold pab_build_ranks in E. apply bind_inv in E. destruct E as (vs & _ & E). apply bind_inv in E. destruct E as (r & _ & E). injection E as <-. reflexivity. Qed.
Lemma pab_size env k b a ptrs order a' : M_TriePef.pab_build env k b a ptrs order = Ok a' -> p_size a' = p_size a.
Proof. intros E. unfold M_TriePef.pab_build in E. apply bind_inv in E. destruct E as (ids & _ & E). apply bind_inv in E. destruct E as (g & _ & E). apply pab_ranks_size in E. exact E. Qed.
Lemma pointers_size a ptrs a' : pa_build_pointers a ptrs = Ok a' -> p_size a' = p_size a.
Proof. intros E. unfold pa_build_pointers in E. apply bind_inv in E. destruct E as (e & _ & E). injection E as <-. reflexivity. Qed.
Lemma pbuild_order_sizes env v cb remap files arrays ord arrays' : pbuild_order env v cb remap files arrays ord = Ok arrays' -> map p_size arrays' = map p_size arrays.
Proof.
  intros E. unfold pbuild_order in E.
  apply bind_inv in E. destruct E as (prv & _ & E). apply bind_inv in E. destruct E as (cur & _ & E). apply bind_inv in E. destruct E as (mr & _ & E).
  apply bind_inv in E. destruct E as (b & _ & E). apply bind_inv in E. destruct E as ([[ptrs b'] arr0] & E0 & E).
  apply bind_inv in E. destruct E as (a & Ha & E). apply bind_inv in E. destruct E as (a1 & E1 & E). apply bind_inv in E. destruct E as (arr1 & Ew & E).
  apply bind_inv in E. destruct E as (a' & Ha' & E). apply bind_inv in E. destruct E as (a2 & E2 & Ew2).
  apply rd_inv in Ha, Ha'. rewrite (sizes_wr _ _ _ _ _ Ha' (pointers_size _ _ _ E2) Ew2), (sizes_wr _ _ _ _ _ Ha (pab_size _ _ _ _ _ _ _ E1) Ew).
  apply same_arrays_sizes. eapply ngrams_same. exact E0.
Qed.
Lemma foldM_keeps {A B} (f : A -> N) (g : B -> N -> res B) (h : B -> list A) : (forall b i b', g b i = Ok b' -> map f (h b') = map f (h b)) ->
  forall l b b', foldM g l b = Ok b' -> map f (h b') = map f (h b).
Proof.
  intros H. induction l as [|i l IH]; intros b b' E; cbn [foldM] in E; [injection E as <-; reflexivity|]. apply bind_inv in E. destruct E as (b1 & E1 & E). rewrite (IH _ _ E). eapply H; eauto.
Qed.
Lemma pvocabulary_sizes env cb lines arrays v arrays' : pbuild_vocabulary env cb lines arrays = Ok (v, arrays') -> map p_size arrays' = map p_size arrays.
Proof.
  intros E. unfold pbuild_vocabulary in E.
  apply bind_inv in E. destruct E as (p & _ & E). apply bind_inv in E. destruct E as (recs & _ & E). apply bind_inv in E. destruct E as (sz & _ & E).
  apply bind_inv in E. destruct E as (b & _ & E). apply bind_inv in E. destruct E as (rk & _ & E). apply bind_inv in E. destruct E as (a0 & Ha & E).
  apply bind_inv in E. destruct E as (a1 & E1 & E). apply bind_inv in E. destruct E as (arr & Ew & E).
  apply bind_inv in E. destruct E as (ids & _ & E). apply bind_inv in E. destruct E as (ids' & _ & E). apply bind_inv in E. destruct E as (v' & _ & E). injection E as <- <-.
  apply rd_inv in Ha. exact (sizes_wr _ _ _ _ _ Ha (pab_ranks_size _ _ _ _ _ _ E1) Ew).
Qed.
Lemma ptrie_build_sizes env files remap t : ptrie_build env files (lenN files) remap = Ok t -> map p_size (pt_arrays t) = map lenN files.
Proof.
  intros E. unfold ptrie_build in E. apply bind_inv in E. destruct E as (_ & _ & E). apply bind_inv in E. destruct E as (_ & _ & E).
  apply bind_inv in E. destruct E as (fs & EFS & E). apply bind_inv in E. destruct E as (values & _ & E). apply bind_inv in E. destruct E as (cb & _ & E).
  apply bind_inv in E. destruct E as (l1 & _ & E). apply bind_inv in E. destruct E as ([v arrays] & EV & E). apply bind_inv in E. destruct E as (arr & EF & E). injection E as <-. cbn [pt_arrays].
  assert (FS : fs = files).
  { rewrite (mapM_range (rd files) (fun x => x) files) in EFS by (intros i a H2; apply rd_nthN; assumption). rewrite map_id in EFS. congruence. }
  subst fs. pose proof (foldM_keeps p_size (pbuild_order env v cb remap files) (fun x => x) (fun b i b' => pbuild_order_sizes env v cb remap files b i b') _ _ _ EF) as F. cbv beta in F. rewrite F.
  rewrite (pvocabulary_sizes _ _ _ _ _ _ EV), map_map. reflexivity.
Qed.

Lemma next_id_same env arrays k r id x : pa_next env arrays k r id = Ok x -> same_arrays arrays (snd x).
Proof. destruct x as [[p r'] arr]. apply next_same. Qed.
Lemma qmap_same env v arrays remap buf gram id p arrays' : qmap_gram_rev env v arrays remap buf gram id = Ok (p, arrays') -> same_arrays arrays arrays'.
Proof.
  intros E. unfold qmap_gram_rev in E. apply bind_inv in E. destruct E as (b & _ & E). apply bind_inv in E. destruct E as (q & _ & E). apply bind_inv in E. destruct E as (r & _ & E).
  apply bind_inv in E. destruct E as ([r1 arr1] & E1 & E). apply map_in_same in E. assert (SA : same_arrays arrays arr1); [|eapply same_arrays_trans; eauto].
  destruct (remap =? 2).
  - apply bind_inv in E1. destruct E1 as (nw & _ & E1). apply bind_inv in E1. destruct E1 as (ni & _ & E1). apply bind_inv in E1. destruct E1 as ([[p0 r0] arr0] & E0 & E1). injection E1 as <- <-. eapply next_same; eauto.
  - injection E1 as <- <-. apply same_arrays_refl.
Qed.
Lemma qstep_same env v pb bb order mo remap s arrays l s' arrays' : qp_step env v pb bb order mo remap (s, arrays) l = Ok (s', arrays') -> same_arrays arrays arrays'.
Proof.
  intros E. unfold qp_step in E. apply bind_inv in E. destruct E as (r & _ & E). cbv zeta in E. apply bind_inv in E. destruct E as (pt & _ & E). apply bind_inv in E. destruct E as ([prv ptrs] & _ & E).
  destruct prv as [|p0 prv]; [discriminate|]. apply bind_inv in E. destruct E as ([ti tv] & _ & E). apply bind_inv in E. destruct E as ([ti2 arr2] & E2 & E).
  apply bind_inv in E. destruct E as (g & _ & E). apply bind_inv in E. destruct E as (pr & _ & E). apply bind_inv in E. destruct E as (rk & _ & E). apply bind_inv in E. destruct E as (rr & _ & E). injection E as <- <-.
  destruct (tp_map (qe_t env) && (remap + 1 <? order)); [eapply qmap_same; eauto|injection E2 as <- <-; apply same_arrays_refl].
Qed.
Lemma qngrams_same env v arrays pb bb order mo remap cur prv b ptrs b' arrays' : qp_ngrams env v arrays pb bb order mo remap cur prv b = Ok (ptrs, b', arrays') -> same_arrays arrays arrays'.
Proof.
  intros E. unfold qp_ngrams in E. apply bind_inv in E. destruct E as (_ & _ & E). apply bind_inv in E. destruct E as ([s arr] & EF & E). injection E as <- <- <-.
  revert EF. generalize (mkpbst prv [0] 0 b). revert arrays. induction cur as [|l cur IH]; intros arrays s0 EF; cbn [foldM] in EF; [injection EF as <- <-; apply same_arrays_refl|].
  apply bind_inv in EF. destruct EF as ([s1 arr1] & E1 & EF). eapply same_arrays_trans; [eapply qstep_same; eauto|eapply IH; eauto].
Qed.
Lemma qp_order_sizes env v pb bb remap secs order pq bq s ord s' : qp_build_order env v pb bb remap secs order pq bq s ord = Ok s' -> map p_size (fst s') = map p_size (fst s) /\ lenN (snd s') = lenN (snd s).
Proof.
  destruct s as [arrays ranks]. intros E. unfold qp_build_order in E.
  apply bind_inv in E. destruct E as (prv & _ & E). apply bind_inv in E. destruct E as (cur & _ & E). apply bind_inv in E. destruct E as (b & _ & E). apply bind_inv in E. destruct E as ([[ptrs b'] arr0] & E0 & E).
  apply bind_inv in E. destruct E as (a & Ha & E). apply bind_inv in E. destruct E as ([a1 c] & E1 & E). apply bind_inv in E. destruct E as (arr1 & Ew & E).
  apply bind_inv in E. destruct E as (rk & Er & E).
  apply bind_inv in E. destruct E as (a' & Ha' & E). apply bind_inv in E. destruct E as (a2 & E2 & E). apply bind_inv in E. destruct E as (arr2 & Ew2 & E). injection E as <-. cbn [fst snd].
  apply rd_inv in Ha, Ha'. assert (S1 : p_size a1 = p_size a).
  { unfold qab_build in E1. apply bind_inv in E1. destruct E1 as (ids & _ & E1). apply bind_inv in E1. destruct E1 as (g & _ & E1). apply bind_inv in E1. destruct E1 as (rs & _ & E1). apply bind_inv in E1. destruct E1 as (c0 & _ & E1). injection E1 as <- _. reflexivity. }
  rewrite (sizes_wr _ _ _ _ _ Ha' (pointers_size _ _ _ E2) Ew2), (sizes_wr _ _ _ _ _ Ha S1 Ew). split; [|apply wr_inv in Er; destruct Er as [_ ->]; apply lenN_setN].
  apply same_arrays_sizes. eapply qngrams_same. exact E0.
Qed.
Lemma qp_orders_sizes env v pb bb remap secs order pq bq l : forall s s', foldM (qp_build_order env v pb bb remap secs order pq bq) l s = Ok s' -> map p_size (fst s') = map p_size (fst s) /\ lenN (snd s') = lenN (snd s).
Proof.
  induction l as [|i l IH]; intros s s' E; cbn [foldM] in E; [injection E as <-; auto|]. apply bind_inv in E. destruct E as (s1 & E1 & E). destruct (IH _ _ E) as [-> ->]. eapply qp_order_sizes; eauto.
Qed.

(** ** bytes *)
Lemma len_pef f : lenN (save_pef f) = bytes_pef f + 16.
Proof. unfold save_pef, bytes_pef. rewrite !lenN_app, !len_pod, len_cv, len_bv. change (N.of_nat 8) with 8. change (N.of_nat 1) with 1. lia. Qed.
Lemma len_qsc8 q : bytes_qsc q + 8 * lenN (q_seqs q) <= lenN (save_qsc q).
Proof.
  unfold save_qsc, bytes_qsc. rewrite lenN_app, len_seq_pod. change (N.of_nat 1) with 1. generalize (lenN (q_bits q) * 1). intros a. unfold save_seq.
  revert a. induction (q_seqs q) as [|s l IH]; intros a; cbn [map concat fold_left]; [change (lenN (@nil N)) with 0; change (lenN (@nil (list M_Score.F))) with 0; lia|].
  rewrite lenN_app, len_vec, lenN_map, lenN_cons. specialize (IH (a + lenN s * 4)). change (N.of_nat 4) with 4. lia.
Qed.
Section Vo.
Variable vo : N.
Hypothesis HV : vo <= 8.
Lemma len_gseq x pef o : bytes_gseq vo pef o + 16 <= lenN (save_gseq x pef o).
Proof.
  unfold bytes_gseq, save_gseq. destruct o as [[f|f e]|]; [pose proof (len_fef vo HV x f); lia|rewrite len_pef; lia|]. destruct pef; [rewrite len_pef; lia|pose proof (len_fef vo HV x fef0); lia].
Qed.
Lemma len_gseq0 pef : bytes_gseq vo pef None <= 81.
Proof. unfold bytes_gseq. destruct pef; [vm_compute; discriminate|apply bytes_fef0; exact HV]. Qed.
Lemma len_rseq kind psp o : bytes_rseq vo kind psp o + 16 <= lenN (save_rseq kind psp o).
Proof.
  unfold bytes_rseq, save_rseq. destruct o as [[r|f e]|]; [apply len_ranks; exact HV|rewrite lenN_app, len_pod, len_pef; lia|]. destruct psp; [rewrite lenN_app, len_pod, len_pef; lia|apply len_ranks; exact HV].
Qed.
Lemma len_ptrs o : bytes_ptrs vo o + 16 <= lenN (save_opt save_ef ef0 o).
Proof. unfold bytes_ptrs. rewrite len_opt. apply len_ef. exact HV. Qed.

Section Count.
Variables (x : ext) (env : penv).
Definition pabytes (a : parr) : N := bytes_gseq vo (pe_pef env) (p_grams a) + bytes_rseq vo (te_kind (pe_t env)) (pe_pspef env) (p_ranks a) + bytes_ptrs vo (p_ptrs a).
Lemma len_pea k a : 0 < k -> pabytes a + 56 <= lenN (save_pea x env k a).
Proof.
  intros H. unfold save_pea, pabytes. destruct (N.eqb_spec (k + 1) 1); [lia|]. rewrite !lenN_app, len_pod. pose proof (len_gseq x (pe_pef env) (p_grams a)). pose proof (len_rseq (te_kind (pe_t env)) (pe_pspef env) (p_ranks a)).
  pose proof (len_ptrs (p_ptrs a)). lia.
Qed.
Lemma len_pea0 a : p_grams a = None -> pabytes a + 40 <= lenN (save_pea x env 0 a) + 81.
Proof.
  intros H. unfold save_pea, pabytes. change (0 + 1 =? 1) with true. rewrite H, !lenN_app, len_pod. change (lenN (@nil N)) with 0. pose proof (len_gseq0 (pe_pef env)).
  pose proof (len_rseq (te_kind (pe_t env)) (pe_pspef env) (p_ranks a)). pose proof (len_ptrs (p_ptrs a)). lia.
Qed.
Lemma len_peas l : forall k, 0 < k -> sumN (map pabytes l) + 56 * lenN l <= lenN (save_peas x env k l).
Proof.
  induction l as [|a l IH]; intros k H; [reflexivity|]. cbn [save_peas map]. rewrite lenN_app, lenN_cons. change (sumN (pabytes a :: map pabytes l)) with (pabytes a + sumN (map pabytes l)).
  pose proof (len_pea k a H). specialize (IH (k + 1) ltac:(lia)). lia.
Qed.
Lemma ptrie_bytes_ok header t : 2 <= lenN (pt_arrays t) -> (forall a, nthN (pt_arrays t) 0 = Some a -> p_grams a = None) ->
  bytes_hcv 64 (sv_data (pt_vocab t)) + bytes_sc (pt_counts t) + sumN (map pabytes (pt_arrays t)) <= lenN (save_file header (save_ptrie x env) t).
Proof.
  intros L2 G0. unfold save_file, save_ptrie. rewrite !lenN_app, !len_pod, len_sc. pose proof (len_svt x 64 (pt_vocab t)).
  destruct (pt_arrays t) as [|a l]; [change (lenN (@nil parr)) with 0 in L2; lia|]. specialize (G0 a eq_refl). cbn [save_peas map]. rewrite lenN_app, lenN_cons in *.
  change (sumN (pabytes a :: map pabytes l)) with (pabytes a + sumN (map pabytes l)).
  pose proof (len_pea0 a G0). pose proof (len_peas l (0 + 1) ltac:(lia)). lia.
Qed.
End Count.
Section Prob.
Variables (x : ext) (env : qenv).
Definition qabytes (ac : parr * option cv) : N := bytes_gseq vo (qe_pef env) (p_grams (fst ac)) + bytes_cv (of_opt cv0 (snd ac)) + bytes_ptrs vo (p_ptrs (fst ac)).
Lemma len_qarr k a o : 0 < k -> qabytes (a, o) + 48 <= lenN (save_qarr x env k a o).
Proof.
  intros H. unfold save_qarr, qabytes. cbn [fst snd]. destruct (N.eqb_spec (k + 1) 1); [lia|]. rewrite !lenN_app, len_pod, (len_opt save_cv), len_cv. pose proof (len_gseq x (qe_pef env) (p_grams a)).
  pose proof (len_ptrs (p_ptrs a)). lia.
Qed.
Lemma len_qarr0 a : p_grams a = None -> qabytes (a, None) + 24 <= lenN (save_qarr x env 0 a None) + 105.
Proof.
  intros H. unfold save_qarr, qabytes. cbn [fst snd of_opt]. change (0 + 1 =? 1) with true. rewrite H, !lenN_app, len_pod. change (lenN (@nil N)) with 0. pose proof (len_gseq0 (qe_pef env)).
  pose proof (len_ptrs (p_ptrs a)). change (bytes_cv cv0) with 24. lia.
Qed.
Lemma len_qarrs l : forall o k, 0 < k -> sumN (map qabytes (combine l o)) + 48 * lenN (combine l o) <= lenN (save_qarrs x env k l o).
Proof.
  induction l as [|a l IH]; intros [|c o] k H; try reflexivity. cbn [save_qarrs combine map]. rewrite lenN_app, lenN_cons. change (sumN (qabytes (a, c) :: map qabytes (combine l o))) with (qabytes (a, c) + sumN (map qabytes (combine l o))).
  pose proof (len_qarr k a c H). specialize (IH o (k + 1) ltac:(lia)). lia.
Qed.
Lemma qpl_bytes_ok header m : 2 <= lenN (combine (qp_arrays m) (qp_ranks m)) -> (forall a, nthN (qp_arrays m) 0 = Some a -> p_grams a = None) -> nthN (qp_ranks m) 0 = Some None -> 0 < lenN (q_seqs (qp_probs m)) ->
  bytes_ct (dv_data (qp_vocab m)) + bytes_qsc (qp_probs m) + bytes_qsc (qp_backoffs m) + sumN (map qabytes (combine (qp_arrays m) (qp_ranks m))) <= lenN (save_file header (save_qpl x env) m).
Proof.
  intros L2 G0 R0 Q0. unfold save_file, save_qpl. rewrite !lenN_app, !len_pod. pose proof (len_dvt x (qp_vocab m)). pose proof (len_qsc8 (qp_probs m)). pose proof (len_qsc (qp_backoffs m)).
  destruct (qp_ranks m) as [|c o]; [discriminate|]. injection R0 as ->.
  destruct (qp_arrays m) as [|a l]; [change (lenN (combine (@nil parr) (None :: o))) with 0 in L2; lia|]. specialize (G0 a eq_refl). cbn [save_qarrs map combine] in *. rewrite lenN_app, lenN_cons in *.
  change (sumN (qabytes (a, None) :: map qabytes (combine l o))) with (qabytes (a, None) + sumN (map qabytes (combine l o))).
  pose proof (len_qarr0 a G0). pose proof (len_qarrs l o (0 + 1) ltac:(lia)). lia.
Qed.
End Prob.
End Vo.
