(** * Statistics: the report of a loaded probability trie, any structure *)
From Coq Require Import String Floats.SpecFloat.
From Verif Require Import Prelude BitFacts M_Word P_Word M_Bits Spec P_Bits M_CompactVector P_CompactVector M_DArray M_EF P_EF P_EF2
  M_HashVec M_Mph P_Mph P_MphTables M_FastEF P_FastEF P_FastEF3 M_Text P_Text P_Text2 M_SeqColl P_SeqColl M_Pool P_Pool M_Pef Spec_Pef M_Trie M_TriePef Spec_Trie
  P_Trie1 P_Trie2 P_Trie3 P_Trie4 P_Trie5 P_TriePef1 P_TriePef2 P_TriePef3 P_TriePef4 M_Score Spec_Katz M_Quant M_MphProb Spec_Arpa P_Values P_MphProb M_TrieProb P_TrieProb1 P_TrieProb2
  M_ArpaFile Spec_ArpaFile P_ArpaFile M_Save Spec_Save P_Save P_Typed M_Save2 Spec_Save2 P_Save2 M_SavePef Spec_SavePef P_SavePef1 P_SavePef2 P_SavePef3
  M_TrieProbPef P_TrieProbPef1 P_TrieProbPef2 P_TrieProbPef5 M_Stats Spec_Stats Spec_Report P_Stats1 P_Stats2 P_Stats3 P_Stats4 P_Stats5 P_Stats6 P_Stats7 P_Stats8 P_StatsPef1 M_StatsPef P_StatsPef2 P_StatsPef3 P_StatsPef4.
From Verif Require Import M_TriePef.
From Coq Require Import Permutation Sorting.Sorted.

Section ProbTrie.
Variable D : entries.
Variable secs : list (list (list N)).
Variables env env' : qenv.
Variables remap pq bq : N.
Notation tv := (qe_t env).
Hypothesis AF : arpa_file D.
Hypothesis CO : collection (reversed D) remap.
Hypothesis TI : trie_base_ok D secs tv remap pq bq.
Notation R := (revD D).
Notation CRR := (CR D remap CO).
Notation VI := (VIN D secs tv remap pq bq TI).
Hypothesis LVE : levels_fit R remap (genv env).
Hypothesis LVE' : levels_fit R remap (genv env').
Hypothesis EG : qe_pef env' = qe_pef env.

Lemma qabytes_same vo l l' (o : list (option cv)) : Forall2 same_parr l l' -> map (qabytes vo env') (combine l' o) = map (qabytes vo env) (combine l o).
Proof using EG.
  intros F. revert o. induction F as [|a a' l l' (S1 & S2 & S3 & S4) F IH]; intros o; [reflexivity|]. destruct o as [|c o]; [reflexivity|]. cbn [combine map]. f_equal; [|apply IH].
  unfold qabytes. cbn [fst snd]. rewrite EG, (bytes_gseq_same _ _ _ _ S2), S4. reflexivity.
Qed.
Lemma qsec_lens : map lenN secs = map (fun l => lenN l) R.
Proof using TI.
  assert (F : Forall2 (Forall2 (arpa_line (pe_sd (tp_penv tv)))) D secs) by apply VI. clear - F. unfold revD. induction F as [|l s D secs H F IH]; [reflexivity|]. cbn [map]. rewrite IH. f_equal.
  rewrite lenN_map. apply Forall2_len in H. unfold lenN. congruence.
Qed.
Lemma qp_sizes data unk m : arpa_text data secs -> qp_build_file env data (lenN D) remap unk pq bq = Ok m -> map p_size (qp_arrays m) = map (fun l => lenN l) R /\ lenN (qp_ranks m) = lenN D.
Proof using AF CO TI.
  intros AT E. pose proof (af_order _ AF) as HO. pose proof (col_remap _ _ CRR) as HR. pose proof qsec_lens as SL. pose proof VI as VI0. unfold qp_build_file in E.
  assert (U : forall x, x <= 8 -> u8 x = x). { intros x Hx. unfold u8. change 255 with (N.ones 8). rewrite N.land_ones. apply N.mod_small. clear - Hx. lia. }
  unfold check_order, check_remapping_order in E. rewrite !U in E by (clear - HO HR; lia).
  destruct (N.ltb_spec (lenN D) 2) as [Z|_]; [clear - Z HO; lia|]. destruct (N.ltb_spec 8 (lenN D)) as [Z|_]; [clear - Z HO; lia|]. destruct (N.ltb_spec 2 remap) as [Z|_]; [clear - Z HR; lia|]. cbn [bind] in E.
  rewrite (load_ok (tp_penv tv) data secs (lenN D) pq bq AT ltac:(clear - HO; lia)) in E.
  rewrite (lenN_secs D secs (tp_penv tv) pq bq VI0), N.ltb_irrefl in E.
  apply bind_inv in E. destruct E as ([[pb bb] secs'] & EV & E). apply bind_inv in EV. destruct EV as ([pb0 bb0] & _ & EV). cbv beta iota in EV. injection EV as <- <- <-. cbv beta iota in E. apply bind_inv in E. destruct E as (l1 & _ & E). apply bind_inv in E. destruct E as (u & _ & E).
  apply bind_inv in E. destruct E as (v & _ & E). apply bind_inv in E. destruct E as ([arrays ranks] & EF & E). cbv beta iota in E. injection E as <-. cbn [qp_arrays qp_ranks].
  destruct (qp_orders_sizes _ _ _ _ _ _ _ _ _ _ _ _ EF) as (S1 & S2). cbn [fst snd] in S1, S2. rewrite S1, S2, map_map, lenN_map. cbn [parr_new p_size]. split; [exact SL|apply (lenN_secs D secs (tp_penv tv) pq bq VI0)].
Qed.

Lemma qpl_stats_ok x header ho cap vo data unk m m' : heap_functions (ho_push ho) (ho_pop ho) -> 0 < cap < 2 ^ 64 -> vo <= 8 -> arpa_text data secs ->
  qp_build_file env data (lenN D) remap unk pq bq = Ok m -> qp_rep D env remap pq bq unk m -> qp_made D env remap m -> same_qpl m m' ->
  let f := save_file header (save_qpl x env) m in
  exists r, qpl_stats ho cap vo env' m' (lenN f) = Ok r /\
    M_Stats.qr_order r = lenN D /\ qr_grams r = lenN (concat D) /\ qr_bytes r = lenN f /\
    qr_vocab r + qr_probs r + qr_backoffs r + qr_grams_bytes r + qr_ranks_bytes r + qr_ptrs_bytes r <= qr_bytes r /\
    lenN (qr_levels r) = lenN D /\ forall k lr, nthN (qr_levels r) k = Some lr -> level_right (reversed D) remap cap k lr.
Proof using AF CO TI LVE LVE' EG.
  intros HF HK HV AT E QR MD (M1 & M2 & M3 & M4 & M5 & M6 & M7 & M8) f. pose proof (af_order _ AF) as HO.
  destruct (qp_sizes data unk m AT E) as (SZ & RL0). pose proof (P_TrieProbPef2.qr_arrays _ _ _ _ _ _ _ QR) as (AL & AP & APt). pose proof (P_TrieProbPef2.qr_order _ _ _ _ _ _ _ QR) as QO.
  pose proof (qm_prov _ _ _ _ MD) as (PV & PR). pose proof (qm_probs _ _ _ _ MD) as TQ.
  assert (FA : arrays_facts R remap (plevels (genv env') 0 (qp_arrays m'))).
  { apply (parrs_facts R remap CRR (genv env) (genv env') LVE LVE' EG (qp_arrays m)); [exact M8|exact SZ| | |].
    - intros k a Ha. destruct (PV k a Ha) as (_ & _ & Q1 & Q2). auto.
    - intros k a Ha Hk. destruct (AP k) as (a' & g & Ha' & Hg & _). { pose proof (nthN_lt _ _ _ Ha) as L. clear - L AL Hk. lia. } rewrite Ha in Ha'. injection Ha' as <-. congruence.
    - intros k a Ha Hk. rewrite lenN_revD in Hk. destruct (APt k Hk) as (a' & e & Ha' & He & RE). rewrite Ha in Ha'. injection Ha' as <-. exists e. auto. }
  destruct (levels_ok R remap CRR ho cap HF HK _ FA) as (rs & EL & LL & RL).
  unfold qpl_stats. rewrite EL. cbn [bind]. eexists. split; [reflexivity|].
  cbn [M_Stats.qr_order qr_grams qr_bytes qr_vocab qr_probs qr_backoffs qr_grams_bytes qr_ranks_bytes qr_ptrs_bytes qr_levels].
  split; [congruence|]. split; [rewrite (sizes_ok R remap CRR cap HK _ FA); apply lenN_concat_map|]. split; [reflexivity|].
  split; [|split; [rewrite LL; apply lenN_revD|]].
  - rewrite !fold_proj, !N.add_0_l, !map_map. cbn [fst snd]. rewrite M4, M5, M6, M7.
    pose proof (sum_three (fun ac : parr * option cv => bytes_gseq vo (qe_pef env') (p_grams (fst ac))) (fun ac => bytes_cv (of_opt cv0 (snd ac))) (fun ac => bytes_ptrs vo (p_ptrs (fst ac))) (combine (qp_arrays m') (qp_ranks m))) as S3.
    cbv beta in S3. change (map (fun x0 : parr * option cv => bytes_gseq vo (qe_pef env') (p_grams (fst x0)) + bytes_cv (of_opt cv0 (snd x0)) + bytes_ptrs vo (p_ptrs (fst x0))) (combine (qp_arrays m') (qp_ranks m))) with (map (qabytes vo env') (combine (qp_arrays m') (qp_ranks m))) in S3.
    rewrite (qabytes_same vo _ _ _ M8) in S3.
    assert (LC : lenN (combine (qp_arrays m) (qp_ranks m)) = lenN D). { unfold lenN in *. rewrite combine_length. clear - AL RL0. lia. }
    assert (G0 : forall a, nthN (qp_arrays m) 0 = Some a -> p_grams a = None).
    { intros a Ha. destruct (PV 0 a Ha) as (_ & _ & Q & _). destruct (p_grams a) as [g|]; [|reflexivity]. destruct (Q g eq_refl) as (Z & _). clear - Z. lia. }
    assert (R0 : nthN (qp_ranks m) 0 = Some None).
    { destruct (nthN_Some (qp_ranks m) 0) as (o & Ho); [clear - RL0 HO; lia|]. pose proof (PR 0 o Ho) as Q. change (0 =? 0) with true in Q. cbv iota in Q. congruence. }
    assert (Q0 : 0 < lenN (q_seqs (qp_probs m))). { destruct TQ as (_ & T2 & _). clear - T2 HO. lia. }
    pose proof (qpl_bytes_ok vo HV x env header m ltac:(clear - LC HO; lia) G0 R0 Q0) as B. fold f in B. clear - S3 B. lia.
  - intros k lr Hk. apply (level_right_ext R); [apply P_TrieProb1.grams_reversed|rewrite lenN_revD; unfold reversed; rewrite lenN_map; reflexivity|apply RL; exact Hk].
Qed.
End ProbTrie.
