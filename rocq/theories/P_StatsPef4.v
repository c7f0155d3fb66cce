(** * Statistics: the report of a loaded count trie, any structure *)
From Coq Require Import String Floats.SpecFloat.
From Verif Require Import Prelude BitFacts M_Word P_Word M_Bits Spec P_Bits M_CompactVector P_CompactVector M_DArray M_EF P_EF P_EF2
  M_HashVec M_Mph P_Mph P_MphTables M_FastEF P_FastEF P_FastEF3 M_Text P_Text P_Text2 M_SeqColl P_SeqColl M_Pool P_Pool M_Pef Spec_Pef M_Trie M_TriePef Spec_Trie
  P_Trie1 P_Trie2 P_Trie3 P_Trie4 P_Trie5 P_TriePef1 P_TriePef2 P_TriePef3 P_TriePef4 M_Save Spec_Save P_Save P_Typed M_SavePef Spec_SavePef P_SavePef1 P_SavePef2 P_SavePef3
  M_Quant M_MphProb M_TrieProb M_Save2 M_ArpaFile M_TrieProbPef M_Stats Spec_Stats Spec_Report P_Stats1 P_Stats2 P_Stats3 P_Stats4 P_Stats5 P_Stats6 P_Stats7 P_Stats8 P_StatsPef1 M_StatsPef P_StatsPef2 P_StatsPef3.
From Verif Require Import M_TriePef.
From Coq Require Import Permutation Sorting.Sorted.

Lemma bytes_gseq_same vo pef g g' : same_opt same_gseq g g' -> bytes_gseq vo pef g' = bytes_gseq vo pef g.
Proof. destruct g as [[f|f e]|], g' as [[f'|f' e']|]; cbn [same_opt same_gseq]; intros H; try destruct H; try subst f'; reflexivity. Qed.
Lemma bytes_rseq_same vo kind psp r r' : same_opt same_rseq r r' -> bytes_rseq vo kind psp r' = bytes_rseq vo kind psp r.
Proof. destruct r as [[f|f e]|], r' as [[f'|f' e']|]; cbn [same_opt same_rseq]; intros H; try destruct H; try subst f'; reflexivity. Qed.

Section CountTrie.
Variable D : list (list (gram * N)).
Variable remap : N.
Hypothesis C : collection D remap.
Variables env env' : penv.
Hypothesis EO : penv_ok D remap env.
Hypothesis EO' : penv_ok D remap env'.
Hypothesis ET : pe_t env' = pe_t env.
Hypothesis EG : pe_pef env' = pe_pef env.
Hypothesis ER : pe_pspef env' = pe_pspef env.

Lemma pabytes_same vo l l' : Forall2 same_parr l l' -> map (pabytes vo env') l' = map (pabytes vo env) l.
Proof using ET EG ER.
  induction 1 as [|a a' l l' (S1 & S2 & S3 & S4) F IH]; [reflexivity|]. cbn [map]. f_equal; [|exact IH]. unfold pabytes. rewrite ET, EG, ER, (bytes_gseq_same _ _ _ _ S2), (bytes_rseq_same _ _ _ _ _ S3), S4. reflexivity.
Qed.
Lemma ptrie_values : mapM (fun lines => mapM (fun l => ' (_, c) <- parse_count_line l ;; Ok c) lines) (map (map line) D) = Ok (map (map snd) D).
Proof using C EO.
  assert (H2 : forall l, In l D -> mapM (fun l => ' (_, c) <- parse_count_line l ;; Ok c) (map line l) = Ok (map snd l)).
  { intros l Hl. apply In_nthN in Hl. destruct Hl as (k & Hk).
    assert (H3 : forall l0, incl l0 l -> mapM (fun l => ' (_, c) <- parse_count_line l ;; Ok c) (map line l0) = Ok (map snd l0)).
    { induction l0 as [|e l0 IH]; intros I; [reflexivity|]. cbn [map mapM]. rewrite (P_TriePef2.parse_line D remap C env EO k l e Hk) by (apply I; left; reflexivity).
      cbn [bind]. rewrite IH by (intros x Hx; apply I; right; assumption). reflexivity. }
    apply H3. apply incl_refl. }
  revert H2. generalize D as D1. clear. induction D1 as [|l D1 IH]; intros H2; [reflexivity|]. cbn [map mapM]. rewrite (H2 l (or_introl eq_refl)). cbn [bind].
  rewrite IH by (intros; apply H2; right; assumption). reflexivity.
Qed.
Lemma ptrie_unique t : ptrie_build env (map (map line) D) (lenN D) remap = Ok t -> map c_size (pt_counts t) = map (fun l => distinct (map snd l)) D.
Proof using C EO.
  intros E. unfold ptrie_build in E. apply bind_inv in E. destruct E as (_ & _ & E). apply bind_inv in E. destruct E as (_ & _ & E).
  apply bind_inv in E. destruct E as (fs & EFS & E). apply bind_inv in E. destruct E as (values & EV & E). apply bind_inv in E. destruct E as (cb & EC & E).
  apply bind_inv in E. destruct E as (l1 & _ & E). apply bind_inv in E. destruct E as ([v arrays] & _ & E). apply bind_inv in E. destruct E as (arr & _ & E). injection E as <-. cbn [pt_counts].
  assert (FS : fs = map (map line) D).
  { replace (lenN D) with (lenN (map (map line) D)) in EFS by apply lenN_map.
    rewrite (mapM_range (rd (map (map line) D)) (fun x => x) (map (map line) D)) in EFS by (intros i a H2; apply rd_nthN; assumption). rewrite map_id in EFS. congruence. }
  subst fs. rewrite ptrie_values in EV. injection EV as <-. pose proof EO as (_ & _ & _ & _ & F2 & _ & _).
  rewrite (dict_sizes (map (map snd) D) (te_sorts (pe_t env)) cb); [rewrite map_map; reflexivity| | |exact EC].
  - apply Forall_forall. intros vs Hvs. apply in_map_iff in Hvs. destruct Hvs as (l & <- & Hl). apply In_nthN in Hl. destruct Hl as (k & Hk).
    destruct (col_size _ _ C k l Hk) as [S1 S2]. split; [destruct l; [congruence|discriminate]|]. rewrite lenN_map. split; [clear - S2; lia|].
    apply Forall_forall. intros v' Hv. apply in_map_iff in Hv. destruct Hv as (e & <- & He). exact (P_TriePef2.count_lt D remap env EO k l e Hk He).
  - clear - F2. induction F2 as [|l s D0 S0 H F IH]; cbn [map]; constructor; assumption.
Qed.

(** [t]: the trie that was built and written, [t']: the one that was loaded *)
Lemma ptrie_stats_ok x header ho cap vo t t' : heap_functions (ho_push ho) (ho_pop ho) -> 0 < cap < 2 ^ 64 -> vo <= 8 ->
  ptrie_build env (map (map line) D) (lenN D) remap = Ok t -> ptrie_rep D remap env t -> ptrie_prov D remap env t -> same_members t t' ->
  let f := save_file header (save_ptrie x env) t in
  exists r, ptrie_stats ho cap vo env' t' (lenN f) = Ok r /\
    tr_order r = lenN D /\ tr_grams r = lenN (concat D) /\ tr_bytes r = lenN f /\
    tr_vocab r + tr_values r + tr_grams_bytes r + tr_ranks_bytes r + tr_ptrs_bytes r <= tr_bytes r /\
    tr_unique r = map (fun l => distinct (map snd l)) D /\
    lenN (tr_levels r) = lenN D /\ forall k lr, nthN (tr_levels r) k = Some lr -> level_right D remap cap k lr.
Proof using C EO EO' ET EG ER.
  intros HF HK HV E (R1 & R2 & _ & (AL & _ & AP & AT)) (P1 & P2 & P3 & _ & _ & (P6 & P7)) (M1 & M2 & M3 & M4 & M5) f. pose proof (col_order _ _ C) as CO.
  pose proof (ptrie_unique t E) as UN.
  assert (SZ : map p_size (pt_arrays t) = map (fun l => lenN l) D).
  { rewrite (ptrie_build_sizes env (map (map line) D) remap t); [rewrite map_map; apply map_ext; intros l; apply lenN_map|rewrite lenN_map; exact E]. }
  assert (AF : arrays_facts D remap (plevels env' 0 (pt_arrays t'))).
  { apply (parrs_facts D remap C env env' (fit_of D remap env EO) (fit_of D remap env' EO') EG (pt_arrays t)); [exact M5|exact SZ| | |].
    - intros k a Ha. destruct (P7 k a Ha) as (_ & Q1 & _ & Q2). auto.
    - intros k a Ha Hk. destruct (AP k) as (a' & g & Ha' & Hg & _). { pose proof (nthN_lt _ _ _ Ha). lia. } rewrite Ha in Ha'. injection Ha' as <-. congruence.
    - intros k a Ha Hk. destruct (AT k Hk) as (a' & e & Ha' & He & RE). rewrite Ha in Ha'. injection Ha' as <-. exists e. auto. }
  destruct (levels_ok D remap C ho cap HF HK _ AF) as (rs & EL & LL & RL).
  unfold ptrie_stats. rewrite <- M3. rewrite (mapM_rd_size (pt_counts t)) by (rewrite <- M1, P1, P3; reflexivity). cbn [bind]. rewrite EL. cbn [bind]. eexists. split; [reflexivity|].
  cbn [tr_order tr_grams tr_bytes tr_vocab tr_values tr_grams_bytes tr_ranks_bytes tr_ptrs_bytes tr_unique tr_levels].
  split; [rewrite <- M1; exact P1|]. split; [apply (sizes_ok D remap C cap HK); exact AF|]. split; [reflexivity|]. split; [|split; [exact UN|split; [exact LL|exact RL]]].
  rewrite !fold_proj, !N.add_0_l, !map_map. cbn [fst snd]. rewrite <- M4.
  pose proof (sum_three (fun a => bytes_gseq vo (pe_pef env') (p_grams a)) (fun a => bytes_rseq vo (te_kind (pe_t env')) (pe_pspef env') (p_ranks a)) (fun a => bytes_ptrs vo (p_ptrs a)) (pt_arrays t')) as S3.
  cbv beta in S3. change (map (fun x0 => bytes_gseq vo (pe_pef env') (p_grams x0) + bytes_rseq vo (te_kind (pe_t env')) (pe_pspef env') (p_ranks x0) + bytes_ptrs vo (p_ptrs x0)) (pt_arrays t')) with (map (pabytes vo env') (pt_arrays t')) in S3.
  rewrite (pabytes_same vo _ _ M5) in S3.
  assert (G0 : forall a, nthN (pt_arrays t) 0 = Some a -> p_grams a = None).
  { intros a Ha. destruct (P7 0 a Ha) as (_ & Q & _). destruct (p_grams a) as [g|]; [|reflexivity]. destruct (Q g eq_refl). lia. }
  pose proof (ptrie_bytes_ok vo HV x env header t ltac:(lia) G0) as B. fold f in B. clear - S3 B. lia.
Qed.
End CountTrie.
