(** * Built models hold values of their C++ types: the count trie and the count tables *)
From Coq Require Import Floats.SpecFloat.
From Verif Require Import Prelude BitFacts M_Word P_Word M_Bits Spec P_Bits M_CompactVector P_CompactVector M_DArray M_EF P_EF P_EF2
  M_HashVec M_Mph P_Mph P_MphTables M_FastEF P_FastEF3 M_Text P_Text P_Text2 M_SeqColl P_SeqColl M_Pool P_Pool M_Trie Spec_Trie P_Trie1 P_Trie2 P_Trie3 P_Trie4 P_Trie5
  M_MphCount M_Score M_Quant M_MphProb M_Save Spec_Save P_Typed.
From Coq Require Import Permutation Sorting.Sorted.

Section Trie.
Variable D : list (list (gram * N)).
Variable remap : N.
Hypothesis C : collection D remap.
Variable env : tenv.
Hypothesis EO : env_ok D remap env.
Notation G := (grams D).
Notation voc := (grams D 0).

Definition t_arrays_ (arrays : list sarr) : Prop := forall i a, nthN arrays i = Some a -> t_sarr (te_kind env) (i + 1) a.

Lemma wr_typed arrays i a arrays' : t_arrays_ arrays -> t_sarr (te_kind env) (i + 1) a -> wr arrays i a = Ok arrays' -> t_arrays_ arrays' /\ lenN arrays' = lenN arrays.
Proof.
  intros T H E. assert (L : i < lenN arrays) by (unfold wr in E; destruct (N.ltb_spec i (lenN arrays)); [assumption|discriminate]).
  rewrite wr_setN in E by assumption. injection E as <-. split; [|apply lenN_setN]. intros j b Hj.
  destruct (N.eq_dec j i) as [->|N0]; [rewrite setN_same in Hj by assumption; injection Hj as <-; assumption|].
  rewrite setN_other in Hj by assumption. apply T. assumption.
Qed.

Lemma build_order_typed v cb arrays k arrays' : dicts_ok D cb -> voc_rep D env v -> 0 < k < lenN D -> arrays_upto D remap env (sb_seqs cb) arrays k ->
  t_arrays_ arrays -> build_order env v cb remap (map (map line) D) arrays (k + 1) = Ok arrays' -> t_arrays_ arrays'.
Proof.
  intros DO RV [Hk HkD] AU TA E. destruct (nthN_Some D k HkD) as (l & Hl). destruct (nthN_Some D (k - 1) ltac:(lia)) as (l' & Hl').
  destruct (ranks_exist D remap C cb k l DO Hl) as (n & rs & SZ & Hn & F2 & LR & FR & FR2).
  destruct (push_pair D remap C env k l rs n v Hl RV LR FR Hn) as (b & bg & br & EB & EG & ER & HG & HR).
  unfold build_order in E. replace (k + 1 - 2) with (k - 1) in E by lia. replace (k + 1 - 1) with k in E by lia.
  assert (F1 : nthN (map (map line) D) (k - 1) = Some (map line l')) by (rewrite nthN_map, Hl'; reflexivity).
  assert (F0 : nthN (map (map line) D) k = Some (map line l)) by (rewrite nthN_map, Hl; reflexivity).
  rewrite (proj2 (rd_nthN _ _ _) F1) in E. cbn [bind] in E. rewrite (proj2 (rd_nthN _ _ _) F0) in E. cbn [bind] in E. rewrite lenN_map, SZ in E. cbn [bind] in E. rewrite EB in E. cbn [bind] in E.
  rewrite (build_ngrams_ok D remap C env EO v arrays cb k l l' n (sb_seqs cb) rs b bg br Hk RV AU Hl Hl' F2 EG ER) in E. cbn [bind] in E.
  pose proof AU as (AL & AR & AP & APtr).
  destruct (nthN_Some arrays k ltac:(lia)) as (a & Ha). rewrite (proj2 (rd_nthN _ _ _) Ha) in E. cbn [bind] in E.
  set (ptrs := child_ptrs (G (k - 1)) (G k)) in *.
  assert (LP : lenN ptrs = lenN l' + 1). { pose proof (ptrs_len D (k - 1) l' Hl') as P. replace (k - 1 + 1) with k in P by lia. exact P. }
  destruct (col_size _ _ C _ _ Hl) as [S1 S2]. destruct (col_size _ _ C _ _ Hl') as [S1' S2'].
  assert (LG : lenN (G k) = lenN l) by (rewrite (grams_of D _ _ Hl), lenN_map; reflexivity).
  assert (LI : lenN (lids D remap k) = lenN l) by (rewrite lids_len; exact LG).
  assert (PF : pointers_for ptrs (lenN (lids D remap k))).
  { rewrite lids_len. apply child_pointers; [apply (lev_NoDup D remap C)|apply (lev_PRE D remap C); assumption|apply (lev_MON D remap C); assumption|].
    apply (lev_nonempty D remap C). lia. }
  assert (NRS : rs <> []). { intros Z. subst rs. change (lenN (@nil N)) with 0 in LR. destruct l; [congruence|]. rewrite lenN_cons in LR. lia. }
  unfold sab_build in E. cbn [ab_grams ab_ranks] in E. rewrite (cv_all_ok _ _ HG) in E. cbn [bind] in E.
  apply bind_inv in E. destruct E as (a1 & E1 & E). apply bind_inv in E1. destruct E1 as (f & EF & E1).
  unfold sab_build_ranks in E1. cbn [ab_ranks] in E1. rewrite (cv_all_ok _ _ HR) in E1. cbn [bind] in E1. apply bind_inv in E1. destruct E1 as (rk & ERK & E1). injection E1 as <-.
  cbn [s_size s_grams s_ranks s_ptrs] in E.
  assert (TF : t_fef f /\ f_size f <> 0).
  { eapply (fef_build_typed (te_hu env k) (te_orders env k) (lids D remap k) ptrs (lenN voc)); [exact PF| | | | | | | |exact EF].
    { apply (lids_sorted D remap C). assumption. }
    { intros Z. rewrite Z in LI. change (lenN (@nil N)) with 0 in LI. destruct l; [congruence|]. rewrite lenN_cons in LI. lia. }
    { lia. }
    { apply (lids_bound D remap C). }
    { pose proof (lev_size D remap C 0). nia. }
    { lia. }
    { pose proof EO as (_ & _ & LO & _). apply LO. lia. } }
  pose proof (ranks_typed _ _ _ _ NRS ltac:(lia) FR2 ERK) as TR.
  destruct (TA k a Ha) as (T1 & T2 & T3 & T4).
  apply bind_inv in E. destruct E as (arr1 & Ew & E). assert (TN : t_sarr (te_kind env) (k + 1) (mksarr (s_size a) (Some f) (Some rk) (s_ptrs a))).
  { split; [exact T1|]. cbn [s_grams s_ranks s_ptrs]. destruct (N.eqb_spec (k + 1) 1); [lia|]. split; [exact TF|]. split; [exact TR|exact T4]. }
  destruct (wr_typed _ _ _ _ TA TN Ew) as (TA1 & L1).
  apply bind_inv in E. destruct E as (a' & Ha' & E). apply rd_inv in Ha'. apply bind_inv in E. destruct E as (a2 & E2 & E).
  unfold sa_build_pointers in E2. apply bind_inv in E2. destruct E2 as (pe & EP & E2). injection E2 as <-.
  destruct (TA1 (k - 1) a' Ha') as (U1 & U2 & U3 & U4).
  assert (TN2 : t_sarr (te_kind env) (k - 1 + 1) (mksarr (s_size a') (s_grams a') (s_ranks a') (Some pe))).
  2: exact (proj1 (wr_typed _ _ _ _ TA1 TN2 E)). split; [exact U1|]. cbn [s_grams s_ranks s_ptrs]. split; [exact U2|]. split; [exact U3|].
  eapply (ptr_typed ptrs); [exact EP| | | |].
  { apply child_sortedN; [apply (lev_NoDup D remap C)|apply (lev_PRE D remap C); assumption|apply (lev_MON D remap C); assumption]. }
  { intros Z. rewrite Z in LP. change (lenN (@nil N)) with 0 in LP. lia. }
  { apply Forall_forall. intros p Hp. apply In_nthN in Hp. destruct Hp as (j & Hj). apply nthN_child_ptrs_inv in Hj. destruct Hj as [_ ->].
    pose proof (children_le_all (G (k - 1)) (G k) j). lia. }
  { lia. }
Qed.
Lemma build_orders_typed v cb : dicts_ok D cb -> voc_rep D env v -> forall m k arrays arrays', 0 < k -> k + N.of_nat m <= lenN D -> arrays_upto D remap env (sb_seqs cb) arrays k ->
  t_arrays_ arrays -> foldM (build_order env v cb remap (map (map line) D)) (seqN (k + 1) m) arrays = Ok arrays' -> t_arrays_ arrays'.
Proof.
  intros DO RV. induction m as [|m IH]; intros k arrays arrays' Hk Hm AU TA E; cbn [seqN foldM] in E; [injection E as <-; assumption|].
  destruct (build_order_ok D remap C env EO v cb arrays k DO RV ltac:(lia) AU) as (a1 & E1 & AU1). rewrite E1 in E. cbn [bind] in E.
  replace (N.succ (k + 1)) with (k + 1 + 1) in E by lia. refine (IH (k + 1) a1 arrays' ltac:(lia) ltac:(lia) AU1 _ E). refine (build_order_typed v cb arrays k a1 DO RV _ AU TA E1). split; [exact Hk|]. lia.
Qed.
Lemma dicts_typed cb : sc_add_all scb_empty (map (map snd) D) (te_sorts env) = Ok cb -> lenN (sb_seqs cb) = lenN D /\ Forall t_cv (sb_seqs cb).
Proof.
  intros E. pose proof EO as (_ & _ & _ & F2 & _ & FC).
  destruct (sc_add_all_ok (map (map snd) D) (te_sorts env) scb_empty) as (ps & cs & E' & L1 & L2 & DK).
  - apply Forall_forall. intros vs Hvs. apply in_map_iff in Hvs. destruct Hvs as (l & <- & Hl). apply In_nthN in Hl. destruct Hl as (k & Hk).
    destruct (col_size _ _ C k l Hk) as [S1 S2]. split; [destruct l; [congruence|discriminate]|]. rewrite lenN_map. split; [lia|].
    apply Forall_forall. intros v Hv. apply in_map_iff in Hv. destruct Hv as (e & <- & He). eapply count_lt; eauto.
  - clear - F2. induction F2 as [|l s D0 S0 H F IH]; cbn [map]; constructor; [|exact IH]. eapply Permutation_trans; [exact H|apply eat_with_freq].
  - rewrite E in E'. injection E' as ->. cbn [sb_seqs scb_empty app]. rewrite map_length in L1, L2. split; [unfold lenN; congruence|].
    apply Forall_forall. intros c Hc. apply In_nthN in Hc. destruct Hc as (k & Hc). pose proof (nthN_lt _ _ _ Hc) as LK.
    destruct (nthN_Some ps k ltac:(unfold lenN in *; lia)) as (p & Hp). destruct (nthN_Some D k ltac:(unfold lenN in *; lia)) as (l & Hl).
    destruct (nthN_Some (te_sorts env) k) as (s & Hs). { apply Forall2_len in F2. unfold lenN in *. lia. }
    assert (Hv : nthN (map (map snd) D) k = Some (map snd l)) by (rewrite nthN_map, Hl; reflexivity).
    pose proof (DK k _ s p c Hv Hs Hp Hc) as (D1 & _). eapply cv_holds_typed; eauto.
Qed.
Lemma build_vocabulary_typed cb arrays v arrays' l : dicts_ok D cb -> lenN arrays = lenN D -> nthN D 0 = Some l -> t_arrays_ arrays ->
  build_vocabulary env cb (map line l) arrays = Ok (v, arrays') -> t_svt 64 v /\ t_arrays_ arrays'.
Proof.
  intros DO LA Hl TA E. pose proof EO as (_ & VO & _ & _ & RAM & _).
  destruct (col_size _ _ C _ _ Hl) as [S1 S2].
  destruct (ranks_exist D remap C cb 0 l DO Hl) as (n & rs & SZ & Hn & F2 & LR & FR & FR2).
  set (gs := map (fun e : gram * N => (join (fst e), snd e)) l) in *.
  assert (UW : map fst gs = uwords D). { unfold gs, uwords. rewrite (grams_of D _ _ Hl), !map_map. reflexivity. }
  assert (LGS : lenN gs = lenN l) by apply lenN_map.
  destruct (pool_load_lines_ok gs (pool_clear (pool_new (te_ram env))) (te_ram env) []) as (p & EP & RP).
  { eapply pool_clear_rep. apply pool_new_rep. }
  { apply Forall_forall. intros x Hx. apply in_map_iff in Hx. destruct Hx as (e & <- & He). cbn [fst snd].
    pose proof (In_grams D 0 l e Hl He) as Hg. split; [|split].
    - intros Z. pose proof (join_nonempty (fst e) (gram_ne D remap C 0 _ Hg) (gram_words D remap C 0 _ Hg)) as J. rewrite Z in J. revert J. apply N.nlt_0_r.
    - apply (gram_tab D remap C 0). assumption.
    - pose proof (count_lt D remap env EO 0 l e Hl He). lia. }
  { cbn [app]. rewrite UW. assumption. }
  assert (ML : map (fun r => format_count_line (fst r) (snd r)) gs = map line l). { unfold gs. rewrite map_map. reflexivity. }
  rewrite ML in EP. cbn [app] in RP. unfold build_vocabulary, pool_load in E. rewrite EP in E. cbn [bind] in E.
  pose proof RP as (_ & _ & _ & _ & _ & LX & _). rewrite LX in E.
  assert (RECS : mapM (pool_record p) (range (lenN gs)) = Ok gs).
  { rewrite (mapM_range (pool_record p) (fun x => x) gs); [rewrite map_id; reflexivity|]. intros i [g a] H. eapply pool_record_ok; eauto. }
  rewrite RECS in E. cbn [bind] in E. rewrite SZ in E. cbn [bind] in E. rewrite LGS in E. unfold sab_new in E.
  change (ceil_log2 (add64 0 1)) with 0 in E. unfold cvb_new at 1 in E. change (64 <? cv_width 0) with false in E. cbv iota in E. cbn [bind] in E.
  destruct (cv_push_holds rs n) as (b2 & b2' & E4 & E5 & E6); [lia|lia|assumption|]. rewrite LR in E4. rewrite E4 in E. cbn [bind ab_ranks] in E.
  assert (RKF : forall (c : cvb), foldM (fun c (rc : list N * N) => rank <- sc_rank cb 0 (snd rc) ;; cvb_push_back c rank) gs c = foldM cvb_push_back rs c).
  { unfold gs. intros c. rewrite foldM_map_. cbn [snd]. clear - F2. revert c. induction F2 as [|e r l rs H F IH]; intros c; [reflexivity|]. cbn [foldM].
    destruct H as (H & _). rewrite H. cbn [bind]. destruct (cvb_push_back c r); cbn [bind]; auto. }
  rewrite RKF, E5 in E. cbn [bind] in E. apply bind_inv in E. destruct E as (a0 & Ha0 & E). apply rd_inv in Ha0.
  assert (NRS : rs <> []). { intros Z. subst rs. change (lenN (@nil N)) with 0 in LR. destruct l; [congruence|]. rewrite lenN_cons in LR. lia. }
  unfold sab_build_ranks in E. cbn [ab_ranks] in E. rewrite (cv_all_ok _ _ E6) in E. cbn [bind] in E.
  apply bind_inv in E. destruct E as (a1 & E1 & E). apply bind_inv in E1. destruct E1 as (rk & ERK & E1). injection E1 as <-.
  pose proof (ranks_typed _ _ _ _ NRS ltac:(lia) FR2 ERK) as TR. destruct (TA 0 a0 Ha0) as (T1 & T2 & T3 & T4).
  apply bind_inv in E. destruct E as (arr1 & Ew & E).
  assert (TN : t_sarr (te_kind env) (0 + 1) (mksarr (s_size a0) (s_grams a0) (Some rk) (s_ptrs a0))).
  { split; [exact T1|]. cbn [s_grams s_ranks s_ptrs]. split; [exact T2|]. split; [exact TR|exact T4]. }
  destruct (wr_typed _ _ _ _ TA TN Ew) as (TA1 & L1).
  apply bind_inv in E. destruct E as (ids & E7 & E). apply bind_inv in E. destruct E as (ids' & E8 & E).
  apply bind_inv in E. destruct E as (v1 & EV & E). injection E as <- <-. split; [|exact TA1].
  destruct (cv_push_holds (range (lenN l)) (lenN l)) as (b3 & b3' & E7' & E8' & E9); [rewrite lenN_range; lia|lia| |].
  { apply Forall_forall. intros x Hx. unfold range in Hx. apply In_seqN in Hx. lia. }
  rewrite lenN_range in E7'. rewrite E7 in E7'. injection E7' as <-. rewrite E8 in E8'. injection E8' as <-.
  assert (LU : lenN (map fst gs) = lenN l) by (rewrite lenN_map; exact LGS).
  refine (svt_build_typed 64 _ _ _ _ _ _ (or_intror eq_refl) _ _ _ EV).
  - destruct (cv_holds_typed _ _ E9) as (Q & _). exact Q.
  - rewrite LU. lia.
  - apply hash_domain_lt. lia.
Qed.
Lemma trie_build_typed t : trie_build env (map (map line) D) (lenN D) remap = Ok t -> t_trie (te_kind env) t.
Proof.
  intros E. pose proof (col_order _ _ C) as CO. pose proof (col_remap _ _ C) as CR. unfold trie_build in E.
  assert (U : forall x, x <= 8 -> u8 x = x). { intros x Hx. unfold u8. change 255 with (N.ones 8). rewrite N.land_ones. apply N.mod_small. lia. }
  unfold check_order, check_remapping_order in E. rewrite !U in E by lia.
  destruct (N.ltb_spec (lenN D) 2); [lia|]. destruct (N.ltb_spec 8 (lenN D)); [lia|]. destruct (N.ltb_spec 2 remap); [lia|]. cbn [bind] in E.
  set (files := map (map line) D) in *. assert (LF : lenN files = lenN D) by apply lenN_map.
  replace (range (lenN D)) with (range (lenN files)) in E by (rewrite LF; reflexivity). rewrite (mapM_range (rd files) (fun x => x) files) in E by (intros i a H2; apply rd_nthN; assumption). rewrite map_id in E. cbn [bind] in E.
  assert (VAL : mapM (fun lines => mapM (fun l => ' (_, c) <- parse_count_line l ;; Ok c) lines) files = Ok (map (map snd) D)).
  { unfold files. assert (H2 : forall l, In l D -> mapM (fun l => ' (_, c) <- parse_count_line l ;; Ok c) (map line l) = Ok (map snd l)).
    { intros l Hl. apply In_nthN in Hl. destruct Hl as (k & Hk).
      assert (H3 : forall l0, incl l0 l -> mapM (fun l => ' (_, c) <- parse_count_line l ;; Ok c) (map line l0) = Ok (map snd l0)).
      { induction l0 as [|e l0 IH]; intros I; [reflexivity|]. cbn [map mapM]. rewrite (parse_line D remap C env EO k l e Hk) by (apply I; left; reflexivity).
        cbn [bind]. rewrite IH by (intros x Hx; apply I; right; assumption). reflexivity. }
      apply H3. apply incl_refl. }
    revert H2. generalize D as D1. clear. induction D1 as [|l D1 IH]; intros H2; [reflexivity|]. cbn [map mapM]. rewrite (H2 l (or_introl eq_refl)). cbn [bind].
    rewrite IH by (intros; apply H2; right; assumption). reflexivity. }
  rewrite VAL in E. cbn [bind] in E. destruct (dicts_build D remap C env EO) as (cb & EC & DO). rewrite EC in E. cbn [bind] in E.
  set (a0 := map (fun f => sarr_new (lenN f)) files) in *. assert (LA0 : lenN a0 = lenN D) by (unfold a0; rewrite lenN_map; assumption).
  assert (TA0 : t_arrays_ a0).
  { intros i a Ha. unfold a0, files in Ha. rewrite !nthN_map in Ha. destruct (nthN D i) as [l|] eqn:El; [|discriminate]. injection Ha as <-.
    destruct (col_size _ _ C _ _ El) as [_ S2]. split; [cbn [sarr_new s_size]; rewrite lenN_map; unfold is_u64; lia|]. cbn [sarr_new s_grams s_ranks s_ptrs t_opt].
    split; [destruct (i + 1 =? 1); reflexivity|]. split; exact I. }
  destruct (build_vocabulary_ok D remap C env EO cb a0 DO LA0) as (l & v & arr & Hl & EV & RV & AU).
  assert (F0 : nthN files 0 = Some (map line l)) by (unfold files; rewrite nthN_map, Hl; reflexivity).
  rewrite (proj2 (rd_nthN _ _ _) F0) in E. cbn [bind] in E. rewrite EV in E. cbn [bind] in E.
  destruct (build_vocabulary_typed _ _ _ _ _ DO LA0 Hl TA0 EV) as (TV & TA1).
  destruct (build_orders_ok D remap C env EO v cb DO RV (N.to_nat (lenN D - 1)) 1 arr ltac:(lia) ltac:(lia) AU) as (arr' & E' & AU').
  pose proof (build_orders_typed _ _ DO RV (N.to_nat (lenN D - 1)) 1 arr arr' ltac:(lia) ltac:(lia) AU TA1 E') as TA2.
  change (1 + 1) with 2 in E'. fold files in E'. rewrite E' in E. cbn [bind] in E. injection E as <-.
  destruct (dicts_typed _ EC) as (LC & FC). unfold t_trie. cbn [t_order t_remap t_counts t_vocab t_arrays].
  split; [unfold is_u8; lia|]. split; [unfold is_u8; lia|]. split; [exact LC|]. split; [exact FC|]. split; [exact TV|]. split; [|exact TA2].
  destruct AU' as (LA' & _). exact LA'.
Qed.
End Trie.
