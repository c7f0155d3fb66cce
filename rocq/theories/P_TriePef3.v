(** * Tries over uniform_pef: vocabulary and assembly *)
From Verif Require Import Prelude BitFacts M_Word P_Word M_Bits Spec P_Bits M_CompactVector P_CompactVector M_DArray M_EF P_EF P_EF2
  M_HashVec M_Mph P_Mph P_MphTables M_FastEF P_FastEF3 M_Text P_Text P_Text2 M_SeqColl P_SeqColl M_Pool P_Pool M_Pef Spec_Pef M_Trie M_TriePef Spec_Trie
  P_Trie1 P_Trie2 P_Trie3 P_Trie4 P_Trie5 P_TriePef1 P_TriePef2.
From Coq Require Import Permutation Sorting.Sorted.

Section Build.
Variable D : list (list (gram * N)).
Variable remap : N.
Hypothesis C : collection D remap.
Variable env : penv.
Hypothesis EO : penv_ok D remap env.
Notation G := (grams D).
Notation voc := (grams D 0).
Notation tv := (pe_t env).

Definition dicts_ok (cb : scb) : Prop := forall k l, nthN D k = Some l ->
  exists n, sc_size cb k = Ok n /\ n <= lenN l /\ n <= lenN (nodup N.eq_dec (map snd l)) /\ forall e, In e l -> exists r, rank_ok cb k n e r.
Lemma dicts_build : exists cb, sc_add_all scb_empty (map (map snd) D) (te_sorts tv) = Ok cb /\ dicts_ok cb.
Proof.
  pose proof EO as (_ & _ & _ & _ & F2 & _ & FC).
  destruct (sc_add_all_ok (map (map snd) D) (te_sorts tv) scb_empty) as (ps & cs & E & L1 & L2 & DK).
  - apply Forall_forall. intros vs Hvs. apply in_map_iff in Hvs. destruct Hvs as (l & <- & Hl). apply In_nthN in Hl. destruct Hl as (k & Hk).
    destruct (col_size _ _ C k l Hk) as [S1 S2]. split; [destruct l; [congruence|discriminate]|]. rewrite lenN_map. split; [lia|].
    apply Forall_forall. intros v Hv. apply in_map_iff in Hv. destruct Hv as (e & <- & He). eapply (P_TriePef2.count_lt D remap env EO); eauto.
  - clear - F2. induction F2 as [|l s D0 S0 H F IH]; cbn [map]; constructor; [|exact IH]. eapply Permutation_trans; [exact H|apply eat_with_freq].
  - exists (mkscb ps cs). split; [exact E|]. intros k l Hk. pose proof (nthN_lt _ _ _ Hk) as LK. rewrite map_length in L1, L2.
    destruct (nthN_Some ps k ltac:(unfold lenN in *; lia)) as (p & Hp). destruct (nthN_Some cs k ltac:(unfold lenN in *; lia)) as (c & Hc).
    destruct (nthN_Some (te_sorts tv) k) as (s & Hs). { apply Forall2_len in F2. unfold lenN in *. lia. }
    assert (Hv : nthN (map (map snd) D) k = Some (map snd l)) by (rewrite nthN_map, Hk; reflexivity).
    pose proof (DK k _ s p c Hv Hs Hp Hc) as DO. pose proof DO as (D1 & D2 & D3 & D4 & D5).
    exists (lenN s). split; [|split; [|split]].
    + unfold sc_size. cbn [sb_seqs]. rewrite (proj2 (rd_nthN _ _ _) Hc). cbn [bind]. rewrite (cv_holds_size _ _ D1), lenN_map. reflexivity.
    + rewrite <- (lenN_map fst s), <- (lenN_map snd l). unfold lenN. pose proof (NoDup_incl_length D2 (fun v H => proj1 (D3 v) H)). lia.
    + rewrite (lenN_with_freq (map snd l) s); [lia|]. pose proof (Forall2_nthN _ _ _ _ _ _ F2 Hk Hs) as PP. cbn in PP. exact PP.
    + intros e He. destruct (col_size _ _ C k l Hk) as [S1 S2].
      destruct (dict_rank p c (map snd l) s (snd e) DO) as (r & B1 & B2 & B3 & B4); [rewrite lenN_map; lia|apply in_map; assumption|].
      exists r. split; [|split; [assumption|]].
      * unfold sc_rank. cbn [sb_pairs]. rewrite (proj2 (rd_nthN _ _ _) Hp). cbn [bind]. rewrite B1. reflexivity.
      * unfold sc_access. cbn [sb_seqs]. rewrite (proj2 (rd_nthN _ _ _) Hc). cbn [bind]. assumption.
Qed.
Lemma ranks_exist cb k l : dicts_ok cb -> nthN D k = Some l ->
  exists n rs, sc_size cb k = Ok n /\ n < 2 ^ 31 /\ Forall2 (rank_ok cb k n) l rs /\ lenN rs = lenN l /\ Forall (fun r => r <= n) rs /\ Forall (fun r => r < n) rs /\ n <= lenN l /\ n <= lenN (nodup N.eq_dec (map snd l)).
Proof.
  intros DO Hk. destruct (DO k l Hk) as (n & SZ & NL & ND & R). destruct (exists_list _ _ R) as (rs & F2). exists n, rs.
  destruct (col_size _ _ C k l Hk) as [S1 S2]. split; [assumption|]. split; [lia|]. split; [assumption|]. split; [apply Forall2_len in F2; unfold lenN; lia|].
  assert (F : Forall (fun r => r < n) rs). { clear - F2. induction F2 as [|e r l rs H F IH]; constructor; [apply H|assumption]. }
  split; [eapply Forall_impl; [|exact F]; cbn; intros; lia|]. auto.
Qed.
Lemma push_pair k l rs n v : nthN D k = Some l -> voc_rep D tv v -> lenN rs = lenN l -> Forall (fun r => r <= n) rs -> n < 2 ^ 31 ->
  exists b bg br, sab_new (lenN l) (m_n (sv_h v)) n = Ok b /\ foldM cvb_push_back (lids D remap k) (ab_grams b) = Ok bg /\
    foldM cvb_push_back rs (ab_ranks b) = Ok br /\ cv_holds (cv_of_builder bg) (lids D remap k) /\ cv_holds (cv_of_builder br) rs.
Proof.
  intros Hk (_ & RV & _) Lr Fr Hn. destruct (col_size _ _ C k l Hk) as [S1 S2]. rewrite RV, lenN_uwords.
  pose proof (lev_size D remap C 0) as LV.
  assert (LL : lenN (lids D remap k) = lenN l). { rewrite lids_len, (grams_of D _ _ Hk), lenN_map. reflexivity. }
  destruct (cv_push_holds (lids D remap k) (lenN voc)) as (b1 & b1' & E1 & E2 & E3); [lia|lia|apply (lids_bound D remap C)|].
  destruct (cv_push_holds rs n) as (b2 & b2' & E4 & E5 & E6); [lia|lia|assumption|].
  exists (mksab b1 b2), b1', b2'. unfold sab_new. rewrite <- LL, E1. cbn [bind]. rewrite LL, <- Lr, E4. cbn [bind ab_grams ab_ranks]. auto.
Qed.
Lemma pbuild_order_ok v cb arrays k : dicts_ok cb -> voc_rep D tv v -> 0 < k < lenN D -> P_TriePef2.arrays_upto D remap env (sb_seqs cb) arrays k ->
  exists arrays', pbuild_order env v cb remap (map (map line) D) arrays (k + 1) = Ok arrays' /\ P_TriePef2.arrays_upto D remap env (sb_seqs cb) arrays' (k + 1).
Proof.
  intros DO RV [Hk HkD] AU. destruct (nthN_Some D k HkD) as (l & Hl). destruct (nthN_Some D (k - 1) ltac:(lia)) as (l' & Hl').
  destruct (ranks_exist cb k l DO Hl) as (n & rs & SZ & Hn & F2 & LR & FR & FRL & NL & ND).
  destruct (push_pair k l rs n v Hl RV LR FR Hn) as (b & bg & br & EB & EG & ER & HG & HR).
  unfold pbuild_order. replace (k + 1 - 2) with (k - 1) by lia. replace (k + 1 - 1) with k by lia.
  assert (F1 : nthN (map (map line) D) (k - 1) = Some (map line l')) by (rewrite nthN_map, Hl'; reflexivity).
  assert (F0 : nthN (map (map line) D) k = Some (map line l)) by (rewrite nthN_map, Hl; reflexivity).
  rewrite (proj2 (rd_nthN _ _ _) F1). cbn [bind]. rewrite (proj2 (rd_nthN _ _ _) F0). cbn [bind]. rewrite lenN_map, SZ. cbn [bind]. rewrite EB. cbn [bind].
  destruct (pbuild_ngrams_ok D remap C env EO v arrays cb k l l' n (sb_seqs cb) rs b bg br Hk RV AU Hl Hl' F2 EG ER) as (arrays0 & EN & AU0). rewrite EN. cbn [bind]. cbv beta iota. clear EN AU. rename AU0 into AU.
  clear arrays. rename arrays0 into arrays.
  pose proof AU as (AL & AR & AP & APtr).
  destruct (nthN_Some arrays k ltac:(lia)) as (a & Ha). rewrite (proj2 (rd_nthN _ _ _) Ha). cbn [bind].
  set (ptrs := child_ptrs (G (k - 1)) (G k)) in *.
  assert (LP : lenN ptrs = lenN l' + 1). { pose proof (ptrs_len D (k - 1) l' Hl') as P. replace (k - 1 + 1) with k in P by lia. exact P. }
  destruct (col_size _ _ C _ _ Hl) as [S1 S2]. destruct (col_size _ _ C _ _ Hl') as [S1' S2'].
  assert (LG : lenN (G k) = lenN l) by (rewrite (grams_of D _ _ Hl), lenN_map; reflexivity).
  destruct (g_build_ok D remap C env k ltac:(lia)) as (f & EF & RF). { pose proof EO as (_ & _ & LO & _). apply LO. lia. } fold ptrs in EF.
  assert (NRS : rs <> []). { intros Z. subst rs. change (lenN (@nil N)) with 0 in LR. destruct l; [congruence|]. rewrite lenN_cons in LR. lia. }
  destruct (rk_build_ok env k rs (k + 1) n NRS ltac:(lia) FRL ltac:(lia)) as (rk & ERK & GRK).
  { intros PS. pose proof EO as (_ & _ & _ & PP & _). destruct (PP PS k l Hl) as [P1 P2]. split; [|exact P2]. rewrite LR. eapply N.le_lt_trans; [|exact P1]. apply N.mul_le_mono_l. exact ND. }
  unfold pab_build. cbn [ab_grams ab_ranks]. rewrite (cv_all_ok _ _ HG). cbn [bind]. rewrite EF. cbn [bind].
  unfold pab_build_ranks. cbn [ab_ranks]. rewrite (cv_all_ok _ _ HR). cbn [bind]. rewrite ERK. cbn [bind p_size p_grams p_ranks p_ptrs].
  rewrite wr_setN by lia. cbn [bind]. set (ak := mkparr (p_size a) (Some f) (Some rk) (p_ptrs a)). set (arr1 := setN arrays k ak).
  assert (L1 : lenN arr1 = lenN arrays) by apply lenN_setN.
  destruct (nthN_Some arrays (k - 1) ltac:(lia)) as (a' & Ha').
  assert (Ha1 : nthN arr1 (k - 1) = Some a') by (unfold arr1; rewrite setN_other by lia; assumption).
  rewrite (proj2 (rd_nthN _ _ _) Ha1). cbn [bind].
  destruct (ptr_build_ok ptrs) as (pe & EP & RP).
  { apply child_sortedN; [apply (lev_NoDup D remap C)|apply (lev_PRE D remap C); assumption|apply (lev_MON D remap C); assumption]. }
  { intros Z. rewrite Z in LP. change (lenN (@nil N)) with 0 in LP. lia. }
  { apply Forall_forall. intros p Hp. apply In_nthN in Hp. destruct Hp as (j & Hj). apply nthN_child_ptrs_inv in Hj. destruct Hj as [_ ->].
    pose proof (children_le_all (G (k - 1)) (G k) j). lia. }
  { lia. }
  unfold pa_build_pointers. rewrite EP. cbn [bind]. rewrite wr_setN by lia. eexists. split; [reflexivity|].
  set (ap := mkparr (p_size a') (p_grams a') (p_ranks a') (Some pe)).
  assert (NK : nthN (setN arr1 (k - 1) ap) k = Some ak). { rewrite setN_other by lia. unfold arr1. apply setN_same. lia. }
  assert (NP : nthN (setN arr1 (k - 1) ap) (k - 1) = Some ap) by (apply setN_same; lia).
  assert (NO : forall j, j <> k -> j <> k - 1 -> nthN (setN arr1 (k - 1) ap) j = nthN arrays j).
  { intros j J1 J2. rewrite setN_other by lia. unfold arr1. apply setN_other; lia. }
  split; [rewrite lenN_setN; lia|]. split; [|split].
  - intros j Hj. destruct (N.eq_dec j k) as [->|J1].
    + exists ak, rk, rs. split; [assumption|]. split; [reflexivity|]. split; [exact GRK|]. intros l0 i e H0 He. rewrite Hl in H0. injection H0 as <-.
      destruct (nthN_Some rs i) as (r & Hr). { apply nthN_lt in He. lia. }
      exists r. split; [exact Hr|]. pose proof (Forall2_nthN _ _ _ _ _ _ F2 He Hr) as K. apply K.
    + destruct (N.eq_dec j (k - 1)) as [->|J2].
      * destruct (AR (k - 1) ltac:(lia)) as (x & r0 & vs0 & X1 & X2 & X3). rewrite Ha' in X1. injection X1 as <-. exists ap, r0, vs0. auto.
      * destruct (AR j ltac:(lia)) as (x & r0 & vs0 & X1 & X2). exists x, r0, vs0. split; [rewrite NO by assumption; assumption|assumption].
  - intros j Hj. destruct (N.eq_dec j k) as [->|J1].
    + exists ak, f. auto.
    + destruct (AP j ltac:(lia)) as (x & f0 & X1 & X2 & X3). destruct (N.eq_dec j (k - 1)) as [->|J2].
      * rewrite Ha' in X1. injection X1 as <-. exists ap, f0. auto.
      * exists x, f0. split; [rewrite NO by assumption; assumption|auto].
  - intros j Hj. destruct (N.eq_dec j (k - 1)) as [->|J2].
    + exists ap, pe. split; [assumption|]. split; [reflexivity|]. replace (k - 1 + 1) with k by lia. assumption.
    + destruct (APtr j ltac:(lia)) as (x & e0 & X1 & X2 & X3). exists x, e0. split; [rewrite NO by lia; assumption|auto].
Qed.

Lemma pbuild_orders_ok v cb : dicts_ok cb -> voc_rep D tv v -> forall m k arrays, 0 < k -> k + N.of_nat m <= lenN D -> P_TriePef2.arrays_upto D remap env (sb_seqs cb) arrays k ->
  exists arrays', foldM (pbuild_order env v cb remap (map (map line) D)) (seqN (k + 1) m) arrays = Ok arrays' /\ P_TriePef2.arrays_upto D remap env (sb_seqs cb) arrays' (k + N.of_nat m).
Proof.
  intros DO RV. induction m as [|m IH]; intros k arrays Hk Hm AU; [exists arrays; rewrite N.add_0_r; auto|].
  cbn [seqN foldM]. destruct (pbuild_order_ok v cb arrays k DO RV ltac:(lia) AU) as (a1 & E1 & AU1). rewrite E1. cbn [bind].
  replace (N.succ (k + 1)) with (k + 1 + 1) by lia. destruct (IH (k + 1) a1 ltac:(lia) ltac:(lia) AU1) as (a2 & E2 & AU2). exists a2. split; [assumption|].
  replace (k + N.of_nat (S m)) with (k + 1 + N.of_nat m) by lia. assumption.
Qed.

Lemma uni_line e : In e (match nthN D 0 with Some l => l | None => [] end) -> fst e = [hd [] (fst e)].
Proof.
  intros H. destruct (nthN D 0) as [l|] eqn:E; [|destruct H]. pose proof (gram_len D remap C 0 (fst e) (In_grams D 0 l e E H)) as L.
  destruct (fst e) as [|w [|? ?]]; try discriminate L. reflexivity.
Qed.
Lemma pbuild_vocabulary_ok cb arrays : dicts_ok cb -> lenN arrays = lenN D ->
  exists l v arrays', nthN D 0 = Some l /\ pbuild_vocabulary env cb (map line l) arrays = Ok (v, arrays') /\ voc_rep D tv v /\ P_TriePef2.arrays_upto D remap env (sb_seqs cb) arrays' 1.
Proof.
  intros DO LA. pose proof (col_order _ _ C) as CO. destruct (nthN_Some D 0 ltac:(lia)) as (l & Hl). exists l.
  destruct (col_size _ _ C _ _ Hl) as [S1 S2]. pose proof EO as (_ & VO & _ & _ & _ & RAM & _).
  destruct (ranks_exist cb 0 l DO Hl) as (n & rs & SZ & Hn & F2 & LR & FR & FRL & NL & ND).
  set (gs := map (fun e : gram * N => (join (fst e), snd e)) l).
  assert (UW : map fst gs = uwords D). { unfold gs, uwords. rewrite (grams_of D _ _ Hl), !map_map. reflexivity. }
  assert (LGS : lenN gs = lenN l) by apply lenN_map.
  destruct (pool_load_lines_ok gs (pool_clear (pool_new (te_ram tv))) (te_ram tv) []) as (p & EP & RP).
  { eapply pool_clear_rep. apply pool_new_rep. }
  { apply Forall_forall. intros x Hx. apply in_map_iff in Hx. destruct Hx as (e & <- & He). cbn [fst snd].
    pose proof (In_grams D 0 l e Hl He) as Hg. split; [|split].
    - intros Z. pose proof (join_nonempty (fst e) (gram_ne D remap C 0 _ Hg) (gram_words D remap C 0 _ Hg)) as J. rewrite Z in J. revert J. apply N.nlt_0_r.
    - apply (gram_tab D remap C 0). assumption.
    - pose proof (P_TriePef2.count_lt D remap env EO 0 l e Hl He). lia. }
  { cbn [app]. rewrite UW. assumption. }
  assert (ML : map (fun r => format_count_line (fst r) (snd r)) gs = map line l). { unfold gs. rewrite map_map. reflexivity. }
  rewrite ML in EP. cbn [app] in RP. unfold pbuild_vocabulary, pool_load. rewrite EP. cbn [bind].
  pose proof RP as (_ & _ & _ & _ & _ & LX & _). rewrite LX.
  assert (RECS : mapM (pool_record p) (range (lenN gs)) = Ok gs).
  { rewrite (mapM_range (pool_record p) (fun x => x) gs); [rewrite map_id; reflexivity|]. intros i [g a] H. eapply pool_record_ok; eauto. }
  rewrite RECS. cbn [bind]. rewrite SZ. cbn [bind]. rewrite LGS. unfold sab_new.
  change (ceil_log2 (add64 0 1)) with 0. unfold cvb_new at 1. change (64 <? cv_width 0) with false. cbv iota. cbn [bind].
  destruct (cv_push_holds rs n) as (b2 & b2' & E4 & E5 & E6); [lia|lia|assumption|]. rewrite LR in E4. rewrite E4. cbn [bind ab_ranks].
  assert (RKF : forall (c : cvb), foldM (fun c (rc : list N * N) => rank <- sc_rank cb 0 (snd rc) ;; cvb_push_back c rank) gs c = foldM cvb_push_back rs c).
  { unfold gs. intros c. rewrite foldM_map_. cbn [snd]. clear - F2. revert c. induction F2 as [|e r l rs H F IH]; intros c; [reflexivity|]. cbn [foldM].
    destruct H as (H & _). rewrite H. cbn [bind]. destruct (cvb_push_back c r); cbn [bind]; auto. }
  rewrite RKF, E5. cbn [bind]. destruct (nthN_Some arrays 0 ltac:(lia)) as (a0 & Ha0). rewrite (proj2 (rd_nthN _ _ _) Ha0). cbn [bind].
  assert (NRS : rs <> []). { intros Z. subst rs. change (lenN (@nil N)) with 0 in LR. destruct l; [congruence|]. rewrite lenN_cons in LR. lia. }
  destruct (rk_build_ok env 0 rs 1 n NRS ltac:(lia) FRL ltac:(lia)) as (rk & ERK & GRK).
  { intros PS. pose proof EO as (_ & _ & _ & PP & _). destruct (PP PS 0 l Hl) as [P1 P2]. split; [|exact P2]. rewrite LR. eapply N.le_lt_trans; [|exact P1]. apply N.mul_le_mono_l. exact ND. }
  unfold pab_build_ranks. cbn [ab_ranks]. rewrite (cv_all_ok _ _ E6). cbn [bind]. rewrite ERK. cbn [bind]. rewrite wr_setN by lia. cbn [bind].
  destruct (cv_push_holds (range (lenN l)) (lenN l)) as (b3 & b3' & E7 & E8 & E9); [rewrite lenN_range; lia|lia| |].
  { apply Forall_forall. intros x Hx. unfold range in Hx. apply In_seqN in Hx. lia. }
  rewrite lenN_range in E7. rewrite E7. cbn [bind]. rewrite E8. cbn [bind]. rewrite UW.
  assert (LU : lenN (uwords D) = lenN l). { rewrite <- UW, lenN_map. exact LGS. }
  assert (PL : 0 < lenN l) by (destruct l; [congruence|rewrite lenN_cons; lia]).
  destruct (svt_build_ok 64 (te_h tv) (hash_domain (lenN (uwords D))) (te_vorder tv) (uwords D) (cv_of_builder b3') (range (lenN l))) as (v & EV & RV).
  { rewrite LU. unfold hash_domain. assert (2 <= (lenN l * 123 + 99) / 100); [apply N.div_le_lower_bound; lia|]. apply N.div_str_pos. lia. }
  { assumption. }
  { assumption. }
  { unfold lenN in LU. rewrite <- Nnat.Nat2N.id at 1. rewrite <- Nnat.Nat2N.id. f_equal. change (lenN (uwords D) = lenN (range (lenN l))). rewrite lenN_range. assumption. }
  { left. reflexivity. }
  { destruct (cv_holds_width _ _ E9) as (W & _). rewrite LU. nia. }
  { destruct (cv_holds_width _ _ E9) as (W & _). rewrite LU. nia. }
  rewrite LU in EV. rewrite EV. cbn [bind]. eexists _, _. split; [exact Hl|]. split; [reflexivity|].
  split; [unfold voc_rep; rewrite LU; assumption|].
  set (ak := mkparr (p_size a0) (p_grams a0) (Some rk) (p_ptrs a0)). split; [rewrite lenN_setN; assumption|]. split; [|split; intros; lia].
  intros k Hk. replace k with 0 by lia. exists ak, rk, rs. split; [apply setN_same; lia|]. split; [reflexivity|]. split; [exact GRK|]. intros l0 i e H0 He. rewrite Hl in H0. injection H0 as <-.
  destruct (nthN_Some rs i) as (r & Hr). { apply nthN_lt in He. lia. }
  exists r. split; [exact Hr|]. pose proof (Forall2_nthN _ _ _ _ _ _ F2 He Hr) as K. apply K.
Qed.

(** ** the whole construction *)
Definition ptrie_rep (t : ptrie) : Prop :=
  pt_order t = lenN D /\ pt_remap t = remap /\ voc_rep D tv (pt_vocab t) /\ P_TriePef2.arrays_upto D remap env (pt_counts t) (pt_arrays t) (lenN D).
Theorem ptrie_build_ok : exists t, ptrie_build env (map (map line) D) (lenN D) remap = Ok t /\ ptrie_rep t.
Proof.
  pose proof (col_order _ _ C) as CO. pose proof (col_remap _ _ C) as CR. unfold ptrie_build.
  assert (U : forall x, x <= 8 -> u8 x = x). { intros x Hx. unfold u8. change 255 with (N.ones 8). rewrite N.land_ones. apply N.mod_small. lia. }
  unfold check_order, check_remapping_order. rewrite !U by lia.
  destruct (N.ltb_spec (lenN D) 2); [lia|]. destruct (N.ltb_spec 8 (lenN D)); [lia|]. destruct (N.ltb_spec 2 remap); [lia|]. cbn [bind].
  set (files := map (map line) D). assert (LF : lenN files = lenN D) by apply lenN_map.
  replace (range (lenN D)) with (range (lenN files)) by (rewrite LF; reflexivity). rewrite (mapM_range (rd files) (fun x => x) files) by (intros i a H2; apply rd_nthN; assumption). rewrite map_id. cbn [bind].
  assert (VAL : mapM (fun lines => mapM (fun l => ' (_, c) <- parse_count_line l ;; Ok c) lines) files = Ok (map (map snd) D)).
  { unfold files. assert (H2 : forall l, In l D -> mapM (fun l => ' (_, c) <- parse_count_line l ;; Ok c) (map line l) = Ok (map snd l)).
    { intros l Hl. apply In_nthN in Hl. destruct Hl as (k & Hk).
      assert (H3 : forall l0, incl l0 l -> mapM (fun l => ' (_, c) <- parse_count_line l ;; Ok c) (map line l0) = Ok (map snd l0)).
      { induction l0 as [|e l0 IH]; intros I; [reflexivity|]. cbn [map mapM]. rewrite (P_TriePef2.parse_line D remap C env EO k l e Hk) by (apply I; left; reflexivity).
        cbn [bind]. rewrite IH by (intros x Hx; apply I; right; assumption). reflexivity. }
      apply H3. apply incl_refl. }
    revert H2. generalize D as D1. clear. induction D1 as [|l D1 IH]; intros H2; [reflexivity|]. cbn [map mapM]. rewrite (H2 l (or_introl eq_refl)). cbn [bind].
    rewrite IH by (intros; apply H2; right; assumption). reflexivity. }
  rewrite VAL. cbn [bind]. destruct dicts_build as (cb & EC & DO). rewrite EC. cbn [bind].
  destruct (pbuild_vocabulary_ok cb (map (fun f => parr_new (lenN f)) files) DO) as (l & v & arr & Hl & EV & RV & AU). { rewrite lenN_map. assumption. }
  assert (F0 : nthN files 0 = Some (map line l)) by (unfold files; rewrite nthN_map, Hl; reflexivity).
  rewrite (proj2 (rd_nthN _ _ _) F0). cbn [bind]. rewrite EV. cbn [bind].
  destruct (pbuild_orders_ok v cb DO RV (N.to_nat (lenN D - 1)) 1 arr ltac:(lia) ltac:(lia) AU) as (arr' & E' & AU').
  change (1 + 1) with 2 in E'. fold files in E'. rewrite E'. cbn [bind]. eexists. split; [reflexivity|].
  replace (1 + N.of_nat (N.to_nat (lenN D - 1))) with (lenN D) in AU' by lia. repeat split; try assumption; cbn [pt_arrays pt_counts pt_vocab]; try apply RV; try apply AU'.
Qed.
End Build.
