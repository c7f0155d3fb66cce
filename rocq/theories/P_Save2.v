(** * Saving and loading a probability trie; a built one holds values of its types *)
From Coq Require Import Floats.SpecFloat.
From Verif Require Import Prelude BitFacts M_Word P_Word M_Bits Spec P_Bits P_Builder M_CompactVector P_CompactVector M_DArray M_EF P_EF P_EF2
  M_HashVec M_Mph P_Mph P_MphTables M_FastEF P_FastEF3 M_Text P_Text P_Text2 M_SeqColl P_SeqColl M_Pool P_Pool M_Trie Spec_Trie P_Trie1 P_Trie2 P_Trie3 P_Trie4 P_Trie5
  M_Score Spec_Katz P_Score1 P_Score2 M_Quant P_Quant M_MphProb Spec_Arpa P_Sentence P_Values M_TrieProb P_TrieProb1 P_TrieProb2 P_TrieProb3
  M_MphCount M_Save Spec_Save P_Save P_Typed P_Typed3 M_Save2 Spec_Save2.
From Coq Require Import Permutation Sorting.Sorted.

Section Ext.
  Variable x : ext.
  Hypothesis XOK : ext_ok x.
  Lemma pb_ok o : t_opt t_cv (fun c => c_size c <> 0) o -> restores (save_opt save_cv cv0) (load_opt load_cv (fun c => c_size c =? 0)) o.
  Proof.
    intros H. apply opt_ok; [apply cv_ok, t_cv0|reflexivity|]. destruct o as [d|]; [|exact I]. destruct H as (T & B).
    split; [apply cv_ok; assumption|apply N.eqb_neq; assumption].
  Qed.
  Lemma ptrs_ok_ o : t_opt t_ef (fun e => ef_size e <> 0) o -> restores (save_opt save_ef ef0) (load_opt load_ef (fun e => ef_size e =? 0)) o.
  Proof.
    intros H. apply opt_ok; [apply ef_ok, t_ef0|reflexivity|]. destruct o as [d|]; [|exact I]. destruct H as (T & B).
    split; [apply ef_ok; assumption|apply N.eqb_neq; assumption].
  Qed.
  Lemma parr_ok order a : t_parr order a -> restores (save_parr x order) (load_parr x order) a.
  Proof.
    intros (H1 & H2 & H3 & H4) tail. unfold save_parr, load_parr. rewrite <- ?app_assoc. rewrite pod8_ok by exact H1. cbn [bind]. cbv beta iota.
    destruct (N.eqb_spec order 1).
    - cbn [bind app]. rewrite ptrs_ok_ by exact H4. cbn [bind]. destruct a as [[n0 g0 r0 p0] v0]. cbn in *. destruct H3 as [-> ->]. subst r0. reflexivity.
    - destruct H3 as [H3 H5]. rewrite <- ?app_assoc. rewrite (grams_ok x XOK) by exact H3. cbn [bind]. cbv beta iota. rewrite pb_ok by exact H5. cbn [bind]. cbv beta iota.
      rewrite ptrs_ok_ by exact H4. cbn [bind]. destruct a as [[n0 g0 r0 p0] v0]. cbn in *. subst r0. reflexivity.
  Qed.
  Lemma parrs_ok : forall l order, (forall i a, nthN l i = Some a -> t_parr (i + order) a) ->
    forall tail, load_parrs x order (length l) (save_parrs x order l ++ tail) = Ok (l, tail).
  Proof.
    induction l as [|a l IH]; intros order H tail; [reflexivity|]. cbn [save_parrs load_parrs length].
    rewrite <- app_assoc, parr_ok by (apply (H 0); reflexivity). cbn [bind]. cbv beta iota.
    rewrite IH; [reflexivity|]. intros i b Hb. replace (i + (order + 1)) with (i + 1 + order) by lia. apply H.
    rewrite <- Hb. unfold nthN. replace (N.to_nat (i + 1)) with (S (N.to_nat i)) by lia. reflexivity.
  Qed.
  Lemma tpl_ok m : t_tpl m -> restores (save_tpl x) (load_tpl x) m.
  Proof.
    intros (H1 & H2 & HR & H3 & H4 & H5 & HV & H6 & H7) tail. unfold save_tpl, load_tpl. unfold is_u8 in H1, HR.
    rewrite <- ?app_assoc. rewrite pod1_ok by exact H1. cbn [bind]. cbv beta iota. rewrite pod1_ok by exact HR. cbn [bind]. cbv beta iota.
    pose proof (f_bits_lt _ H3) as FL. rewrite (pod_ok 4) by (change (8 * N.of_nat 4) with 32; lia). cbn [bind]. cbv beta iota.
    rewrite !sub64_small by lia. rewrite qsc_ok by (assumption || lia). cbn [bind]. cbv beta iota.
    rewrite qsc_ok by (assumption || lia). cbn [bind]. cbv beta iota.
    rewrite (dvt_ok x XOK) by exact HV. cbn [bind]. cbv beta iota. destruct (N.eqb_spec (tp_order m) 0); [lia|].
    replace (N.to_nat (tp_order m)) with (length (tp_arrays m)) by (unfold lenN in H6; lia).
    rewrite parrs_ok by assumption. cbn [bind]. rewrite f_of_bits_f_bits by assumption. destruct m; reflexivity.
  Qed.
End Ext.

(** ** the vocabulary *)
Definition t_ctb (b : ctb) : Prop :=
  is_u64 (tb_size b) /\ is_u64 (tb_w1 b) /\ is_u64 (tb_w2 b) /\ is_u64 (tb_w3 b) /\ t_bv (mkbv (b_bits (tb_bits b)) (b_size (tb_bits b))).
Lemma set_bits_typed b pos v len b' : v < 2 ^ 64 -> bvb_set_bits b pos v len = Ok b' -> t_bv (mkbv (b_bits b) (b_size b)) -> t_bv (mkbv (b_bits b') (b_size b')).
Proof.
  intros HV E (T1 & T2 & T3). unfold bvb_set_bits in E. destruct (len =? 0); [injection E as <-; split; [exact T1|split; assumption]|].
  cbv zeta in E. apply bind_inv in E. destruct E as (ws & E1 & E). injection E as <-. cbn [b_bits b_size v_bits v_size] in *.
  destruct (store_field_typed _ _ _ _ _ _ HV E1 T2) as (F & L). split; [exact T1|]. split; [exact F|]. cbn [v_bits]. rewrite L. exact T3.
Qed.
Lemma ctb_set_typed b i p q r b' : p < 2 ^ 64 -> q < 2 ^ 64 -> r < 2 ^ 64 -> ctb_set b i (p, q, r) = Ok b' -> t_ctb b -> t_ctb b'.
Proof.
  intros H1 H2 H3 E (T0 & T1 & T2 & T3 & T4). unfold ctb_set in E. cbv zeta in E.
  apply bind_inv in E. destruct E as (x1 & E1 & E). apply bind_inv in E. destruct E as (x2 & E2 & E). apply bind_inv in E. destruct E as (x3 & E3 & E). injection E as <-.
  unfold t_ctb. cbn [tb_size tb_w1 tb_w2 tb_w3 tb_bits]. split; [exact T0|]. split; [exact T1|]. split; [exact T2|]. split; [exact T3|].
  exact (set_bits_typed _ _ _ _ _ H3 E3 (set_bits_typed _ _ _ _ _ H2 E2 (set_bits_typed _ _ _ _ _ H1 E1 T4))).
Qed.
Lemma ct_width_lt w : w <= 64 -> is_u64 (ct_width w).
Proof. unfold ct_width, is_u64. destruct (w =? 0); lia. Qed.
Lemma ctb_new_typed n w1 w2 w3 b : n < 2 ^ 64 -> ctb_new n w1 w2 w3 = Ok b -> t_ctb b.
Proof.
  intros Hn E. unfold ctb_new in E. cbv zeta in E. destruct (N.ltb_spec 64 (ct_width w1)) as [|A1]; [discriminate|]. destruct (N.ltb_spec 64 (ct_width w2)) as [|A2]; [discriminate|].
  destruct (N.ltb_spec 64 (ct_width w3)) as [|A3]; [discriminate|]. cbn [orb] in E. injection E as <-. unfold t_ctb. cbn [tb_size tb_w1 tb_w2 tb_w3 tb_bits].
  split; [exact Hn|]. split; [unfold is_u64; lia|]. split; [unfold is_u64; lia|]. split; [unfold is_u64; lia|].
  pose proof (w64_lt (n * (add64 (add64 (ct_width w1) (ct_width w2)) (ct_width w3)))) as L. change (w64 _) with (mul64 n (add64 (add64 (ct_width w1) (ct_width w2)) (ct_width w3))) in L.
  unfold bvb_new. rewrite (andb_false_l (negb _)), andb_false_r. cbn [b_bits b_size]. split; [exact L|]. cbn [v_bits].
  split; [apply Forall_rep; unfold is_u64; cbn; lia|]. unfold is_u64. rewrite lenN_rep. pose proof (words_for_le (mul64 n (add64 (add64 (ct_width w1) (ct_width w2)) (ct_width w3)))). lia.
Qed.
Lemma dvt_build_typed {K} hb (h : K -> triple) dom order keys c1 c2 vs1 vs2 t : hb <= 64 -> cv_holds c1 vs1 -> cv_holds c2 vs2 -> length keys = length vs1 -> length keys = length vs2 ->
  lenN keys < 2 ^ 64 -> dom < 2 ^ 62 -> dvt_build hb h dom order keys c1 c2 = Ok t -> t_dvt t.
Proof.
  intros HB H1 H2 L1 L2 Hk Hd E. unfold dvt_build in E. apply bind_inv in E. destruct E as (m & E1 & E). apply bind_inv in E. destruct E as (b & E2 & E).
  pose proof (cv_holds_take c1 vs1 H1) as T1. rewrite <- L1 in T1. rewrite T1 in E. cbn [bind] in E.
  pose proof (cv_holds_take c2 vs2 H2) as T2. rewrite <- L2 in T2. rewrite T2 in E. cbn [bind] in E.
  apply bind_inv in E. destruct E as (b' & E3 & E). injection E as <-. split; [exact (proj1 (mph_build_typed _ _ _ _ Hk Hd E1))|]. cbn [dv_data].
  assert (V1 : forall v, In v vs1 -> v < 2 ^ 64). { destruct (cv_holds_width _ _ H1) as (W & F & _). rewrite Forall_forall in F. intros v Hv. specialize (F v Hv). assert (2 ^ c_width c1 <= 2 ^ 64) by (apply N.pow_le_mono_r; lia). lia. }
  assert (V2 : forall v, In v vs2 -> v < 2 ^ 64). { destruct (cv_holds_width _ _ H2) as (W & F & _). rewrite Forall_forall in F. intros v Hv. specialize (F v Hv). assert (2 ^ c_width c2 <= 2 ^ 64) by (apply N.pow_le_mono_r; lia). lia. }
  assert (G : t_ctb b').
  { refine (foldM_inv t_ctb _ _ _ _ _ (ctb_new_typed _ _ _ _ _ Hk E2) E3). intros s [k [p q]] s' HI Ts Es. apply bind_inv in Es. destruct Es as (pos & _ & Es).
    apply in_combine_r in HI. refine (ctb_set_typed _ _ _ _ _ _ _ _ _ Es Ts).
    - pose proof (mix_lt hb (h k)). assert (2 ^ hb <= 2 ^ 64) by (apply N.pow_le_mono_r; lia). lia.
    - apply V1. eapply in_combine_l; eauto.
    - apply V2. eapply in_combine_r; eauto. }
  destruct G as (G0 & G1 & G2 & G3 & G4). split; [exact G0|]. split; [exact G1|]. split; [exact G2|]. split; [exact G3|]. exact G4.
Qed.

Section Build.
Variable D : entries.
Variable secs : list (list (list N)).
Variable env : tpenv.
Variables remap pq bq : N.
Hypothesis AF : arpa_file D.
Hypothesis CO : collection (reversed D) remap.
Hypothesis TI : trie_inputs_ok D secs env remap pq bq.
Notation R := (revD D).
Notation G := (grams (revD D)).
Notation voc := (grams (revD D) 0).
Notation E0 := (tenv0 env).
Notation CRR := (CR D remap CO).
Notation VI := (VIN D secs env remap pq bq (base_of _ _ _ _ _ _ TI)).
Notation upto := (parrays_upto D env remap pq bq).

Definition t_parrs (arrays : list parr) : Prop := forall i a, nthN arrays i = Some a -> t_parr (i + 1) a.
Lemma wr_typed arrays i a arrays' : t_parrs arrays -> t_parr (i + 1) a -> wr arrays i a = Ok arrays' -> t_parrs arrays' /\ lenN arrays' = lenN arrays.
Proof.
  intros T H E. assert (L : i < lenN arrays) by (unfold wr in E; destruct (N.ltb_spec i (lenN arrays)); [assumption|discriminate]).
  rewrite wr_setN in E by assumption. injection E as <-. split; [|apply lenN_setN]. intros j b Hj.
  destruct (N.eq_dec j i) as [->|N0]; [rewrite setN_same in Hj by assumption; injection Hj as <-; assumption|].
  rewrite setN_other in Hj by assumption. apply T. assumption.
Qed.
Lemma tp_build_order_typed v pb bb arrays k arrays' : pvoc_rep D env v -> m_n (dv_h v) = lenN voc -> vinv D pq bq (lenN D) (pb, bb) -> 0 < k < lenN D -> upto pb bb arrays k ->
  t_parrs arrays -> tp_build_order env v pb bb remap secs (lenN D) pq bq arrays (k + 1) = Ok arrays' -> t_parrs arrays'.
Proof.
  intros RV MN VV [Hk HkD] AU TA E. destruct (nthN_Some D k HkD) as (l & Hl). destruct (nthN_Some D (k - 1) ltac:(lia)) as (l' & Hl').
  destruct (lines_of D secs env remap pq bq (base_of _ _ _ _ _ _ TI) k l Hl) as (ls & Hs & F2 & FL).
  destruct (lines_of D secs env remap pq bq (base_of _ _ _ _ _ _ TI) (k - 1) l' Hl') as (ls' & Hs' & F2' & FL').
  destruct (values_exist D secs (tp_penv env) pq bq VI pb bb k l VV ltac:(lia) Hl) as (vs & FV & FB).
  pose proof (tab_width D secs (tp_penv env) pq bq VI) as [TP TB]. pose proof (ti_bits _ _ _ _ _ _ TI) as TW.
  set (W := pq + (if k + 1 =? lenN D then 0 else bq)) in *. assert (HW : 1 <= W <= 57) by (unfold W; destruct (k + 1 =? lenN D); lia).
  destruct (af_size _ AF _ _ Hl) as [S1 S2]. destruct (af_size _ AF _ _ Hl') as [S1' S2'].
  assert (LV : lenN vs = lenN l) by (apply Forall2_len in FV; unfold lenN; lia).
  assert (LLS : lenN ls = lenN l) by (apply Forall2_len in F2; unfold lenN; lia).
  assert (LG : lenN (G k) = lenN l) by (apply G_len; exact Hl). assert (LG' : lenN (G (k - 1)) = lenN l') by (apply G_len; exact Hl').
  assert (LI : lenN (lids R remap k) = lenN l) by (rewrite lids_len; exact LG).
  pose proof (lev_size R remap CRR 0) as LVOC.
  destruct (cv_push_holds (lids R remap k) (lenN voc)) as (b1 & b1' & E1 & E2 & E3); [lia|lia|apply (lids_bound R remap CRR)|].
  destruct (push_w_holds vs W) as (b2 & b2' & E4 & E5 & E6 & _); [lia|nia|exact FB|].
  unfold tp_build_order in E. replace (k + 1 - 2) with (k - 1) in E by lia. replace (k + 1 - 1) with k in E by lia.
  rewrite (proj2 (rd_nthN _ _ _) Hs') in E. cbn [bind] in E. rewrite (proj2 (rd_nthN _ _ _) Hs) in E. cbn [bind] in E. fold W in E.
  unfold pab_new in E. rewrite MN in E. replace (lenN ls) with (lenN (lids R remap k)) in E by lia. rewrite E1 in E. cbn [bind] in E.
  change (ceil_log2 (add64 0 1)) with 0 in E. unfold cvb_new at 1 in E. change (64 <? cv_width 0) with false in E. cbv iota in E. cbn [bind] in E.
  assert (U8 : u8 W = W). { unfold u8. change 255 with (N.ones 8). rewrite N.land_ones. apply N.mod_small. lia. }
  rewrite U8 in E. replace (lenN (lids R remap k)) with (lenN vs) in E by lia. rewrite E4 in E. cbn [bind] in E.
  rewrite (tp_ngrams_ok D secs env remap pq bq AF CO (base_of _ _ _ _ _ _ TI) v pb bb arrays k l l' ls ls' vs (mkpab b1 b2) b1' b2' Hk RV VV AU Hl Hl' F2' FL' F2 FL FV E2 E5) in E. cbn [bind] in E.
  pose proof AU as (AL & AP & APtr & AV).
  destruct (nthN_Some arrays k ltac:(lia)) as (a & Ha). rewrite (proj2 (rd_nthN _ _ _) Ha) in E. cbn [bind] in E.
  set (ptrs := child_ptrs (G (k - 1)) (G k)) in *.
  assert (LP : lenN ptrs = lenN l' + 1) by (unfold ptrs; rewrite lenN_child_ptrs, LG'; reflexivity).
  assert (PF : pointers_for ptrs (lenN (lids R remap k))).
  { rewrite lids_len. apply child_pointers; [apply (lev_NoDup R remap CRR)|apply (lev_PRE R remap CRR); exact Hk|apply (lev_MON R remap CRR); exact Hk|].
    apply (lev_nonempty R remap CRR). rewrite lenN_revD. lia. }
  unfold pab_build in E. cbn [pb_grams pb_ranks] in E. rewrite (cv_all_ok _ _ E3) in E. cbn [bind] in E.
  apply bind_inv in E. destruct E as (a1 & Ea & E). apply bind_inv in Ea. destruct Ea as (f & EF & Ea). rewrite (cv_all_ok _ _ E6) in Ea. cbn [bind] in Ea.
  destruct (cv_build_holds vs) as (c & EC & HC). { lia. } { eapply Forall_impl; [|exact FB]. intros y Hy. cbv beta in Hy |- *. assert (2 ^ W <= 2 ^ 57) by (apply N.pow_le_mono_r; lia). lia. }
  rewrite EC in Ea. cbn [bind] in Ea. injection Ea as <-.
  assert (TF : t_fef f /\ f_size f <> 0).
  { eapply (fef_build_typed (tp_hu env k) (tp_orders env k) (lids R remap k) ptrs (lenN voc)); [exact PF| | | | | | | |exact EF].
    { apply (lids_sorted R remap CRR). exact Hk. }
    { intros Z. rewrite Z in LI. change (lenN (@nil N)) with 0 in LI. destruct l; [congruence|]. rewrite lenN_cons in LI. lia. }
    { lia. }
    { apply (lids_bound R remap CRR). }
    { nia. }
    { lia. }
    { pose proof (ti_levels _ _ _ _ _ _ TI k ltac:(lia)) as TL. cbv zeta in TL. rewrite <- !grams_reversed in TL. exact TL. } }
  assert (TC : t_cv c /\ c_size c <> 0).
  { split; [exact (cv_holds_typed _ _ HC)|]. rewrite (cv_holds_size _ _ HC). intros Z. destruct l; [congruence|]. rewrite lenN_cons in LV. lia. }
  destruct (TA k a Ha) as (T1 & T2 & T3 & T4).
  apply bind_inv in E. destruct E as (arr1 & Ew & E).
  assert (TN : t_parr (k + 1) (mkparr (mksarr (s_size (a_sa a)) (Some f) (s_ranks (a_sa a)) (s_ptrs (a_sa a))) (Some c))).
  { split; [exact T1|]. cbn [a_sa a_pb s_grams s_ranks s_ptrs]. split; [exact T2|]. destruct (N.eqb_spec (k + 1) 1); [lia|]. split; [split; [exact TF|exact TC]|exact T4]. }
  destruct (wr_typed _ _ _ _ TA TN Ew) as (TA1 & L1).
  apply bind_inv in E. destruct E as (a' & Ha' & E). apply rd_inv in Ha'. apply bind_inv in E. destruct E as (a2 & E7 & E).
  unfold sa_build_pointers in E7. apply bind_inv in E7. destruct E7 as (pe & EP & E7). injection E7 as <-.
  destruct (TA1 (k - 1) a' Ha') as (U1 & U2 & U3 & U4).
  assert (TN2 : t_parr (k - 1 + 1) (mkparr (mksarr (s_size (a_sa a')) (s_grams (a_sa a')) (s_ranks (a_sa a')) (Some pe)) (a_pb a'))).
  2: exact (proj1 (wr_typed _ _ _ _ TA1 TN2 E)). split; [exact U1|]. cbn [a_sa a_pb s_grams s_ranks s_ptrs]. split; [exact U2|]. split; [exact U3|].
  eapply (ptr_typed ptrs); [exact EP| | | |].
  { apply child_sortedN; [apply (lev_NoDup R remap CRR)|apply (lev_PRE R remap CRR); exact Hk|apply (lev_MON R remap CRR); exact Hk]. }
  { intros Z. rewrite Z in LP. change (lenN (@nil N)) with 0 in LP. lia. }
  { apply Forall_forall. intros p Hp. apply In_nthN in Hp. destruct Hp as (j & Hj). apply nthN_child_ptrs_inv in Hj. destruct Hj as [_ ->].
    pose proof (children_le_all (G (k - 1)) (G k) j). lia. }
  { lia. }
Qed.
Lemma tp_build_orders_typed v pb bb : pvoc_rep D env v -> m_n (dv_h v) = lenN voc -> vinv D pq bq (lenN D) (pb, bb) ->
  forall m k arrays arrays', 0 < k -> k + N.of_nat m <= lenN D -> upto pb bb arrays k -> t_parrs arrays ->
  foldM (tp_build_order env v pb bb remap secs (lenN D) pq bq) (seqN (k + 1) m) arrays = Ok arrays' -> t_parrs arrays'.
Proof.
  intros RV MN VV. induction m as [|m IH]; intros k arrays arrays' Hk Hm AU TA E; cbn [seqN foldM] in E; [injection E as <-; assumption|].
  destruct (tp_build_order_ok D secs env remap pq bq AF CO TI v pb bb arrays k RV MN VV ltac:(lia) AU) as (a1 & E1 & AU1). rewrite E1 in E. cbn [bind] in E.
  replace (N.succ (k + 1)) with (k + 1 + 1) in E by lia. refine (IH (k + 1) a1 arrays' ltac:(lia) ltac:(lia) AU1 _ E).
  refine (tp_build_order_typed v pb bb arrays k a1 RV MN VV _ AU TA E1). split; [exact Hk|]. lia.
Qed.
Theorem tp_build_typed unk m : is_float unk ->
  tp_build env secs (lenN D) remap unk pq bq = Ok m -> t_tpl m.
Proof.
  intros FU E. pose proof (af_order _ AF) as HO. pose proof (col_remap _ _ CRR) as HR. unfold tp_build in E.
  apply bind_inv in E. destruct E as (u1 & _ & E). apply bind_inv in E. destruct E as (u2 & _ & E).
  rewrite (lenN_secs D secs (tp_penv env) pq bq VI) in E. rewrite N.ltb_irrefl in E.
  destruct (values_ok D secs (tp_penv env) pq bq AF VI) as ([pb bb] & EV & VV). rewrite EV in E. cbn [bind] in E.
  destruct (nthN_Some D 0 ltac:(lia)) as (l & Hl). destruct (lines_of D secs env remap pq bq (base_of _ _ _ _ _ _ TI) 0 l Hl) as (ls & Hs & F2 & FL).
  rewrite (proj2 (rd_nthN _ _ _) Hs) in E. cbn [bind] in E. apply bind_inv in E. destruct E as (unk' & EU & E).
  destruct (vocabulary_ok D secs env remap pq bq AF (base_of _ _ _ _ _ _ TI) l ls Hl F2) as (v & EVO & RV & MN & c1 & c2 & HC1 & HC2 & EDV). rewrite EVO in E. cbn [bind] in E.
  apply bind_inv in E. destruct E as (arr' & E' & E). injection E as <-. unfold t_tpl. cbn [tp_order tp_remap tp_unk tp_probs tp_backoffs tp_vocab tp_arrays].
  set (arr := map (fun l0 : list (list N) => mkparr (sarr_new (lenN l0)) None) secs) in *.
  assert (AU : upto pb bb arr 1).
  { split; [unfold arr; rewrite lenN_map; apply (lenN_secs D secs (tp_penv env) pq bq VI)|]. split; [|split]; intros; lia. }
  destruct (tp_build_orders_ok D secs env remap pq bq AF CO TI v pb bb RV MN VV (N.to_nat (lenN D - 1)) 1 arr ltac:(lia) ltac:(lia) AU) as (arr2 & E2 & AU2).
  change (1 + 1) with 2 in E2. rewrite E2 in E'. injection E' as <-.
  destruct (af_size _ AF _ _ Hl) as [S1 S2].
  split; [unfold is_u8; lia|]. split; [lia|]. split; [unfold is_u8; lia|]. split.
  { rewrite (set_unk_ok D (tp_penv env) AF l ls unk Hl F2) in EU. injection EU as <-. unfold unk_prob. destruct (SFeqb _ _); [|exact FU].
    unfold entry. set (g := [[60; 117; 110; 107; 62]]). replace (lenN g - 1) with 0 by reflexivity. rewrite Hl.
    destruct (find _ l) as [e|] eqn:FE; [|exact FU]. cbn [option_map]. destruct (find_some _ _ FE) as [He _]. pose proof (proj1 (af_floats _ AF 0 l e Hl He)) as V.
    destruct (snd e) as [p0 b0]. exact V. }
  destruct (mp_values_typed (tp_penv env) secs (lenN D) pq bq pb bb ltac:(lia) EV) as [TP TB]. split; [exact TP|]. split; [exact TB|]. split; [|split].
  - refine (dvt_build_typed 64 (tp_h env) _ _ _ c1 c2 (range (lenN l)) (map uni_value l) v _ HC1 HC2 _ _ _ _ EDV).
    + lia.
    + rewrite map_length. unfold range. rewrite length_seqN. unfold lenN. lia.
    + rewrite !map_length. reflexivity.
    + rewrite lenN_map. lia.
    + apply hash_domain_lt. lia.
  - exact (proj1 AU2).
  - refine (tp_build_orders_typed v pb bb RV MN VV (N.to_nat (lenN D - 1)) 1 arr arr2 ltac:(lia) ltac:(lia) AU _ E2).
    intros i a Ha. unfold arr in Ha. rewrite nthN_map in Ha. destruct (nthN secs i) as [ls0|] eqn:Es; [|discriminate]. cbn in Ha. injection Ha as <-.
    destruct (nthN_Some D i) as (li & Hli). { rewrite <- (lenN_secs D secs (tp_penv env) pq bq VI). eapply nthN_lt; eauto. }
    destruct (lines_of D secs env remap pq bq (base_of _ _ _ _ _ _ TI) i li Hli) as (lsi & Hsi & Fi & _). rewrite Es in Hsi. injection Hsi as <-.
    destruct (af_size _ AF _ _ Hli) as [_ S3]. apply Forall2_len in Fi.
    split; [unfold is_u64, lenN in *; cbn [a_sa sarr_new s_size]; lia|]. split; [reflexivity|]. split; [|exact I]. destruct (i + 1 =? 1); split; try reflexivity; exact I.
Qed.
End Build.
