(** * Looking up n-grams in a count trie: the descent and the answer *)
From Verif Require Import Prelude BitFacts M_Word P_Word M_Bits Spec P_Bits M_CompactVector P_CompactVector M_DArray M_EF P_EF P_EF2
  M_HashVec M_Mph P_Mph P_MphTables M_FastEF P_FastEF3 M_Text P_Text P_Text2 M_SeqColl P_SeqColl M_Pool P_Pool M_Trie Spec_Trie P_Trie1 P_Trie2 P_Trie3 P_Trie4 P_Trie5 P_Trie6.
From Coq Require Import Permutation Sorting.Sorted.

Section Pre.
Context {A : Type}.
Variable D : list (list (gram * A)).
Variable remap : N.
Hypothesis C : collection D remap.
Notation G := (grams D).
Notation voc := (grams D 0).

Lemma prefix_in (q : gram) k : In q (G k) -> forall j, j <= k -> In (firstn (N.to_nat (j + 1)) q) (G j).
Proof.
  intros H. assert (forall m, m <= k -> In (firstn (N.to_nat (k - m + 1)) q) (G (k - m))) as K.
  { intros m. induction m as [|m IH] using N.peano_ind; intros L.
    - rewrite N.sub_0_r. pose proof (gram_len D remap C k q H) as LQ. rewrite <- LQ, firstn_all. assumption.
    - specialize (IH ltac:(lia)). apply (lev_PRE D remap C) in IH; [|lia].
      replace (k - m - 1) with (k - N.succ m) in IH by lia.
      replace (firstn (N.to_nat (k - N.succ m + 1)) q) with (removelast (firstn (N.to_nat (k - m + 1)) q)); [assumption|].
      pose proof (gram_len D remap C k q H) as LQ. destruct (nthN_Some q (k - m)) as (w & Hw); [unfold lenN; lia|].
      rewrite (removelast_firstn_S q _ w Hw). f_equal. lia. }
  intros j Hj. specialize (K (k - j) ltac:(lia)). replace (k - (k - j)) with j in K by lia. assumption.
Qed.

Lemma lid_inj k g x : 0 < k -> In g (G k) -> x <> [] -> length x = N.to_nat (k + 1) -> removelast x = removelast g -> In [last x []] voc ->
  (remap <> 0 -> remap < k -> In (skipn (N.to_nat (k - remap)) x) (G remap)) -> lid D remap k g = lid D remap k x -> g = x.
Proof.
  intros Hk Hg NE LX ER LV SX EL.
  enough (last g [] = last x []) as E.
  { rewrite (snoc_removelast g []) by (eapply gram_ne; eauto). rewrite (snoc_removelast x []) by assumption. rewrite ER, E. reflexivity. }
  assert (P : remap = 0 \/ k <= remap -> last g [] = last x []).
  { intros P. rewrite !lid_plain in EL by assumption. apply (vid_inj D) in EL; [assumption|eapply last_voc; eauto|assumption]. }
  destruct (N.eq_dec remap 0) as [R|R]; [apply P; left; assumption|]. destruct (N.le_gt_cases k remap) as [K|K]; [apply P; right; assumption|].
  specialize (SX R K). destruct (suffix_pos D remap C k g R K Hg) as (i & p & I1 & I2 & I3 & I4).
  destruct (suffix_facts D remap C k g ltac:(lia) K Hg) as (_ & S2 & S3 & _).
  rewrite (lid_mapped D remap k x R K) in EL. cbn zeta in EL.
  set (s := skipn (N.to_nat (k - remap)) g) in *. set (s' := skipn (N.to_nat (k - remap)) x) in *.
  assert (E' : s' = skipn (N.to_nat (k - remap)) (removelast x) ++ [last x []]).
  { unfold s'. rewrite (snoc_removelast x [] NE) at 1. apply skipn_snoc. rewrite length_removelast. lia. }
  assert (RS : removelast s' = removelast s) by (rewrite S2, E', removelast_last, ER; reflexivity).
  pose proof (posn_In _ _ SX) as P'. 
  rewrite RS, (posn_nthN _ _ _ (lev_NoDup D remap C (remap - 1)) I2), I4 in EL.
  assert (I2' : nthN (G (remap - 1)) p = Some (removelast s')) by (rewrite RS; assumption).
  pose proof (kid_range D remap C remap _ s' p ltac:(lia) P' I2') as KR.
  replace (posn (G remap) s') with i in P' by lia.
  assert (s = s') by congruence. rewrite <- S3, H, E', last_last. reflexivity.
Qed.
End Pre.

Section Answer.
Variable D : list (list (gram * N)).
Variable remap : N.
Hypothesis C : collection D remap.
Variable env : tenv.
Hypothesis EO : env_ok D remap env.
Notation G := (grams D).
Notation voc := (grams D 0).
Variable t : trie.
Hypothesis TR : trie_rep D remap env t.
Variable q : gram.
Hypothesis QN : q <> [].
Hypothesis QD : lenN q <= lenN D.
Hypothesis QW : Forall word q.

(** every indexed proper prefix of the query has an indexed extension by one word *)
Definition children_ok : Prop := forall j, 0 < j < lenN q -> In (firstn (N.to_nat j) q) (G (j - 1)) -> exists g, In g (G j) /\ removelast g = firstn (N.to_nat j) q.
Hypothesis CH : children_ok.

Lemma descend_ok wids : mapped_upto D remap q (lenN q) wids -> forall n i, 0 < i -> i + N.of_nat n = lenN q -> In (firstn (N.to_nat i) q) (G (i - 1)) ->
  exists r, descend n env (t_arrays t) wids i (posn (G (i - 1)) (firstn (N.to_nat i) q)) = Ok r /\
    ((In q (G (lenN q - 1)) /\ nthN (G (lenN q - 1)) r = Some q) \/ (~ In q (G (lenN q - 1)) /\ r = not_found)).
Proof.
  intros MU. destruct TR as (T1 & T2 & T3 & T4). pose proof T4 as (AL & AR & AP & APtr). induction n as [|n IH]; intros i Hi HL HI.
  - replace (N.of_nat 0) with 0 in HL by reflexivity. rewrite N.add_0_r in HL. subst i. cbn [descend]. unfold lenN in *. rewrite Nat2N.id in *. rewrite firstn_all in *.
    eexists. split; [reflexivity|]. left. split; [assumption|]. apply posn_In. assumption.
  - cbn [descend]. set (x := firstn (N.to_nat (i + 1)) q). destruct (nthN_Some q i ltac:(lia)) as (w & Hw).
    pose proof (removelast_firstn_S q i w Hw) as RX. fold x in RX. pose proof (last_firstn_S q i w [] Hw) as LX. fold x in LX.
    assert (LenX : length x = N.to_nat (i + 1)). { unfold x. rewrite firstn_length. pose proof (nthN_lt _ _ _ Hw) as L. unfold lenN in L. lia. }
    assert (NX : x <> []) by (destruct x; [cbn in LenX; lia|discriminate]).
    pose proof (posn_In _ _ HI) as Hp. set (p := posn (G (i - 1)) (firstn (N.to_nat i) q)) in *.
    destruct (nthN_Some (t_arrays t) (i - 1) ltac:(lia)) as (a & Ha). rewrite (proj2 (rd_nthN _ _ _) Ha). cbn [bind].
    rewrite (range_of D (t_arrays t) (i - 1) p a (APtr (i - 1) ltac:(lia)) Ha) by (eapply nthN_lt; eauto). cbn [bind].
    replace (i - 1 + 1) with i by lia.
    destruct (nthN_Some (t_arrays t) i ltac:(lia)) as (b & Hb). rewrite (proj2 (rd_nthN _ _ _) Hb). cbn [bind].
    destruct (MU i w ltac:(lia) Hw) as (M1 & M2 & M3). fold x in M2. rewrite (proj2 (rd_nthN _ _ _) M2). cbn [bind].
    destruct (CH i ltac:(lia) HI) as (g0 & Hg0 & Eg0). destruct (In_nthN _ _ Hg0) as (i0 & Hi0).
    assert (Hp0 : nthN (G (i - 1)) p = Some (removelast g0)) by (rewrite Eg0; assumption).
    pose proof (kid_range D remap C i i0 g0 p Hi Hi0 Hp0) as KR.
    assert (LB : lid D remap i x < 2 ^ 64).
    { destruct (N.eq_dec remap 0) as [R|R]; [|destruct (N.le_gt_cases i remap) as [K|K]].
      - rewrite lid_plain by (left; assumption). rewrite LX. pose proof (vid_lt D remap C w M1). lia.
      - rewrite lid_plain by (right; assumption). rewrite LX. pose proof (vid_lt D remap C w M1). lia.
      - rewrite lid_mapped by assumption. cbn zeta. specialize (M3 R K). unfold sfx in M3. fold x in M3. pose proof (posn_In _ _ M3) as Q. apply nthN_lt in Q.
        pose proof (lev_size D remap C remap). lia. }
    destruct (find_of D remap env (t_arrays t) i p (lid D remap i x) b Hi (AP i ltac:(lia)) Hb) as (r & Er & SR); [eapply nthN_lt; eauto|lia|assumption|].
    rewrite Er. cbn [bind].
    destruct (N.eqb_spec r not_found) as [Z|Z].
    + eexists. split; [reflexivity|]. right. split; [|reflexivity]. intros I.
      pose proof (prefix_in D remap C q (lenN q - 1) I i ltac:(lia)) as IX. fold x in IX. destruct (In_nthN _ _ IX) as (j & Hj).
      assert (RJ : r = j) by (apply (search_present D remap C i j x p r); [assumption|assumption|rewrite RX; assumption|assumption]).
      pose proof (nthN_lt (A:=gram) _ _ _ Hj). pose proof (lev_size D remap C i). assert (not_found = 2 ^ 64 - 1) by reflexivity. lia.
    + destruct (search_sound D remap C i p _ r Hi SR Z) as (g & G1 & G2 & G3).
      assert (g = x). { apply (lid_inj D remap C i g x); auto; [eapply nthN_In; eauto|rewrite RX; congruence|rewrite LX; assumption]. }
      subst g. rewrite <- (posn_nthN _ _ _ (lev_NoDup D remap C i) G1).
      specialize (IH (i + 1) ltac:(lia) ltac:(lia)). rewrite N.add_sub in IH. fold x in IH. apply IH. eapply nthN_In; eauto.
Qed.


Lemma not_mapped : map_fails D remap env (t_vocab t) q -> ~ In q (G (lenN q - 1)).
Proof.
  destruct TR as (T1 & T2 & T3 & T4). intros [(w & W1 & W2)|(R & o & O1 & O2)] I.
  - apply (voc_not_rejected D remap C env (t_vocab t) T3 w); [|assumption]. apply (gram_voc D remap C (lenN q - 1) q); assumption.
  - apply O2. unfold sfx. apply (col_suffix _ _ C); [lia|lia|]. apply (prefix_in D remap C q (lenN q - 1)); [assumption|lia].
Qed.
Lemma answer_ok (HW : forall w, In w q -> In [w] voc \/ rejected env (t_vocab t) w) (CX : remap <> 0 -> ctx_ok D remap q) (st : statics) buf r :
  8 <= lenN (fst st) -> 8 <= lenN (snd st) -> holds_text buf r (join q) ->
  exists c st', trie_lookup env t st buf r = Ok (c, st') /\ lenN (fst st') = lenN (fst st) /\ lenN (snd st') = lenN (snd st) /\
    ((exists l, nthN D (lenN q - 1) = Some l /\ In (q, c) l) \/ (~ In q (G (lenN q - 1)) /\ c = not_found)).
Proof.
  intros L1 L2 HT. destruct (holds_split _ _ _ HT) as (pre & post & -> & Ha & He). destruct r as [a b]. cbn [fst snd] in Ha, He. subst a b.
  destruct st as [wids pids]. cbn [fst snd] in *. unfold trie_lookup. cbn [fst snd]. pose proof (col_order _ _ C) as CO.
  destruct TR as (T1 & T2 & T3 & T4). pose proof T4 as (AL & AR & AP & APtr). rewrite T1, T2. destruct EO as (E1 & _).
  assert (MQ : exists o wids' pids', (if te_map env then mq_sorted (S (length (pre ++ join q ++ post))) env (t_vocab t) (t_arrays t) remap (pre ++ join q ++ post) (lenN pre) (lenN pre + lenN (join q)) (lenN pre) (lenN pre) 0 wids pids
     else ' (o, wids) <- mq_identity (S (length (pre ++ join q ++ post))) (te_h env) (t_vocab t) (pre ++ join q ++ post) (lenN pre) (lenN pre + lenN (join q)) (lenN pre) (lenN pre) 0 wids ;; Ok (o, wids, pids)) = Ok (o, wids', pids') /\
     lenN wids' = lenN wids /\ lenN pids' = lenN pids /\ mq_result D remap env (t_vocab t) q o wids').
  { assert (FU : (length (join q) <= S (length (pre ++ join q ++ post)))%nat) by (rewrite !app_length; lia).
    rewrite E1. destruct (N.eqb_spec remap 0) as [R|R]; cbn [negb].
    - destruct (mq_identity_ok D remap C env (t_vocab t) T3 q pre post (lenN pre) 0 wids _ QN QW (N.le_refl _) ltac:(lia) HW FU) as (o & wids' & A1 & A2 & A3).
      rewrite A1. cbn [bind]. exists o, wids', pids. split; [reflexivity|]. split; [assumption|]. split; [reflexivity|].
      destruct A3 as [(-> & w & W)|(-> & _ & K)]; [left; split; [reflexivity|left; exists w; assumption]|right]. split; [reflexivity|].
      intros i w Hi Hw. destruct (K i w Hw) as [K1 K2]. split; [assumption|]. split; [|intros; contradiction].
      rewrite lid_plain by (left; assumption). rewrite (last_firstn_S q i w [] Hw). exact K2.
    - destruct (mq_sorted_ok D remap C env (t_vocab t) T3 (t_arrays t) (t_counts t) T4 q ltac:(lia) (CX R) R HW QW q [] pre post (lenN pre) wids pids (S (length (pre ++ join q ++ post))) eq_refl QN) as (o & wids' & pids' & A1 & A2 & A3 & A4);
        try (change (lenN (@nil (list N))) with 0); try lia; try exact FU.
      { intros i w Hi. change (lenN (@nil (list N))) with 0 in Hi. lia. }
      exists o, wids', pids'. auto. }
  destruct MQ as (o & wids' & pids' & -> & W1 & W2 & RES). cbn [bind].
  assert (Q0 : 0 < lenN q) by (destruct q; [congruence|rewrite lenN_cons; lia]).
  destruct RES as [[-> MF]|[-> MU]].
  - rewrite N.eqb_refl. cbn [orb]. eexists _, _. split; [reflexivity|]. split; [assumption|]. split; [assumption|]. right. split; [apply not_mapped; assumption|reflexivity].
  - assert (NF : (lenN q - 1 =? not_found) = false) by (apply (not_found_big _ 8); lia). rewrite NF.
    destruct (N.ltb_spec (lenN D) (lenN q - 1)); [lia|]. cbn [orb].
    destruct (nthN_Some q 0 Q0) as (w & Hw). destruct (MU 0 w Q0 Hw) as (M1 & M2 & M3).
    rewrite (proj2 (rd_nthN _ _ _) M2). cbn [bind]. 
    assert (F1 : firstn (N.to_nat 1) q = [w]) by (change 1 with (0 + 1); rewrite (firstn_S_nthN q 0 w Hw); reflexivity).
    replace (lid D remap 0 (firstn (N.to_nat (0 + 1)) q)) with (posn (G (1 - 1)) (firstn (N.to_nat 1) q)).
    2:{ rewrite lid_plain by (right; apply N.le_0_l). change (0 + 1) with 1. rewrite F1. reflexivity. }
    destruct (descend_ok wids' MU (N.to_nat (lenN q - 1)) 1 ltac:(lia) ltac:(lia)) as (pos & Ep & CASE). { rewrite F1. exact M1. }
    rewrite Ep. cbn [bind]. destruct CASE as [[I P]|[I ->]].
    + assert (PF : (pos =? not_found) = false) by (apply (not_found_big _ (lenN (G (lenN q - 1)))); [eapply nthN_lt; eauto|pose proof (lev_size D remap C (lenN q - 1)); lia]).
      rewrite PF. cbn [andb]. destruct (AR (lenN q - 1) ltac:(lia)) as (a & Ha & Rk). rewrite (proj2 (rd_nthN _ _ _) Ha). cbn [bind].
      destruct (nthN_Some D (lenN q - 1) ltac:(lia)) as (l & Hl). assert (P' := P). unfold grams in P'. rewrite Hl, nthN_map in P'.
      destruct (nthN l pos) as [e|] eqn:Ee; [|discriminate]. injection P' as P'.
      destruct (Rk l pos e Hl Ee) as (rk & K1 & K2). rewrite K1. cbn [bind]. rewrite K2. cbn [bind].
      eexists _, _. split; [reflexivity|]. split; [assumption|]. split; [assumption|]. left. exists l. split; [assumption|].
      apply nthN_In in Ee. destruct e as [eg ec]. cbn [fst snd] in *. subst eg. assumption.
    + destruct (N.eqb_spec (lenN q - 1) 0) as [Z|Z].
      * exfalso. apply I. rewrite Z. assert (q = [w]) as ->; [|assumption]. rewrite <- F1. symmetry. apply firstn_all2. unfold lenN in *. lia.
      * rewrite N.eqb_refl. cbn [andb negb]. eexists _, _. split; [reflexivity|]. split; [assumption|]. split; [assumption|]. right. split; [assumption|reflexivity].
Qed.
End Answer.

(** queries of more than order + 1 words *)
Lemma answer_long D remap (C : collection D remap) env (EO : env_ok D remap env) t (TR : trie_rep D remap env t) (q : gram) (QW : Forall word q)
  (QD : lenN D + 1 < lenN q <= 8) (QR : remap < lenN D) (HW : forall w, In w q -> In [w] (grams D 0) \/ rejected env (t_vocab t) w) (CX : remap <> 0 -> ctx_ok D remap q) (st : statics) buf r :
  8 <= lenN (fst st) -> 8 <= lenN (snd st) -> holds_text buf r (join q) ->
  exists st', trie_lookup env t st buf r = Ok (not_found, st') /\ lenN (fst st') = lenN (fst st) /\ lenN (snd st') = lenN (snd st).
Proof.
  intros L1 L2 HT. destruct (holds_split _ _ _ HT) as (pre & post & -> & Ha & He). destruct r as [a b]. cbn [fst snd] in Ha, He. subst a b.
  destruct st as [wids pids]. cbn [fst snd] in *. unfold trie_lookup. cbn [fst snd]. pose proof (col_order _ _ C) as CO.
  assert (QN : q <> []) by (intros ->; change (lenN (@nil (list N))) with 0 in QD; lia).
  destruct TR as (T1 & T2 & T3 & T4). rewrite T1, T2. destruct EO as (E1 & _).
  assert (FU : (length (join q) <= S (length (pre ++ join q ++ post)))%nat) by (rewrite !app_length; lia).
  rewrite E1. destruct (N.eqb_spec remap 0) as [R|R]; cbn [negb].
  - destruct (mq_identity_ok D remap C env (t_vocab t) T3 q pre post (lenN pre) 0 wids _ QN QW (N.le_refl _) ltac:(lia) HW FU) as (o & wids' & A1 & A2 & A3).
    rewrite A1. cbn [bind]. destruct A3 as [(-> & w & W)|(-> & _ & K)]; [rewrite N.eqb_refl; cbn [orb]|].
    + eexists. split; [reflexivity|]. split; [exact A2|reflexivity].
    + destruct (N.ltb_spec (lenN D) (0 + lenN q - 1)); [|lia]. rewrite orb_true_r. eexists. split; [reflexivity|]. split; [exact A2|reflexivity].
  - destruct (mq_sorted_ok D remap C env (t_vocab t) T3 (t_arrays t) (t_counts t) T4 q ltac:(lia) (CX R) R HW QW q [] pre post (lenN pre) wids pids (S (length (pre ++ join q ++ post))) eq_refl QN) as (o & wids' & pids' & A1 & A2 & A3 & A4);
      try (change (lenN (@nil (list N))) with 0); try lia; try exact FU.
    { intros i w Hi. change (lenN (@nil (list N))) with 0 in Hi. lia. }
    change (lenN (@nil (list N))) with 0 in A1. rewrite A1. cbn [bind]. destruct A4 as [(-> & _)|(-> & _)]; [rewrite N.eqb_refl; cbn [orb]|].
    + eexists. split; [reflexivity|]. split; [exact A2|exact A3].
    + destruct (N.ltb_spec (lenN D) (lenN q - 1)); [|lia]. rewrite orb_true_r. eexists. split; [reflexivity|]. split; [exact A2|exact A3].
Qed.

(** indexed grams satisfy the side conditions *)
Section Present.
Variable D : list (list (gram * N)).
Variable remap : N.
Hypothesis C : collection D remap.
Notation G := (grams D).
Lemma children_present (q : gram) k : In q (G k) -> children_ok D q.
Proof.
  intros H j Hj _. pose proof (gram_len D remap C k q H) as L. assert (LQ : lenN q = k + 1) by (unfold lenN; lia).
  destruct (nthN_Some q j ltac:(lia)) as (w & Hw). exists (firstn (N.to_nat (j + 1)) q). split; [apply (prefix_in D remap C q k H); lia|].
  apply (removelast_firstn_S q j w Hw).
Qed.
Lemma ctx_present (q : gram) k : In q (G k) -> remap <> 0 -> ctx_ok D remap q.
Proof.
  intros H R o Ho _. pose proof (gram_len D remap C k q H) as L. assert (LQ : lenN q = k + 1) by (unfold lenN; lia).
  destruct (nthN_Some q o ltac:(lia)) as (w & Hw). exists (sfx remap q o). split.
  - unfold sfx. apply (col_suffix _ _ C); [lia|lia|]. apply (prefix_in D remap C q k H). lia.
  - rewrite (sfx_ctx D remap q ltac:(pose proof (grams_In_lt D k q H); pose proof (col_order _ _ C); lia) o w) by (auto; lia). apply removelast_last.
Qed.
End Present.
