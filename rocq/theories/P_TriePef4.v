(** * Tries over uniform_pef: looking up an indexed n-gram *)
From Verif Require Import Prelude BitFacts M_Word P_Word M_Bits Spec P_Bits M_CompactVector P_CompactVector M_DArray M_EF P_EF P_EF2
  M_HashVec M_Mph P_Mph P_MphTables M_FastEF P_FastEF3 M_Text P_Text P_Text2 M_SeqColl P_SeqColl M_Pool P_Pool M_Pef Spec_Pef M_Trie M_TriePef Spec_Trie
  P_Trie1 P_Trie2 P_Trie3 P_Trie4 P_Trie5 P_Trie6 P_Trie7 P_TriePef1 P_TriePef2 P_TriePef3.
From Coq Require Import Permutation Sorting.Sorted.

Section Skip.
Variables (env : penv) (v : svt) (remap : N).
Lemma pmq_inner_skip w : ~ In 32 w -> forall arrays pre post last prev o wids pids fuel, (length w <= fuel)%nat -> lenN pre + lenN w <= last ->
  pmq_inner fuel env v arrays remap (pre ++ w ++ post) last (lenN pre) prev o wids pids =
  pmq_inner (fuel - length w) env v arrays remap (pre ++ w ++ post) last (lenN pre + lenN w) prev o wids pids.
Proof.
  induction w as [|c w IH]; intros NI arrays pre post last prev o wids pids fuel Hf Hl.
  - cbn [length]. rewrite Nat.sub_0_r. change (lenN (@nil N)) with 0. rewrite N.add_0_r. reflexivity.
  - cbn [length] in Hf. destruct fuel as [|fuel]; [lia|]. rewrite lenN_cons in Hl. cbn [pmq_inner].
    destruct (N.eqb_spec (lenN pre) last); [lia|]. cbn [app]. rewrite rd_app_at. cbn [bind].
    destruct (N.eqb_spec c c_space) as [E|E]; [exfalso; apply NI; left; exact E|].
    replace (pre ++ c :: w ++ post) with ((pre ++ [c]) ++ w ++ post) by (rewrite <- app_assoc; reflexivity).
    replace (lenN pre + 1) with (lenN (pre ++ [c])) by (rewrite lenN_app; reflexivity).
    rewrite IH; [|intros I; apply NI; right; assumption|lia|rewrite lenN_app; change (lenN [c]) with 1; lia].
    replace (lenN (pre ++ [c]) + lenN w) with (lenN pre + lenN (c :: w)) by (rewrite lenN_app, lenN_cons; change (lenN [c]) with 1; lia). reflexivity.
Qed.
Lemma pmq_sorted_skip w : ~ In 32 w -> forall arrays pre post first last prev o wids pids fuel, (length w <= fuel)%nat -> lenN pre + lenN w <= last ->
  pmq_sorted fuel env v arrays remap (pre ++ w ++ post) first last (lenN pre) prev o wids pids =
  pmq_sorted (fuel - length w) env v arrays remap (pre ++ w ++ post) first last (lenN pre + lenN w) prev o wids pids.
Proof.
  induction w as [|c w IH]; intros NI arrays pre post first last prev o wids pids fuel Hf Hl.
  - cbn [length]. rewrite Nat.sub_0_r. change (lenN (@nil N)) with 0. rewrite N.add_0_r. reflexivity.
  - cbn [length] in Hf. destruct fuel as [|fuel]; [lia|]. rewrite lenN_cons in Hl. cbn [pmq_sorted].
    destruct (N.eqb_spec (lenN pre) last); [lia|]. cbn [app]. rewrite rd_app_at. cbn [bind].
    destruct (N.eqb_spec c c_space) as [E|E]; [exfalso; apply NI; left; exact E|].
    replace (pre ++ c :: w ++ post) with ((pre ++ [c]) ++ w ++ post) by (rewrite <- app_assoc; reflexivity).
    replace (lenN pre + 1) with (lenN (pre ++ [c])) by (rewrite lenN_app; reflexivity).
    rewrite IH; [|intros I; apply NI; right; assumption|lia|rewrite lenN_app; change (lenN [c]) with 1; lia].
    replace (lenN (pre ++ [c]) + lenN w) with (lenN pre + lenN (c :: w)) by (rewrite lenN_app, lenN_cons; change (lenN [c]) with 1; lia). reflexivity.
Qed.
End Skip.

Section Lookup.
Variable D : list (list (gram * N)).
Variable remap : N.
Hypothesis C : collection D remap.
Variable env : penv.
Notation G := (grams D).
Notation voc := (grams D 0).
Notation tv := (pe_t env).
Variable v : svt.
Hypothesis RV : voc_rep D tv v.
Variable seqs : list cv.
Notation good := (fun arrays => P_TriePef2.arrays_upto D remap env seqs arrays (lenN D)).
Variable q : gram.
Variable K : N.
Hypothesis QK : In q (G K).
Definition pre_ (o : N) : gram := firstn (N.to_nat (o + 1)) q.

Lemma qlen : lenN q = K + 1.
Proof. pose proof (gram_len D remap C K q QK). unfold lenN. lia. Qed.
Lemma KD : K < lenN D.
Proof. exact (grams_In_lt D K q QK). Qed.
Lemma q8 : lenN q <= 8.
Proof. pose proof (col_order _ _ C). pose proof qlen. pose proof KD. lia. Qed.
Lemma qword o w : nthN q o = Some w -> In [w] voc /\ word w.
Proof.
  intros H. split; [eapply (gram_voc D remap C K q); [exact QK|eapply nthN_In; eauto]|]. pose proof (gram_words D remap C K q QK) as F. exact (Forall_nthN _ _ _ _ F H).
Qed.
Lemma pre_in o : o <= K -> In (pre_ o) (G o).
Proof. intros H. apply (prefix_in D remap C q K QK). exact H. Qed.
Lemma qlook buf r o w : nthN q o = Some w -> holds_text buf r w -> vlook (te_h tv) v buf r = Ok (vid D w) /\ (vid D w =? not_found) = false.
Proof.
  intros H HT. destruct (qword o w H) as [HV _]. split; [apply (vlook_ok D tv v _ _ w); assumption|].
  apply (not_found_big _ (2 ^ 31)); [apply (vid_lt D remap C); assumption|lia].
Qed.

(** the suffix of the prefix of length o + 1 *)
Lemma pre_suffix o w : remap < o -> nthN q o = Some w -> skipn (N.to_nat (o - remap)) (pre_ o) = ctx remap q o ++ [w].
Proof.
  intros RO Hw. change (skipn (N.to_nat (o - remap)) (pre_ o)) with (sfx remap q o). pose proof KD. pose proof qlen. pose proof q8.
  exact (sfx_ctx D remap q ltac:(lia) o w RO Hw).
Qed.

Lemma pmap_parents_ok o w pids arrays : remap <> 0 -> remap < o -> nthN q o = Some w -> good arrays ->
  (forall i u, i < o -> nthN q i = Some u -> nthN pids (i + 1) = Some (vid D u)) ->
  exists arrays', pmap_parents env arrays (vid D w) pids o remap = Ok (lid D remap o (pre_ o), arrays') /\ good arrays' /\ (lid D remap o (pre_ o) =? not_found) = false.
Proof.
  intros R0 RO Hw AU HP. pose proof (col_remap _ _ C) as R2. pose proof (col_order _ _ C) as CO. pose proof KD as KD'. pose proof qlen as LQ'.
  pose proof (nthN_lt _ _ _ Hw) as LQ. pose proof (pre_in o ltac:(lia)) as PI. pose proof (pre_suffix o w RO Hw) as SC.
  destruct (suffix_pos D remap C o (pre_ o) R0 RO PI) as (i & p & I1 & I2 & I3 & I4). rewrite SC in I1, I2. rewrite removelast_last in I2.
  assert (NF : (lid D remap o (pre_ o) =? not_found) = false).
  { apply (not_found_big _ (lenN voc)); [apply (lid_bound D remap C o); exact PI|pose proof (lev_size D remap C 0); lia]. }
  assert (LV : lid D remap remap (ctx remap q o ++ [w]) = vid D w). { rewrite lid_plain by (right; lia). rewrite last_last. reflexivity. }
  assert (FIN : forall arr rg, good arr -> rg = (kids D remap p, kids D remap (p + 1)) ->
    exists arrays', pmap_in env arr remap rg (vid D w) = Ok (lid D remap o (pre_ o), arrays') /\ good arrays' /\ (lid D remap o (pre_ o) =? not_found) = false).
  { intros arr rg AUa ->. unfold pmap_in. rewrite <- LV.
    destruct (P_TriePef2.find_gram D remap env seqs arr (lenN D) remap i (ctx remap q o ++ [w]) p AUa ltac:(lia) I1) as (arr' & FE & AU'); [rewrite removelast_last; exact I2|].
    rewrite FE. cbn [bind]. cbv beta iota.
    rewrite (not_found_big i (lenN (G remap))) by (first [eapply nthN_lt; exact I1 | pose proof (lev_size D remap C remap); lia]).
    cbn [fst]. rewrite sub64_le; [exists arr'; split; [do 2 f_equal; symmetry; exact I4|split; [exact AU'|exact NF]]|lia|]. pose proof (nthN_lt _ _ _ I1). pose proof (lev_size D remap C remap). lia. }
  unfold pmap_parents. rewrite add64_small by lia. rewrite sub64_le by lia.
  destruct (nthN_Some q (o - remap) ltac:(lia)) as (x & Hx).
  pose proof (HP (o - remap) x ltac:(lia) Hx) as PX. replace (o - remap + 1) with (o + 1 - remap) in PX by lia.
  rewrite (proj2 (rd_nthN _ _ _) PX). cbn [bind].
  destruct (qword _ _ Hx) as [XV _]. pose proof (vid_In D x XV) as Vx.
  rewrite (P_TriePef2.range_of D remap env seqs arrays (lenN D) 0 (vid D x) AU ltac:(lia)) by (eapply nthN_lt; eauto). cbn [bind].
  destruct (N.eqb_spec remap 2) as [E2|E2].
  - destruct (nthN_Some q (o - 1) ltac:(lia)) as (y & Hy). pose proof (HP (o - 1) y ltac:(lia) Hy) as PY. replace (o - 1 + 1) with o in PY by lia.
    rewrite (proj2 (rd_nthN _ _ _) PY). cbn [bind].
    assert (CE : ctx remap q o = [x; y]).
    { unfold ctx. rewrite E2. change (N.to_nat 2) with 2%nat. rewrite E2 in Hx. rewrite (skipn_nthN q (o - 2) x Hx).
      replace (o - 1) with (o - 2 + 1) in Hy by lia. rewrite (skipn_nthN q (o - 2 + 1) y Hy). reflexivity. }
    rewrite CE in I2. replace (remap - 1) with 1 in I2 by lia.
    unfold pa_next. change (0 + 1) with 1. replace (vid D y) with (lid D remap 1 [x; y]) by (rewrite lid_plain by (right; lia); reflexivity).
    destruct (P_TriePef2.find_gram D remap env seqs arrays (lenN D) 1 p [x; y] (vid D x) AU ltac:(lia) I2 Vx) as (arr1 & FE & AU1). rewrite FE. cbn [bind]. cbv beta iota.
    rewrite (not_found_big p (lenN (G 1))) by (first [eapply nthN_lt; exact I2 | pose proof (lev_size D remap C 1); lia]).
    rewrite (P_TriePef2.range_of D remap env seqs arr1 (lenN D) 1 p AU1 ltac:(lia)) by (eapply nthN_lt; eauto). cbn [bind]. cbv beta iota.
    apply FIN; [exact AU1|]. rewrite E2. reflexivity.
  - assert (E1 : remap = 1) by lia. cbn [bind]. cbv beta iota.
    assert (CE : ctx remap q o = [x]).
    { unfold ctx. rewrite E1. change (N.to_nat 1) with 1%nat. rewrite E1 in Hx. rewrite (skipn_nthN q (o - 1) x Hx). reflexivity. }
    rewrite CE, E1 in I2. change (1 - 1) with 0 in I2.
    assert (EP : p = vid D x) by (eapply NoDup_nthN; [apply (voc_NoDup D remap C)|exact I2|exact Vx]).
    apply FIN; [exact AU|]. rewrite EP, E1. reflexivity.
Qed.

Definition mapped (o : N) (wids : list N) : Prop := forall i, i < o -> i <= K -> nthN wids i = Some (lid D remap i (pre_ i)).
Lemma mapped_next o wids id : mapped o wids -> o < lenN wids -> id = lid D remap o (pre_ o) -> mapped (o + 1) (setN wids o id).
Proof.
  intros M L -> i Hi Hk. destruct (N.eq_dec i o) as [->|NE]; [apply setN_same; assumption|]. rewrite setN_other by lia. apply M; lia.
Qed.
Lemma lid_low o w : nthN q o = Some w -> remap = 0 \/ o <= remap -> lid D remap o (pre_ o) = vid D w.
Proof. intros H1 H2. rewrite lid_plain by assumption. unfold pre_. rewrite (last_firstn_S q o w [] H1). reflexivity. Qed.

Lemma pmq_inner_ok : remap <> 0 -> forall ws done pre post wids pids arrays fuel, q = done ++ ws -> ws <> [] -> 2 <= lenN done -> lenN q <= lenN wids -> lenN q <= lenN pids ->
  good arrays -> mapped (lenN done) wids -> (forall i u, i < lenN done -> nthN q i = Some u -> nthN pids (i + 1) = Some (vid D u)) -> (length (join ws) <= fuel)%nat ->
  exists wids' pids' arrays', pmq_inner fuel env v arrays remap (pre ++ join ws ++ post) (lenN pre + lenN (join ws)) (lenN pre) (lenN pre) (lenN done) wids pids = Ok (lenN q - 1, wids', pids', arrays') /\
    lenN wids' = lenN wids /\ lenN pids' = lenN pids /\ mapped (lenN q) wids' /\ good arrays'.
Proof.
  intros R0. pose proof (col_remap _ _ C) as R2. pose proof KD as KD'. pose proof qlen as LQ'. induction ws as [|w ws IH]; intros done pre post wids pids arrays fuel Eq NE LD LW LP AU MU PU Hfu; [congruence|].
  set (o := lenN done) in *.
  assert (Hw : nthN q o = Some w) by (rewrite Eq; unfold o; rewrite nthN_app2 by lia; rewrite N.sub_diag; reflexivity).
  assert (LQ : lenN q = o + 1 + lenN ws) by (rewrite Eq, lenN_app, lenN_cons; unfold o; lia).
  destruct (qword o w Hw) as [WV [Ww1 Ww2]].
  (* the mapped id *)
  assert (MAP : exists arrays', (if (o =? 2) && (remap =? 2) then Ok (vid D w, arrays) else pmap_parents env arrays (vid D w) pids o remap) = Ok (lid D remap o (pre_ o), arrays') /\
      good arrays' /\ (lid D remap o (pre_ o) =? not_found) = false).
  { destruct ((o =? 2) && (remap =? 2)) eqn:E.
    - apply andb_true_iff in E. destruct E as [E1 E2]. apply N.eqb_eq in E1, E2. exists arrays. rewrite (lid_low o w Hw ltac:(lia)). split; [reflexivity|]. split; [exact AU|].
      apply (not_found_big _ (2 ^ 31)); [apply (vid_lt D remap C); assumption|lia].
    - assert (RO : remap < o). { apply andb_false_iff in E. destruct E as [E|E]; apply N.eqb_neq in E; lia. }
      apply pmap_parents_ok; assumption. }
  destruct MAP as (arr1 & EM & AU1 & NF).
  destruct ws as [|w2 ws].
  - cbn [join] in *. rewrite pmq_inner_skip by (auto; lia). change (lenN (@nil (list N))) with 0 in LQ.
    destruct (qlook (pre ++ w ++ post) (lenN pre, lenN pre + lenN w) o w Hw (holds_mid _ _ _ _ _ eq_refl eq_refl)) as [E1 E2].
    assert (FIN : exists wids' pids' arrays', (id <- vlook (te_h tv) v (pre ++ w ++ post) (lenN pre, lenN pre + lenN w) ;;
        if id =? not_found then Ok (not_found, wids, pids, arrays) else
        ' (mapped, arrays) <- (if negb (o =? 2) || negb (remap =? 2) then pmap_parents env arrays id pids o remap else Ok (id, arrays)) ;;
        if mapped =? not_found then Ok (not_found, wids, pids, arrays) else
        wids <- wr wids o mapped ;; Ok (o, wids, pids, arrays)) = Ok (lenN q - 1, wids', pids', arrays') /\
        lenN wids' = lenN wids /\ lenN pids' = lenN pids /\ mapped (lenN q) wids' /\ good arrays').
    { rewrite E1. cbn [bind]. rewrite E2.
      replace (if negb (o =? 2) || negb (remap =? 2) then pmap_parents env arrays (vid D w) pids o remap else Ok (vid D w, arrays)) with (Ok (lid D remap o (pre_ o), arr1)) by (rewrite <- EM; destruct (o =? 2), (remap =? 2); reflexivity).
      cbn [bind]. cbv beta iota. rewrite NF, wr_setN by lia. cbn [bind]. eexists _, _, _. split; [do 4 f_equal; lia|]. split; [apply lenN_setN|]. split; [reflexivity|]. split; [|exact AU1].
      replace (lenN q) with (o + 1) by lia. apply mapped_next; [exact MU|lia|reflexivity]. }
    destruct (fuel - length w)%nat; cbn [pmq_inner]; rewrite N.eqb_refl; exact FIN.
  - rewrite join_cons in * by discriminate. set (jr := join (w2 :: ws)) in *. rewrite app_length in Hfu. cbn [length] in Hfu.
    assert (LJ : lenN (w ++ 32 :: jr) = lenN w + 1 + lenN jr) by (rewrite lenN_app, lenN_cons; lia).
    rewrite <- app_assoc. rewrite pmq_inner_skip by (auto; lia).
    destruct (fuel - length w)%nat as [|f] eqn:EF; [lia|]. cbn [pmq_inner].
    destruct (N.eqb_spec (lenN pre + lenN w) (lenN pre + lenN (w ++ 32 :: jr))); [lia|].
    assert (B : rd (pre ++ w ++ (32 :: jr) ++ post) (lenN pre + lenN w) = Ok 32).
    { replace (pre ++ w ++ (32 :: jr) ++ post) with ((pre ++ w) ++ 32 :: (jr ++ post)) by (rewrite <- !app_assoc; reflexivity).
      apply rd_app_at'. rewrite lenN_app. reflexivity. }
    rewrite B. cbn [bind]. unfold c_space. rewrite N.eqb_refl.
    destruct (qlook (pre ++ w ++ (32 :: jr) ++ post) (lenN pre, lenN pre + lenN w) o w Hw (holds_mid _ _ _ _ _ eq_refl eq_refl)) as [E1 E2]. rewrite E1. cbn [bind]. rewrite E2.
    rewrite EM. cbn [bind]. cbv beta iota. rewrite NF. rewrite wr_setN by lia. cbn [bind]. rewrite wr_setN by (rewrite lenN_cons in LQ; lia). cbn [bind].
    replace (pre ++ w ++ (32 :: jr) ++ post) with ((pre ++ w ++ [32]) ++ jr ++ post) by (rewrite <- !app_assoc; reflexivity).
    assert (LPR : lenN (pre ++ w ++ [32]) = lenN pre + lenN w + 1) by (rewrite !lenN_app; change (lenN [32]) with 1; lia).
    replace (lenN pre + lenN (w ++ 32 :: jr)) with (lenN (pre ++ w ++ [32]) + lenN jr) by lia. rewrite <- LPR.
    assert (LD1 : lenN (done ++ [w]) = o + 1) by (rewrite lenN_app; reflexivity).
    edestruct (IH (done ++ [w]) (pre ++ w ++ [32]) post (setN wids o (lid D remap o (pre_ o))) (setN pids (o + 1) (vid D w)) arr1 f) as (wids' & pids' & arr' & A1 & A2 & A3 & A4).
    + rewrite <- app_assoc. exact Eq.
    + discriminate.
    + lia.
    + rewrite lenN_setN. assumption.
    + rewrite lenN_setN. assumption.
    + exact AU1.
    + rewrite LD1. apply mapped_next; [exact MU|lia|reflexivity].
    + rewrite LD1. intros i u Hi Hu. destruct (N.eq_dec i o) as [->|NEi].
      * rewrite Hw in Hu. injection Hu as <-. apply setN_same. rewrite lenN_cons in LQ. lia.
      * rewrite setN_other by (rewrite lenN_cons in LQ; lia). apply PU; [lia|assumption].
    + unfold jr in *. lia.
    + rewrite LD1 in A1. exists wids', pids', arr'. rewrite lenN_setN in A2, A3. auto.
Qed.

Lemma pmq_sorted_ok : remap <> 0 -> forall ws done pre post first wids pids arrays fuel, q = done ++ ws -> ws <> [] -> lenN done < 2 -> lenN q <= lenN wids -> lenN q <= lenN pids -> first <= lenN pre ->
  good arrays -> mapped (lenN done) wids -> (forall i u, i < lenN done -> nthN q i = Some u -> nthN pids (i + 1) = Some (vid D u)) -> (length (join ws) <= fuel)%nat ->
  exists wids' pids' arrays', pmq_sorted fuel env v arrays remap (pre ++ join ws ++ post) first (lenN pre + lenN (join ws)) (lenN pre) (lenN pre) (lenN done) wids pids = Ok (lenN q - 1, wids', pids', arrays') /\
    lenN wids' = lenN wids /\ lenN pids' = lenN pids /\ mapped (lenN q) wids' /\ good arrays'.
Proof.
  intros R0. pose proof (col_remap _ _ C) as R2. pose proof KD as KD'. pose proof qlen as LQ'. induction ws as [|w ws IH]; intros done pre post first wids pids arrays fuel Eq NE LD LW LP LF AU MU PU Hfu; [congruence|].
  set (o := lenN done) in *.
  assert (Hw : nthN q o = Some w) by (rewrite Eq; unfold o; rewrite nthN_app2 by lia; rewrite N.sub_diag; reflexivity).
  assert (LQ : lenN q = o + 1 + lenN ws) by (rewrite Eq, lenN_app, lenN_cons; unfold o; lia).
  destruct (qword o w Hw) as [WV [Ww1 Ww2]].
  assert (0 < lenN w). { destruct w; [congruence|rewrite lenN_cons; lia]. }
  assert (MM : mapped (o + 1) (setN wids o (vid D w))).
  { apply mapped_next; [exact MU|lia|]. symmetry. apply lid_low; [exact Hw|]. lia. }
  destruct ws as [|w2 ws].
  - cbn [join] in *. rewrite pmq_sorted_skip by (auto; lia). change (lenN (@nil (list N))) with 0 in LQ.
    destruct (qlook (pre ++ w ++ post) (lenN pre, lenN pre + lenN w) o w Hw (holds_mid _ _ _ _ _ eq_refl eq_refl)) as [E1 E2].
    assert (FIN : exists wids' pids' arrays', (id <- vlook (te_h tv) v (pre ++ w ++ post) (lenN pre, lenN pre + lenN w) ;;
        if id =? not_found then Ok (not_found, wids, pids, arrays) else wids <- wr wids o id ;; Ok (o, wids, pids, arrays)) = Ok (lenN q - 1, wids', pids', arrays') /\
        lenN wids' = lenN wids /\ lenN pids' = lenN pids /\ mapped (lenN q) wids' /\ good arrays').
    { rewrite E1. cbn [bind]. rewrite E2, wr_setN by lia. cbn [bind]. eexists _, _, _. split; [do 4 f_equal; lia|]. split; [apply lenN_setN|]. split; [reflexivity|]. split; [|exact AU].
      replace (lenN q) with (o + 1) by lia. exact MM. }
    destruct (fuel - length w)%nat; cbn [pmq_sorted]; rewrite N.eqb_refl; exact FIN.
  - rewrite join_cons in * by discriminate. set (jr := join (w2 :: ws)) in *. rewrite app_length in Hfu. cbn [length] in Hfu.
    assert (LJ : lenN (w ++ 32 :: jr) = lenN w + 1 + lenN jr) by (rewrite lenN_app, lenN_cons; lia).
    rewrite <- app_assoc. rewrite pmq_sorted_skip by (auto; lia).
    destruct (fuel - length w)%nat as [|f] eqn:EF; [lia|]. cbn [pmq_sorted].
    destruct (N.eqb_spec (lenN pre + lenN w) (lenN pre + lenN (w ++ 32 :: jr))); [lia|].
    assert (B : rd (pre ++ w ++ (32 :: jr) ++ post) (lenN pre + lenN w) = Ok 32).
    { replace (pre ++ w ++ (32 :: jr) ++ post) with ((pre ++ w) ++ 32 :: (jr ++ post)) by (rewrite <- !app_assoc; reflexivity).
      apply rd_app_at'. rewrite lenN_app. reflexivity. }
    rewrite B. cbn [bind]. unfold c_space. rewrite N.eqb_refl.
    destruct (N.eqb_spec (lenN pre + lenN w) first); [lia|].
    destruct (qlook (pre ++ w ++ (32 :: jr) ++ post) (lenN pre, lenN pre + lenN w) o w Hw (holds_mid _ _ _ _ _ eq_refl eq_refl)) as [E1 E2]. rewrite E1. cbn [bind]. rewrite E2.
    rewrite wr_setN by lia. cbn [bind]. rewrite wr_setN by (rewrite lenN_cons in LQ; lia). cbn [bind].
    replace (pre ++ w ++ (32 :: jr) ++ post) with ((pre ++ w ++ [32]) ++ jr ++ post) by (rewrite <- !app_assoc; reflexivity).
    assert (LPR : lenN (pre ++ w ++ [32]) = lenN pre + lenN w + 1) by (rewrite !lenN_app; change (lenN [32]) with 1; lia).
    replace (lenN pre + lenN (w ++ 32 :: jr)) with (lenN (pre ++ w ++ [32]) + lenN jr) by lia. rewrite <- LPR.
    assert (LD1 : lenN (done ++ [w]) = o + 1) by (rewrite lenN_app; reflexivity).
    assert (PU' : forall i u, i < o + 1 -> nthN q i = Some u -> nthN (setN pids (o + 1) (vid D w)) (i + 1) = Some (vid D u)).
    { intros i u Hi Hu. destruct (N.eq_dec i o) as [->|NEi].
      - rewrite Hw in Hu. injection Hu as <-. apply setN_same. rewrite lenN_cons in LQ. lia.
      - rewrite setN_other by (rewrite lenN_cons in LQ; lia). apply PU; [lia|assumption]. }
    destruct (N.eqb_spec (o + 1) 2) as [O2|O2].
    + edestruct (pmq_inner_ok R0 (w2 :: ws) (done ++ [w]) (pre ++ w ++ [32]) post (setN wids o (vid D w)) (setN pids (o + 1) (vid D w)) arrays f) as (wids' & pids' & arr' & A1 & A2 & A3 & A4).
      * rewrite <- app_assoc. exact Eq.
      * discriminate.
      * lia.
      * rewrite lenN_setN. assumption.
      * rewrite lenN_setN. assumption.
      * exact AU.
      * rewrite LD1. auto.
      * rewrite LD1. assumption.
      * fold jr. lia.
      * fold jr in A1. rewrite LD1 in A1. exists wids', pids', arr'. rewrite lenN_setN in A2, A3. auto.
    + edestruct (IH (done ++ [w]) (pre ++ w ++ [32]) post first (setN wids o (vid D w)) (setN pids (o + 1) (vid D w)) arrays f) as (wids' & pids' & arr' & A1 & A2 & A3 & A4).
      * rewrite <- app_assoc. exact Eq.
      * discriminate.
      * lia.
      * rewrite lenN_setN. assumption.
      * rewrite lenN_setN. assumption.
      * lia.
      * exact AU.
      * rewrite LD1. auto.
      * rewrite LD1. assumption.
      * lia.
      * rewrite LD1 in A1. exists wids', pids', arr'. rewrite lenN_setN in A2, A3. auto.
Qed.

Lemma pdescend_ok wids : mapped (lenN q) wids -> forall n i arrays, 0 < i -> i + N.of_nat n = lenN q -> good arrays ->
  exists arrays', pdescend n env arrays wids i (posn (G (i - 1)) (pre_ (i - 1))) = Ok (posn (G K) q, arrays') /\ good arrays'.
Proof.
  intros MU. pose proof KD as KD'. pose proof qlen as LQ'. induction n as [|n IH]; intros i arrays Hi HL AU.
  - replace (N.of_nat 0) with 0 in HL by reflexivity. rewrite N.add_0_r in HL. subst i. cbn [pdescend]. exists arrays. split; [|exact AU].
    replace (lenN q - 1) with K by lia. unfold pre_. replace (N.to_nat (K + 1)) with (length q) by (unfold lenN in *; lia). rewrite firstn_all. reflexivity.
  - cbn [pdescend]. destruct (nthN_Some q i ltac:(lia)) as (w & Hw). pose proof (removelast_firstn_S q i w Hw) as RX.
    pose proof (pre_in (i - 1) ltac:(lia)) as HI. pose proof (posn_In _ _ HI) as Hp. set (p := posn (G (i - 1)) (pre_ (i - 1))) in *.
    rewrite (P_TriePef2.range_of D remap env seqs arrays (lenN D) (i - 1) p AU ltac:(lia)) by (eapply nthN_lt; eauto). cbn [bind].
    replace (i - 1 + 1) with i by lia. rewrite (proj2 (rd_nthN _ _ _) (MU i ltac:(lia) ltac:(lia))). cbn [bind].
    pose proof (pre_in i ltac:(lia)) as IX. pose proof (posn_In _ _ IX) as Hx.
    destruct (P_TriePef2.find_gram D remap env seqs arrays (lenN D) i (posn (G i) (pre_ i)) (pre_ i) p AU ltac:(lia) Hx) as (arr1 & FE & AU1).
    { rewrite Hp. f_equal. unfold pre_. rewrite RX. f_equal. lia. }
    rewrite FE. cbn [bind]. cbv beta iota.
    rewrite (not_found_big _ (lenN (G i))) by (first [eapply nthN_lt; exact Hx | pose proof (lev_size D remap C i); lia]).
    destruct (IH (i + 1) arr1 ltac:(lia) ltac:(lia) AU1) as (arr2 & E2 & AU2). rewrite N.add_sub in E2. exists arr2. split; assumption.
Qed.
End Lookup.

Section Answer.
Variable D : list (list (gram * N)).
Variable remap : N.
Hypothesis C : collection D remap.
Variable env : penv.
Hypothesis EO : penv_ok D remap env.
Notation G := (grams D).
Notation voc := (grams D 0).
Notation tv := (pe_t env).

Lemma panswer_ok t K l q c (st : statics) buf r : ptrie_rep D remap env t -> nthN D K = Some l -> In (q, c) l -> 8 <= lenN (fst st) -> 8 <= lenN (snd st) -> holds_text buf r (join q) ->
  exists st' t', ptrie_lookup env t st buf r = Ok (c, st', t') /\ lenN (fst st') = lenN (fst st) /\ lenN (snd st') = lenN (snd st) /\ ptrie_rep D remap env t'.
Proof.
  intros TR Hl Hqc L1 L2 HT. destruct (holds_split _ _ _ HT) as (pre & post & -> & Ha & He). destruct r as [a b]. cbn [fst snd] in Ha, He. subst a b.
  assert (QK : In q (G K)) by (unfold grams; rewrite Hl; apply (in_map fst) in Hqc; exact Hqc).
  pose proof (qlen D remap C q K QK) as LQ. pose proof (KD D q K QK) as KD'. pose proof (q8 D remap C q K QK) as Q8.
  destruct st as [wids pids]. cbn [fst snd] in *. unfold ptrie_lookup. cbn [fst snd]. pose proof (col_order _ _ C) as CO.
  destruct TR as (T1 & T2 & T3 & T4). rewrite T1, T2. destruct EO as (E1 & _).
  assert (QN : q <> []) by (eapply gram_ne; eauto). assert (QW : Forall word q) by (eapply gram_words; eauto).
  assert (MQ : exists wids' pids' arrays', (if te_map tv then pmq_sorted (S (length (pre ++ join q ++ post))) env (pt_vocab t) (pt_arrays t) remap (pre ++ join q ++ post) (lenN pre) (lenN pre + lenN (join q)) (lenN pre) (lenN pre) 0 wids pids
     else ' (o, wids) <- mq_identity (S (length (pre ++ join q ++ post))) (te_h tv) (pt_vocab t) (pre ++ join q ++ post) (lenN pre) (lenN pre + lenN (join q)) (lenN pre) (lenN pre) 0 wids ;; Ok (o, wids, pids, pt_arrays t)) = Ok (lenN q - 1, wids', pids', arrays') /\
     lenN wids' = lenN wids /\ lenN pids' = lenN pids /\ mapped D remap q K (lenN q) wids' /\ P_TriePef2.arrays_upto D remap env (pt_counts t) arrays' (lenN D)).
  { assert (FU : (length (join q) <= S (length (pre ++ join q ++ post)))%nat) by (rewrite !app_length; lia).
    rewrite E1. destruct (N.eqb_spec remap 0) as [R|R]; cbn [negb].
    - assert (HW : forall w, In w q -> In [w] voc \/ rejected tv (pt_vocab t) w) by (intros w Hw; left; eapply gram_voc; eauto).
      destruct (mq_identity_ok D remap C tv (pt_vocab t) T3 q pre post (lenN pre) 0 wids _ QN QW (N.le_refl _) ltac:(lia) HW FU) as (o & wids' & A1 & A2 & A3).
      rewrite A1. cbn [bind]. cbv beta iota. destruct A3 as [(_ & w & W1 & W2)|(-> & _ & KK)].
      { exfalso. apply (voc_not_rejected D remap C tv (pt_vocab t) T3 w); [eapply gram_voc; eauto|exact W2]. }
      exists wids', pids, (pt_arrays t). split; [reflexivity|]. split; [assumption|]. split; [reflexivity|]. split; [|exact T4].
      intros i Hi HiK. destruct (nthN_Some q i ltac:(lia)) as (w & Hw). destruct (KK i w Hw) as [K1 K2].
      rewrite (lid_low D remap q i w Hw (or_introl R)). exact K2.
    - destruct (pmq_sorted_ok D remap C env (pt_vocab t) T3 (pt_counts t) q K QK R q [] pre post (lenN pre) wids pids (pt_arrays t) (S (length (pre ++ join q ++ post))) eq_refl QN) as (wids' & pids' & arr' & A1 & A2 & A3 & A4 & A5);
        try (change (lenN (@nil (list N))) with 0); try lia; try exact FU; try exact T4.
      { intros i Hi. lia. }
      exists wids', pids', arr'. auto. }
  destruct MQ as (wids' & pids' & arr1 & -> & W1 & W2 & MU & AU1). cbn [bind]. cbv beta iota.
  assert (NF : (lenN q - 1 =? not_found) = false) by (apply (not_found_big _ 8); lia). rewrite NF.
  destruct (N.ltb_spec (lenN D) (lenN q - 1)); [lia|]. cbn [orb].
  rewrite (proj2 (rd_nthN _ _ _) (MU 0 ltac:(lia) ltac:(lia))). cbn [bind].
  destruct (nthN_Some q 0 ltac:(lia)) as (w & Hw).
  assert (P0 : lid D remap 0 (pre_ q 0) = posn (G (1 - 1)) (pre_ q (1 - 1))).
  { rewrite lid_plain by (right; apply N.le_0_l). change (1 - 1) with 0. unfold pre_. rewrite (firstn_S_nthN q 0 w Hw). reflexivity. }
  rewrite P0. destruct (pdescend_ok D remap C env (pt_counts t) q K QK wids' MU (N.to_nat (lenN q - 1)) 1 arr1 ltac:(lia) ltac:(lia) AU1) as (arr2 & E2 & AU2).
  rewrite E2. cbn [bind]. cbv beta iota. pose proof (posn_In _ _ QK) as PQ.
  rewrite (not_found_big _ (lenN (G K))) by (first [eapply nthN_lt; exact PQ | pose proof (lev_size D remap C K); lia]). cbn [andb].
  replace (lenN q - 1) with K by lia.
  assert (PQ' := PQ). unfold grams in PQ' at 1. rewrite Hl, nthN_map in PQ'. destruct (nthN l (posn (G K) q)) as [e|] eqn:Ee; [|discriminate]. injection PQ' as PQ'.
  destruct (P_TriePef2.rank_gram D remap env (pt_counts t) arr2 (lenN D) K l _ e AU2 KD' Hl Ee) as (x & arr3 & E3 & SX & AU3). rewrite E3. cbn [bind]. cbv beta iota. rewrite SX. cbn [bind].
  destruct (In_nthN _ _ Hqc) as (j & Hj).
  assert (JE : nthN (G K) j = Some q) by (unfold grams; rewrite Hl, nthN_map, Hj; reflexivity).
  pose proof (NoDup_nthN _ _ _ _ (lev_NoDup D remap C K) PQ JE) as EJ. rewrite EJ in Ee. rewrite Hj in Ee. injection Ee as <-. cbn [snd].
  eexists _, _. split; [reflexivity|]. split; [exact W1|]. split; [exact W2|]. unfold ptrie_rep, with_arrays. cbn. auto.
Qed.
End Answer.
