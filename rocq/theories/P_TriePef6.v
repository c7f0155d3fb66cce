(** * Tries over uniform_pef: looking up an n-gram that is not indexed *)
From Verif Require Import Prelude BitFacts M_Word P_Word M_Bits Spec P_Bits M_CompactVector P_CompactVector M_DArray M_EF P_EF P_EF2
  M_HashVec M_Mph P_Mph P_MphTables M_FastEF P_FastEF3 M_Text P_Text P_Text2 M_SeqColl P_SeqColl M_Pool P_Pool M_Pef Spec_Pef M_Trie M_TriePef Spec_Trie Spec_TriePef
  P_Trie1 P_Trie2 P_Trie3 P_Trie4 P_Trie5 P_Trie6 P_Trie7 P_TriePef1 P_TriePef2 P_TriePef3 P_TriePef4 P_TriePef5.
From Coq Require Import Permutation Sorting.Sorted.

Section Miss.
Variable D : list (list (gram * N)).
Variable remap : N.
Hypothesis C : collection D remap.
Variable env : penv.
Notation G := (grams D).
Notation voc := (grams D 0).
Notation tv := (pe_t env).
Variable seqs : list cv.
Notation good := (fun arrays => P_TriePef2.arrays_upto D remap env seqs arrays (lenN D)).

Lemma miss_gram arrays k id p : good arrays -> 0 < k < lenN D -> sib_missing D remap k p id ->
  exists arrays', pa_position env arrays k (kids D k p, kids D k (p + 1)) id = Ok (not_found, arrays') /\ good arrays'.
Proof.
  intros (AL & AR & AP & AT) Hk HM. destruct (AP k Hk) as (a & g & H1 & H2 & H3). unfold pa_position. rewrite (proj2 (rd_nthN _ _ _) H1). cbn [bind]. rewrite H2.
  destruct (gs_miss D remap env k g p id H3 HM) as (g' & E & H3'). rewrite E. cbn [bind]. cbv beta iota. pose proof (nthN_lt _ _ _ H1) as L. rewrite wr_setN by exact L. cbn [bind].
  eexists. split; [reflexivity|]. set (a' := mkparr (p_size a) (Some g') (p_ranks a) (p_ptrs a)). split; [rewrite lenN_setN; exact AL|]. split; [|split].
  - intros j Hj. destruct (AR j Hj) as (b & r & vs & J1 & J2 & J3). destruct (N.eq_dec j k) as [->|NE].
    + rewrite H1 in J1. injection J1 as <-. exists a', r, vs. split; [apply setN_same; exact L|]. auto.
    + exists b, r, vs. split; [rewrite setN_other by (exact L || exact NE); exact J1|]. auto.
  - intros j Hj. destruct (N.eq_dec j k) as [->|NE].
    + exists a', g'. split; [apply setN_same; exact L|]. auto.
    + destruct (AP j Hj) as (b & g0 & J1 & J2). exists b, g0. split; [rewrite setN_other by (exact L || exact NE); exact J1|]. auto.
  - intros j Hj. destruct (AT j Hj) as (b & e & J1 & J2). destruct (N.eq_dec j k) as [->|NE].
    + rewrite H1 in J1. injection J1 as <-. exists a', e. split; [apply setN_same; exact L|]. auto.
    + exists b, e. split; [rewrite setN_other by (exact L || exact NE); exact J1|]. auto.
Qed.

(** the n-gram asked for *)
Variable v : svt.
Hypothesis RV : voc_rep D tv v.
Variable q : gram.
Notation pre_ j := (firstn (N.to_nat j) q).
Hypothesis QD : lenN q <= lenN D.
Hypothesis HW : forall w, In w q -> In [w] voc \/ rejected tv v w.
Hypothesis FW : Forall word q.
(** the suffixes the mapper searches are listed or told apart *)
Hypothesis SX : remap <> 0 -> forall o, remap < o < lenN q -> In (sfx remap q o) (G remap) \/ told_apart D remap remap (sfx remap q o).
Hypothesis QN : ~ In q (G (lenN q - 1)).
Hypothesis QT : (remap <> 0 -> forall o, remap < o < lenN q -> In (sfx remap q o) (G remap)) -> forall j, 0 < j < lenN q -> In (pre_ j) (G (j - 1)) -> ~ In (pre_ (j + 1)) (G j) -> told_apart D remap j (pre_ (j + 1)).
Lemma q8 : lenN q <= 8.
Proof using C QD. pose proof (col_order _ _ C). clear SX QT HW FW QN. lia. Qed.
Lemma QD' : lenN q <= 8 /\ (lenN q <= lenN D \/ remap < lenN D).
Proof using C QD. split; [exact q8|left; exact QD]. Qed.
Notation sfxq := (sfx remap q).
Notation ctxq := (ctx remap q).
Notation MU_ := (mapped_upto D remap q).
Lemma sfx_ctx' o w : remap < o -> nthN q o = Some w -> sfxq o = ctxq o ++ [w].
Proof using C QD. intros. clear SX QT HW FW QN. apply (sfx_ctx D remap q); auto. pose proof q8. lia. Qed.

Lemma pmap_parents_any o w pids arrays : remap <> 0 -> remap < o -> nthN q o = Some w -> good arrays -> (forall i w, i <= o -> nthN q i = Some w -> In [w] voc) ->
  (forall i u, i < o -> nthN q i = Some u -> nthN pids (i + 1) = Some (vid D u)) ->
  exists m arrays', pmap_parents env arrays (vid D w) pids o remap = Ok (m, arrays') /\ good arrays' /\
    ((m =? not_found) = true \/ (In (sfxq o) (G remap) /\ m = lid D remap o (pre_ (o + 1)) /\ (m =? not_found) = false)).
Proof using C QD SX.
  clear QT HW FW QN.
  intros R0 RO Hw AU HV HP. pose proof (col_remap _ _ C) as R2. pose proof (col_order _ _ C) as CO. pose proof (nthN_lt _ _ _ Hw) as LQ. pose proof (sfx_ctx' o w RO Hw) as SC.
  assert (WV : In [w] voc) by (apply (HV o); [lia|assumption]).
  assert (Hctx : In (ctxq o) (G (remap - 1))).
  { destruct (SX R0 o ltac:(lia)) as [I|(_ & w' & _ & I)]; apply (lev_PRE D remap C remap ltac:(lia)) in I; [rewrite SC, removelast_last in I; exact I|].
    rewrite removelast_last, SC, removelast_last in I. exact I. }
  assert (LV : lid D remap remap (sfxq o) = vid D w). { rewrite lid_plain by (right; lia). rewrite SC, last_last. reflexivity. }
  assert (FIN : forall arr rg p, good arr -> nthN (G (remap - 1)) p = Some (ctxq o) -> rg = (kids D remap p, kids D remap (p + 1)) ->
    exists m arrays', pmap_in env arr remap rg (vid D w) = Ok (m, arrays') /\ good arrays' /\
      ((m =? not_found) = true \/ (In (sfxq o) (G remap) /\ m = lid D remap o (pre_ (o + 1)) /\ (m =? not_found) = false))).
  { intros arr rg p AUa Hp ->. unfold pmap_in. rewrite <- LV. destruct (in_dec (list_eq_dec (list_eq_dec N.eq_dec)) (sfxq o) (G remap)) as [IS|NS].
    - destruct (In_nthN _ _ IS) as (i & Hi).
      destruct (P_TriePef2.find_gram D remap env seqs arr (lenN D) remap i (sfxq o) p AUa ltac:(lia) Hi) as (arr' & FE & AU'); [rewrite SC, removelast_last; exact Hp|].
      rewrite FE. cbn [bind]. cbv beta iota. pose proof (nthN_lt _ _ _ Hi) as RL. pose proof (lev_size D remap C remap) as LS.
      rewrite (not_found_big i (lenN (G remap))) by (first [exact RL | lia]).
      assert (Hp' : nthN (G (remap - 1)) p = Some (removelast (sfxq o))) by (rewrite SC, removelast_last; exact Hp).
      pose proof (kid_range D remap C remap i (sfxq o) p ltac:(lia) Hi Hp') as KR2. cbn [fst]. rewrite sub64_le by lia.
      eexists _, arr'. split; [reflexivity|]. split; [exact AU'|]. right. split; [exact IS|]. split.
      + rewrite lid_mapped by (auto; lia). cbn zeta. fold (sfxq o). rewrite (posn_nthN _ _ _ (lev_NoDup D remap C remap) Hi).
        rewrite (posn_nthN _ _ _ (lev_NoDup D remap C (remap - 1)) Hp'). reflexivity.
      + apply (not_found_big _ (2 ^ 31)); lia.
    - destruct (SX R0 o ltac:(lia)) as [I|TA]; [contradiction|].
      destruct (miss_gram arr remap (lid D remap remap (sfxq o)) p AUa ltac:(lia)) as (arr' & FE & AU').
      { apply (told_missing D remap C remap p); [lia|rewrite SC, removelast_last; exact Hp|rewrite SC, last_last; exact WV| |intros _ X; lia|exact NS|exact TA].
        unfold sfx. rewrite skipn_length, firstn_length. unfold lenN in *. lia. }
      rewrite FE. cbn [bind]. cbv beta iota. rewrite N.eqb_refl. eexists _, arr'. split; [reflexivity|]. split; [exact AU'|]. left. apply N.eqb_refl. }
  unfold pmap_parents. rewrite add64_small by lia. rewrite sub64_le by lia.
  destruct (nthN_Some q (o - remap) ltac:(lia)) as (x & Hx).
  pose proof (HP (o - remap) x ltac:(lia) Hx) as PX. replace (o - remap + 1) with (o + 1 - remap) in PX by lia.
  rewrite (proj2 (rd_nthN _ _ _) PX). cbn [bind].
  assert (XV : In [x] voc) by (apply (HV (o - remap)); [lia|assumption]). pose proof (vid_In D x XV) as Vx.
  rewrite (P_TriePef2.range_of D remap env seqs arrays (lenN D) 0 (vid D x) AU ltac:(lia)) by (eapply nthN_lt; eauto). cbn [bind].
  destruct (N.eqb_spec remap 2) as [E2|E2].
  - destruct (nthN_Some q (o - 1) ltac:(lia)) as (y & Hy). pose proof (HP (o - 1) y ltac:(lia) Hy) as PY. replace (o - 1 + 1) with o in PY by lia.
    rewrite (proj2 (rd_nthN _ _ _) PY). cbn [bind].
    assert (CE : ctxq o = [x; y]).
    { unfold ctx. rewrite E2. change (N.to_nat 2) with 2%nat. rewrite E2 in Hx. rewrite (skipn_nthN q (o - 2) x Hx).
      replace (o - 1) with (o - 2 + 1) in Hy by lia. rewrite (skipn_nthN q (o - 2 + 1) y Hy). reflexivity. }
    pose proof Hctx as Hc1. rewrite CE in Hc1. replace (remap - 1) with 1 in Hc1 by lia. pose proof (posn_In _ _ Hc1) as I2. set (p := posn (G 1) [x; y]) in *.
    unfold pa_next. change (0 + 1) with 1. replace (vid D y) with (lid D remap 1 [x; y]) by (rewrite lid_plain by (right; lia); reflexivity).
    destruct (P_TriePef2.find_gram D remap env seqs arrays (lenN D) 1 p [x; y] (vid D x) AU ltac:(lia) I2 Vx) as (arr1 & FE & AU1). rewrite FE. cbn [bind]. cbv beta iota.
    rewrite (not_found_big p (lenN (G 1))) by (first [eapply nthN_lt; exact I2 | pose proof (lev_size D remap C 1); lia]).
    rewrite (P_TriePef2.range_of D remap env seqs arr1 (lenN D) 1 p AU1 ltac:(lia)) by (eapply nthN_lt; eauto). cbn [bind]. cbv beta iota.
    apply (FIN arr1 _ p AU1); [rewrite CE; replace (remap - 1) with 1 by lia; exact I2|rewrite E2; reflexivity].
  - assert (E1 : remap = 1) by lia. cbn [bind]. cbv beta iota.
    assert (CE : ctxq o = [x]).
    { unfold ctx. rewrite E1. change (N.to_nat 1) with 1%nat. rewrite E1 in Hx. rewrite (skipn_nthN q (o - 1) x Hx). reflexivity. }
    apply (FIN arrays _ (vid D x) AU); [rewrite CE, E1; exact Vx|rewrite E1; reflexivity].
Qed.

Definition pmq_result (r : N) (wids : list N) : Prop := r = not_found \/ (r = lenN q - 1 /\ MU_ (lenN q) wids).
Lemma pmq_inner_any : remap <> 0 ->
  forall ws done pre post wids pids arrays fuel, q = done ++ ws -> ws <> [] -> 2 <= lenN done -> lenN q <= lenN wids -> lenN q <= lenN pids -> good arrays ->
  MU_ (lenN done) wids -> (forall i u, i < lenN done -> nthN q i = Some u -> nthN pids (i + 1) = Some (vid D u)) -> (length (join ws) <= fuel)%nat ->
  exists r wids' pids' arrays', pmq_inner fuel env v arrays remap (pre ++ join ws ++ post) (lenN pre + lenN (join ws)) (lenN pre) (lenN pre) (lenN done) wids pids = Ok (r, wids', pids', arrays') /\ good arrays' /\
    lenN wids' = lenN wids /\ lenN pids' = lenN pids /\ pmq_result r wids'.
Proof using C RV QD HW FW SX.
  clear QT QN. intros R0. pose proof (col_remap _ _ C) as R2. induction ws as [|w ws IH]; intros done pre post wids pids arrays fuel Eq NE LD LW LP AU MU PU Hfu; [congruence|].
  set (o := lenN done) in *.
  assert (Hw : nthN q o = Some w) by (rewrite Eq; unfold o; rewrite nthN_app2 by lia; rewrite N.sub_diag; reflexivity).
  assert (LQ : lenN q = o + 1 + lenN ws) by (rewrite Eq, lenN_app, lenN_cons; unfold o; lia).
  assert (Iw : In w q) by (eapply nthN_In; eauto). pose proof (Forall_nthN _ _ _ _ FW Hw) as Ww. destruct Ww as [Ww1 Ww2].
  (* the mapped id *)
  assert (MAP : In [w] voc -> exists m arrays', (if (o =? 2) && (remap =? 2) then Ok (vid D w, arrays) else pmap_parents env arrays (vid D w) pids o remap) = Ok (m, arrays') /\ good arrays' /\
      ((m =? not_found) = true \/ ((m =? not_found) = false /\ MU_ (o + 1) (setN wids o m)))).
  { intros WV. destruct ((o =? 2) && (remap =? 2)) eqn:E.
    - apply andb_true_iff in E. destruct E as [E1 E2]. apply N.eqb_eq in E1, E2. exists (vid D w), arrays. split; [reflexivity|]. split; [exact AU|]. right.
      split; [apply (not_found_big _ (2 ^ 31)); [apply (vid_lt D remap C); assumption|lia]|]. apply (mapped_snoc D remap q QD' o wids w); auto; [lia|symmetry; apply lid_short; [assumption|right; lia]|intros; lia].
    - assert (RO : remap < o). { apply andb_false_iff in E. destruct E as [E|E]; apply N.eqb_neq in E; lia. }
      destruct (pmap_parents_any o w pids arrays R0 RO Hw AU (wids_voc D remap q QD' o wids w MU Hw WV) PU) as (m & arr' & Em & AU' & [Z|(IS & -> & NF)]).
      + exists m, arr'. split; [exact Em|]. split; [exact AU'|]. left. exact Z.
      + eexists _, arr'. split; [exact Em|]. split; [exact AU'|]. right. split; [assumption|]. apply (mapped_snoc D remap q QD' o wids w); auto. lia. }
  destruct ws as [|w2 ws].
  - cbn [join] in *. rewrite pmq_inner_skip by (auto; lia).
    assert (FIN : exists r wids' pids' arrays', (id <- vlook (te_h tv) v (pre ++ w ++ post) (lenN pre, lenN pre + lenN w) ;;
        if id =? not_found then Ok (not_found, wids, pids, arrays) else
        ' (mapped, arrays) <- (if negb (o =? 2) || negb (remap =? 2) then pmap_parents env arrays id pids o remap else Ok (id, arrays)) ;;
        if mapped =? not_found then Ok (not_found, wids, pids, arrays) else wids <- wr wids o mapped ;; Ok (o, wids, pids, arrays)) = Ok (r, wids', pids', arrays') /\ good arrays' /\
        lenN wids' = lenN wids /\ lenN pids' = lenN pids /\ pmq_result r wids').
    { destruct (vlook_cases D remap C tv v RV (pre ++ w ++ post) (lenN pre, lenN pre + lenN w) w (holds_word _ _ _ _ _ eq_refl eq_refl) (HW w Iw)) as [(E1 & E2 & E3)|(E1 & E2)]; rewrite E1; cbn [bind].
      - rewrite E3. destruct (MAP E2) as (m & arr1 & Em & AU1 & Cm). 
        replace (if negb (o =? 2) || negb (remap =? 2) then pmap_parents env arrays (vid D w) pids o remap else Ok (vid D w, arrays)) with (Ok (m, arr1)) by (rewrite <- Em; destruct (o =? 2), (remap =? 2); reflexivity).
        cbn [bind]. cbv beta iota. destruct Cm as [Z|[Z MM]]; rewrite Z.
        + exists not_found, wids, pids, arr1. split; [reflexivity|]. split; [exact AU1|]. split; [reflexivity|]. split; [reflexivity|]. left. reflexivity.
        + rewrite wr_setN by lia. cbn [bind]. exists o, (setN wids o m), pids, arr1. split; [reflexivity|]. split; [exact AU1|]. split; [apply lenN_setN|]. split; [reflexivity|]. right.
          change (lenN (@nil (list N))) with 0 in LQ. split; [lia|]. rewrite LQ, N.add_0_r. assumption.
      - rewrite N.eqb_refl. exists not_found, wids, pids, arrays. split; [reflexivity|]. split; [exact AU|]. split; [reflexivity|]. split; [reflexivity|]. left. reflexivity. }
    destruct (fuel - length w)%nat; cbn [pmq_inner]; rewrite N.eqb_refl; exact FIN.
  - rewrite join_cons in * by discriminate. set (jr := join (w2 :: ws)) in *. rewrite app_length in Hfu. cbn [length] in Hfu.
    assert (LJ : lenN (w ++ 32 :: jr) = lenN w + 1 + lenN jr) by (rewrite lenN_app, lenN_cons; lia).
    rewrite <- app_assoc. rewrite pmq_inner_skip by (auto; lia).
    destruct (fuel - length w)%nat as [|f] eqn:EF; [lia|]. cbn [pmq_inner].
    destruct (N.eqb_spec (lenN pre + lenN w) (lenN pre + lenN (w ++ 32 :: jr))); [lia|].
    assert (B : rd (pre ++ w ++ (32 :: jr) ++ post) (lenN pre + lenN w) = Ok 32).
    { replace (pre ++ w ++ (32 :: jr) ++ post) with ((pre ++ w) ++ 32 :: (jr ++ post)) by (rewrite <- !app_assoc; reflexivity).
      apply rd_app_at'. rewrite lenN_app. reflexivity. }
    rewrite B. cbn [bind]. unfold c_space. rewrite N.eqb_refl.
    destruct (vlook_cases D remap C tv v RV (pre ++ w ++ (32 :: jr) ++ post) (lenN pre, lenN pre + lenN w) w (holds_word _ _ _ _ _ eq_refl eq_refl) (HW w Iw)) as [(E1 & E2 & E3)|(E1 & E2)]; rewrite E1; cbn [bind].
    + rewrite E3. destruct (MAP E2) as (m & arr1 & Em & AU1 & Cm). rewrite Em. cbn [bind]. cbv beta iota. destruct Cm as [Z|[Z MM]]; rewrite Z.
      * exists not_found, wids, pids, arr1. split; [reflexivity|]. split; [exact AU1|]. split; [reflexivity|]. split; [reflexivity|]. left. reflexivity.
      * rewrite wr_setN by lia. cbn [bind]. rewrite wr_setN by (rewrite lenN_cons in LQ; lia). cbn [bind].
        replace (pre ++ w ++ (32 :: jr) ++ post) with ((pre ++ w ++ [32]) ++ jr ++ post) by (rewrite <- !app_assoc; reflexivity).
        assert (LPR : lenN (pre ++ w ++ [32]) = lenN pre + lenN w + 1) by (rewrite !lenN_app; change (lenN [32]) with 1; lia).
        replace (lenN pre + lenN (w ++ 32 :: jr)) with (lenN (pre ++ w ++ [32]) + lenN jr) by lia. rewrite <- LPR.
        assert (LD1 : lenN (done ++ [w]) = o + 1) by (rewrite lenN_app; reflexivity).
        edestruct (IH (done ++ [w]) (pre ++ w ++ [32]) post (setN wids o m) (setN pids (o + 1) (vid D w)) arr1 f) as (r & wids' & pids' & arr' & A1 & AA & A2 & A3 & A4).
        -- rewrite <- app_assoc. exact Eq.
        -- discriminate.
        -- lia.
        -- rewrite lenN_setN. assumption.
        -- rewrite lenN_setN. assumption.
        -- assumption.
        -- rewrite LD1. assumption.
        -- rewrite LD1. intros i u Hi Hu. destruct (N.eq_dec i o) as [->|NEi].
           ++ rewrite Hw in Hu. injection Hu as <-. apply setN_same. rewrite lenN_cons in LQ. lia.
           ++ rewrite setN_other by (rewrite lenN_cons in LQ; lia). apply PU; [lia|assumption].
        -- unfold jr in *. lia.
        -- rewrite LD1 in A1. exists r, wids', pids', arr'. rewrite lenN_setN in A2, A3. auto.
    + rewrite N.eqb_refl. exists not_found, wids, pids, arrays. split; [reflexivity|]. split; [exact AU|]. split; [reflexivity|]. split; [reflexivity|]. left. reflexivity.
Qed.

Lemma pmq_sorted_any : remap <> 0 ->
  forall ws done pre post first wids pids arrays fuel, q = done ++ ws -> ws <> [] -> lenN done < 2 -> lenN q <= lenN wids -> lenN q <= lenN pids -> first <= lenN pre -> good arrays ->
  MU_ (lenN done) wids -> (forall i u, i < lenN done -> nthN q i = Some u -> nthN pids (i + 1) = Some (vid D u)) -> (length (join ws) <= fuel)%nat ->
  exists r wids' pids' arrays', pmq_sorted fuel env v arrays remap (pre ++ join ws ++ post) first (lenN pre + lenN (join ws)) (lenN pre) (lenN pre) (lenN done) wids pids = Ok (r, wids', pids', arrays') /\ good arrays' /\
    lenN wids' = lenN wids /\ lenN pids' = lenN pids /\ pmq_result r wids'.
Proof using C RV QD HW FW SX.
  clear QT QN. intros R0. pose proof (col_remap _ _ C) as R2. induction ws as [|w ws IH]; intros done pre post first wids pids arrays fuel Eq NE LD LW LP LF AU MU PU Hfu; [congruence|].
  set (o := lenN done) in *.
  assert (Hw : nthN q o = Some w) by (rewrite Eq; unfold o; rewrite nthN_app2 by lia; rewrite N.sub_diag; reflexivity).
  assert (LQ : lenN q = o + 1 + lenN ws) by (rewrite Eq, lenN_app, lenN_cons; unfold o; lia).
  assert (Iw : In w q) by (eapply nthN_In; eauto). pose proof (Forall_nthN _ _ _ _ FW Hw) as Ww. destruct Ww as [Ww1 Ww2].
  assert (0 < lenN w). { destruct w; [congruence|rewrite lenN_cons; lia]. }
  assert (MM : In [w] voc -> MU_ (o + 1) (setN wids o (vid D w))).
  { intros WV. apply (mapped_snoc D remap q QD' o wids w); auto; [lia|symmetry; apply lid_short; [assumption|right; lia]|intros; lia]. }
  destruct ws as [|w2 ws].
  - cbn [join] in *. rewrite pmq_sorted_skip by (auto; lia).
    assert (FIN : exists r wids' pids' arrays', (id <- vlook (te_h tv) v (pre ++ w ++ post) (lenN pre, lenN pre + lenN w) ;;
        if id =? not_found then Ok (not_found, wids, pids, arrays) else wids <- wr wids o id ;; Ok (o, wids, pids, arrays)) = Ok (r, wids', pids', arrays') /\ good arrays' /\
        lenN wids' = lenN wids /\ lenN pids' = lenN pids /\ pmq_result r wids').
    { destruct (vlook_cases D remap C tv v RV (pre ++ w ++ post) (lenN pre, lenN pre + lenN w) w (holds_word _ _ _ _ _ eq_refl eq_refl) (HW w Iw)) as [(E1 & E2 & E3)|(E1 & E2)]; rewrite E1; cbn [bind].
      - rewrite E3, wr_setN by lia. cbn [bind]. exists o, (setN wids o (vid D w)), pids, arrays. split; [reflexivity|]. split; [exact AU|]. split; [apply lenN_setN|]. split; [reflexivity|]. right.
        change (lenN (@nil (list N))) with 0 in LQ. split; [lia|]. rewrite LQ, N.add_0_r. auto.
      - rewrite N.eqb_refl. exists not_found, wids, pids, arrays. split; [reflexivity|]. split; [exact AU|]. split; [reflexivity|]. split; [reflexivity|]. left. reflexivity. }
    destruct (fuel - length w)%nat; cbn [pmq_sorted]; rewrite N.eqb_refl; exact FIN.
  - rewrite join_cons in * by discriminate. set (jr := join (w2 :: ws)) in *. rewrite app_length in Hfu. cbn [length] in Hfu.
    assert (LJ : lenN (w ++ 32 :: jr) = lenN w + 1 + lenN jr) by (rewrite lenN_app, lenN_cons; lia).
    rewrite <- app_assoc. rewrite pmq_sorted_skip by (auto; lia).
    destruct (fuel - length w)%nat as [|f] eqn:EF; [lia|]. cbn [pmq_sorted].
    destruct (N.eqb_spec (lenN pre + lenN w) (lenN pre + lenN (w ++ 32 :: jr))); [lia|].
    assert (B : rd (pre ++ w ++ (32 :: jr) ++ post) (lenN pre + lenN w) = Ok 32).
    { replace (pre ++ w ++ (32 :: jr) ++ post) with ((pre ++ w) ++ 32 :: (jr ++ post)) by (rewrite <- !app_assoc; reflexivity).
      apply rd_app_at'. rewrite lenN_app. reflexivity. }
    rewrite B. cbn [bind]. unfold c_space. rewrite N.eqb_refl.
    destruct (N.eqb_spec (lenN pre + lenN w) first); [lia|].
    destruct (vlook_cases D remap C tv v RV (pre ++ w ++ (32 :: jr) ++ post) (lenN pre, lenN pre + lenN w) w (holds_word _ _ _ _ _ eq_refl eq_refl) (HW w Iw)) as [(E1 & E2 & E3)|(E1 & E2)]; rewrite E1; cbn [bind].
    + rewrite E3, wr_setN by lia. cbn [bind]. rewrite wr_setN by (rewrite lenN_cons in LQ; lia). cbn [bind].
      replace (pre ++ w ++ (32 :: jr) ++ post) with ((pre ++ w ++ [32]) ++ jr ++ post) by (rewrite <- !app_assoc; reflexivity).
      assert (LPR : lenN (pre ++ w ++ [32]) = lenN pre + lenN w + 1) by (rewrite !lenN_app; change (lenN [32]) with 1; lia).
      replace (lenN pre + lenN (w ++ 32 :: jr)) with (lenN (pre ++ w ++ [32]) + lenN jr) by lia. rewrite <- LPR.
      assert (LD1 : lenN (done ++ [w]) = o + 1) by (rewrite lenN_app; reflexivity).
      assert (PU' : forall i u, i < o + 1 -> nthN q i = Some u -> nthN (setN pids (o + 1) (vid D w)) (i + 1) = Some (vid D u)).
      { intros i u Hi Hu. destruct (N.eq_dec i o) as [->|NEi].
        - rewrite Hw in Hu. injection Hu as <-. apply setN_same. rewrite lenN_cons in LQ. lia.
        - rewrite setN_other by (rewrite lenN_cons in LQ; lia). apply PU; [lia|assumption]. }
      destruct (N.eqb_spec (o + 1) 2) as [O2|O2].
      * edestruct (pmq_inner_any R0 (w2 :: ws) (done ++ [w]) (pre ++ w ++ [32]) post (setN wids o (vid D w)) (setN pids (o + 1) (vid D w)) arrays f) as (r & wids' & pids' & arr' & A1 & AA & A2 & A3 & A4).
        -- rewrite <- app_assoc. exact Eq.
        -- discriminate.
        -- lia.
        -- rewrite lenN_setN. assumption.
        -- rewrite lenN_setN. assumption.
        -- assumption.
        -- rewrite LD1. auto.
        -- rewrite LD1. assumption.
        -- fold jr. lia.
        -- fold jr in A1. rewrite LD1 in A1. exists r, wids', pids', arr'. rewrite lenN_setN in A2, A3. auto.
      * edestruct (IH (done ++ [w]) (pre ++ w ++ [32]) post first (setN wids o (vid D w)) (setN pids (o + 1) (vid D w)) arrays f) as (r & wids' & pids' & arr' & A1 & AA & A2 & A3 & A4).
        -- rewrite <- app_assoc. exact Eq.
        -- discriminate.
        -- lia.
        -- rewrite lenN_setN. assumption.
        -- rewrite lenN_setN. assumption.
        -- lia.
        -- assumption.
        -- rewrite LD1. auto.
        -- rewrite LD1. assumption.
        -- lia.
        -- rewrite LD1 in A1. exists r, wids', pids', arr'. rewrite lenN_setN in A2, A3. auto.
    + rewrite N.eqb_refl. exists not_found, wids, pids, arrays. split; [reflexivity|]. split; [exact AU|]. split; [reflexivity|]. split; [reflexivity|]. left. reflexivity.
Qed.

Lemma descend_miss wids : MU_ (lenN q) wids ->
  forall n i arrays, 0 < i -> i + N.of_nat n = lenN q -> (0 < n)%nat -> good arrays -> In (pre_ i) (G (i - 1)) ->
  exists arrays', pdescend n env arrays wids i (posn (G (i - 1)) (pre_ i)) = Ok (not_found, arrays') /\ good arrays'.
Proof using C QD QN QT.
  clear HW FW SX. intros MU. induction n as [|n IH]; intros i arrays Hi HL Hn AU HI; [lia|]. cbn [pdescend].
  destruct (nthN_Some q i ltac:(lia)) as (w & Hw). destruct (MU i w ltac:(lia) Hw) as (WV & MW & MS).
  assert (EX : pre_ (i + 1) = pre_ i ++ [w]) by (apply firstn_S_nthN; exact Hw).
  pose proof (posn_In _ _ HI) as Hp. set (p := posn (G (i - 1)) (pre_ i)) in *.
  rewrite (P_TriePef2.range_of D remap env seqs arrays (lenN D) (i - 1) p AU ltac:(lia)) by (eapply nthN_lt; eauto). cbn [bind].
  replace (i - 1 + 1) with i by lia. rewrite (proj2 (rd_nthN _ _ _) MW). cbn [bind].
  assert (RL : removelast (pre_ (i + 1)) = pre_ i) by (rewrite EX; apply removelast_last).
  destruct (in_dec (list_eq_dec (list_eq_dec N.eq_dec)) (pre_ (i + 1)) (G i)) as [IX|NX].
  - pose proof (posn_In _ _ IX) as Hx.
    destruct (P_TriePef2.find_gram D remap env seqs arrays (lenN D) i _ _ p AU ltac:(lia) Hx) as (arr1 & FE & AU1); [rewrite RL; exact Hp|].
    rewrite FE. cbn [bind]. cbv beta iota. rewrite (not_found_big _ (lenN (G i))) by (first [eapply nthN_lt; exact Hx | pose proof (lev_size D remap C i); lia]).
    destruct n as [|n].
    + exfalso. apply QN. replace (lenN q - 1) with i by lia. replace (N.to_nat (i + 1)) with (length q) in IX by (unfold lenN in *; lia). rewrite firstn_all in IX. exact IX.
    + destruct (IH (i + 1) arr1 ltac:(lia) ltac:(lia) ltac:(lia) AU1) as (arr2 & E2 & AU2); [rewrite N.add_sub; exact IX|]. rewrite N.add_sub in E2. exists arr2. auto.
  - destruct (miss_gram arrays i (lid D remap i (pre_ (i + 1))) p AU ltac:(lia)) as (arr1 & FE & AU1).
    { apply (told_missing D remap C i p); [exact Hi|rewrite RL; exact Hp| | |exact MS|exact NX|].
      - rewrite EX, last_last. exact WV.
      - rewrite firstn_length. unfold lenN in *. lia.
      - apply QT; [|lia|exact HI|exact NX]. intros R0 o Ho. destruct (nthN_Some q o ltac:(lia)) as (u & Hu). apply (MU o u ltac:(lia) Hu); [exact R0|lia]. }
    rewrite FE. cbn [bind]. cbv beta iota. rewrite N.eqb_refl. exists arr1. auto.
Qed.
End Miss.

Section Absent.
Variable D : list (list (gram * N)).
Variable remap : N.
Hypothesis C : collection D remap.
Variable env : penv.
Hypothesis EO : penv_ok D remap env.
Lemma pabsent_ok t q (st : statics) buf r : ptrie_rep D remap env t -> q <> [] -> Forall word q -> lenN q <= lenN D -> ~ In q (grams D (lenN q - 1)) ->
  (forall w, In w q -> In [w] (grams D 0) \/ rejected (pe_t env) (pt_vocab t) w) ->
  (remap <> 0 -> forall o, remap < o < lenN q -> In (sfx remap q o) (grams D remap) \/ told_apart D remap remap (sfx remap q o)) ->
  ((remap <> 0 -> forall o, remap < o < lenN q -> In (sfx remap q o) (grams D remap)) -> forall j, 0 < j < lenN q -> In (firstn (N.to_nat j) q) (grams D (j - 1)) -> ~ In (firstn (N.to_nat (j + 1)) q) (grams D j) -> told_apart D remap j (firstn (N.to_nat (j + 1)) q)) ->
  8 <= lenN (fst st) -> 8 <= lenN (snd st) -> holds_text buf r (join q) ->
  exists st' t', ptrie_lookup env t st buf r = Ok (not_found, st', t') /\ lenN (fst st') = lenN (fst st) /\ lenN (snd st') = lenN (snd st) /\ ptrie_rep D remap env t' /\ pt_vocab t' = pt_vocab t.
Proof.
  intros TR QN QW QD QA HW SX QT L1 L2 HT. destruct (holds_split _ _ _ HT) as (pre & post & -> & Ha & He). destruct r as [a b]. cbn [fst snd] in Ha, He. subst a b.
  destruct st as [wids pids]. cbn [fst snd] in *. unfold ptrie_lookup. cbn [fst snd]. pose proof (col_order _ _ C) as CO.
  destruct TR as (T1 & T2 & T3 & T4). rewrite T1, T2. destruct EO as (E1 & _).
  assert (LQ : 1 <= lenN q) by (destruct q; [congruence|rewrite lenN_cons; lia]).
  assert (FU : (length (join q) <= S (length (pre ++ join q ++ post)))%nat) by (rewrite !app_length; lia).
  assert (MQ : exists r wids' pids' arrays', (if te_map (pe_t env) then pmq_sorted (S (length (pre ++ join q ++ post))) env (pt_vocab t) (pt_arrays t) remap (pre ++ join q ++ post) (lenN pre) (lenN pre + lenN (join q)) (lenN pre) (lenN pre) 0 wids pids
     else ' (o, wids) <- mq_identity (S (length (pre ++ join q ++ post))) (te_h (pe_t env)) (pt_vocab t) (pre ++ join q ++ post) (lenN pre) (lenN pre + lenN (join q)) (lenN pre) (lenN pre) 0 wids ;; Ok (o, wids, pids, pt_arrays t)) = Ok (r, wids', pids', arrays') /\
     P_TriePef2.arrays_upto D remap env (pt_counts t) arrays' (lenN D) /\ lenN wids' = lenN wids /\ lenN pids' = lenN pids /\ (r = not_found \/ r = lenN q - 1 /\ mapped_upto D remap q (lenN q) wids')).
  { rewrite E1. destruct (N.eqb_spec remap 0) as [R|R]; cbn [negb].
    - destruct (mq_identity_ok D remap C (pe_t env) (pt_vocab t) T3 q pre post (lenN pre) 0 wids _ QN QW (N.le_refl _) ltac:(lia) HW FU) as (o & wids' & A1 & A2 & A3).
      rewrite A1. cbn [bind]. cbv beta iota. exists o, wids', pids, (pt_arrays t). split; [reflexivity|]. split; [exact T4|]. split; [exact A2|]. split; [reflexivity|].
      destruct A3 as [(-> & _)|(-> & _ & KK)]; [left; reflexivity|right]. split; [lia|]. intros i w Hi Hw. destruct (KK i w Hw) as [K1 K2]. split; [exact K1|].
      split; [rewrite (lid_short D remap q i w Hw (or_introl R)); exact K2|intros X; congruence].
    - destruct (pmq_sorted_any D remap C env (pt_counts t) (pt_vocab t) T3 q QD HW QW SX R q [] pre post (lenN pre) wids pids (pt_arrays t) (S (length (pre ++ join q ++ post))) eq_refl QN) as (r & wids' & pids' & arr' & A1 & A2 & A3 & A4 & A5);
        try (change (lenN (@nil (list N))) with 0); try lia; try exact FU; try exact T4.
      { intros i w Hi. lia. }
      exists r, wids', pids', arr'. auto. }
  destruct MQ as (r & wids' & pids' & arr1 & -> & AU1 & W1 & W2 & CS). cbn [bind]. cbv beta iota. destruct CS as [->|(-> & MU)].
  - rewrite N.eqb_refl. cbn [orb]. eexists _, _. split; [reflexivity|]. split; [exact W1|]. split; [exact W2|]. split; [|reflexivity]. unfold ptrie_rep, with_arrays. cbn. auto.
  - assert (NF : (lenN q - 1 =? not_found) = false) by (apply (not_found_big _ 8); lia). rewrite NF.
    destruct (N.ltb_spec (lenN D) (lenN q - 1)); [lia|]. cbn [orb].
    destruct (nthN_Some q 0 ltac:(lia)) as (w & Hw). destruct (MU 0 w ltac:(lia) Hw) as (K1 & K2 & _). rewrite (proj2 (rd_nthN _ _ _) K2). cbn [bind].
    assert (P0 : firstn (N.to_nat 1) q = [w]). { exact (firstn_S_nthN q 0 w Hw). }
    rewrite (lid_short D remap q 0 w Hw ltac:(lia)).
    assert (HN : (0 < N.to_nat (lenN q - 1))%nat).
    { destruct (N.eq_dec (lenN q) 1) as [E|E]; [|lia]. exfalso. apply QA. rewrite E. change (1 - 1) with 0. replace q with [w]; [exact K1|].
      rewrite <- P0. replace (N.to_nat 1) with (length q) by (unfold lenN in *; lia). apply firstn_all. }
    destruct (descend_miss D remap C env (pt_counts t) q QD QA QT wids' MU (N.to_nat (lenN q - 1)) 1 arr1 ltac:(lia) ltac:(lia) HN AU1) as (arr & ED & AU).
    { rewrite P0. exact K1. }
    rewrite P0 in ED. change (posn (grams D (1 - 1)) [w]) with (vid D w) in ED. rewrite ED. cbn [bind]. cbv beta iota. rewrite N.eqb_refl.
    destruct (N.eqb_spec (lenN q - 1) 0); [lia|]. cbn [negb andb].
    eexists _, _. split; [reflexivity|]. split; [exact W1|]. split; [exact W2|]. split; [|reflexivity]. unfold ptrie_rep, with_arrays. cbn. auto.
Qed.
End Absent.
