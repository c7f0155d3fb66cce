(** * Looking up n-grams in a count trie *)
From Verif Require Import Prelude BitFacts M_Word P_Word M_Bits Spec P_Bits M_CompactVector P_CompactVector M_DArray M_EF P_EF P_EF2
  M_HashVec M_Mph P_Mph P_MphTables M_FastEF P_FastEF3 M_Text P_Text P_Text2 M_SeqColl P_SeqColl M_Pool P_Pool M_Trie Spec_Trie P_Trie1 P_Trie2 P_Trie3 P_Trie4 P_Trie5.
From Coq Require Import Permutation Sorting.Sorted.

(** ** skipping the characters of a word *)
Section Skip.
Variables (env : tenv) (v : svt) (arrays : list sarr) (remap : N).
Lemma mq_identity_skip h w : ~ In 32 w -> forall pre post first last prev o wids fuel, (length w <= fuel)%nat -> lenN pre + lenN w <= last ->
  mq_identity fuel h v (pre ++ w ++ post) first last (lenN pre) prev o wids =
  mq_identity (fuel - length w) h v (pre ++ w ++ post) first last (lenN pre + lenN w) prev o wids.
Proof.
  induction w as [|c w IH]; intros NI pre post first last prev o wids fuel Hf Hl.
  - cbn [length]. rewrite Nat.sub_0_r. change (lenN (@nil N)) with 0. rewrite N.add_0_r. reflexivity.
  - cbn [length] in Hf. destruct fuel as [|fuel]; [lia|]. rewrite lenN_cons in Hl. cbn [mq_identity].
    destruct (N.eqb_spec (lenN pre) last); [lia|]. cbn [app]. rewrite rd_app_at. cbn [bind].
    destruct (N.eqb_spec c c_space) as [E|E]; [exfalso; apply NI; left; exact E|].
    replace (pre ++ c :: w ++ post) with ((pre ++ [c]) ++ w ++ post) by (rewrite <- app_assoc; reflexivity).
    replace (lenN pre + 1) with (lenN (pre ++ [c])) by (rewrite lenN_app; reflexivity).
    rewrite IH; [|intros I; apply NI; right; assumption|lia|rewrite lenN_app; change (lenN [c]) with 1; lia].
    replace (lenN (pre ++ [c]) + lenN w) with (lenN pre + lenN (c :: w)) by (rewrite lenN_app, lenN_cons; change (lenN [c]) with 1; lia). reflexivity.
Qed.
Lemma mq_inner_skip w : ~ In 32 w -> forall pre post last prev o wids pids fuel, (length w <= fuel)%nat -> lenN pre + lenN w <= last ->
  mq_inner fuel env v arrays remap (pre ++ w ++ post) last (lenN pre) prev o wids pids =
  mq_inner (fuel - length w) env v arrays remap (pre ++ w ++ post) last (lenN pre + lenN w) prev o wids pids.
Proof.
  induction w as [|c w IH]; intros NI pre post last prev o wids pids fuel Hf Hl.
  - cbn [length]. rewrite Nat.sub_0_r. change (lenN (@nil N)) with 0. rewrite N.add_0_r. reflexivity.
  - cbn [length] in Hf. destruct fuel as [|fuel]; [lia|]. rewrite lenN_cons in Hl. cbn [mq_inner].
    destruct (N.eqb_spec (lenN pre) last); [lia|]. cbn [app]. rewrite rd_app_at. cbn [bind].
    destruct (N.eqb_spec c c_space) as [E|E]; [exfalso; apply NI; left; exact E|].
    replace (pre ++ c :: w ++ post) with ((pre ++ [c]) ++ w ++ post) by (rewrite <- app_assoc; reflexivity).
    replace (lenN pre + 1) with (lenN (pre ++ [c])) by (rewrite lenN_app; reflexivity).
    rewrite IH; [|intros I; apply NI; right; assumption|lia|rewrite lenN_app; change (lenN [c]) with 1; lia].
    replace (lenN (pre ++ [c]) + lenN w) with (lenN pre + lenN (c :: w)) by (rewrite lenN_app, lenN_cons; change (lenN [c]) with 1; lia). reflexivity.
Qed.
Lemma mq_sorted_skip w : ~ In 32 w -> forall pre post first last prev o wids pids fuel, (length w <= fuel)%nat -> lenN pre + lenN w <= last ->
  mq_sorted fuel env v arrays remap (pre ++ w ++ post) first last (lenN pre) prev o wids pids =
  mq_sorted (fuel - length w) env v arrays remap (pre ++ w ++ post) first last (lenN pre + lenN w) prev o wids pids.
Proof.
  induction w as [|c w IH]; intros NI pre post first last prev o wids pids fuel Hf Hl.
  - cbn [length]. rewrite Nat.sub_0_r. change (lenN (@nil N)) with 0. rewrite N.add_0_r. reflexivity.
  - cbn [length] in Hf. destruct fuel as [|fuel]; [lia|]. rewrite lenN_cons in Hl. cbn [mq_sorted].
    destruct (N.eqb_spec (lenN pre) last); [lia|]. cbn [app]. rewrite rd_app_at. cbn [bind].
    destruct (N.eqb_spec c c_space) as [E|E]; [exfalso; apply NI; left; exact E|].
    replace (pre ++ c :: w ++ post) with ((pre ++ [c]) ++ w ++ post) by (rewrite <- app_assoc; reflexivity).
    replace (lenN pre + 1) with (lenN (pre ++ [c])) by (rewrite lenN_app; reflexivity).
    rewrite IH; [|intros I; apply NI; right; assumption|lia|rewrite lenN_app; change (lenN [c]) with 1; lia].
    replace (lenN (pre ++ [c]) + lenN w) with (lenN pre + lenN (c :: w)) by (rewrite lenN_app, lenN_cons; change (lenN [c]) with 1; lia). reflexivity.
Qed.
End Skip.

Lemma firstn_S_nthN {A} (q : list A) o w : nthN q o = Some w -> firstn (N.to_nat (o + 1)) q = firstn (N.to_nat o) q ++ [w].
Proof. apply firstn_succ. Qed.
Lemma removelast_firstn_S {A} (q : list A) o w : nthN q o = Some w -> removelast (firstn (N.to_nat (o + 1)) q) = firstn (N.to_nat o) q.
Proof. intros H. rewrite (firstn_S_nthN q o w H). apply removelast_last. Qed.
Lemma last_firstn_S {A} (q : list A) o w d : nthN q o = Some w -> last (firstn (N.to_nat (o + 1)) q) d = w.
Proof. intros H. rewrite (firstn_S_nthN q o w H). apply last_last. Qed.

Section Lookup.
Variable D : list (list (gram * N)).
Variable remap : N.
Hypothesis C : collection D remap.
Variable env : tenv.
Hypothesis EO : env_ok D remap env.
Notation G := (grams D).
Notation voc := (grams D 0).
Variable v : svt.
Hypothesis RV : voc_rep D env v.

Definition rejected (w : list N) : Prop := svt_lookup 64 (te_h env) v w = Ok not_found.
Lemma voc_not_rejected w : In [w] voc -> ~ rejected w.
Proof.
  intros H R. unfold rejected in R. rewrite (voc_lookup D env v w RV H) in R. injection R as R. pose proof (vid_lt D remap C w H) as L. rewrite R in L.
  assert (not_found = 2 ^ 64 - 1) by reflexivity. lia.
Qed.
Lemma vlook_cases buf r w : holds_text buf r w -> In [w] voc \/ rejected w ->
  (vlook (te_h env) v buf r = Ok (vid D w) /\ In [w] voc /\ (vid D w =? not_found) = false) \/ (vlook (te_h env) v buf r = Ok not_found /\ rejected w).
Proof.
  intros HT [H|H].
  - left. split; [apply (vlook_ok D env v _ _ w); assumption|]. split; [assumption|]. apply (not_found_big _ (2 ^ 31)); [apply (vid_lt D remap C); assumption|lia].
  - right. split; [|assumption]. unfold vlook. rewrite (bytes_at_ok _ _ _ HT). exact H.
Qed.

Lemma holds_word pre w post a b : a = lenN pre -> b = lenN pre + lenN w -> holds_text (pre ++ w ++ post) (a, b) w.
Proof. apply holds_mid. Qed.

(** identity mapper *)
Lemma mq_identity_ok : forall ws pre post first o wids fuel, ws <> [] -> Forall word ws -> first <= lenN pre ->
  o + lenN ws <= lenN wids -> (forall w, In w ws -> In [w] voc \/ rejected w) -> (length (join ws) <= fuel)%nat ->
  exists r wids', mq_identity fuel (te_h env) v (pre ++ join ws ++ post) first (lenN pre + lenN (join ws)) (lenN pre) (lenN pre) o wids = Ok (r, wids') /\
    lenN wids' = lenN wids /\
    ((r = not_found /\ exists w, In w ws /\ rejected w) \/
     (r = o + lenN ws - 1 /\ (forall i, i < o -> nthN wids' i = nthN wids i) /\ forall i w, nthN ws i = Some w -> In [w] voc /\ nthN wids' (o + i) = Some (vid D w))).
Proof.
  induction ws as [|w ws IH]; intros pre post first o wids fuel NE FW Hf Hlen HW Hfu; [congruence|]. inversion FW as [|? ? [Ww1 Ww2] FW']; subst.
  rewrite lenN_cons in Hlen. assert (0 < lenN w). { destruct w; [congruence|rewrite lenN_cons; lia]. }
  destruct ws as [|w2 ws].
  - cbn [join] in *. rewrite (mq_identity_skip v) by (auto; lia).
    assert (FIN : exists r wids', (id <- vlook (te_h env) v (pre ++ w ++ post) (lenN pre, lenN pre + lenN w) ;;
        if id =? not_found then Ok (not_found, wids) else wids <- wr wids o id ;; Ok (o, wids)) = Ok (r, wids') /\ lenN wids' = lenN wids /\
        ((r = not_found /\ exists w', In w' [w] /\ rejected w') \/
         (r = o + lenN [w] - 1 /\ (forall i, i < o -> nthN wids' i = nthN wids i) /\ forall i w', nthN [w] i = Some w' -> In [w'] voc /\ nthN wids' (o + i) = Some (vid D w')))).
    { destruct (vlook_cases (pre ++ w ++ post) (lenN pre, lenN pre + lenN w) w) as [(E1 & E2 & E3)|(E1 & E2)].
      - apply holds_word; reflexivity.
      - apply HW. left. reflexivity.
      - rewrite E1. cbn [bind]. rewrite E3, wr_setN by lia. cbn [bind]. eexists _, _. split; [reflexivity|]. split; [apply lenN_setN|]. right.
        split; [change (lenN [w]) with 1; lia|]. split; [intros i Hi; apply setN_other; lia|]. intros i w' Hi. pose proof (nthN_lt _ _ _ Hi) as L. change (lenN [w]) with 1 in L.
        replace i with 0 in * by lia. injection Hi as <-. rewrite N.add_0_r. split; [assumption|apply setN_same; lia].
      - rewrite E1. cbn [bind]. rewrite N.eqb_refl. eexists _, _. split; [reflexivity|]. split; [reflexivity|]. left. split; [reflexivity|]. exists w. split; [left; reflexivity|assumption]. }
    destruct (fuel - length w)%nat; cbn [mq_identity]; rewrite N.eqb_refl; exact FIN.
  - rewrite join_cons in * by discriminate. set (jr := join (w2 :: ws)) in *. rewrite app_length in Hfu. cbn [length] in Hfu.
    assert (LJ : lenN (w ++ 32 :: jr) = lenN w + 1 + lenN jr) by (rewrite lenN_app, lenN_cons; lia).
    rewrite <- app_assoc. rewrite (mq_identity_skip v) by (auto; lia).
    destruct (fuel - length w)%nat as [|f] eqn:EF; [lia|]. cbn [mq_identity].
    destruct (N.eqb_spec (lenN pre + lenN w) (lenN pre + lenN (w ++ 32 :: jr))); [lia|].
    assert (B : rd (pre ++ w ++ (32 :: jr) ++ post) (lenN pre + lenN w) = Ok 32).
    { replace (pre ++ w ++ (32 :: jr) ++ post) with ((pre ++ w) ++ 32 :: (jr ++ post)) by (rewrite <- !app_assoc; reflexivity).
      apply rd_app_at'. rewrite lenN_app. reflexivity. }
    rewrite B. cbn [bind]. unfold c_space. rewrite N.eqb_refl.
    destruct (N.eqb_spec (lenN pre + lenN w) first); [lia|].
    destruct (vlook_cases (pre ++ w ++ (32 :: jr) ++ post) (lenN pre, lenN pre + lenN w) w) as [(E1 & E2 & E3)|(E1 & E2)].
    + apply holds_word; reflexivity.
    + apply HW. left. reflexivity.
    + rewrite E1. cbn [bind]. rewrite E3, wr_setN by lia. cbn [bind].
      replace (pre ++ w ++ (32 :: jr) ++ post) with ((pre ++ w ++ [32]) ++ jr ++ post) by (rewrite <- !app_assoc; reflexivity).
      assert (LP : lenN (pre ++ w ++ [32]) = lenN pre + lenN w + 1) by (rewrite !lenN_app; change (lenN [32]) with 1; lia).
      replace (lenN pre + lenN (w ++ 32 :: jr)) with (lenN (pre ++ w ++ [32]) + lenN jr) by lia. rewrite <- LP.
      destruct (IH (pre ++ w ++ [32]) post first (o + 1) (setN wids o (vid D w)) f) as (r & wids' & A1 & A2 & A3); auto; try discriminate; try lia.
      { rewrite lenN_setN. lia. }
      { intros w' Hw'. apply HW. right. assumption. }
      exists r, wids'. split; [exact A1|]. rewrite lenN_setN in A2. split; [assumption|]. destruct A3 as [(-> & w' & K1 & K2)|(-> & K1 & K2)].
      * left. split; [reflexivity|]. exists w'. split; [right; assumption|assumption].
      * right. split; [rewrite !lenN_cons; lia|]. split; [intros i Hi; rewrite K1 by lia; apply setN_other; lia|].
        intros i w' Hi. rewrite nthN_cons in Hi. destruct (N.eqb_spec i 0) as [->|Hi0].
        -- injection Hi as <-. split; [assumption|]. rewrite N.add_0_r, K1 by lia. apply setN_same. lia.
        -- destruct (K2 _ _ Hi) as [Q1 Q2]. split; [assumption|]. rewrite <- Q2. f_equal. lia.
    + rewrite E1. cbn [bind]. rewrite N.eqb_refl. eexists _, _. split; [reflexivity|]. split; [reflexivity|]. left. split; [reflexivity|]. exists w. split; [left; reflexivity|assumption].
Qed.

(** ** the sorted-array mapper *)
Variable arrays : list sarr.
Variable seqs : list cv.
Hypothesis AU : arrays_upto D remap env seqs arrays (lenN D).
Variable q : gram.
Hypothesis QD : lenN q <= 8 /\ (lenN q <= lenN D \/ remap < lenN D).

Definition sfx (o : N) : gram := skipn (N.to_nat (o - remap)) (firstn (N.to_nat (o + 1)) q).
Definition ctx (o : N) : gram := firstn (N.to_nat remap) (skipn (N.to_nat (o - remap)) q).
(** each context of [remap] words used by the mapper has a successor *)
Definition ctx_ok : Prop := forall o, remap < o < lenN q -> (forall i w, i <= o -> nthN q i = Some w -> In [w] voc) ->
  exists g, In g (G remap) /\ removelast g = ctx o.

Lemma sfx_ctx o w : remap < o -> nthN q o = Some w -> sfx o = ctx o ++ [w].
Proof.
  intros L H. unfold sfx, ctx. rewrite (firstn_S_nthN q o w H). pose proof (nthN_lt _ _ _ H) as LQ. unfold lenN in LQ.
  rewrite skipn_snoc by (rewrite firstn_length; lia). f_equal. rewrite firstn_skipn_comm. do 2 f_equal. lia.
Qed.
Lemma map_parents_ok o w pids : ctx_ok -> remap <> 0 -> remap < o -> nthN q o = Some w -> (forall i w, i <= o -> nthN q i = Some w -> In [w] voc) ->
  (forall i u, i < o -> nthN q i = Some u -> nthN pids (i + 1) = Some (vid D u)) ->
  exists m, map_parents env arrays (vid D w) pids o remap = Ok m /\
    ((m = not_found /\ ~ In (sfx o) (G remap)) \/ (In (sfx o) (G remap) /\ m = lid D remap o (firstn (N.to_nat (o + 1)) q) /\ (m =? not_found) = false)).
Proof.
  intros CX R0 RO Hw HV HP. pose proof AU as (AL & _ & AP & APtr). pose proof (col_remap _ _ C) as R2. pose proof (col_order _ _ C) as CO.
  pose proof (nthN_lt _ _ _ Hw) as LQ. destruct (CX o ltac:(lia) HV) as (g0 & Hg0 & Eg0).
  assert (Hctx : In (ctx o) (G (remap - 1))). { rewrite <- Eg0. apply (lev_PRE D remap C remap ltac:(lia)). assumption. }
  assert (WV : In [w] voc) by (apply (HV o); [lia|assumption]).
  (* the final search *)
  assert (FIN : forall rg p, nthN (G (remap - 1)) p = Some (ctx o) -> rg = (kids D remap p, kids D remap (p + 1)) ->
    exists m, (a <- rd arrays remap ;; map_in (te_hu env remap) rg (vid D w) a) = Ok m /\
    ((m = not_found /\ ~ In (sfx o) (G remap)) \/ (In (sfx o) (G remap) /\ m = lid D remap o (firstn (N.to_nat (o + 1)) q) /\ (m =? not_found) = false))).
  { intros rg p Hp ->. destruct (nthN_Some arrays remap ltac:(lia)) as (a & Ha). rewrite (proj2 (rd_nthN _ _ _) Ha). cbn [bind]. unfold map_in.
    destruct (In_nthN _ _ Hg0) as (i0 & Hi0). pose proof Hp as Hp'. rewrite <- Eg0 in Hp'.
    pose proof (kid_range D remap C remap i0 g0 p ltac:(lia) Hi0 Hp') as KR.
    pose proof (vid_lt D remap C w WV) as VL.
    destruct (find_of D remap env arrays remap p (vid D w) a ltac:(lia) (AP remap ltac:(lia)) Ha) as (r & Er & SR); [eapply nthN_lt; eauto|lia|lia|].
    rewrite Er. cbn [bind]. pose proof (sfx_ctx o w RO Hw) as SC.
    destruct (N.eqb_spec r not_found) as [Z|Z].
    - eexists. split; [reflexivity|]. left. split; [reflexivity|]. intros I. destruct (In_nthN _ _ I) as (i & Hi).
      assert (RI : r = i); [|apply nthN_lt in Hi; pose proof (lev_size D remap C remap); assert (not_found = 2 ^ 64 - 1) by reflexivity; lia].
      apply (search_present D remap C remap i (sfx o) p r); [lia|assumption|rewrite SC, removelast_last; assumption|].
      rewrite lid_plain by (right; lia). rewrite SC, last_last. assumption.
    - destruct (search_sound D remap C remap p (vid D w) r ltac:(lia) SR Z) as (g' & G1 & G2 & G3).
      rewrite lid_plain in G3 by (right; lia). apply (vid_inj D) in G3; [|eapply last_voc; [exact C|eapply nthN_In; eauto]|assumption].
      assert (g' = sfx o). { rewrite (snoc_removelast g' []) by (eapply gram_ne; [exact C|eapply nthN_In; eauto]). rewrite G3, SC. f_equal. rewrite Hp in G2. congruence. }
      subst g'. assert (IS : In (sfx o) (G remap)) by (eapply nthN_In; eauto).
      pose proof (nthN_lt _ _ _ G1) as RL. pose proof (lev_size D remap C remap) as LS.
      pose proof (kid_range D remap C remap r (sfx o) p ltac:(lia) G1 G2) as KR2. cbn [fst]. rewrite sub64_le by lia.
      eexists. split; [reflexivity|]. right. split; [assumption|]. split.
      + rewrite lid_mapped by (auto; lia). cbn zeta. fold (sfx o). rewrite (posn_nthN _ _ _ (lev_NoDup D remap C remap) G1).
        rewrite (posn_nthN _ _ _ (lev_NoDup D remap C (remap - 1)) G2). reflexivity.
      + apply (not_found_big _ (2 ^ 31)); lia. }
  unfold map_parents. rewrite add64_small by lia. rewrite sub64_le by lia.
  destruct (nthN_Some q (o - remap) ltac:(lia)) as (x & Hx). 
  pose proof (HP (o - remap) x ltac:(lia) Hx) as PX. replace (o - remap + 1) with (o + 1 - remap) in PX by lia.
  rewrite (proj2 (rd_nthN _ _ _) PX). cbn [bind].
  destruct (nthN_Some arrays 0 ltac:(lia)) as (a0 & Ha0). rewrite (proj2 (rd_nthN _ _ _) Ha0). cbn [bind].
  assert (XV : In [x] voc) by (apply (HV (o - remap)); [lia|assumption]). pose proof (vid_In D x XV) as Vx.
  rewrite (range_of D arrays 0 (vid D x) a0 (APtr 0 ltac:(lia)) Ha0) by (eapply nthN_lt; eauto). cbn [bind].
  destruct (N.eqb_spec remap 2) as [E2|E2].
  - destruct (nthN_Some q (o - 1) ltac:(lia)) as (y & Hy). pose proof (HP (o - 1) y ltac:(lia) Hy) as PY. replace (o - 1 + 1) with o in PY by lia.
    rewrite (proj2 (rd_nthN _ _ _) PY). cbn [bind]. destruct (nthN_Some arrays 1 ltac:(lia)) as (a1 & Ha1). rewrite (proj2 (rd_nthN _ _ _) Ha1). cbn [bind].
    assert (CE : ctx o = [x; y]).
    { unfold ctx. rewrite E2. change (N.to_nat 2) with 2%nat. rewrite E2 in Hx. rewrite (skipn_nthN q (o - 2) x Hx). 
      replace (o - 1) with (o - 2 + 1) in Hy by lia. rewrite (skipn_nthN q (o - 2 + 1) y Hy). reflexivity. }
    rewrite CE in Hctx. replace (remap - 1) with 1 in Hctx by lia. pose proof (posn_In _ _ Hctx) as Hp. set (p := posn (G 1) [x; y]) in *.
    unfold sa_next. change (0 + 1) with 1.
    pose proof (find_gram D remap C env arrays 1 p [x; y] (vid D x) a1 ltac:(lia) (AP 1 ltac:(lia)) Ha1 Hp Vx) as FG.
    rewrite lid_plain in FG by (right; lia). change (last [x; y] []) with y in FG. rewrite FG. cbn [bind].
    rewrite (not_found_big p (lenN (G 1))) by (first [eapply nthN_lt; exact Hp | pose proof (lev_size D remap C 1); lia]).
    rewrite (range_of D arrays 1 p a1 (APtr 1 ltac:(lia)) Ha1) by (eapply nthN_lt; eauto). cbn [bind].
    apply (FIN _ p); [rewrite CE; replace (remap - 1) with 1 by lia; assumption|rewrite E2; reflexivity].
  - assert (E1 : remap = 1) by lia. cbn [bind].
    assert (CE : ctx o = [x]).
    { unfold ctx. rewrite E1. change (N.to_nat 1) with 1%nat. rewrite E1 in Hx. rewrite (skipn_nthN q (o - 1) x Hx). reflexivity. }
    apply (FIN _ (vid D x)); [rewrite CE, E1; exact Vx|rewrite E1; reflexivity].
Qed.

(** what a successful mapping leaves in word_ids *)
Definition mapped_upto (o : N) (wids : list N) : Prop := forall i w, i < o -> nthN q i = Some w ->
  In [w] voc /\ nthN wids i = Some (lid D remap i (firstn (N.to_nat (i + 1)) q)) /\ (remap <> 0 -> remap < i -> In (sfx i) (G remap)).
Definition map_fails : Prop := (exists w, In w q /\ rejected w) \/ (remap <> 0 /\ exists o, remap < o < lenN q /\ ~ In (sfx o) (G remap)).

Lemma mapped_snoc o wids w id : mapped_upto o wids -> nthN q o = Some w -> o < lenN wids -> In [w] voc ->
  id = lid D remap o (firstn (N.to_nat (o + 1)) q) -> (remap <> 0 -> remap < o -> In (sfx o) (G remap)) -> mapped_upto (o + 1) (setN wids o id).
Proof.
  intros M Hw L HV -> HS i u Hi Hu. destruct (N.eq_dec i o) as [->|NE].
  - rewrite Hw in Hu. injection Hu as <-. split; [assumption|]. split; [apply setN_same; assumption|assumption].
  - destruct (M i u ltac:(lia) Hu) as (M1 & M2 & M3). split; [assumption|]. split; [rewrite setN_other by lia; assumption|assumption].
Qed.
Lemma lid_short o w : nthN q o = Some w -> remap = 0 \/ o <= remap -> lid D remap o (firstn (N.to_nat (o + 1)) q) = vid D w.
Proof. intros H1 H2. rewrite lid_plain by assumption. rewrite (last_firstn_S q o w [] H1). reflexivity. Qed.
Lemma wids_voc o wids w : mapped_upto o wids -> nthN q o = Some w -> In [w] voc -> forall i u, i <= o -> nthN q i = Some u -> In [u] voc.
Proof. intros M Hw Hv i u Hi Hu. destruct (N.eq_dec i o) as [->|NE]; [congruence|]. apply (M i u); [lia|assumption]. Qed.

Definition mq_result (r : N) (wids : list N) : Prop := (r = not_found /\ map_fails) \/ (r = lenN q - 1 /\ mapped_upto (lenN q) wids).

Lemma mq_inner_ok : ctx_ok -> remap <> 0 -> (forall w, In w q -> In [w] voc \/ rejected w) -> Forall word q ->
  forall ws done pre post wids pids fuel, q = done ++ ws -> ws <> [] -> 2 <= lenN done -> lenN q <= lenN wids -> lenN q <= lenN pids ->
  mapped_upto (lenN done) wids -> (forall i u, i < lenN done -> nthN q i = Some u -> nthN pids (i + 1) = Some (vid D u)) -> (length (join ws) <= fuel)%nat ->
  exists r wids' pids', mq_inner fuel env v arrays remap (pre ++ join ws ++ post) (lenN pre + lenN (join ws)) (lenN pre) (lenN pre) (lenN done) wids pids = Ok (r, wids', pids') /\
    lenN wids' = lenN wids /\ lenN pids' = lenN pids /\ mq_result r wids'.
Proof.
  intros CX R0 HW FW. pose proof (col_remap _ _ C) as R2. induction ws as [|w ws IH]; intros done pre post wids pids fuel Eq NE LD LW LP MU PU Hfu; [congruence|].
  set (o := lenN done) in *.
  assert (Hw : nthN q o = Some w) by (rewrite Eq; unfold o; rewrite nthN_app2 by lia; rewrite N.sub_diag; reflexivity).
  assert (LQ : lenN q = o + 1 + lenN ws) by (rewrite Eq, lenN_app, lenN_cons; unfold o; lia).
  assert (Iw : In w q) by (eapply nthN_In; eauto). pose proof (Forall_nthN _ _ _ _ FW Hw) as Ww. destruct Ww as [Ww1 Ww2].
  (* the mapped id *)
  assert (MAP : In [w] voc -> exists m, (if (o =? 2) && (remap =? 2) then Ok (vid D w) else map_parents env arrays (vid D w) pids o remap) = Ok m /\
      ((m =? not_found) = true /\ map_fails \/ ((m =? not_found) = false /\ mapped_upto (o + 1) (setN wids o m)))).
  { intros WV. destruct ((o =? 2) && (remap =? 2)) eqn:E.
    - apply andb_true_iff in E. destruct E as [E1 E2]. apply N.eqb_eq in E1, E2. exists (vid D w). split; [reflexivity|]. right.
      split; [apply (not_found_big _ (2 ^ 31)); [apply (vid_lt D remap C); assumption|lia]|]. apply (mapped_snoc o wids w); auto; [lia|symmetry; apply lid_short; [assumption|right; lia]|intros; lia].
    - assert (RO : remap < o). { apply andb_false_iff in E. destruct E as [E|E]; apply N.eqb_neq in E; lia. }
      destruct (map_parents_ok o w pids CX R0 RO Hw (wids_voc o wids w MU Hw WV) PU) as (m & Em & [[-> NI]|(IS & -> & NF)]).
      + exists not_found. split; [assumption|]. left. split; [apply N.eqb_refl|]. right. split; [assumption|]. exists o. split; [lia|assumption].
      + eexists. split; [exact Em|]. right. split; [assumption|]. apply (mapped_snoc o wids w); auto. lia. }
  destruct ws as [|w2 ws].
  - cbn [join] in *. rewrite mq_inner_skip by (auto; lia).
    assert (FIN : exists r wids' pids', (id <- vlook (te_h env) v (pre ++ w ++ post) (lenN pre, lenN pre + lenN w) ;;
        if id =? not_found then Ok (not_found, wids, pids) else
        mapped <- (if negb (o =? 2) || negb (remap =? 2) then map_parents env arrays id pids o remap else Ok id) ;;
        if mapped =? not_found then Ok (not_found, wids, pids) else wids <- wr wids o mapped ;; Ok (o, wids, pids)) = Ok (r, wids', pids') /\
        lenN wids' = lenN wids /\ lenN pids' = lenN pids /\ mq_result r wids').
    { destruct (vlook_cases (pre ++ w ++ post) (lenN pre, lenN pre + lenN w) w (holds_word _ _ _ _ _ eq_refl eq_refl) (HW w Iw)) as [(E1 & E2 & E3)|(E1 & E2)]; rewrite E1; cbn [bind].
      - rewrite E3. destruct (MAP E2) as (m & Em & Cm). 
        replace (if negb (o =? 2) || negb (remap =? 2) then map_parents env arrays (vid D w) pids o remap else Ok (vid D w)) with (Ok m) by (rewrite <- Em; destruct (o =? 2), (remap =? 2); reflexivity).
        cbn [bind]. destruct Cm as [[Z MF]|[Z MM]]; rewrite Z.
        + exists not_found, wids, pids. repeat split; auto. left. auto.
        + rewrite wr_setN by lia. cbn [bind]. exists o, (setN wids o m), pids. split; [reflexivity|]. split; [apply lenN_setN|]. split; [reflexivity|]. right.
          change (lenN (@nil (list N))) with 0 in LQ. split; [lia|]. rewrite LQ, N.add_0_r. assumption.
      - rewrite N.eqb_refl. exists not_found, wids, pids. repeat split; auto. left. split; [reflexivity|]. left. exists w. auto. }
    destruct (fuel - length w)%nat; cbn [mq_inner]; rewrite N.eqb_refl; exact FIN.
  - rewrite join_cons in * by discriminate. set (jr := join (w2 :: ws)) in *. rewrite app_length in Hfu. cbn [length] in Hfu.
    assert (LJ : lenN (w ++ 32 :: jr) = lenN w + 1 + lenN jr) by (rewrite lenN_app, lenN_cons; lia).
    rewrite <- app_assoc. rewrite mq_inner_skip by (auto; lia).
    destruct (fuel - length w)%nat as [|f] eqn:EF; [lia|]. cbn [mq_inner].
    destruct (N.eqb_spec (lenN pre + lenN w) (lenN pre + lenN (w ++ 32 :: jr))); [lia|].
    assert (B : rd (pre ++ w ++ (32 :: jr) ++ post) (lenN pre + lenN w) = Ok 32).
    { replace (pre ++ w ++ (32 :: jr) ++ post) with ((pre ++ w) ++ 32 :: (jr ++ post)) by (rewrite <- !app_assoc; reflexivity).
      apply rd_app_at'. rewrite lenN_app. reflexivity. }
    rewrite B. cbn [bind]. unfold c_space. rewrite N.eqb_refl.
    destruct (vlook_cases (pre ++ w ++ (32 :: jr) ++ post) (lenN pre, lenN pre + lenN w) w (holds_word _ _ _ _ _ eq_refl eq_refl) (HW w Iw)) as [(E1 & E2 & E3)|(E1 & E2)]; rewrite E1; cbn [bind].
    + rewrite E3. destruct (MAP E2) as (m & Em & Cm). rewrite Em. cbn [bind]. destruct Cm as [[Z MF]|[Z MM]]; rewrite Z.
      * exists not_found, wids, pids. repeat split; auto. left. auto.
      * rewrite wr_setN by lia. cbn [bind]. rewrite wr_setN by (rewrite lenN_cons in LQ; lia). cbn [bind].
        replace (pre ++ w ++ (32 :: jr) ++ post) with ((pre ++ w ++ [32]) ++ jr ++ post) by (rewrite <- !app_assoc; reflexivity).
        assert (LPR : lenN (pre ++ w ++ [32]) = lenN pre + lenN w + 1) by (rewrite !lenN_app; change (lenN [32]) with 1; lia).
        replace (lenN pre + lenN (w ++ 32 :: jr)) with (lenN (pre ++ w ++ [32]) + lenN jr) by lia. rewrite <- LPR.
        assert (LD1 : lenN (done ++ [w]) = o + 1) by (rewrite lenN_app; reflexivity).
        edestruct (IH (done ++ [w]) (pre ++ w ++ [32]) post (setN wids o m) (setN pids (o + 1) (vid D w)) f) as (r & wids' & pids' & A1 & A2 & A3 & A4).
        -- rewrite <- app_assoc. exact Eq.
        -- discriminate.
        -- lia.
        -- rewrite lenN_setN. assumption.
        -- rewrite lenN_setN. assumption.
        -- rewrite LD1. assumption.
        -- rewrite LD1. intros i u Hi Hu. destruct (N.eq_dec i o) as [->|NEi].
           ++ rewrite Hw in Hu. injection Hu as <-. apply setN_same. rewrite lenN_cons in LQ. lia.
           ++ rewrite setN_other by (rewrite lenN_cons in LQ; lia). apply PU; [lia|assumption].
        -- unfold jr in *. lia.
        -- rewrite LD1 in A1. exists r, wids', pids'. rewrite lenN_setN in A2, A3. auto.
    + rewrite N.eqb_refl. exists not_found, wids, pids. repeat split; auto. left. split; [reflexivity|]. left. exists w. auto.
Qed.

Lemma mq_sorted_ok : ctx_ok -> remap <> 0 -> (forall w, In w q -> In [w] voc \/ rejected w) -> Forall word q ->
  forall ws done pre post first wids pids fuel, q = done ++ ws -> ws <> [] -> lenN done < 2 -> lenN q <= lenN wids -> lenN q <= lenN pids -> first <= lenN pre ->
  mapped_upto (lenN done) wids -> (forall i u, i < lenN done -> nthN q i = Some u -> nthN pids (i + 1) = Some (vid D u)) -> (length (join ws) <= fuel)%nat ->
  exists r wids' pids', mq_sorted fuel env v arrays remap (pre ++ join ws ++ post) first (lenN pre + lenN (join ws)) (lenN pre) (lenN pre) (lenN done) wids pids = Ok (r, wids', pids') /\
    lenN wids' = lenN wids /\ lenN pids' = lenN pids /\ mq_result r wids'.
Proof.
  intros CX R0 HW FW. pose proof (col_remap _ _ C) as R2. induction ws as [|w ws IH]; intros done pre post first wids pids fuel Eq NE LD LW LP LF MU PU Hfu; [congruence|].
  set (o := lenN done) in *.
  assert (Hw : nthN q o = Some w) by (rewrite Eq; unfold o; rewrite nthN_app2 by lia; rewrite N.sub_diag; reflexivity).
  assert (LQ : lenN q = o + 1 + lenN ws) by (rewrite Eq, lenN_app, lenN_cons; unfold o; lia).
  assert (Iw : In w q) by (eapply nthN_In; eauto). pose proof (Forall_nthN _ _ _ _ FW Hw) as Ww. destruct Ww as [Ww1 Ww2].
  assert (0 < lenN w). { destruct w; [congruence|rewrite lenN_cons; lia]. }
  assert (MM : In [w] voc -> mapped_upto (o + 1) (setN wids o (vid D w))).
  { intros WV. apply (mapped_snoc o wids w); auto; [lia|symmetry; apply lid_short; [assumption|right; lia]|intros; lia]. }
  destruct ws as [|w2 ws].
  - cbn [join] in *. rewrite mq_sorted_skip by (auto; lia).
    assert (FIN : exists r wids' pids', (id <- vlook (te_h env) v (pre ++ w ++ post) (lenN pre, lenN pre + lenN w) ;;
        if id =? not_found then Ok (not_found, wids, pids) else wids <- wr wids o id ;; Ok (o, wids, pids)) = Ok (r, wids', pids') /\
        lenN wids' = lenN wids /\ lenN pids' = lenN pids /\ mq_result r wids').
    { destruct (vlook_cases (pre ++ w ++ post) (lenN pre, lenN pre + lenN w) w (holds_word _ _ _ _ _ eq_refl eq_refl) (HW w Iw)) as [(E1 & E2 & E3)|(E1 & E2)]; rewrite E1; cbn [bind].
      - rewrite E3, wr_setN by lia. cbn [bind]. exists o, (setN wids o (vid D w)), pids. split; [reflexivity|]. split; [apply lenN_setN|]. split; [reflexivity|]. right.
        change (lenN (@nil (list N))) with 0 in LQ. split; [lia|]. rewrite LQ, N.add_0_r. auto.
      - rewrite N.eqb_refl. exists not_found, wids, pids. repeat split; auto. left. split; [reflexivity|]. left. exists w. auto. }
    destruct (fuel - length w)%nat; cbn [mq_sorted]; rewrite N.eqb_refl; exact FIN.
  - rewrite join_cons in * by discriminate. set (jr := join (w2 :: ws)) in *. rewrite app_length in Hfu. cbn [length] in Hfu.
    assert (LJ : lenN (w ++ 32 :: jr) = lenN w + 1 + lenN jr) by (rewrite lenN_app, lenN_cons; lia).
    rewrite <- app_assoc. rewrite mq_sorted_skip by (auto; lia).
    destruct (fuel - length w)%nat as [|f] eqn:EF; [lia|]. cbn [mq_sorted].
    destruct (N.eqb_spec (lenN pre + lenN w) (lenN pre + lenN (w ++ 32 :: jr))); [lia|].
    assert (B : rd (pre ++ w ++ (32 :: jr) ++ post) (lenN pre + lenN w) = Ok 32).
    { replace (pre ++ w ++ (32 :: jr) ++ post) with ((pre ++ w) ++ 32 :: (jr ++ post)) by (rewrite <- !app_assoc; reflexivity).
      apply rd_app_at'. rewrite lenN_app. reflexivity. }
    rewrite B. cbn [bind]. unfold c_space. rewrite N.eqb_refl.
    destruct (N.eqb_spec (lenN pre + lenN w) first); [lia|].
    destruct (vlook_cases (pre ++ w ++ (32 :: jr) ++ post) (lenN pre, lenN pre + lenN w) w (holds_word _ _ _ _ _ eq_refl eq_refl) (HW w Iw)) as [(E1 & E2 & E3)|(E1 & E2)]; rewrite E1; cbn [bind].
    + rewrite E3, wr_setN by lia. cbn [bind]. rewrite wr_setN by (rewrite lenN_cons in LQ; lia). cbn [bind].
      replace (pre ++ w ++ (32 :: jr) ++ post) with ((pre ++ w ++ [32]) ++ jr ++ post) by (rewrite <- !app_assoc; reflexivity).
      assert (LPR : lenN (pre ++ w ++ [32]) = lenN pre + lenN w + 1) by (rewrite !lenN_app; change (lenN [32]) with 1; lia).
      replace (lenN pre + lenN (w ++ 32 :: jr)) with (lenN (pre ++ w ++ [32]) + lenN jr) by lia. rewrite <- LPR.
      assert (LD1 : lenN (done ++ [w]) = o + 1) by (rewrite lenN_app; reflexivity).
      assert (PU' : forall i u, i < o + 1 -> nthN q i = Some u -> nthN (setN pids (o + 1) (vid D w)) (i + 1) = Some (vid D u)).
      { intros i u Hi Hu. destruct (N.eq_dec i o) as [->|NEi].
        - rewrite Hw in Hu. injection Hu as <-. apply setN_same. rewrite lenN_cons in LQ. lia.
        - rewrite setN_other by (rewrite lenN_cons in LQ; lia). apply PU; [lia|assumption]. }
      destruct (N.eqb_spec (o + 1) 2) as [O2|O2].
      * edestruct (mq_inner_ok CX R0 HW FW (w2 :: ws) (done ++ [w]) (pre ++ w ++ [32]) post (setN wids o (vid D w)) (setN pids (o + 1) (vid D w)) f) as (r & wids' & pids' & A1 & A2 & A3 & A4).
        -- rewrite <- app_assoc. exact Eq.
        -- discriminate.
        -- lia.
        -- rewrite lenN_setN. assumption.
        -- rewrite lenN_setN. assumption.
        -- rewrite LD1. auto.
        -- rewrite LD1. assumption.
        -- fold jr. lia.
        -- fold jr in A1. rewrite LD1 in A1. exists r, wids', pids'. rewrite lenN_setN in A2, A3. auto.
      * edestruct (IH (done ++ [w]) (pre ++ w ++ [32]) post first (setN wids o (vid D w)) (setN pids (o + 1) (vid D w)) f) as (r & wids' & pids' & A1 & A2 & A3 & A4).
        -- rewrite <- app_assoc. exact Eq.
        -- discriminate.
        -- lia.
        -- rewrite lenN_setN. assumption.
        -- rewrite lenN_setN. assumption.
        -- lia.
        -- rewrite LD1. auto.
        -- rewrite LD1. assumption.
        -- lia.
        -- rewrite LD1 in A1. exists r, wids', pids'. rewrite lenN_setN in A2, A3. auto.
    + rewrite N.eqb_refl. exists not_found, wids, pids. repeat split; auto. left. split; [reflexivity|]. left. exists w. auto.
Qed.
End Lookup.
