(** * Proofs about fast_ef_sequence: binary search, sampling tree, construction *)
From Verif Require Import Prelude BitFacts M_Word P_Word M_Bits Spec P_Bits P_Builder P_Cursor P_BitProg
  M_CompactVector P_CompactVector M_DArray P_DArray M_EF P_EF M_HashVec M_Mph P_Mph P_MphTables M_FastEF P_FastEF.
From Coq Require Import Permutation.

Lemma found_left vs lo mid hi id r v : sortedN vs -> lo <= mid < hi -> nthN vs mid = Some v -> id < v ->
  found vs lo mid id r -> found vs lo hi id r.
Proof.
  intros HS Hm Hv Hid [[F1 F2]|[F1 F2]]; [left; split; [lia|assumption]|right]. split; [assumption|]. intros p Hp Hx.
  destruct (N.lt_ge_cases p mid); [exact (F2 p ltac:(lia) Hx)|].
  assert (v <= id) by (apply (sortedN_le vs HS mid p); auto). lia.
Qed.
Lemma found_right vs lo mid hi id r v : sortedN vs -> lo <= mid < hi -> nthN vs mid = Some v -> v < id ->
  found vs (mid + 1) hi id r -> found vs lo hi id r.
Proof.
  intros HS Hm Hv Hid [[F1 F2]|[F1 F2]]; [left; split; [lia|assumption]|right]. split; [assumption|]. intros p Hp Hx.
  destruct (N.lt_ge_cases mid p); [exact (F2 p ltac:(lia) Hx)|].
  assert (id <= v) by (apply (sortedN_le vs HS p mid); auto; lia). lia.
Qed.
Lemma pv_succ vs mid v : nthN vs mid = Some v -> pv vs (mid + 1) = v.
Proof. intros H. unfold pv. destruct (N.eqb_spec (mid + 1) 0); [lia|]. replace (mid + 1 - 1) with mid by lia. rewrite H. reflexivity. Qed.

Theorem bsearch_scan_ok c vs id : efc_rep c vs -> sortedN vs -> id < 2 ^ 64 -> forall fuel lo hi,
  lo < hi -> hi <= lenN vs -> (N.to_nat (hi - lo) < fuel)%nat ->
  exists r, bsearch_scan fuel c lo hi id (pv vs lo) = Ok r /\ found vs lo hi id r.
Proof.
  intros R HS Hid. pose proof R as (VH & NH & Hl & Hn & _).
  induction fuel as [|fuel IH]; intros lo hi Hlo Hhi Hf; [lia|]. cbn [bsearch_scan].
  rewrite sub64_small by lia. unfold linear_scan_threshold. destruct (N.ltb_spec 64 (hi - lo)) as [L|L].
  - rewrite add64_small by lia. rewrite shr_div. change (2 ^ 1) with 2. set (mid := (lo + hi) / 2).
    assert (HM : lo + 32 <= mid /\ mid + 32 < hi) by (unfold mid; dlia). clearbody mid.
    destruct (nthN_Some vs mid ltac:(lia)) as (v & Hv). rewrite (efc_get_ok c vs mid v R Hv). cbn [bind].
    destruct (N.eqb_spec id v) as [->|NE].
    + exists mid. split; [reflexivity|]. left. split; [lia|assumption].
    + destruct (N.ltb_spec id v).
      * destruct (IH lo mid ltac:(lia) ltac:(lia) ltac:(lia)) as (r & E & F). exists r. split; [exact E|].
        eapply found_left; eauto. lia.
      * rewrite add64_small by lia. destruct (IH (mid + 1) hi ltac:(lia) ltac:(lia) ltac:(lia)) as (r & E & F).
        rewrite (pv_succ vs mid v Hv) in E. exists r. split; [exact E|]. eapply found_right; eauto; lia.
  - apply fef_scan_ok; assumption.
Qed.

(** ** the sampling tree *)
(** the interval of the node with BFS number i below the root [lo, hi) *)
Fixpoint node (lo hi : N) (i : positive) : N * N :=
  match i with
  | xH => (lo, hi)
  | xO j => let '(l, h) := node lo hi j in (l, (l + h) / 2)
  | xI j => let '(l, h) := node lo hi j in ((l + h) / 2 + 1, h)
  end.
Definition midpt (r : N * N) : N := (fst r + snd r) / 2.

Lemma node_bounds lo hi : lo <= hi -> forall i, lo <= fst (node lo hi i) /\ snd (node lo hi i) <= hi /\ fst (node lo hi i) <= snd (node lo hi i) + 1.
Proof.
  intros H. induction i as [i IH|i IH|]; cbn [node]; destruct (node lo hi i) as [l h] || idtac; cbn [fst snd] in *; try dlia.
Qed.
Lemma node_size lo hi : lo <= hi -> forall i, 2 ^ N.log2 (Npos i) * 1 <= hi - lo + 1 ->
  (hi - lo + 1) / 2 ^ N.log2 (Npos i) <= snd (node lo hi i) + 1 - fst (node lo hi i).
Proof.
  intros H. induction i as [i IH|i IH|].
  - intros Hs. pose proof (node_bounds lo hi H i) as B. cbn [node]. destruct (node lo hi i) as [l h]. cbn [fst snd] in *.
    assert (LG : N.log2 (N.pos i~1) = N.log2 (N.pos i) + 1).
    { change (N.pos i~1) with (2 * N.pos i + 1). rewrite N.log2_succ_double; lia. }
    rewrite LG in *. rewrite N.pow_add_r in *. change (2 ^ 1) with 2 in *. specialize (IH ltac:(lia)).
    rewrite <- N.div_div by (try apply N.pow_nonzero; lia). set (a := (hi - lo + 1) / 2 ^ N.log2 (N.pos i)) in *.
    assert (1 <= a). { apply N.div_le_lower_bound; [apply N.pow_nonzero; lia|]. lia. }
    clearbody a. clear - B IH H0. dlia.
  - intros Hs. pose proof (node_bounds lo hi H i) as B. cbn [node]. destruct (node lo hi i) as [l h]. cbn [fst snd] in *.
    assert (LG : N.log2 (N.pos i~0) = N.log2 (N.pos i) + 1).
    { change (N.pos i~0) with (2 * N.pos i). rewrite N.log2_double; lia. }
    rewrite LG in *. rewrite N.pow_add_r in *. change (2 ^ 1) with 2 in *. specialize (IH ltac:(lia)).
    rewrite <- N.div_div by (try apply N.pow_nonzero; lia). set (a := (hi - lo + 1) / 2 ^ N.log2 (N.pos i)) in *.
    assert (1 <= a). { apply N.div_le_lower_bound; [apply N.pow_nonzero; lia|]. lia. }
    clearbody a. clear - B IH H0. dlia.
  - intros _. cbn [node fst snd]. change (N.log2 1) with 0. rewrite N.pow_0_r, N.div_1_r. lia.
Qed.

Definition height (run : N) : N := ceil_log2 run - 7.
Lemma height_ok run : 128 <= run -> run < 2 ^ 63 -> sub64 (ceil_log2 run) log2_sampling_threshold = height run /\
  2 ^ (6 + height run) < run /\ height run < 57.
Proof.
  intros H1 H2. unfold height, log2_sampling_threshold.
  assert (A : ceil_log2 run <= 63) by (apply ceil_log2_spec; lia).
  assert (B : ~ ceil_log2 run <= 6) by (rewrite ceil_log2_spec; change (2 ^ 6) with 64; lia).
  rewrite sub64_small by lia. split; [reflexivity|]. split; [|lia].
  replace (6 + (ceil_log2 run - 7)) with (ceil_log2 run - 1) by lia.
  destruct (N.lt_ge_cases (2 ^ (ceil_log2 run - 1)) run) as [L|L]; [assumption|].
  apply ceil_log2_spec in L. lia.
Qed.
(** every node of the tree and of its frontier is large enough *)
Lemma node_big lo hi i : 128 <= hi - lo -> hi < 2 ^ 63 -> Npos i < 2 ^ (height (hi - lo) + 1) ->
  let r := node lo hi i in fst r + 63 <= snd r /\ lo <= fst r /\ snd r <= hi /\
  (Npos i < 2 ^ height (hi - lo) -> fst r + 126 <= snd r).
Proof.
  intros H1 H2 H3 r. destruct (height_ok (hi - lo) H1 ltac:(lia)) as (_ & A & B). set (H := height (hi - lo)) in *. clearbody H.
  pose proof (node_bounds lo hi ltac:(lia) i) as (B1 & B2 & B3). fold r in B1, B2, B3.
  assert (L : N.log2 (Npos i) <= H) by (apply N.log2_lt_pow2 in H3; lia).
  assert (P : 2 ^ N.log2 (N.pos i) <= 2 ^ H) by (apply N.pow_le_mono_r; lia).
  assert (Q : 2 ^ (6 + H) = 64 * 2 ^ H) by (rewrite N.pow_add_r; reflexivity).
  assert (Z : 2 ^ N.log2 (N.pos i) <> 0) by (apply N.pow_nonzero; lia).
  pose proof (node_size lo hi ltac:(lia) i) as S. fold r in S.
  assert (S' : (hi - lo + 1) / 2 ^ N.log2 (N.pos i) <= snd r + 1 - fst r) by (apply S; nia).
  assert (G : 64 <= (hi - lo + 1) / 2 ^ N.log2 (N.pos i)) by (apply N.div_le_lower_bound; [assumption|nia]).
  split; [lia|]. split; [assumption|]. split; [assumption|]. intros H4.
  assert (L4 : N.log2 (Npos i) + 1 <= H) by (apply N.log2_lt_pow2 in H4; lia).
  assert (P4 : 2 ^ (N.log2 (N.pos i) + 1) <= 2 ^ H) by (apply N.pow_le_mono_r; lia). rewrite N.pow_add_r in P4. change (2 ^ 1) with 2 in P4.
  assert (G4 : 128 <= (hi - lo + 1) / 2 ^ N.log2 (N.pos i)) by (apply N.div_le_lower_bound; [assumption|nia]).
  lia.
Qed.

(** samp[base ..] holds the previous upper bound and the tree of [lo, hi) *)
Definition tree_at (vs samp : list N) (base lo hi : N) : Prop :=
  nthN samp base = Some (pv vs lo) /\
  forall i, Npos i < 2 ^ height (hi - lo) -> nthN samp (base + Npos i) = nthN vs (midpt (node lo hi i)).

Lemma samp_descend_ok vs samp base lo hi id : sortedN vs -> 128 <= hi - lo -> hi <= lenN vs -> hi < 2 ^ 63 -> base + 2 ^ 57 < 2 ^ 64 ->
  tree_at vs samp base lo hi ->
  forall k i, N.log2 (Npos i) + N.of_nat k = height (hi - lo) ->
  let '(l, h) := node lo hi i in
  (exists p, samp_descend k samp base (Npos i) l h id (pv vs l) = Ok (inl p) /\ l <= p < h /\ nthN vs p = Some id) \/
  (exists l' h', samp_descend k samp base (Npos i) l h id (pv vs l) = Ok (inr (l', h', pv vs l')) /\
     l <= l' /\ l' < h' /\ h' <= h /\ forall r, found vs l' h' id r -> found vs l h id r).
Proof.
  intros HS H1 H2 H3 HB (T1 & T2). destruct (height_ok (hi - lo) H1 ltac:(lia)) as (_ & HA & HH).
  induction k as [|k IH]; intros i Hk.
  - pose proof (node_big lo hi i H1 H3) as G. destruct (node lo hi i) as [l h]. cbn [fst snd] in G.
    destruct G as (G1 & G2 & G3 & _). { apply N.log2_lt_pow2; lia. }
    right. exists l, h. split; [reflexivity|]. split; [lia|]. split; [lia|]. split; [lia|]. auto.
  - pose proof (node_big lo hi i H1 H3) as G. pose proof (T2 i) as TI. pose proof (IH (xO i)) as IH0. pose proof (IH (xI i)) as IH1. clear IH.
    cbn [node] in IH0, IH1. destruct (node lo hi i) as [l h]. cbn [fst snd] in *.
    assert (PI : N.pos i < 2 ^ height (hi - lo)) by (apply N.log2_lt_pow2; lia).
    assert (PI57 : N.pos i < 2 ^ 57) by (eapply N.lt_le_trans; [exact PI|apply N.pow_le_mono_r; lia]).
    destruct G as (G1 & G2 & G3 & G4). { rewrite N.add_1_r, N.pow_succ_r'. lia. } specialize (G4 PI). specialize (TI PI). unfold midpt in TI. cbn [fst snd] in TI.
    cbn [samp_descend]. rewrite add64_small by lia.
    assert (SM : shr (add64 l h) 1 = (l + h) / 2) by (rewrite add64_small by lia; apply shr_div). rewrite SM.
    set (mid := (l + h) / 2) in *. assert (HM : l + 32 <= mid /\ mid + 32 < h) by (unfold mid; dlia). clearbody mid.
    destruct (nthN_Some vs mid ltac:(lia)) as (v & Hv). rewrite Hv in TI. rewrite (proj2 (rd_nthN _ _ _) TI). cbn [bind].
    assert (S0 : shl (N.pos i) 1 = N.pos i~0).
    { unfold shl. rewrite N.shiftl_mul_pow2, w64_small by (change (2 ^ 1) with 2; lia). change (2 ^ 1) with 2. lia. }
    rewrite S0. assert (S1 : add64 (N.pos i~0) 1 = N.pos i~1) by (rewrite add64_small by lia; lia). rewrite S1.
    destruct (N.eqb_spec id v) as [->|NE].
    + left. exists mid. split; [reflexivity|]. split; [lia|assumption].
    + destruct (N.ltb_spec id v).
      * destruct IH0 as [(p & E & P1 & P2)|(l' & h' & E & P1 & P2 & P3 & P4)].
        { change (N.pos i~0) with (2 * N.pos i). rewrite N.log2_double by lia. lia. }
        -- left. exists p. split; [exact E|]. split; [lia|assumption].
        -- right. exists l', h'. split; [exact E|]. split; [lia|]. split; [lia|]. split; [lia|]. intros r F. apply P4 in F.
           eapply found_left; eauto; lia.
      * rewrite add64_small by lia. rewrite (pv_succ vs mid v Hv) in IH1.
        destruct IH1 as [(p & E & P1 & P2)|(l' & h' & E & P1 & P2 & P3 & P4)].
        { change (N.pos i~1) with (2 * N.pos i + 1). rewrite N.log2_succ_double by lia. lia. }
        -- left. exists p. split; [exact E|]. split; [lia|assumption].
        -- right. exists l', h'. split; [exact E|]. split; [lia|]. split; [lia|]. split; [lia|]. intros r F. apply P4 in F.
           eapply found_right; eauto; lia.
Qed.

(** ** construction of the sampling trees *)
Definition posN (k : N) : positive := match k with 0 => xH | Npos p => p end.
Lemma posN_succ m : N.pos (posN (m + 1)) = m + 1.
Proof. destruct m; reflexivity. Qed.
Lemma seqN_snoc n : forall s, seqN s (S n) = seqN s n ++ [s + N.of_nat n].
Proof.
  induction n as [|n IH]; intros s; [cbn; f_equal; lia|]. change (seqN s (S (S n))) with (s :: seqN (N.succ s) (S n)).
  rewrite IH. cbn [seqN app]. f_equal. f_equal. f_equal. lia.
Qed.
(** after m nodes: queue, m_low, samplings *)
Definition qinv (vs samp0 : list N) (lo hi m : N) (s : list (N * N) * N * list N) : Prop :=
  let '(q, low, samp) := s in
  low = m /\ lenN q = 2 * m + 1 /\ (forall k, k < 2 * m + 1 -> nthN q k = Some (node lo hi (posN (k + 1)))) /\
  lenN samp = lenN samp0 + m /\ (forall k, k < lenN samp0 -> nthN samp k = nthN samp0 k) /\
  (forall k, k < m -> nthN samp (lenN samp0 + k) = nthN vs (midpt (node lo hi (posN (k + 1))))).

Lemma fill_node_ok vs samp0 lo hi m s i : 128 <= hi - lo -> hi <= lenN vs -> hi < 2 ^ 63 ->
  m + 1 < 2 ^ height (hi - lo) -> qinv vs samp0 lo hi m s ->
  exists s', fill_node vs s i = Ok s' /\ qinv vs samp0 lo hi (m + 1) s'.
Proof.
  intros H1 H2 H3 Hm Q. destruct s as [[q low] samp]. destruct Q as (-> & Q1 & Q2 & Q3 & Q4 & Q5). unfold fill_node.
  rewrite (proj2 (rd_nthN _ _ _) (Q2 m ltac:(lia))). cbn [bind].
  destruct (node_big lo hi (posN (m + 1)) H1 H3) as (G1 & G2 & G3 & G4).
  { rewrite posN_succ. rewrite (N.add_1_r (height _)), N.pow_succ_r'. lia. }
  assert (Q5' : nthN vs (midpt (node lo hi (posN (m + 1)))) <> None /\
     nthN (q ++ [(fst (node lo hi (posN (m + 1))), midpt (node lo hi (posN (m + 1)))); (midpt (node lo hi (posN (m + 1))) + 1, snd (node lo hi (posN (m + 1))))]) 
       (2 * m + 1) = Some (node lo hi (posN (2 * m + 1 + 1))) /\
     nthN (q ++ [(fst (node lo hi (posN (m + 1))), midpt (node lo hi (posN (m + 1)))); (midpt (node lo hi (posN (m + 1))) + 1, snd (node lo hi (posN (m + 1))))]) 
       (2 * m + 2) = Some (node lo hi (posN (2 * m + 2 + 1)))).
  { assert (PX : posN (2 * m + 1 + 1) = xO (posN (m + 1))).
    { enough (N.pos (posN (2 * m + 1 + 1)) = N.pos (xO (posN (m + 1)))) by congruence. rewrite posN_succ.
      change (N.pos (xO (posN (m + 1)))) with (2 * N.pos (posN (m + 1))). rewrite posN_succ. lia. }
    assert (PY : posN (2 * m + 2 + 1) = xI (posN (m + 1))).
    { enough (N.pos (posN (2 * m + 2 + 1)) = N.pos (xI (posN (m + 1)))) by congruence. rewrite posN_succ.
      change (N.pos (xI (posN (m + 1)))) with (2 * N.pos (posN (m + 1)) + 1). rewrite posN_succ. lia. }
    rewrite PX, PY. cbn [node]. unfold midpt. destruct (node lo hi (posN (m + 1))) as [l h] eqn:EN. cbn [fst snd] in *.
    split; [|split].
    - destruct (nthN_Some vs ((l + h) / 2)) as (x & Hx); [dlia|]. rewrite Hx. discriminate.
    - rewrite nthN_app2 by lia. rewrite Q1, N.sub_diag. reflexivity.
    - rewrite nthN_app2 by lia. replace (2 * m + 2 - lenN q) with 1 by lia. reflexivity. }
  destruct Q5' as (V & QX & QY). destruct (node lo hi (posN (m + 1))) as [l h] eqn:EN. cbn [fst snd] in *.
  assert (SM : shr (add64 l h) 1 = (l + h) / 2) by (rewrite add64_small by lia; apply shr_div). rewrite SM.
  unfold midpt in V, QX, QY. cbn [fst snd] in *. set (mid := (l + h) / 2) in *. assert (HM : l <= mid < h) by (unfold mid; dlia).
  destruct (nthN vs mid) as [x|] eqn:Hx; [|congruence]. rewrite (proj2 (rd_nthN _ _ _) Hx). cbn [bind]. rewrite add64_small by lia.
  eexists. split; [reflexivity|]. unfold qinv. split; [reflexivity|]. split; [rewrite lenN_app; change (lenN [_; _]) with 2; lia|].
  split; [|split; [|split]].
  - intros k Hk. destruct (N.lt_ge_cases k (2 * m + 1)) as [L|L]; [rewrite nthN_app1 by lia; apply Q2; assumption|].
    destruct (N.eq_dec k (2 * m + 1)) as [->|]; [exact QX|]. replace k with (2 * m + 2) by lia. exact QY.
  - rewrite lenN_app. change (lenN [x]) with 1. lia.
  - intros k Hk. rewrite nthN_app1 by lia. apply Q4. assumption.
  - intros k Hk. destruct (N.eq_dec k m) as [->|].
    + rewrite nthN_app2 by lia. replace (lenN samp0 + m - lenN samp) with 0 by lia. rewrite EN. unfold midpt. cbn [fst snd]. fold mid. rewrite Hx. reflexivity.
    + rewrite nthN_app1 by lia. apply Q5. lia.
Qed.
Lemma fill_nodes_ok vs samp0 lo hi : 128 <= hi - lo -> hi <= lenN vs -> hi < 2 ^ 63 -> forall l m s,
  m + lenN l < 2 ^ height (hi - lo) -> qinv vs samp0 lo hi m s ->
  exists s', foldM (fill_node vs) l s = Ok s' /\ qinv vs samp0 lo hi (m + lenN l) s'.
Proof.
  intros H1 H2 H3. induction l as [|i l IH]; intros m s Hm Q.
  - exists s. split; [reflexivity|]. change (lenN (@nil N)) with 0. rewrite N.add_0_r. assumption.
  - rewrite lenN_cons in *. destruct (fill_node_ok vs samp0 lo hi m s i H1 H2 H3 ltac:(lia) Q) as (s1 & E & Q1). cbn [foldM]. rewrite E. cbn [bind].
    destruct (IH (m + 1) s1 ltac:(lia) Q1) as (s2 & E2 & Q2). exists s2. split; [exact E2|]. replace (m + (1 + lenN l)) with (m + 1 + lenN l) by lia. assumption.
Qed.
Lemma lenN_range n : lenN (range n) = n.
Proof. unfold range, lenN. rewrite length_seqN. lia. Qed.

Theorem fill_samplings_ok vs samp lo hi : 128 <= hi - lo -> hi <= lenN vs -> hi < 2 ^ 63 ->
  exists samp', fill_samplings lo hi (height (hi - lo)) vs samp = Ok samp' /\
    lenN samp' + 1 = lenN samp + 2 ^ height (hi - lo) /\ (forall k, k < lenN samp -> nthN samp' k = nthN samp k) /\
    (forall i, Npos i < 2 ^ height (hi - lo) -> nthN samp' (lenN samp + (Npos i - 1)) = nthN vs (midpt (node lo hi i))).
Proof.
  intros H1 H2 H3. destruct (height_ok (hi - lo) H1 ltac:(lia)) as (_ & HA & HH). unfold fill_samplings.
  assert (L : forall n, N.of_nat n <= height (hi - lo) ->
    exists s, foldM (fun s h => nodes <- shlU 1 h ;; foldM (fill_node vs) (range nodes) s) (seqN 0 n) ([(lo, hi)], 0, samp) = Ok s /\
      qinv vs samp lo hi (2 ^ N.of_nat n - 1) s).
  { induction n as [|n IH]; intros Hn.
    - eexists. split; [reflexivity|]. change (2 ^ N.of_nat 0 - 1) with 0. unfold qinv. change (lenN [(lo, hi)]) with 1.
      repeat split; auto; try lia. intros k Hk. replace k with 0 by lia. reflexivity.
    - destruct (IH ltac:(lia)) as (s & E & Q).
      assert (SS : seqN 0 (S n) = seqN 0 n ++ [N.of_nat n]).
      { rewrite seqN_snoc. reflexivity. }
      rewrite SS, foldM_app. rewrite E. cbn [bind foldM]. rewrite shlU_ok by lia. cbn [bind]. rewrite shl1 by lia.
      assert (PW : 2 ^ N.of_nat (S n) = 2 * 2 ^ N.of_nat n) by (rewrite <- N.pow_succ_r'; f_equal; lia).
      assert (PL : 2 ^ N.of_nat (S n) <= 2 ^ height (hi - lo)) by (apply N.pow_le_mono_r; lia).
      assert (P1 : 1 <= 2 ^ N.of_nat n) by (pose proof (pow2_pos (N.of_nat n)); lia).
      destruct (fill_nodes_ok vs samp lo hi H1 H2 H3 (range (2 ^ N.of_nat n)) (2 ^ N.of_nat n - 1) s ltac:(rewrite lenN_range; lia) Q) as (s' & E' & Q').
      rewrite E'. cbn [bind]. exists s'. split; [reflexivity|]. rewrite lenN_range in Q'.
      replace (2 ^ N.of_nat (S n) - 1) with (2 ^ N.of_nat n - 1 + 2 ^ N.of_nat n) by lia. assumption. }
  destruct (L (N.to_nat (height (hi - lo))) ltac:(lia)) as ([[q low] s] & E & Q). rewrite N2Nat.id in Q. change (range (height (hi - lo))) with (seqN 0 (N.to_nat (height (hi - lo)))). rewrite E. cbn [bind].
  exists s. split; [reflexivity|]. destruct Q as (_ & _ & _ & Q3 & Q4 & Q5). pose proof (pow2_pos (height (hi - lo))).
  split; [lia|]. split; [assumption|]. intros i Hi. rewrite Q5 by lia. replace (N.pos i - 1 + 1) with (N.pos i) by lia. reflexivity.
Qed.
