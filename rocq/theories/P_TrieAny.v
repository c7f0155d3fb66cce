(** * What any lookup of a count trie can answer, whatever bytes are asked *)
From Verif Require Import Prelude BitFacts M_Word P_Word M_Bits Spec P_Bits M_CompactVector P_CompactVector M_DArray M_EF P_EF P_EF2
  M_HashVec M_Mph P_Mph P_MphTables P_MphPast P_Typed P_Stats4 M_FastEF P_FastEF3 P_FastEF4 P_FastEF5 M_Text P_Text P_Text2 M_SeqColl P_SeqColl M_Pool P_Pool M_Trie Spec_Trie P_Trie1 P_Trie2 P_Trie3 P_Trie4 P_Trie5 P_Trie6.
From Coq Require Import Permutation Sorting.Sorted.

(** number of spaces of a text *)
Definition spaces (s : list N) : N := lenN (filter (N.eqb 32) s).
Lemma spaces_cons c s : spaces (c :: s) = (if 32 =? c then 1 else 0) + spaces s.
Proof. unfold spaces. cbn [filter]. destruct (32 =? c); [rewrite lenN_cons|]; lia. Qed.
Lemma sub64_lt a b : sub64 a b < 2 ^ 64.
Proof. unfold sub64. apply w64_lt. Qed.

(** ** the ids that map_query leaves *)
Section Ids.
Variables (n : N).
(** the first k entries hold 64-bit ids, the first of them below n *)
Definition filled (k : N) (wids : list N) : Prop := forall i, i < k -> exists x, nthN wids i = Some x /\ x < 2 ^ 64 /\ (i = 0 -> x < n).
Lemma filled_snoc k wids x wids' : filled k wids -> wr wids k x = Ok wids' -> x < 2 ^ 64 -> (k = 0 -> x < n) -> filled (k + 1) wids'.
Proof.
  intros F E H1 H2. apply wr_inv in E. destruct E as (L & ->). intros i Hi. destruct (N.eq_dec i k) as [->|NE].
  - exists x. split; [apply setN_same; assumption|]. auto.
  - destruct (F i ltac:(lia)) as (y & Y1 & Y2). exists y. split; [rewrite setN_other by assumption; assumption|exact Y2].
Qed.
Variable h : list N -> triple.
Variable v : svt.
Hypothesis VL : forall g x, svt_lookup 64 h v g = Ok x -> x = not_found \/ x < n.
Hypothesis N64 : n <= 2 ^ 64.
Lemma vlook_any buf r x : vlook h v buf r = Ok x -> (x =? not_found) = false -> x < n.
Proof.
  unfold vlook. intros H E. apply bind_inv in H. destruct H as (g & _ & H). destruct (VL _ _ H) as [->|L]; [discriminate E|assumption].
Qed.
Lemma finish_any buf prev pos order wids o wids' :
  (id <- vlook h v buf (prev, pos) ;; if id =? not_found then Ok (not_found, wids) else wids <- wr wids order id ;; Ok (order, wids)) = Ok (o, wids') ->
  filled order wids -> o = not_found \/ (o = order /\ filled (order + 1) wids').
Proof.
  intros H F. apply bind_inv in H. destruct H as (id & E1 & H). destruct (id =? not_found) eqn:E; [injection H as <- <-; auto|].
  apply bind_inv in H. destruct H as (w & E2 & H). injection H as <- <-. right. split; [reflexivity|]. pose proof (vlook_any _ _ _ E1 E).
  eapply filled_snoc; eauto. lia.
Qed.
Lemma mq_identity_later : forall s fuel pre post first prev order wids o wids', first < lenN pre -> filled order wids ->
  mq_identity fuel h v (pre ++ s ++ post) first (lenN pre + lenN s) (lenN pre) prev order wids = Ok (o, wids') ->
  o = not_found \/ (o = order + spaces s /\ filled (o + 1) wids').
Proof.
  induction s as [|c s IH]; intros fuel pre post first prev order wids o wids' HL F H.
  - assert (H' := H). destruct fuel; cbn [mq_identity] in H'; change (lenN (@nil N)) with 0 in H'; rewrite N.add_0_r, N.eqb_refl in H';
      (destruct (finish_any _ _ _ _ _ _ _ H' F) as [X|(-> & X)]; [left; assumption|right; split; [unfold spaces; cbn [filter]; change (lenN (@nil N)) with 0; lia|assumption]]).
  - destruct fuel as [|fuel]; cbn [mq_identity] in H; rewrite lenN_cons in H; (destruct (N.eqb_spec (lenN pre) (lenN pre + (1 + lenN s))); [lia|]); [discriminate H|].
    cbn [app] in H. rewrite rd_app_at in H. cbn [bind] in H. destruct (N.eqb_spec (lenN pre) first) as [|_]; [lia|].
    replace (pre ++ c :: s ++ post) with ((pre ++ [c]) ++ s ++ post) in H by (rewrite <- app_assoc; reflexivity).
    replace (lenN pre + (1 + lenN s)) with (lenN (pre ++ [c]) + lenN s) in H by (rewrite lenN_app; change (lenN [c]) with 1; lia).
    assert (PL : first < lenN (pre ++ [c])) by (rewrite lenN_app; lia).
    rewrite spaces_cons. change c_space with 32 in H. rewrite N.eqb_sym in H. destruct (32 =? c); cbv iota.
    + apply bind_inv in H. destruct H as (id & E1 & H). destruct (id =? not_found) eqn:E; [injection H as <- <-; auto|].
      apply bind_inv in H. destruct H as (w & E2 & H). pose proof (vlook_any _ _ _ E1 E) as LI. assert (F' : filled (order + 1) w) by (eapply filled_snoc; eauto; lia).
      replace (lenN pre + 1) with (lenN (pre ++ [c])) in H by (rewrite lenN_app; reflexivity).
      destruct (IH _ _ _ _ _ _ _ _ _ PL F' H) as [X|(X & Y)]; [auto|right; split; [lia|assumption]].
    + replace (lenN pre + 1) with (lenN (pre ++ [c])) in H by (rewrite lenN_app; reflexivity).
      destruct (IH _ _ _ _ _ _ _ _ _ PL F H) as [X|(X & Y)]; [auto|right; split; [lia|assumption]].
Qed.
(** the order of a query, minus one: its number of spaces, but a query that begins with a space ends at that space *)
Definition level (s : list N) : N := match s with 32 :: _ => 0 | _ => spaces s end.
Lemma level_cons c s : level (c :: s) = if 32 =? c then 0 else spaces s.
Proof.
  destruct (N.eqb_spec 32 c) as [<-|NE]; [reflexivity|]. unfold level. rewrite spaces_cons. destruct (N.eqb_spec 32 c) as [X|_]; [contradiction|]. cbn [N.add].
  destruct c as [|p]; [reflexivity|]. do 6 (destruct p as [p|p|]; try reflexivity). contradiction.
Qed.
Lemma mq_identity_any : forall s fuel pre post wids o wids',
  mq_identity fuel h v (pre ++ s ++ post) (lenN pre) (lenN pre + lenN s) (lenN pre) (lenN pre) 0 wids = Ok (o, wids') ->
  o = not_found \/ (o = level s /\ filled (o + 1) wids').
Proof.
  intros s fuel pre post wids o wids' H. assert (F0 : filled 0 wids) by (intros i Hi; lia). destruct s as [|c s].
  - destruct fuel; cbn [mq_identity] in H; change (lenN (@nil N)) with 0 in H; rewrite N.add_0_r, N.eqb_refl in H;
      (destruct (finish_any _ _ _ _ _ _ _ H F0) as [X|(-> & X)]; [left; assumption|right; split; [reflexivity|assumption]]).
  - destruct fuel as [|fuel]; cbn [mq_identity] in H; rewrite lenN_cons in H; (destruct (N.eqb_spec (lenN pre) (lenN pre + (1 + lenN s))); [lia|]); [discriminate H|].
    cbn [app] in H. rewrite rd_app_at in H. cbn [bind] in H. rewrite level_cons. change c_space with 32 in H. rewrite N.eqb_sym in H. destruct (32 =? c); cbv iota.
    + rewrite N.eqb_refl in H. destruct (finish_any _ _ _ _ _ _ _ H F0) as [X|(-> & X)]; [left; assumption|right; split; [reflexivity|assumption]].
    + replace (pre ++ c :: s ++ post) with ((pre ++ [c]) ++ s ++ post) in H by (rewrite <- app_assoc; reflexivity).
      replace (lenN pre + (1 + lenN s)) with (lenN (pre ++ [c]) + lenN s) in H by (rewrite lenN_app; change (lenN [c]) with 1; lia).
      replace (lenN pre + 1) with (lenN (pre ++ [c])) in H by (rewrite lenN_app; reflexivity).
      assert (PL : lenN pre < lenN (pre ++ [c])) by (rewrite lenN_app; change (lenN [c]) with 1; lia).
      destruct (mq_identity_later _ _ _ _ _ _ _ _ _ _ PL F0 H) as [X|(X & Y)]; [auto|right; split; [lia|assumption]].
Qed.
End Ids.

Section Sorted.
Variable n : N.
Variable env : tenv.
Variable v : svt.
Hypothesis VL : forall g x, svt_lookup 64 (te_h env) v g = Ok x -> x = not_found \/ x < n.
Hypothesis N64 : n <= 2 ^ 64.
Variables (arrays : list sarr) (remap : N).
Lemma map_in_lt h r id a x : map_in h r id a = Ok x -> x < 2 ^ 64.
Proof.
  unfold map_in. intros H. apply bind_inv in H. destruct H as (p & _ & H). destruct (p =? not_found); injection H as <-; [reflexivity|apply sub64_lt].
Qed.
Lemma map_parents_lt id pids order x : map_parents env arrays id pids order remap = Ok x -> x < 2 ^ 64.
Proof.
  unfold map_parents. intros H. do 5 (apply bind_inv in H; destruct H as (? & _ & H)). eapply map_in_lt; eassumption.
Qed.
Lemma mq_inner_any : forall s fuel pre post prev order wids pids o wids' pids', 0 < order -> filled n order wids ->
  mq_inner fuel env v arrays remap (pre ++ s ++ post) (lenN pre + lenN s) (lenN pre) prev order wids pids = Ok (o, wids', pids') ->
  o = not_found \/ (o = order + spaces s /\ filled n (o + 1) wids').
Proof.
  induction s as [|c s IH]; intros fuel pre post prev order wids pids o wids' pids' HO F H.
  - assert (E0 : spaces [] = 0) by reflexivity.
    destruct fuel; cbn [mq_inner] in H; change (lenN (@nil N)) with 0 in H; rewrite N.add_0_r, N.eqb_refl in H;
      (apply bind_inv in H; destruct H as (id & E1 & H); destruct (id =? not_found) eqn:E; [injection H as <- <- <-; auto|];
       apply bind_inv in H; destruct H as (m & E2 & H); destruct (m =? not_found) eqn:E'; [injection H as <- <- <-; auto|];
       apply bind_inv in H; destruct H as (w & E3 & H); injection H as <- <- <-; right; split; [lia|];
       pose proof (vlook_any n (te_h env) v VL _ _ _ E1 E) as LI;
       assert (M : m < 2 ^ 64) by (destruct (_ || _) in E2; [eapply map_parents_lt; eassumption|injection E2 as <-; lia]);
       eapply filled_snoc; eauto; lia).
  - destruct fuel as [|fuel]; cbn [mq_inner] in H; rewrite lenN_cons in H; (destruct (N.eqb_spec (lenN pre) (lenN pre + (1 + lenN s))); [lia|]); [discriminate H|].
    cbn [app] in H. rewrite rd_app_at in H. cbn [bind] in H.
    replace (pre ++ c :: s ++ post) with ((pre ++ [c]) ++ s ++ post) in H by (rewrite <- app_assoc; reflexivity).
    replace (lenN pre + (1 + lenN s)) with (lenN (pre ++ [c]) + lenN s) in H by (rewrite lenN_app; change (lenN [c]) with 1; lia).
    replace (lenN pre + 1) with (lenN (pre ++ [c])) in H by (rewrite lenN_app; reflexivity).
    rewrite spaces_cons. change c_space with 32 in H. rewrite N.eqb_sym in H. destruct (32 =? c); cbv iota.
    + apply bind_inv in H; destruct H as (id & E1 & H); destruct (id =? not_found) eqn:E; [injection H as <- <- <-; auto|].
      apply bind_inv in H; destruct H as (m & E2 & H); destruct (m =? not_found) eqn:E'; [injection H as <- <- <-; auto|].
      apply bind_inv in H; destruct H as (w & E3 & H). apply bind_inv in H; destruct H as (pp & E4 & H).
      pose proof (vlook_any n (te_h env) v VL _ _ _ E1 E) as LI.
      assert (M : m < 2 ^ 64) by (destruct (_ && _) in E2; [injection E2 as <-; lia|eapply map_parents_lt; eassumption]).
      assert (F' : filled n (order + 1) w) by (eapply filled_snoc; eauto; lia).
      assert (PO : 0 < order + 1) by lia. destruct (IH _ _ _ _ _ _ _ _ _ _ PO F' H) as [X|(X & Y)]; [auto|right; split; [lia|assumption]].
    + destruct (IH _ _ _ _ _ _ _ _ _ _ HO F H) as [X|(X & Y)]; [auto|right; split; [lia|assumption]].
Qed.
Lemma finish_sorted_any buf prev pos order wids (pids : list N) o wids' pids' :
  (id <- vlook (te_h env) v buf (prev, pos) ;; if id =? not_found then Ok (not_found, wids, pids) else wids <- wr wids order id ;; Ok (order, wids, pids)) = Ok (o, wids', pids') ->
  filled n order wids -> o = not_found \/ (o = order /\ filled n (order + 1) wids').
Proof.
  intros H F. apply bind_inv in H. destruct H as (id & E1 & H). destruct (id =? not_found) eqn:E; [injection H as <- <- <-; auto|].
  apply bind_inv in H. destruct H as (w & E2 & H). injection H as <- <- <-. right. split; [reflexivity|]. pose proof (vlook_any n (te_h env) v VL _ _ _ E1 E).
  eapply filled_snoc; eauto. lia.
Qed.
Lemma mq_sorted_later : forall s fuel pre post first prev order wids pids o wids' pids', first < lenN pre -> filled n order wids ->
  mq_sorted fuel env v arrays remap (pre ++ s ++ post) first (lenN pre + lenN s) (lenN pre) prev order wids pids = Ok (o, wids', pids') ->
  o = not_found \/ (o = order + spaces s /\ filled n (o + 1) wids').
Proof.
  induction s as [|c s IH]; intros fuel pre post first prev order wids pids o wids' pids' HL F H.
  - assert (E0 : spaces [] = 0) by reflexivity. destruct fuel; cbn [mq_sorted] in H; change (lenN (@nil N)) with 0 in H; rewrite N.add_0_r, N.eqb_refl in H;
      (destruct (finish_sorted_any _ _ _ _ _ _ _ _ _ H F) as [X|(-> & X)]; [left; assumption|right; split; [lia|assumption]]).
  - destruct fuel as [|fuel]; cbn [mq_sorted] in H; rewrite lenN_cons in H; (destruct (N.eqb_spec (lenN pre) (lenN pre + (1 + lenN s))); [lia|]); [discriminate H|].
    cbn [app] in H. rewrite rd_app_at in H. cbn [bind] in H. destruct (N.eqb_spec (lenN pre) first) as [|_]; [lia|].
    replace (pre ++ c :: s ++ post) with ((pre ++ [c]) ++ s ++ post) in H by (rewrite <- app_assoc; reflexivity).
    replace (lenN pre + (1 + lenN s)) with (lenN (pre ++ [c]) + lenN s) in H by (rewrite lenN_app; change (lenN [c]) with 1; lia).
    replace (lenN pre + 1) with (lenN (pre ++ [c])) in H by (rewrite lenN_app; reflexivity).
    assert (PL : first < lenN (pre ++ [c])) by (rewrite lenN_app; lia).
    rewrite spaces_cons. change c_space with 32 in H. rewrite N.eqb_sym in H. destruct (32 =? c); cbv iota.
    + apply bind_inv in H. destruct H as (id & E1 & H). destruct (id =? not_found) eqn:E; [injection H as <- <- <-; auto|].
      apply bind_inv in H. destruct H as (w & E2 & H). cbv zeta in H. apply bind_inv in H. destruct H as (pp & E3 & H).
      pose proof (vlook_any n (te_h env) v VL _ _ _ E1 E) as LI. assert (F' : filled n (order + 1) w) by (eapply filled_snoc; eauto; lia).
      destruct (order + 1 =? 2).
      * assert (PO : 0 < order + 1) by lia. destruct (mq_inner_any _ _ _ _ _ _ _ _ _ _ _ PO F' H) as [X|(X & Y)]; [auto|right; split; [lia|assumption]].
      * destruct (IH _ _ _ _ _ _ _ _ _ _ _ PL F' H) as [X|(X & Y)]; [auto|right; split; [lia|assumption]].
    + destruct (IH _ _ _ _ _ _ _ _ _ _ _ PL F H) as [X|(X & Y)]; [auto|right; split; [lia|assumption]].
Qed.
Lemma mq_sorted_any : forall s fuel pre post wids pids o wids' pids',
  mq_sorted fuel env v arrays remap (pre ++ s ++ post) (lenN pre) (lenN pre + lenN s) (lenN pre) (lenN pre) 0 wids pids = Ok (o, wids', pids') ->
  o = not_found \/ (o = level s /\ filled n (o + 1) wids').
Proof.
  intros s fuel pre post wids pids o wids' pids' H. assert (F0 : filled n 0 wids) by (intros i Hi; lia). destruct s as [|c s].
  - destruct fuel; cbn [mq_sorted] in H; change (lenN (@nil N)) with 0 in H; rewrite N.add_0_r, N.eqb_refl in H;
      (destruct (finish_sorted_any _ _ _ _ _ _ _ _ _ H F0) as [X|(-> & X)]; [left; assumption|right; split; [reflexivity|assumption]]).
  - destruct fuel as [|fuel]; cbn [mq_sorted] in H; rewrite lenN_cons in H; (destruct (N.eqb_spec (lenN pre) (lenN pre + (1 + lenN s))); [lia|]); [discriminate H|].
    cbn [app] in H. rewrite rd_app_at in H. cbn [bind] in H. rewrite level_cons. change c_space with 32 in H. rewrite N.eqb_sym in H. destruct (32 =? c); cbv iota.
    + rewrite N.eqb_refl in H. destruct (finish_sorted_any _ _ _ _ _ _ _ _ _ H F0) as [X|(-> & X)]; [left; assumption|right; split; [reflexivity|assumption]].
    + replace (pre ++ c :: s ++ post) with ((pre ++ [c]) ++ s ++ post) in H by (rewrite <- app_assoc; reflexivity).
      replace (lenN pre + (1 + lenN s)) with (lenN (pre ++ [c]) + lenN s) in H by (rewrite lenN_app; change (lenN [c]) with 1; lia).
      replace (lenN pre + 1) with (lenN (pre ++ [c])) in H by (rewrite lenN_app; reflexivity).
      assert (PL : lenN pre < lenN (pre ++ [c])) by (rewrite lenN_app; change (lenN [c]) with 1; lia).
      destruct (mq_sorted_later _ _ _ _ _ _ _ _ _ _ _ _ PL F0 H) as [X|(X & Y)]; [auto|right; split; [lia|assumption]].
Qed.
End Sorted.

(** ** the descent *)
Section Descend.
Variable D : list (list (gram * N)).
Variable remap : N.
Hypothesis C : collection D remap.
Variable env : tenv.
Notation G := (grams D).
Lemma descend_any arrays seqs wids : arrays_upto D remap env seqs arrays (lenN D) -> forall k i pos r, 0 < i -> pos < lenN (G (i - 1)) ->
  (forall j x, nthN wids j = Some x -> j < i + N.of_nat k -> x < 2 ^ 64) ->
  descend k env arrays wids i pos = Ok r -> r = not_found \/ (r < lenN (G (i + N.of_nat k - 1)) /\ i + N.of_nat k <= lenN D \/ (k = O /\ r = pos)).
Proof.
  intros (AL & AR & AP & APtr). induction k as [|k IH]; intros i pos r Hi Hp HW H.
  - cbn [descend] in H. injection H as <-. auto.
  - cbn [descend] in H. apply bind_inv in H. destruct H as (a & Ha & H). apply bind_inv in H. destruct H as (rg & Hr & H). apply bind_inv in H. destruct H as (b & Hb & H).
    apply bind_inv in H. destruct H as (w & Hw & H). apply bind_inv in H. destruct H as (p & Hpos & H). apply rd_inv in Ha, Hb, Hw.
    pose proof (nthN_lt _ _ _ Hb) as Lb. rewrite AL in Lb.
    rewrite (range_of D arrays (i - 1) pos a (APtr (i - 1) ltac:(lia)) Ha Hp) in Hr. replace (i - 1 + 1) with i in Hr by lia. injection Hr as <-.
    destruct (AP i ltac:(lia)) as (b' & f & vs & B1 & B2 & B3). rewrite Hb in B1. injection B1 as <-. unfold sa_position in Hpos. rewrite B2 in Hpos.
    assert (RG : is_range (child_ptrs (G (i - 1)) (G i)) (kids D i pos) (kids D i (pos + 1))) by (apply child_range; exists pos; auto).
    pose proof (fef_find_any _ _ _ _ _ _ _ _ _ B3 RG (HW i w Hw ltac:(lia)) Hpos) as FA.
    destruct (p =? not_found) eqn:E; [injection H as <-; auto|]. apply N.eqb_neq in E. destruct FA as [FA|FA]; [contradiction|].
    assert (LI : lenN (lids D remap i) = lenN (G i)) by apply lenN_map. rewrite LI in FA.
    destruct (IH (i + 1) p r ltac:(lia)) as [X|[(X & Y)|(-> & ->)]]; auto.
    + rewrite N.add_sub. lia.
    + intros j x Hj Lj. apply (HW j x Hj). lia.
    + right. left. replace (i + N.of_nat (S k) - 1) with (i + 1 + N.of_nat k - 1) by lia. split; [assumption|lia].
    + right. left. replace (i + N.of_nat 1 - 1) with i by lia. split; [lia|lia].
Qed.
Hypothesis EO : env_ok D remap env.
Variable t : trie.
Hypothesis TR : trie_rep D remap env t.
Hypothesis PA : hcv_get 64 (sv_data (t_vocab t)) (lenN (uwords D)) = UB.
Lemma voc_answer g x : svt_lookup 64 (te_h env) (t_vocab t) g = Ok x -> x = not_found \/ x < lenN (G 0).
Proof.
  destruct TR as (_ & _ & VR & _). intros H. destruct (svt_lookup_past 64 (te_h env) (t_vocab t) (uwords D) (range (lenN (uwords D))) g VR PA) as [(_ & X)|(k & v & I & _ & _ & E)]; [congruence|].
  rewrite E in H. destruct (_ =? _); injection H as <-; [|auto]. right. apply in_combine_r in I. unfold range in I. apply In_seqN in I.
  unfold uwords in I. rewrite lenN_map in I. lia.
Qed.
(** whatever is asked, and wherever the statics were left *)
Theorem answer_any st buf r text c st' : holds_text buf r text -> trie_lookup env t st buf r = Ok (c, st') ->
  c = not_found \/ exists l g, nthN D (level text) = Some l /\ In (g, c) l.
Proof.
  intros HT H. destruct (holds_split _ _ _ HT) as (pre & post & -> & Ha & He). destruct r as [a b]. cbn [fst snd] in Ha, He. subst a b.
  destruct st as [wids pids]. unfold trie_lookup in H. cbn [fst snd] in H. destruct TR as (T1 & T2 & T3 & T4). pose proof T4 as (AL & AR & AP & APtr). rewrite T1, T2 in H.
  apply bind_inv in H. destruct H as ([[o w'] p'] & E1 & H). cbv iota beta in H.
  assert (LV : lenN (G 0) <= 2 ^ 64) by (pose proof (lev_size D remap C 0); lia).
  assert (FO : o = not_found \/ (o = level text /\ filled (lenN (G 0)) (o + 1) w')).
  { destruct (te_map env).
    - exact (mq_sorted_any _ env (t_vocab t) voc_answer LV _ _ _ _ _ _ _ _ _ _ _ E1).
    - apply bind_inv in E1. destruct E1 as ([o1 w1] & E1 & E2). injection E2 as <- <- <-.
      exact (mq_identity_any _ (te_h env) (t_vocab t) voc_answer LV _ _ _ _ _ _ _ E1). }
  destruct FO as [->|(HO & F)]; [rewrite N.eqb_refl in H; cbn [orb] in H; injection H as <- _; auto|].
  destruct ((o =? not_found) || (lenN D <? o)); [injection H as <- _; auto|].
  apply bind_inv in H. destruct H as (w0 & E2 & H). apply bind_inv in H. destruct H as (pos & E3 & H). apply rd_inv in E2.
  destruct (F 0 ltac:(lia)) as (x & X1 & X2 & X3). rewrite E2 in X1. injection X1 as <-. specialize (X3 eq_refl).
  destruct ((pos =? not_found) && negb (o =? 0)) eqn:EN; [injection H as <- _; auto|].
  apply bind_inv in H. destruct H as (a & E4 & H). apply bind_inv in H. destruct H as (rank & E5 & H). apply bind_inv in H. destruct H as (c' & E6 & H). injection H as <- <-.
  apply rd_inv in E4. pose proof (nthN_lt _ _ _ E4) as LO. rewrite AL in LO. right.
  assert (PL : pos < lenN (G o)).
  { destruct (descend_any _ _ w' T4 (N.to_nat o) 1 w0 pos ltac:(lia) X3) with (2 := E3) as [->|[(L & _)|(Z & ->)]].
    - intros j y Hj Lj. destruct (F j ltac:(lia)) as (z & Z1 & Z2 & _). congruence.
    - rewrite N.eqb_refl in EN. destruct (N.eqb_spec o 0) as [->|]; [|discriminate EN]. cbn [N.to_nat descend] in E3. injection E3 as <-. assumption.
    - replace (1 + N.of_nat (N.to_nat o) - 1) with o in L by lia. assumption.
    - replace o with 0 by lia. assumption. }
  destruct (nthN_Some D o LO) as (l & Hl). assert (PL' : pos < lenN l) by (unfold grams in PL; rewrite Hl, lenN_map in PL; assumption).
  destruct (nthN_Some l pos PL') as ([g c0] & Hg). exists l, g. rewrite <- HO. split; [assumption|].
  destruct (AR o LO) as (a' & A1 & A2). rewrite E4 in A1. injection A1 as <-. destruct (A2 l pos _ Hl Hg) as (rk & R1 & R2). assert (rk = rank) by congruence. subst rk.
  rewrite E6 in R2. injection R2 as ->. eapply nthN_In; eassumption.
Qed.
End Descend.

(** ** the vocabulary of a trie that was built cannot be read past its end *)
Lemma cvb_push_shape b v b' : cvb_push_back b v = Ok b' -> cb_size b' = cb_size b /\ cb_width b' = cb_width b.
Proof.
  unfold cvb_push_back. intros H. do 4 (apply bind_inv in H; destruct H as (? & _ & H)). apply bind_inv in H. destruct H as ([[ws blk] sh] & _ & H).
  cbv iota beta zeta in H. destruct (_ =? 64); injection H as <-; auto.
Qed.
Lemma build_past env files order remap t n : trie_build env files order remap = Ok t -> m_n (sv_h (t_vocab t)) = n -> n < 2 ^ 50 ->
  hcv_get 64 (sv_data (t_vocab t)) n = UB.
Proof.
  unfold trie_build. intros H HN L. do 5 (apply bind_inv in H; destruct H as (? & _ & H)). apply bind_inv in H. destruct H as (lines1 & _ & H).
  apply bind_inv in H. destruct H as ([v arr] & E & H). cbv iota beta in H. apply bind_inv in H. destruct H as (arr' & _ & H). injection H as <-. cbn [t_vocab] in *.
  unfold build_vocabulary in E. apply bind_inv in E. destruct E as (p & _ & E). cbv zeta in E. set (m := lenN (p_index p)) in E. apply bind_inv in E. destruct E as (recs & ER & E).
  do 6 (apply bind_inv in E; destruct E as (? & _ & E)). apply bind_inv in E. destruct E as (ids0 & E1 & E). apply bind_inv in E. destruct E as (ids & E2 & E).
  apply bind_inv in E. destruct E as (v0 & E3 & E). injection E as <- _.
  assert (LM : lenN (map fst recs) = m).
  { rewrite lenN_map. destruct (mapM_Forall _ (fun _ => True) (range m) (fun _ _ _ _ => Logic.I) _ ER) as (_ & LR). transitivity (lenN (range m)); [unfold lenN at 1 2; rewrite LR; reflexivity|apply lenN_range]. }
  assert (SH : cb_size ids = m /\ cb_width ids <= 64).
  { apply (foldM_inv (fun b => cb_size b = m /\ cb_width b <= 64)) in E2; [exact E2| |].
    - intros s a s' _ (I1 & I2) P. apply cvb_push_shape in P. destruct P as (P1 & P2). rewrite P1, P2. auto.
    - unfold cvb_new in E1. destruct (N.ltb_spec 64 (cv_width (ceil_log2 (add64 m 1)))); [discriminate E1|]. injection E1 as <-. cbn [cb_size cb_width]. split; [reflexivity|assumption]. }
  destruct SH as (S1 & S2).
  assert (MN : m_n (sv_h v0) = m).
  { pose proof E3 as E4. unfold svt_build in E4. apply bind_inv in E4. destruct E4 as (? & _ & E4). apply bind_inv in E4. destruct E4 as (mm & EM & E4).
    apply bind_inv in E4. destruct E4 as (? & _ & E4). apply bind_inv in E4. destruct E4 as (? & _ & E4). injection E4 as <-. cbn [sv_h].
    unfold mph_build in EM. apply bind_inv in EM. destruct EM as (? & _ & EM). injection EM as <-. cbn [m_n]. exact LM. }
  assert (NM : n = m) by congruence. rewrite NM in *. clear NM. assert (SC : c_size (cv_of_builder ids) = m) by exact S1.
  rewrite <- SC. apply (svt_build_past _ _ _ _ _ _ _ E3); [auto|]. cbn [cv_of_builder c_size c_width]. rewrite S1. nia.
Qed.
