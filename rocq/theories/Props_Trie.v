(** * Properties C22, C23: the count trie *)
From Verif Require Import Prelude BitFacts M_Word P_Word M_Bits Spec P_Bits M_CompactVector P_CompactVector M_DArray M_EF P_EF P_EF2
  M_HashVec M_Mph P_Mph P_MphTables M_FastEF P_FastEF3 M_Text P_Text P_Text2 M_SeqColl P_SeqColl M_Pool P_Pool M_Trie Spec_Trie P_Trie1 P_Trie2 P_Trie3 P_Trie4 P_Trie5 P_Trie6 P_Trie7 P_MphPast P_TrieAny.
From Coq Require Import Permutation Sorting.Sorted.

(** The input: [D], the n-grams of each order with their counts, a [collection] (Spec_Trie); the
    k-th file has the lines [line e], that is the words separated by spaces, a tab and the count. *)
Lemma line_is : forall g c, line (g, c) = format_count_line (join g) c.
Proof. reflexivity. Qed.
(** What the build gets from outside the code modelled here. *)
Record inputs_ok (D : list (list (gram * N))) (remap : N) (env : tenv) : Prop := {
  (* the mapper goes with the remapping order *)
  io_mapper : te_map env = negb (remap =? 0);
  (* emphf finds a peeling order for the vocabulary ... *)
  io_vocab : valid_order (hash_domain (lenN (grams D 0))) (te_h env) (map (fun g : gram => join g) (grams D 0)) (te_vorder env);
  (* ... and for the ranges of 128 grams or more of each level, if there are any *)
  io_long : forall k, 0 < k < lenN D -> let starts := long_starts 128 (child_ptrs (grams D (k - 1)) (grams D k)) in
    starts = [] \/ valid_order (hash_domain (lenN starts)) (te_hu env k) starts (te_orders env k);
  (* std::sort permutes the distinct counts of each order *)
  io_sorts : Forall2 (fun (l : list (gram * N)) s => Permutation s (with_freq (map snd l))) D (te_sorts env);
  (* the unigrams fit in the memory granted *)
  io_ram : lenN (concat (map (fun g : gram => join g) (grams D 0))) <= te_ram env;
  (* counts fit in 64 bits, and are not the not_found mark *)
  io_counts : Forall (Forall (fun e => snd e < 2 ^ 64 - 1)) D }.
Lemma inputs_env D remap env : inputs_ok D remap env -> env_ok D remap env.
Proof.
  intros [H1 H2 H3 H4 H5 H6]. split; [assumption|]. split; [unfold uwords; rewrite lenN_map; assumption|]. split; [exact H3|]. split; [exact H4|]. split; [exact H5|exact H6].
Qed.
(** the arrays kept between queries have their declared size *)
Definition statics_ok (st : statics) : Prop := lenN (fst st) = 8 /\ lenN (snd st) = 8.
(** gram q is indexed with count c *)
Definition indexed (D : list (list (gram * N))) (q : gram) (c : N) : Prop := exists k l, nthN D k = Some l /\ In (q, c) l.

(** ** C22 *)
(** Construction succeeds; then every indexed gram of every order, wherever its text lies in a
    buffer and whatever earlier queries left behind, is answered with its count. *)
Theorem C22_lookup_indexed : forall (D : list (list (gram * N))) (remap : N) (env : tenv),
  collection D remap -> inputs_ok D remap env ->
  exists t, trie_build env (map (map line) D) (lenN D) remap = Ok t /\
    forall q c, indexed D q c -> forall st buf r, statics_ok st -> holds_text buf r (join q) ->
      exists st', trie_lookup env t st buf r = Ok (c, st') /\ statics_ok st'.
Proof.
  intros D remap env C IO. pose proof (inputs_env _ _ _ IO) as EO. destruct (trie_build_ok D remap C env EO) as (t & ET & TR). exists t. split; [exact ET|].
  intros q c (k & l & Hl & Hq) st buf r (S1 & S2) HT.
  assert (IG : In q (grams D k)) by (unfold grams; rewrite Hl; apply (in_map fst) in Hq; exact Hq).
  pose proof (gram_len D remap C k q IG) as LQ. assert (LN : lenN q = k + 1) by (unfold lenN; lia). pose proof (grams_In_lt D k q IG) as KD.
  destruct (answer_ok D remap C env EO t TR q) with (st := st) (buf := buf) (r := r) as (c' & st' & E & A1 & A2 & A3); auto; try lia.
  - eapply gram_ne; eauto.
  - apply (gram_words D remap C k). assumption.
  - eapply children_present; eauto.
  - intros w Hw. left. eapply gram_voc; eauto.
  - intros R. eapply ctx_present; eauto.
  - exists st'. split; [|split; congruence]. rewrite E. do 2 f_equal.
    replace (lenN q - 1) with k in A3 by lia. destruct A3 as [(l' & Hl' & H)|[H _]]; [|contradiction]. rewrite Hl in Hl'. injection Hl' as <-.
    destruct (In_nthN _ _ Hq) as (i & Hi). destruct (In_nthN _ _ H) as (j & Hj).
    assert (IJ : i = j).
    { apply (NoDup_nthN (grams D k) i j q (lev_NoDup D remap C k)); unfold grams; rewrite Hl, nthN_map; [rewrite Hi|rewrite Hj]; reflexivity. }
    subst j. congruence.
Qed.

(** ** C23 *)
(** A gram that is not indexed is answered not_found, provided that
    - it has at most 8 words, but not exactly one more than the order; if longer than the order,
      the remapping order is below the order;
    - its words that are not in the vocabulary are recognised as such (see C21);
    - each of its proper prefixes that is indexed has some continuation that is indexed;
    - with remapping, each context of [remap] words inside it has some continuation indexed.
    The last three conditions are what the code does not ensure; without them the answer may be the
    count of another gram, or memory outside the arrays may be read: see the _refuted theorems. *)
Theorem C23_absent_partial : forall (D : list (list (gram * N))) (remap : N) (env : tenv),
  collection D remap -> inputs_ok D remap env ->
  exists t, trie_build env (map (map line) D) (lenN D) remap = Ok t /\
    forall q, q <> [] -> Forall word q -> (forall c, ~ indexed D q c) ->
      lenN q <= 8 -> lenN q <> lenN D + 1 -> (lenN D < lenN q -> remap < lenN D) ->
      (forall w, In w q -> In [w] (grams D 0) \/ svt_lookup 64 (te_h env) (t_vocab t) w = Ok not_found) ->
      (forall j, 0 < j < lenN q -> In (firstn (N.to_nat j) q) (grams D (j - 1)) -> exists g, In g (grams D j) /\ removelast g = firstn (N.to_nat j) q) ->
      (0 < remap -> forall p, 0 < p -> p + remap < lenN q -> exists g, In g (grams D remap) /\ removelast g = firstn (N.to_nat remap) (skipn (N.to_nat p) q)) ->
      forall st buf r, statics_ok st -> holds_text buf r (join q) ->
      exists st', trie_lookup env t st buf r = Ok (not_found, st') /\ statics_ok st'.
Proof.
  intros D remap env C IO. pose proof (inputs_env _ _ _ IO) as EO. destruct (trie_build_ok D remap C env EO) as (t & ET & TR). exists t. split; [exact ET|].
  intros q QN QW NI Q8 QE QR HW CH CX st buf r (S1 & S2) HT.
  assert (CX' : remap <> 0 -> ctx_ok D remap q).
  { intros R o Ho _. destruct (CX ltac:(lia) (o - remap) ltac:(lia) ltac:(lia)) as (g & G1 & G2). exists g. split; [assumption|exact G2]. }
  destruct (N.le_gt_cases (lenN q) (lenN D)) as [L|L].
  - destruct (answer_ok D remap C env EO t TR q QN L QW CH HW CX' st buf r ltac:(lia) ltac:(lia) HT) as (c & st' & E & A1 & A2 & A3).
    exists st'. split; [|split; congruence]. rewrite E. do 2 f_equal. destruct A3 as [(l & Hl & H)|[_ H]]; [|assumption].
    exfalso. apply (NI c). exists (lenN q - 1), l. auto.
  - destruct (answer_long D remap C env EO t TR q QW ltac:(lia) (QR L) HW CX' st buf r ltac:(lia) ltac:(lia) HT) as (st' & E & A1 & A2).
    exists st'. split; [assumption|split; congruence].
Qed.

(** What a lookup can answer at all, for every text (any bytes), wherever it lies and whatever earlier queries left in the arrays:
    if it ends, the answer is not_found or the count of an indexed gram, of the order given by the number of spaces of the text
    (a text that begins with a space is cut there).  It need not be the gram that was asked for: see C23_false_positive_refuted. *)
Definition query_order (s : list N) : N := match s with 32 :: _ => 1 | _ => 1 + lenN (filter (N.eqb 32) s) end.
Theorem C23_any_answer_partial : forall (D : list (list (gram * N))) (remap : N) (env : tenv),
  collection D remap -> inputs_ok D remap env ->
  exists t, trie_build env (map (map line) D) (lenN D) remap = Ok t /\
    forall st buf r text c st', holds_text buf r text -> trie_lookup env t st buf r = Ok (c, st') ->
      c = not_found \/ exists l g, nthN D (query_order text - 1) = Some l /\ In (g, c) l /\ lenN g = query_order text.
Proof.
  intros D remap env C IO. pose proof (inputs_env _ _ _ IO) as EO. destruct (trie_build_ok D remap C env EO) as (t & ET & TR). exists t. split; [exact ET|].
  intros st buf r text c st' HT H.
  assert (PA : hcv_get 64 (sv_data (t_vocab t)) (lenN (uwords D)) = UB).
  { apply (build_past _ _ _ _ _ _ ET); [destruct TR as (_ & _ & (_ & X & _) & _); exact X|]. unfold uwords. rewrite lenN_map. pose proof (lev_size D remap C 0). lia. }
  assert (QO : query_order text = 1 + level text).
  { destruct text as [|x s]; [reflexivity|]. rewrite level_cons. unfold query_order. destruct (N.eqb_spec 32 x) as [<-|NE]; [reflexivity|].
    cbn [filter]. destruct (N.eqb_spec 32 x) as [X|_]; [contradiction|]. unfold spaces.
    destruct x as [|x]; [reflexivity|]. do 6 (destruct x as [x|x|]; try reflexivity). contradiction. }
  destruct (answer_any D remap C env t TR PA st buf r text c st' HT H) as [X|(l & g & H1 & H2)]; [left; exact X|right].
  exists l, g. rewrite QO. replace (1 + level text - 1) with (level text) by lia. split; [assumption|]. split; [assumption|].
  assert (IG : In g (grams D (level text))) by (unfold grams; rewrite H1; apply (in_map fst) in H2; exact H2).
  pose proof (gram_len D remap C _ g IG) as LG. unfold lenN. lia.
Qed.

(** a concrete data set: vocabulary a, b, c, dd; grams of orders 1 to 4 *)
Definition wa := [97]. Definition wb := [98]. Definition wc := [99]. Definition wd := [100; 100].
Definition ex_D : list (list (gram * N)) := [
  [([wa], 5); ([wb], 3); ([wc], 2); ([wd], 10)];
  [([wa; wb], 3); ([wa; wc], 2); ([wc; wb], 1); ([wc; wd], 4); ([wd; wa], 6)];
  [([wa; wc; wb], 1); ([wa; wc; wd], 2); ([wd; wa; wc], 2)];
  [([wd; wa; wc; wb], 1)]].
Definition ex_h (w : list N) : triple :=
  match w with [97] => (0, 0, 0) | [98] => (1, 0, 0) | [99] => (0, 1, 0) | [100; 100] => (0, 0, 1) | x :: _ => (x, x, x) | [] => (0, 0, 0) end.
Definition ex_env (remap : N) (k : rkind) : tenv :=
  mktenv ex_h [(0, 2, 4); (1, 2, 4); (3, 0, 4); (5, 0, 2)] (fun _ _ => (0, 0, 0)) (fun _ => [])
    (map (fun l => with_freq (map snd l)) ex_D) k (negb (remap =? 0)) 10.
Definition ex_statics : statics := (repN 7 8, repN 9 8).
(** the answers to some queries; None: undefined behaviour *)
Definition ex_ask (remap : N) (k : rkind) (qs : list gram) : res (list (option N)) :=
  t <- trie_build (ex_env remap k) (map (map line) ex_D) 4 remap ;;
  Ok (map (fun q => match trie_lookup (ex_env remap k) t ex_statics (join q) (0, lenN (join q)) with Ok (x, _) => Some x | _ => None end) qs).

(** it satisfies the hypotheses, for every remapping order *)
Ltac inl := vm_compute; repeat (first [left; reflexivity|right]).
Example ex_collection : forall remap, remap <= 2 -> collection ex_D remap.
Proof.
  assert (KS : forall k l, nthN ex_D k = Some l -> k = 0 \/ k = 1 \/ k = 2 \/ k = 3).
  { intros k l H. apply nthN_lt in H. change (lenN ex_D) with 4 in H. lia. }
  assert (KG : forall k g, In g (grams ex_D k) -> k = 0 \/ k = 1 \/ k = 2 \/ k = 3).
  { intros k g H. unfold grams in H. destruct (nthN ex_D k) eqn:E; [eapply KS; eauto|destruct H]. }
  assert (WL : forall i j x y, nthN (grams ex_D 0) i = Some [x] -> nthN (grams ex_D 0) j = Some [y] -> i < j -> word_lt (grams ex_D 0) x y) by (intros; eexists _, _; eauto).
  assert (W01 : word_lt (grams ex_D 0) wa wb) by (apply (WL 0 1); reflexivity).
  assert (W12 : word_lt (grams ex_D 0) wb wc) by (apply (WL 1 2); reflexivity).
  assert (W13 : word_lt (grams ex_D 0) wb wd) by (apply (WL 1 3); reflexivity).
  assert (W02 : word_lt (grams ex_D 0) wa wc) by (apply (WL 0 2); reflexivity).
  assert (W03 : word_lt (grams ex_D 0) wa wd) by (apply (WL 0 3); reflexivity).
  assert (W23 : word_lt (grams ex_D 0) wc wd) by (apply (WL 2 3); reflexivity).
  intros remap R. split.
  - change (lenN ex_D) with 4. lia.
  - intros k l H. destruct (KS k l H) as [->|[->|[->| ->]]]; injection H as <-; (split; [discriminate|reflexivity]).
  - assert (WW : forall w, In w [wa; wb; wc; wd] -> word w /\ ~ In 9 w /\ In [w] (grams ex_D 0)).
    { intros w H. cbn [In] in H. destruct H as [<-|[<-|[<-|[<-|[]]]]]; (split; [split; [discriminate|cbn; intuition discriminate]|split; [cbn; intuition discriminate|inl]]). }
    intros k g H. destruct (KG k g H) as [->|[->|[->| ->]]]; cbn in H; repeat (destruct H as [H|H]; [subst g; split; [reflexivity|repeat constructor; apply WW; inl]|]); destruct H.
  - intros k g H. destruct (KG k g H) as [->|[->|[->| ->]]]; cbn in H; repeat (destruct H as [H|H]; [subst g; reflexivity|]); destruct H.
  - cbn. repeat constructor; cbn; intuition discriminate.
  - intros k Hk. destruct (N.lt_ge_cases k 4) as [L|L].
    + assert (k = 1 \/ k = 2 \/ k = 3) as [->|[->| ->]] by lia; cbn [grams];
      repeat (constructor; try (first [apply gram_lt_here; [reflexivity|assumption]|apply gram_lt_next; apply gram_lt_here; [reflexivity|assumption]|apply gram_lt_next; apply gram_lt_next; apply gram_lt_here; [reflexivity|assumption]])).
    + unfold grams. destruct (nthN ex_D k) eqn:E; [apply nthN_lt in E; change (lenN ex_D) with 4 in E; lia|constructor].
  - intros k g Hk H. destruct (KG k g H) as [->|[->|[->| ->]]]; [lia| | |]; cbn in H; repeat (destruct H as [H|H]; [subst g; inl|]); destruct H.
  - assumption.
  - intros k g R0 Rk H. assert (remap = 1 \/ remap = 2) as [->| ->] by lia; destruct (KG k g H) as [->|[->|[->| ->]]]; try lia; cbn in H;
      repeat (destruct H as [H|H]; [subst g; inl|]); destruct H.
Qed.
Example ex_inputs : forall remap k, inputs_ok ex_D remap (ex_env remap k).
Proof.
  intros remap k. split.
  - reflexivity.
  - change (hash_domain (lenN (grams ex_D 0))) with 2. change (map (fun g : gram => join g) (grams ex_D 0)) with [wa; wb; wc; wd]. split.
    + exists [wa; wb; wc; wd]. split; [apply Permutation_refl|]. constructor; [|constructor; [|constructor; [|constructor; [|constructor]]]]; unfold edge_of; cbn.
      * apply Permutation_refl.
      * apply Permutation_refl.
      * apply perm_swap.
      * change (Permutation [5; 0; 2] ([0; 2] ++ [5])). apply Permutation_cons_append.
    + repeat constructor; cbn; intros H; repeat (destruct H as [H|H]; [discriminate|]); destruct H.
  - intros i Hi. left. change (lenN ex_D) with 4 in Hi. assert (i = 1 \/ i = 2 \/ i = 3) as [->|[->| ->]] by lia; reflexivity.
  - cbn [te_sorts ex_env]. induction ex_D as [|l D IH]; constructor; [apply Permutation_refl|exact IH].
  - vm_compute. discriminate.
  - repeat constructor.
Qed.
Example C22_example :
  ex_ask 0 IC (concat (map (map fst) ex_D)) = Ok (map Some [5; 3; 2; 10; 3; 2; 1; 4; 6; 1; 2; 2; 1]) /\
  ex_ask 1 PSEF (concat (map (map fst) ex_D)) = Ok (map Some [5; 3; 2; 10; 3; 2; 1; 4; 6; 1; 2; 2; 1]) /\
  ex_ask 2 IC (concat (map (map fst) ex_D)) = Ok (map Some [5; 3; 2; 10; 3; 2; 1; 4; 6; 1; 2; 2; 1]).
Proof. repeat split; vm_compute; reflexivity. Qed.
(** absent grams that meet the conditions of C23_absent_partial *)
Example C23_example :
  ex_ask 0 IC [[wa; wa]; [wc; wa]; [wa; wc; wa]; [wd; wa; wc; wd]; [[120]]; [wa; wc; wb; wd; wa; wc]] = Ok (repeat (Some not_found) 6) /\
  ex_ask 1 IC [[wa; wa]; [wc; wa]; [wa; wc; wa]; [wd; wa; wc; wd]; [[120]]; [wa; wc; wd; wa; wc; wd]] = Ok (repeat (Some not_found) 6) /\
  ex_ask 2 IC [[wa; wa]; [wc; wa]; [wa; wc; wa]; [wd; wa; wc; wd]; [[120]]] = Ok (repeat (Some not_found) 5).
Proof. repeat split; vm_compute; reflexivity. Qed.
Example C23_example_hyps :
  let q := [wd; wa; wc; wd] in
  (forall c, ~ indexed ex_D q c) /\ (forall w, In w q -> In [w] (grams ex_D 0)) /\
  (forall j, 0 < j < lenN q -> In (firstn (N.to_nat j) q) (grams ex_D (j - 1)) -> exists g, In g (grams ex_D j) /\ removelast g = firstn (N.to_nat j) q) /\
  (forall p, 0 < p -> p + 1 < lenN q -> exists g, In g (grams ex_D 1) /\ removelast g = firstn (N.to_nat 1) (skipn (N.to_nat p) q)).
Proof.
  cbn zeta. split; [|split; [|split]].
  - intros c (k & l & H1 & H2). pose proof (nthN_lt _ _ _ H1) as L. change (lenN ex_D) with 4 in L. assert (k = 0 \/ k = 1 \/ k = 2 \/ k = 3) as K by lia.
    destruct K as [->|[->|[->| ->]]]; injection H1 as <-; cbn in H2; repeat (destruct H2 as [H2|H2]; [discriminate H2|]); destruct H2.
  - intros w H. cbn in H. destruct H as [<-|[<-|[<-|[<-|[]]]]]; inl.
  - intros j Hj _. change (lenN [wd; wa; wc; wd]) with 4 in Hj. assert (j = 1 \/ j = 2 \/ j = 3) as [->|[->| ->]] by lia.
    + exists [wd; wa]. split; [inl|reflexivity].
    + exists [wd; wa; wc]. split; [inl|reflexivity].
    + exists [wd; wa; wc; wb]. split; [inl|reflexivity].
  - intros p H1 H2. change (lenN [wd; wa; wc; wd]) with 4 in H2. assert (p = 1 \/ p = 2) as [->| ->] by lia.
    + exists [wa; wb]. split; [inl|reflexivity].
    + exists [wc; wb]. split; [inl|reflexivity].
Qed.

(** "b dd" is not indexed ("b" has no continuation), but is answered with the count of "c dd" *)
Theorem C23_false_positive_refuted : forall remap, remap <= 2 -> collection ex_D remap /\ inputs_ok ex_D remap (ex_env remap IC) /\
  (forall c, ~ indexed ex_D [wb; wd] c) /\ indexed ex_D [wc; wd] 4 /\ ex_ask remap IC [[wb; wd]] = Ok [Some 4].
Proof.
  intros remap R. split; [apply ex_collection; assumption|]. split; [apply ex_inputs|]. split; [|split].
  - intros c (k & l & H1 & H2). pose proof (nthN_lt _ _ _ H1) as L. change (lenN ex_D) with 4 in L. assert (k = 0 \/ k = 1 \/ k = 2 \/ k = 3) as K by lia.
    destruct K as [->|[->|[->| ->]]]; injection H1 as <-; cbn in H2; repeat (destruct H2 as [H2|H2]; [discriminate H2|]); destruct H2.
  - exists 1. eexists. split; [reflexivity|]. inl.
  - assert (remap = 0 \/ remap = 1 \/ remap = 2) as [->|[->| ->]] by lia; vm_compute; reflexivity.
Qed.
(** a query of order + 1 words that extends an indexed gram reads the pointers of the last level,
    which were never built; one of more than 8 words writes past the end of word_ids *)
Theorem C23_long_query_refuted :
  ex_ask 0 IC [[wd; wa; wc; wb; wa]] = Ok [None] /\ ex_ask 0 IC [[wa; wa; wa; wa; wa; wa; wa; wa; wa]] = Ok [None].
Proof. split; vm_compute; reflexivity. Qed.

Example C23_any_example : exists t, trie_build (ex_env 0 IC) (map (map line) ex_D) (lenN ex_D) 0 = Ok t /\
  query_order (wa ++ [32] ++ wb) = 2 /\ exists c st', trie_lookup (ex_env 0 IC) t (repN 0 8, repN 0 8) (wa ++ [32] ++ wb) (0, 3) = Ok (c, st').
Proof. eexists. split; [vm_compute; reflexivity|]. split; [reflexivity|]. eexists _, _. vm_compute. reflexivity. Qed.
Print Assumptions C22_lookup_indexed.
Print Assumptions C23_absent_partial.
Print Assumptions C23_false_positive_refuted.
Print Assumptions C23_long_query_refuted.
Print Assumptions C23_any_answer_partial.
