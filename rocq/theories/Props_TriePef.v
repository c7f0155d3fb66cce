(** * Property C42: count tries over uniform_pef (the instances of lm_types.hpp 50-86 with pef grams or pspef ranks) *)
From Verif Require Import Prelude BitFacts M_Word P_Word M_Bits Spec P_Bits M_CompactVector P_CompactVector M_DArray M_EF P_EF P_EF2
  M_HashVec M_Mph P_Mph P_MphTables M_FastEF P_FastEF3 M_Text P_Text P_Text2 M_SeqColl P_SeqColl M_Pool P_Pool M_Pef Spec_Pef M_Trie M_TriePef Spec_Trie Spec_TriePef
  P_Trie1 P_Trie2 P_Trie3 P_Trie4 P_Trie5 P_Trie6 P_Trie7 P_TriePef1 P_TriePef2 P_TriePef3 P_TriePef4 P_TriePef5 P_TriePef6 Props_Trie.
From Coq Require Import Permutation Sorting.Sorted.

(** the word after each array of a sequence, which the code reads, exists *)
Definition one_word_after (p : pads) : Prop := exists x y, p = mkpads [x] [y] /\ x < 2 ^ 64 /\ y < 2 ^ 64.
(** What the build gets from outside the code modelled here, as [inputs_ok] of Props_Trie; in
    addition, sizes for which the stored sums fit the fields of uniform_pef_sequence. *)
Record pef_inputs_ok (D : list (list (gram * N))) (remap : N) (env : penv) : Prop := {
  pi_mapper : te_map (pe_t env) = negb (remap =? 0);
  pi_vocab : valid_order (hash_domain (lenN (grams D 0))) (te_h (pe_t env)) (map (fun g : gram => join g) (grams D 0)) (te_vorder (pe_t env));
  (* fast_ef grams: peeling orders for the long ranges *)
  pi_long : pe_pef env = false -> forall k, 0 < k < lenN D -> let starts := long_starts 128 (child_ptrs (grams D (k - 1)) (grams D k)) in
    starts = [] \/ valid_order (hash_domain (lenN starts)) (te_hu (pe_t env) k) starts (te_orders (pe_t env) k);
  (* uniform_pef grams *)
  pi_pef : pe_pef env = true -> forall k, 0 < k < lenN D ->
    lenN (grams D k) * lenN (grams D 0) < 2 ^ 56 /\ one_word_after (pe_gpad env k) /\
    (lenN (grams D k) <= piece (k + 1) -> lenN (grams D k) * lenN (grams D 0) < 2 ^ 31) /\ level_searchable D remap k;
  (* prefix-summed uniform_pef ranks *)
  pi_pspef : pe_pspef env = true -> forall k l, nthN D k = Some l ->
    lenN l * lenN (nodup N.eq_dec (map snd l)) < 2 ^ 56 /\ one_word_after (pe_rpad env k);
  pi_sorts : Forall2 (fun (l : list (gram * N)) s => Permutation s (with_freq (map snd l))) D (te_sorts (pe_t env));
  pi_ram : lenN (concat (map (fun g : gram => join g) (grams D 0))) <= te_ram (pe_t env);
  pi_counts : Forall (Forall (fun e => snd e < 2 ^ 64 - 1)) D }.
Lemma pef_inputs_env D remap env : collection D remap -> pef_inputs_ok D remap env -> penv_ok D remap env.
Proof.
  intros C [H1 H2 H3 H4 H5 H6 H7 H8]. split; [assumption|]. split; [unfold uwords; rewrite lenN_map; assumption|].
  split; [|split; [|split; [exact H6|split; [exact H7|exact H8]]]].
  - intros k Hk. destruct (pe_pef env); [|apply (H3 eq_refl k Hk)]. destruct (H4 eq_refl k Hk) as (A1 & A2 & A3 & A4). split; [exact A1|]. split; [exact A2|].
    intros L. split; [exact (A3 L)|]. apply (searchable_lids D remap C k A4 L).
  - intros P k l Hl. exact (H5 P k l Hl).
Qed.

(** a history of queries: each is the bytes [r] of a buffer *)
Fixpoint ask_all (env : penv) (t : ptrie) (st : statics) (qs : list (list N * byte_range)) : res (list N) :=
  match qs with
  | [] => Ok []
  | (buf, r) :: qs => ' (c, st, t) <- ptrie_lookup env t st buf r ;; cs <- ask_all env t st qs ;; Ok (c :: cs)
  end.

(** Construction succeeds; then any history of queries for indexed grams, of any orders, wherever
    their texts lie in buffers, is answered with their counts.  Partial: levels that are not
    [level_searchable] are excluded (see the theorem below), the sizes are limited as in
    [pef_inputs_ok], and the queries for grams that are not indexed are not part of the histories. *)
Theorem C42_pef_lookup_partial : forall (D : list (list (gram * N))) (remap : N) (env : penv),
  collection D remap -> pef_inputs_ok D remap env ->
  exists t, ptrie_build env (map (map line) D) (lenN D) remap = Ok t /\
    forall queries counts st, statics_ok st ->
      Forall2 (fun (query : list N * byte_range) c => exists q, indexed D q c /\ holds_text (fst query) (snd query) (join q)) queries counts ->
      ask_all env t st queries = Ok counts.
Proof.
  intros D remap env C IO. pose proof (pef_inputs_env _ _ _ C IO) as EO. destruct (ptrie_build_ok D remap C env EO) as (t & ET & TR). exists t. split; [exact ET|]. clear ET.
  intros queries counts st SO F. revert t st TR SO. induction F as [|[buf r] c qs cs (q & (k & l & Hl & Hq) & HT) F IH]; intros t st TR (S1 & S2); [reflexivity|].
  cbn [ask_all fst snd] in *. destruct (panswer_ok D remap C env EO t k l q c st buf r TR Hl Hq ltac:(lia) ltac:(lia) HT) as (st' & t' & E & A1 & A2 & TR').
  rewrite E. cbn [bind]. cbv beta iota. rewrite (IH t' st' TR'); [reflexivity|]. split; congruence.
Qed.

(** A query for an n-gram that is not indexed is answered with not_found, anywhere in the history, if its words are in the
    vocabulary or rejected by it (C21) and it is told apart ([query_told_apart], Spec_TriePef) from those that are.  Partial: other absent n-grams can be reported ([C42_absent_refuted]). *)
Theorem C42_pef_absent_partial : forall (D : list (list (gram * N))) (remap : N) (env : penv),
  collection D remap -> pef_inputs_ok D remap env ->
  exists t, ptrie_build env (map (map line) D) (lenN D) remap = Ok t /\
    forall queries answers st, statics_ok st ->
      Forall2 (fun (query : list N * byte_range) a => exists q, holds_text (fst query) (snd query) (join q) /\
        (indexed D q a \/
         (a = not_found /\ (forall c, ~ indexed D q c) /\ q <> [] /\ Forall word q /\ lenN q <= lenN D /\
          (forall w, In w q -> In [w] (grams D 0) \/ svt_lookup 64 (te_h (pe_t env)) (pt_vocab t) w = Ok not_found) /\
          query_told_apart D remap q))) queries answers ->
      ask_all env t st queries = Ok answers.
Proof.
  intros D remap env C IO. pose proof (pef_inputs_env _ _ _ C IO) as EO. destruct (ptrie_build_ok D remap C env EO) as (t & ET & TR). exists t. split; [exact ET|]. clear ET.
  intros queries answers st SO F.
  assert (G : forall t', ptrie_rep D remap env t' -> pt_vocab t' = pt_vocab t -> forall st, statics_ok st -> ask_all env t' st queries = Ok answers).
  { clear st SO. induction F as [|[buf r] a qs cs (q & HT & HQ) F IH]; intros t' TR' TV st (S1 & S2); [reflexivity|]. cbn [ask_all fst snd] in *. destruct HQ as [(k & l & Hl & Hq)|(-> & NI & QN & QW & QL & QV & QS & QT)].
    - destruct (panswer_ok D remap C env EO t' k l q a st buf r TR' Hl Hq ltac:(lia) ltac:(lia) HT) as (st' & t2 & E & A1 & A2 & TR2).
      rewrite E. cbn [bind]. cbv beta iota. rewrite (IH t2 TR2); [reflexivity| |split; congruence].
      rewrite <- TV. clear - E. unfold ptrie_lookup in E. destruct st as [w p]. apply bind_ok in E. destruct E as ([[[o w1] p1] arr] & _ & E).
      destruct ((o =? not_found) || (pt_order t' <? o)); [injection E as <- _ <-; reflexivity|]. apply bind_ok in E. destruct E as (w0 & _ & E). apply bind_ok in E. destruct E as ([ps ar] & _ & E).
      destruct ((ps =? not_found) && negb (o =? 0)); [injection E as <- _ <-; reflexivity|]. apply bind_ok in E. destruct E as ([rk ar2] & _ & E). apply bind_ok in E. destruct E as (cc & _ & E). injection E as <- _ <-. reflexivity.
    - destruct (pabsent_ok D remap C env EO t' q st buf r TR' QN QW QL) as (st' & t2 & E & A1 & A2 & TR2 & TV2); try assumption; try lia.
      { intro I. unfold grams in I. destruct (nthN D (lenN q - 1)) as [l|] eqn:El; [|destruct I]. apply in_map_iff in I. destruct I as ([q' c] & EQ & I). cbn in EQ. subst q'. apply (NI c). exists (lenN q - 1), l. auto. }
      { rewrite TV. exact QV. }
      { intros R0 o Ho. apply QS. split; [lia|]. exists (o - remap). split; [lia|]. split; [lia|]. unfold sfx. rewrite firstn_skipn_comm. do 2 f_equal. lia. }
      { intros A j0 Hj HA HB. apply QT; try assumption. intros s (R0 & p & P1 & P2 & ->). specialize (A ltac:(lia) (p + remap) ltac:(lia)). unfold sfx in A. rewrite firstn_skipn_comm.
        replace (N.to_nat p + N.to_nat (remap + 1))%nat with (N.to_nat (p + remap + 1)) by lia. replace (N.to_nat p) with (N.to_nat (p + remap - remap)) by lia. exact A. }
      rewrite E. cbn [bind]. cbv beta iota. rewrite (IH t2 TR2); [reflexivity|congruence|split; congruence]. }
  exact (G t TR eq_refl st SO).
Qed.

(** With fast_ef grams and pspef ranks no level is excluded. *)
Theorem C42_ef_pspef_lookup_partial : forall (D : list (list (gram * N))) (remap : N) (tv : tenv) (gpad rpad : N -> pads) (swap : bool),
  collection D remap -> inputs_ok D remap tv ->
  (forall k l, nthN D k = Some l -> lenN l * lenN (nodup N.eq_dec (map snd l)) < 2 ^ 56) -> (forall k, one_word_after (rpad k)) ->
  let env := mkpenv tv false true gpad rpad swap in
  exists t, ptrie_build env (map (map line) D) (lenN D) remap = Ok t /\
    forall queries counts st, statics_ok st ->
      Forall2 (fun (query : list N * byte_range) c => exists q, indexed D q c /\ holds_text (fst query) (snd query) (join q)) queries counts ->
      ask_all env t st queries = Ok counts.
Proof.
  intros D remap tv gpad rpad swap C [H1 H2 H3 H4 H5 H6] HS HP env. apply C42_pef_lookup_partial; [exact C|].
  split; try assumption; cbn; intros; try discriminate; auto. split; [eapply HS; eassumption|apply HP].
Qed.

(** the data set of Props_Trie, with every choice of sequences *)
Definition pex (remap : N) (k : rkind) (pef psp sw : bool) : penv :=
  mkpenv (ex_env remap k) pef psp (fun _ => mkpads [0] [0]) (fun _ => mkpads [7] [3]) sw.
Lemma ex_searchable remap k : remap <= 2 -> 0 < k < lenN ex_D -> level_searchable ex_D remap k.
Proof.
  intros R Hk _. change (lenN ex_D) with 4 in Hk.
  assert (RC : remap = 0 \/ remap = 1 \/ remap = 2) by lia. assert (KC : k = 1 \/ k = 2 \/ k = 3) by lia.
  destruct KC as [->|[->| ->]]; [| |left; reflexivity].
  - right. right. exists 1, [wa; wc]. split; [lia|]. split; [reflexivity|]. destruct RC as [->|[->| ->]]; cbn; discriminate.
  - right. right. exists 1, [wa; wc; wd]. split; [lia|]. split; [reflexivity|]. destruct RC as [->|[->| ->]]; [cbn; discriminate| |cbn; discriminate].
    intros H. unfold first_choice in H. cbn [orb] in H. change ((1 =? 0) || (2 <=? 1)) with false in H. cbv iota zeta in H.
    specialize (H 3 2 [wc; wb] eq_refl eq_refl eq_refl). lia.
Qed.
Example pex_inputs : forall remap k pef psp sw, remap <= 2 -> pef_inputs_ok ex_D remap (pex remap k pef psp sw).
Proof.
  intros remap k pef psp sw R. destruct (ex_inputs remap k) as [H1 H2 H3 H4 H5 H6]. split; try assumption.
  - intros _. exact H3.
  - intros _ j Hj. split; [|split; [|split; [|apply ex_searchable; assumption]]].
    + change (lenN ex_D) with 4 in Hj. assert (j = 1 \/ j = 2 \/ j = 3) as [->|[->| ->]] by lia; reflexivity.
    + exists 0, 0. split; [reflexivity|]. split; reflexivity.
    + intros _. change (lenN ex_D) with 4 in Hj. assert (j = 1 \/ j = 2 \/ j = 3) as [->|[->| ->]] by lia; reflexivity.
  - intros _ j l Hl. split.
    + pose proof (nthN_lt _ _ _ Hl) as L. change (lenN ex_D) with 4 in L. assert (j = 0 \/ j = 1 \/ j = 2 \/ j = 3) as [->|[->|[->| ->]]] by lia; injection Hl as <-; reflexivity.
    + exists 7, 3. split; [reflexivity|]. split; reflexivity.
Qed.
Definition pex_run (remap : N) (k : rkind) (pef psp sw : bool) (qs : list gram) : res (list N) :=
  t <- ptrie_build (pex remap k pef psp sw) (map (map line) ex_D) 4 remap ;;
  ask_all (pex remap k pef psp sw) t ex_statics (map (fun q => (join q, (0, lenN (join q)))) qs).
Example C42_example :
  pex_run 0 IC true false false (concat (map (map fst) ex_D)) = Ok [5; 3; 2; 10; 3; 2; 1; 4; 6; 1; 2; 2; 1] /\
  pex_run 1 PSEF true true true (rev (concat (map (map fst) ex_D))) = Ok (rev [5; 3; 2; 10; 3; 2; 1; 4; 6; 1; 2; 2; 1]) /\
  pex_run 2 IC true true false (concat (map (map fst) ex_D)) = Ok [5; 3; 2; 10; 3; 2; 1; 4; 6; 1; 2; 2; 1].
Proof. split; [vm_compute; reflexivity|]. split; vm_compute; reflexivity. Qed.

(** the bigram "c c" is not indexed and is told apart *)
Example C42_absent_example : (forall c, ~ indexed ex_D [wc; wc] c) /\ told_apart ex_D 0 1 [wc; wc] /\
  pex_run 0 IC true false false [[wc; wd]; [wc; wc]; [wa; wc; wd]] = Ok [4; not_found; 2].
Proof.
  split; [|split; [split|]].
  - intros c (k & l & Hl & I). pose proof (nthN_lt _ _ _ Hl) as L. change (lenN ex_D) with 4 in L.
    assert (k = 0 \/ k = 1 \/ k = 2 \/ k = 3) as [->|[->|[->| ->]]] by lia; injection Hl as <-; cbn [In] in I; repeat (destruct I as [I|I]; [discriminate I|]); destruct I.
  - vm_compute. discriminate.
  - exists wd. split; [exists 2, 3; split; [reflexivity|split; reflexivity]|]. vm_compute. auto 6.
  - vm_compute. reflexivity.
Qed.
(** with remapping order 1 the trigram "a c c" is not indexed and is told apart: its inner bigram "c c" is *)
Example C42_absent_example_remapped : (forall c, ~ indexed ex_D [wa; wc; wc] c) /\ query_told_apart ex_D 1 [wa; wc; wc] /\
  pex_run 1 IC true false false [[wc; wd]; [wa; wc; wc]; [wa; wc; wd]] = Ok [4; not_found; 2].
Proof.
  split; [|split; [split|]].
  - intros c (k & l & Hl & I). pose proof (nthN_lt _ _ _ Hl) as L. change (lenN ex_D) with 4 in L.
    assert (k = 0 \/ k = 1 \/ k = 2 \/ k = 3) as [->|[->|[->| ->]]] by lia; injection Hl as <-; cbn [In] in I; repeat (destruct I as [I|I]; [discriminate I|]); destruct I.
  - intros s (_ & p & P1 & P2 & ->). change (lenN [wa; wc; wc]) with 3 in P2. assert (p = 1) as -> by lia. right. split.
    + vm_compute. discriminate.
    + exists wd. split; [exists 2, 3; split; [reflexivity|split; reflexivity]|]. vm_compute. auto 6.
  - intros A. exfalso. specialize (A [wc; wc]). assert (I : inner 1 [wa; wc; wc] [wc; wc]) by (split; [lia|exists 1; split; [lia|split; [vm_compute; reflexivity|reflexivity]]]).
    apply A in I. vm_compute in I. repeat (destruct I as [I|I]; [discriminate I|]). destruct I.
  - vm_compute. reflexivity.
Qed.

(** a level that is not searchable: bigrams "a b", "b a", "c a"; the query "a b" makes the search read outside
    the partition, with every remapping order that applies; with fast_ef grams it is answered *)
Definition eq_D : list (list (gram * N)) :=
  [[([wa], 5); ([wb], 3); ([wc], 2); ([wd], 10)]; [([wa; wb], 4); ([wb; wa], 2); ([wc; wa], 7)]].
Definition eq_env (pef : bool) : penv :=
  mkpenv (mktenv ex_h [(0, 2, 4); (1, 2, 4); (3, 0, 4); (5, 0, 2)] (fun _ _ => (0, 0, 0)) (fun _ => []) (map (fun l => with_freq (map snd l)) eq_D) IC false 10)
    pef false (fun _ => mkpads [0] [0]) (fun _ => mkpads [0] [0]) true.
Definition eq_ask (pef : bool) (q : gram) : option (res N) :=
  match ptrie_build (eq_env pef) (map (map line) eq_D) 2 0 with
  | Ok t => Some (' (c, _, _) <- ptrie_lookup (eq_env pef) t ex_statics (join q) (0, lenN (join q)) ;; Ok c)
  | _ => None
  end.
Lemma eq_collection : collection eq_D 0.
Proof.
  assert (KG : forall k g, In g (grams eq_D k) -> k = 0 \/ k = 1).
  { intros k g H. unfold grams in H. destruct (nthN eq_D k) eqn:E; [apply nthN_lt in E; change (lenN eq_D) with 2 in E; lia|destruct H]. }
  assert (WL : forall i j x y, nthN (grams eq_D 0) i = Some [x] -> nthN (grams eq_D 0) j = Some [y] -> i < j -> word_lt (grams eq_D 0) x y) by (intros; eexists _, _; eauto).
  assert (W01 : word_lt (grams eq_D 0) wa wb) by (apply (WL 0 1); reflexivity).
  assert (W12 : word_lt (grams eq_D 0) wb wc) by (apply (WL 1 2); reflexivity).
  assert (W02 : word_lt (grams eq_D 0) wa wc) by (apply (WL 0 2); reflexivity).
  split.
  - change (lenN eq_D) with 2. lia.
  - intros k l H. pose proof (nthN_lt _ _ _ H) as L. change (lenN eq_D) with 2 in L. assert (k = 0 \/ k = 1) as [->| ->] by lia; injection H as <-; (split; [discriminate|reflexivity]).
  - assert (WW : forall w, In w [wa; wb; wc; wd] -> word w /\ ~ In 9 w /\ In [w] (grams eq_D 0)).
    { intros w H. cbn [In] in H. destruct H as [<-|[<-|[<-|[<-|[]]]]]; (split; [split; [discriminate|cbn; intuition discriminate]|split; [cbn; intuition discriminate|inl]]). }
    intros k g H. destruct (KG k g H) as [->| ->]; cbn in H; repeat (destruct H as [H|H]; [subst g; split; [reflexivity|repeat constructor; apply WW; inl]|]); destruct H.
  - intros k g H. destruct (KG k g H) as [->| ->]; cbn in H; repeat (destruct H as [H|H]; [subst g; reflexivity|]); destruct H.
  - cbn. repeat constructor; cbn; intuition discriminate.
  - intros k Hk. destruct (N.lt_ge_cases k 2) as [L|L].
    + assert (k = 1) as -> by lia. cbn [grams]. repeat (constructor; try (apply gram_lt_here; [reflexivity|assumption])).
    + unfold grams. destruct (nthN eq_D k) eqn:E; [apply nthN_lt in E; change (lenN eq_D) with 2 in E; lia|constructor].
  - intros k g Hk H. destruct (KG k g H) as [->| ->]; [lia|]. cbn in H; repeat (destruct H as [H|H]; [subst g; inl|]); destruct H.
  - lia.
  - intros k g R0. lia.
Qed.
Theorem C42_equal_level_refuted : collection eq_D 0 /\ indexed eq_D [wa; wb] 4 /\
  eq_ask true [wa; wb] = Some UB /\ eq_ask false [wa; wb] = Some (Ok 4) /\ ~ level_searchable eq_D 0 1.
Proof.
  split; [exact eq_collection|]. split; [exists 1; eexists; split; [reflexivity|]; inl|]. split; [vm_compute; reflexivity|]. split; [vm_compute; reflexivity|].
  intros H. destruct H as [H|[H|(i & g & H1 & H2 & H3)]].
  - vm_compute. discriminate.
  - vm_compute in H. discriminate.
  - apply Forall_inv in H. vm_compute in H. discriminate.
  - pose proof (nthN_lt _ _ _ H2) as L. change (lenN (grams eq_D 1)) with 3 in L. apply H3. assert (i = 1 \/ i = 2) as [->| ->] by lia; injection H2 as <-; reflexivity.
Qed.

Print Assumptions C42_pef_lookup_partial.
Print Assumptions C42_pef_absent_partial.
Print Assumptions C42_ef_pspef_lookup_partial.
Print Assumptions C42_equal_level_refuted.

(** an absent gram whose words and prefix are indexed, under the hypotheses of C42_pef_lookup_partial: with uniform_pef grams
    the bigrams "a a" and "a dd" get the counts of "a b" and "c b", with fast_ef grams they are not found *)
Theorem C42_absent_refuted : forall remap, remap <= 2 -> collection ex_D remap /\ pef_inputs_ok ex_D remap (pex remap IC true false false) /\
  (forall c, ~ indexed ex_D [wa; wa] c) /\ (forall c, ~ indexed ex_D [wa; wd] c) /\
  pex_run remap IC true false false [[wa; wa]] = Ok [3] /\ pex_run remap IC true false false [[wa; wd]] = Ok [1] /\
  pex_run remap IC false false false [[wa; wa]; [wa; wd]] = Ok [not_found; not_found].
Proof.
  intros remap R. split; [apply ex_collection; exact R|]. split; [apply pex_inputs; exact R|].
  assert (NI : forall q, In q [[wa; wa]; [wa; wd]] -> forall c, ~ indexed ex_D q c).
  { intros q Hq c (k & l & H1 & H2). pose proof (nthN_lt _ _ _ H1) as L. change (lenN ex_D) with 4 in L. assert (k = 0 \/ k = 1 \/ k = 2 \/ k = 3) as K by lia.
    destruct Hq as [<-|[<-|[]]]; (destruct K as [->|[->|[->| ->]]]; injection H1 as <-; cbn in H2; repeat (destruct H2 as [H2|H2]; [discriminate H2|]); destruct H2). }
  split; [apply NI; left; reflexivity|]. split; [apply NI; right; left; reflexivity|].
  assert (remap = 0 \/ remap = 1 \/ remap = 2) as [->|[->| ->]] by lia; (split; [vm_compute; reflexivity|]; split; [vm_compute; reflexivity|]; vm_compute; reflexivity).
Qed.
Print Assumptions C42_absent_refuted.
