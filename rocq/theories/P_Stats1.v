(** * Statistics: the queue of the largest ranges, the pointer loop *)
From Verif Require Import Prelude BitFacts M_Word P_Word M_Bits Spec P_Bits M_CompactVector P_CompactVector M_DArray M_EF P_EF P_EF2
  M_HashVec M_Mph M_FastEF M_SeqColl M_Trie Spec_Trie P_Trie1 M_Stats Spec_Stats P_Typed.
From Coq Require Import Permutation Sorting.Sorted.

Lemma foldM_seq {S} (I : N -> S -> Prop) (f : S -> N -> res S) m : forall s n, I s n ->
  (forall i a, s <= i < s + N.of_nat m -> I i a -> exists a', f a i = Ok a' /\ I (i + 1) a') ->
  exists a, foldM f (seqN s m) n = Ok a /\ I (s + N.of_nat m) a.
Proof.
  induction m as [|m IH]; intros s n H0 HS; [exists n; rewrite N.add_0_r; auto|].
  cbn [seqN foldM]. destruct (HS s n ltac:(lia) H0) as (a' & E & I'). rewrite E. cbn [bind].
  replace (N.succ s) with (s + 1) by lia. destruct (IH (s + 1) a' I') as (b & E2 & I2).
  { intros i a Hi. apply HS. lia. }
  exists b. split; [exact E2|]. replace (s + N.of_nat (Datatypes.S m)) with (s + 1 + N.of_nat m) by lia. exact I2.
Qed.
Lemma foldM_rng {S} (I : N -> S -> Prop) (f : S -> N -> res S) n s0 : I 0 s0 ->
  (forall i a, i < n -> I i a -> exists a', f a i = Ok a' /\ I (i + 1) a') ->
  exists a, foldM f (range n) s0 = Ok a /\ I n a.
Proof.
  intros H0 HS. unfold range. destruct (foldM_seq I f (N.to_nat n) 0 s0 H0) as (a & E & IA).
  { intros i a Hi. apply HS. lia. }
  exists a. split; [exact E|]. rewrite N.add_0_l, Nnat.N2Nat.id in IA. exact IA.
Qed.

(** ** heaps *)
Lemma heap_front l : is_heap l -> forall x, nthN l 0 = Some x -> forall i y, nthN l i = Some y -> x <= y.
Proof.
  intros H x Hx i. induction i as [i IH] using (well_founded_induction N.lt_wf_0). intros y Hy.
  destruct (N.eq_dec i 0) as [->|Hi]; [rewrite Hx in Hy; injection Hy as <-; lia|].
  assert (L : (i - 1) / 2 < i) by (apply N.div_lt_upper_bound; lia).
  destruct (nthN_Some l ((i - 1) / 2)) as (z & Hz). { apply nthN_lt in Hy. lia. }
  pose proof (H i y z ltac:(lia) Hy Hz). pose proof (IH _ L z Hz). lia.
Qed.
Lemma heap_nil : is_heap [].
Proof. intros i x y _ H. unfold nthN in H. destruct (N.to_nat i); discriminate H. Qed.
Lemma Permutation_lenN {A} (a b : list A) : Permutation a b -> lenN a = lenN b.
Proof. intros H. unfold lenN. rewrite (Permutation_length H). reflexivity. Qed.

(** [data] is a heap of the [k] largest of [l] *)
Definition top_inv (k : N) (l data : list N) : Prop :=
  is_heap data /\ exists rest, Permutation l (data ++ rest) /\ lenN data = N.min k (lenN l) /\ forall a b, In a data -> In b rest -> b <= a.
Lemma topk_add_ok ho k l data x : heap_functions (ho_push ho) (ho_pop ho) -> 0 < k < 2 ^ 64 -> top_inv k l data ->
  exists data', topk_add ho k data x = Ok data' /\ top_inv k (l ++ [x]) data'.
Proof.
  intros [HP HQ] Hk (HH & rest & P & L & LE). unfold topk_add.
  pose proof (Permutation_lenN _ _ P) as PL. rewrite lenN_app in PL.
  assert (PX : forall d r, Permutation (x :: data ++ rest) (d ++ r) -> Permutation (l ++ [x]) (d ++ r)).
  { intros d r Q. rewrite <- Q. rewrite P. rewrite <- Permutation_cons_append. reflexivity. }
  destruct (N.ltb_spec (lenN data) k) as [Z|Z].
  - assert (R0 : rest = []). { destruct rest; [reflexivity|]. rewrite lenN_cons in PL. lia. } subst rest.
    destruct (HP data x HH) as (H1 & H2). eexists. split; [reflexivity|]. split; [exact H1|]. exists []. split; [|split; [|intros ? ? ? []]].
    + apply PX. rewrite !app_nil_r, H2. apply Permutation_cons_append.
    + rewrite (Permutation_lenN _ _ H2), !lenN_app, lenN_cons. change (lenN (@nil N)) with 0 in *. lia.
  - destruct data as [|m d]; [change (lenN (@nil N)) with 0 in Z; lia|].
    assert (M0 : nthN (m :: d) 0 = Some m) by reflexivity.
    rewrite (proj2 (rd_nthN _ _ _) M0). cbn [bind].
    assert (ML : forall a, In a (m :: d) -> m <= a). { intros a Ha. apply In_nthN in Ha. destruct Ha as (i & Hi). exact (heap_front _ HH m M0 i a Hi). }
    destruct (N.ltb_spec m x) as [MX|MX].
    + destruct (HQ m d HH) as (l' & EQ & PQ & HH'). cbv zeta. rewrite EQ.
      assert (LL : lenN (l' ++ [m]) = lenN l' + 1) by (rewrite lenN_app; reflexivity).
      assert (LB : lenN l' + 1 < 2 ^ 64). { pose proof (Permutation_lenN _ _ PQ). rewrite lenN_cons in L. lia. }
      rewrite LL. rewrite sub64_small by lia. replace (lenN l' + 1 - 1) with (lenN l') by lia.
      rewrite wr_setN by lia. cbn [bind].
      assert (SE : setN (l' ++ [m]) (lenN l') x = l' ++ [x]).
      { clear. unfold setN, lenN. rewrite Nnat.Nat2N.id. induction l' as [|a l' IH]; [reflexivity|]. cbn. f_equal. exact IH. }
      rewrite SE. destruct (HP l' x HH') as (H1 & H2). eexists. split; [reflexivity|]. split; [exact H1|]. exists (m :: rest). split; [|split].
      * apply PX. transitivity ((l' ++ [x]) ++ m :: rest); [|apply Permutation_app_tail; symmetry; exact H2].
        rewrite <- app_assoc. cbn [app]. transitivity (x :: m :: l' ++ rest); [apply perm_skip, perm_skip, Permutation_app_tail; symmetry; exact PQ|].
        transitivity (x :: l' ++ m :: rest); [apply perm_skip, Permutation_middle|apply Permutation_middle].
      * rewrite (Permutation_lenN _ _ H2), !lenN_app, lenN_cons. change (lenN (@nil N)) with 0. rewrite lenN_cons in L, Z. rewrite lenN_cons in PL.
        pose proof (Permutation_lenN _ _ PQ). lia.
      * intros a b Ha Hb. apply (Permutation_in _ H2), in_app_or in Ha. destruct Hb as [<-|Hb].
        -- destruct Ha as [Ha|[<-|[]]]; [apply ML; right; apply (Permutation_in _ PQ); exact Ha|lia].
        -- pose proof (LE m b (or_introl eq_refl) Hb). destruct Ha as [Ha|[<-|[]]]; [|lia].
           apply LE; [right; apply (Permutation_in _ PQ); exact Ha|exact Hb].
    + eexists. split; [reflexivity|]. split; [exact HH|]. exists (x :: rest). split; [|split].
      * apply PX. apply Permutation_middle.
      * rewrite L, lenN_app, lenN_cons. change (lenN (@nil N)) with 0. rewrite lenN_cons in Z, L. lia.
      * intros a b Ha [<-|Hb]; [pose proof (ML a Ha); lia|apply LE; assumption].
Qed.
Lemma insert_desc_perm x l : Permutation (insert_desc x l) (x :: l).
Proof. induction l as [|y l IH]; [reflexivity|]. cbn [insert_desc]. destruct (y <? x); [reflexivity|]. rewrite IH. apply perm_swap. Qed.
Lemma sort_desc_perm l : Permutation (sort_desc l) l.
Proof. induction l as [|y l IH]; [reflexivity|]. cbn. rewrite insert_desc_perm. apply perm_skip. exact IH. Qed.
Lemma insert_desc_sorted x l : StronglySorted (fun a b => b <= a) l -> StronglySorted (fun a b => b <= a) (insert_desc x l).
Proof.
  induction l as [|y l IH]; intros H; [constructor; constructor|]. cbn [insert_desc]. inversion H as [|? ? H1 H2]; subst. destruct (N.ltb_spec y x).
  - constructor; [exact H|]. constructor; [lia|]. eapply Forall_impl; [|exact H2]. cbn. intros; lia.
  - constructor; [apply IH; exact H1|]. apply (Permutation_Forall (Permutation_sym (insert_desc_perm x l))). constructor; [lia|exact H2].
Qed.
Lemma sort_desc_sorted l : StronglySorted (fun a b => b <= a) (sort_desc l).
Proof. induction l; cbn; [constructor|]. apply insert_desc_sorted. assumption. Qed.
Lemma top_final k l data : top_inv k l data -> largest k l (sort_desc data).
Proof.
  intros (_ & rest & P & L & LE). exists rest. split; [rewrite sort_desc_perm; exact P|]. split; [rewrite (Permutation_lenN _ _ (sort_desc_perm data)); exact L|].
  split; [apply sort_desc_sorted|]. intros a b Ha Hb. apply LE; [apply (Permutation_in _ (sort_desc_perm data)); exact Ha|exact Hb].
Qed.

(** ** the pointer loop *)
Definition pos_only (l : list N) : list N := filter (fun c => 0 <? c) l.
Definition gap (vs : list N) (i : N) : N := nth (N.to_nat (i + 1)) vs 0 - nth (N.to_nat i) vs 0.
Lemma nth_nthN (vs : list N) i v : nthN vs i = Some v -> nth (N.to_nat i) vs 0 = v.
Proof. unfold nthN. intros H. apply nth_error_nth with (d := 0) in H. exact H. Qed.
Lemma pos_only_snoc l x : pos_only (l ++ [x]) = if x =? 0 then pos_only l else pos_only l ++ [x].
Proof. unfold pos_only. rewrite filter_app. cbn. destruct (N.eqb_spec x 0); [subst x; cbn; apply app_nil_r|]. destruct (N.ltb_spec 0 x); [reflexivity|lia]. Qed.
Lemma range_snoc n : range (n + 1) = range n ++ [n].
Proof.
  unfold range. replace (N.to_nat (n + 1)) with (N.to_nat n + 1)%nat by lia. rewrite seqN_app. cbn. f_equal. f_equal. lia.
Qed.
Record stats_of (k : N) (l : list N) (sum max min nn : N) (top : list N) : Prop := {
  so_sum : sum = sumN l;
  so_max : (pos_only l = [] /\ max = 0) \/ maximum (pos_only l) max;
  so_min : (pos_only l = [] /\ min = not_found) \/ minimum (pos_only l) min;
  so_nn : nn = lenN (pos_only l);
  so_top : top_inv k (pos_only l) top }.
Lemma sumN_snoc l x : sumN (l ++ [x]) = sumN l + x.
Proof. unfold sumN. induction l as [|a l IH]; cbn [app fold_right]; [lia|]. rewrite IH. lia. Qed.
Lemma stats_skip k l s mx mn nn top : stats_of k l s mx mn nn top -> stats_of k (l ++ [0]) s mx mn nn top.
Proof. intros [A B C D E]. constructor; rewrite ?pos_only_snoc; try assumption. rewrite A, sumN_snoc. lia. Qed.
Section Pointers.
Variables (ho : heap_ops) (k : N) (e : ef) (vs : list N).
Hypothesis HF : heap_functions (ho_push ho) (ho_pop ho).
Hypothesis HK : 0 < k < 2 ^ 64.
Hypothesis RE : ef_rep e vs.
Hypothesis SO : sortedN vs.
Hypothesis VB : Forall (fun v => v < 2 ^ 64 - 1) vs.
Hypothesis LV : 0 < lenN vs < 2 ^ 64.
Definition gaps (n : N) : list N := map (gap vs) (range n).
Lemma gap_at i a b : nthN vs i = Some a -> nthN vs (i + 1) = Some b -> gap vs i = b - a /\ a <= b < 2 ^ 64 - 1.
Proof using SO VB. clear HK LV HF RE.
  intros A B. unfold gap. rewrite (nth_nthN _ _ _ A), (nth_nthN _ _ _ B). split; [reflexivity|]. split; [apply (SO i); assumption|].
  rewrite Forall_forall in VB. apply VB. eapply nthN_In; eauto.
Qed.
Lemma gaps_sum n b : nthN vs n = Some b -> sumN (gaps n) = b - nth 0 vs 0 /\ nth 0 vs 0 <= b.
Proof using SO VB. clear HK LV HF RE.
  intros H. revert b H. induction n as [|n IH] using N.peano_ind; intros b H.
  - apply nth_nthN in H. change (N.to_nat 0) with O in H. rewrite H. change (sumN (gaps 0)) with 0. lia.
  - rewrite <- N.add_1_r in H |- *. destruct (nthN_Some vs n) as (a & Ha). { apply nthN_lt in H. lia. }
    unfold gaps. rewrite range_snoc, map_app. cbn [map]. rewrite sumN_snoc. fold (gaps n). destruct (IH a Ha) as (E1 & E2). rewrite E1.
    destruct (gap_at n a b Ha H) as (-> & ? & _). lia.
Qed.
Lemma lenN_gaps n : lenN (gaps n) = n.
Proof using Type. clear. unfold gaps. rewrite lenN_map, lenN_range. reflexivity. Qed.
Lemma filter_lenN {A} (f : A -> bool) l : lenN (filter f l) <= lenN l.
Proof using Type. clear. induction l as [|a l IH]; [apply N.le_refl|]. cbn [filter]. destruct (f a); rewrite ?lenN_cons; lia. Qed.

Definition pinv (i : N) (s : pstat) : Prop :=
  exists b, nthN vs i = Some b /\ efit_at (ef_core e) vs (ps_it s) (i + 1) /\ ps_begin s = b /\
    stats_of k (gaps i) (ps_sum s) (ps_max s) (ps_min s) (ps_nn s) (ps_top s).
Lemma ptr_step_ok i s : i + 1 < lenN vs -> pinv i s -> exists s', ptr_step ho k e s i = Ok s' /\ pinv (i + 1) s'.
Proof.
  intros Hi (b & Hb & AT & EB & ST). destruct (nthN_Some vs (i + 1) Hi) as (c & Hc).
  destruct (efit_next_ok _ vs _ (i + 1) c (proj1 RE) AT Hc) as (it' & EN & AT'). unfold ptr_step. rewrite EN. cbn [bind]. cbv beta iota zeta.
  destruct (gap_at i b c Hb Hc) as (G1 & G2). rewrite EB. rewrite sub64_small by lia. rewrite <- G1.
  assert (GS : gaps (i + 1) = gaps i ++ [gap vs i]) by (unfold gaps; rewrite range_snoc, map_app; reflexivity).
  destruct (gaps_sum i b Hb) as (SB & SB0). destruct (gaps_sum (i + 1) c Hc) as (SC & SC0).
  pose proof (sumN_snoc (gaps i) (gap vs i)) as SS. rewrite <- GS in SS.
  destruct (N.eqb_spec (gap vs i) 0) as [Z|Z].
  - eexists. split; [reflexivity|]. exists c. cbn [ps_it ps_begin ps_sum ps_max ps_min ps_nn ps_top]. split; [exact Hc|]. split; [exact AT'|]. split; [reflexivity|].
    rewrite GS, Z. apply stats_skip. exact ST.
  - destruct ST as [S1 S2 S3 S4 S5].
    destruct (topk_add_ok ho k (pos_only (gaps i)) (ps_top s) (gap vs i) HF HK S5) as (top & ET & TI). rewrite ET. cbn [bind].
    eexists. split; [reflexivity|]. exists c. cbn [ps_it ps_begin ps_sum ps_max ps_min ps_nn ps_top]. split; [exact Hc|]. split; [exact AT'|]. split; [reflexivity|].
    rewrite GS. pose proof (pos_only_snoc (gaps i) (gap vs i)) as PS. apply N.eqb_neq in Z. rewrite Z in PS. apply N.eqb_neq in Z. constructor; rewrite ?PS.
    + rewrite S1, add64_small; [symmetry; apply sumN_snoc|]. lia.
    + right. destruct S2 as [[E0 M0]|[I0 M0]].
      * rewrite E0, M0. destruct (N.ltb_spec 0 (gap vs i)); [|lia]. cbn. split; [left; reflexivity|]. intros x [<-|[]]. lia.
      * split.
        -- apply in_or_app. destruct (ps_max s <? gap vs i); [right; left; reflexivity|left; exact I0].
        -- intros x Hx. apply in_app_or in Hx. destruct (N.ltb_spec (ps_max s) (gap vs i)); destruct Hx as [Hx|[<-|[]]]; try lia; specialize (M0 x Hx); lia.
    + right. destruct S3 as [[E0 M0]|[I0 M0]].
      * rewrite E0, M0. destruct (N.ltb_spec (gap vs i) not_found) as [|W]; [|unfold not_found in W; lia]. cbn. split; [left; reflexivity|]. intros x [<-|[]]. lia.
      * split.
        -- apply in_or_app. destruct (gap vs i <? ps_min s); [right; left; reflexivity|left; exact I0].
        -- intros x Hx. apply in_app_or in Hx. destruct (N.ltb_spec (gap vs i) (ps_min s)); destruct Hx as [Hx|[<-|[]]]; try lia; specialize (M0 x Hx); lia.
    + rewrite S4, add64_small; [rewrite lenN_app; reflexivity|]. pose proof (filter_lenN (fun c => 0 <? c) (gaps i)) as FL. rewrite lenN_gaps in FL. unfold pos_only. lia.
    + exact TI.
Qed.
Lemma ptr_stats_ok : exists r, ptr_stats ho k e = Ok r /\
  pr_num r = lenN vs /\ let l := gaps (lenN vs - 1) in
  pr_sum r = sumN l /\ pr_nonempty r = lenN (pos_only l) /\ largest k (pos_only l) (pr_top r) /\
  ((pos_only l = [] /\ pr_max r = 0 /\ pr_min r = not_found) \/ (maximum (pos_only l) (pr_max r) /\ minimum (pos_only l) (pr_min r))).
Proof.
  unfold ptr_stats. destruct RE as [RC RS]. cbv zeta. rewrite RS.
  destruct (efit_new_ok (ef_core e) vs 0 RC ltac:(lia)) as (it & EN & AT). rewrite EN. cbn [bind].
  destruct (nthN_Some vs 0 ltac:(lia)) as (v0 & H0). destruct (efit_next_ok _ vs _ 0 v0 RC AT H0) as (it' & EX & AT'). rewrite EX. cbn [bind]. cbv beta iota.
  rewrite sub64_small by lia.
  destruct (foldM_rng pinv (ptr_step ho k e) (lenN vs - 1) (mkpstat it' v0 0 0 not_found 0 [])) as (s & ES & b & _ & _ & _ & ST).
  { exists v0. split; [exact H0|]. split; [exact AT'|]. split; [reflexivity|]. constructor; [reflexivity|left; split; reflexivity|left; split; reflexivity|reflexivity|].
    change (pos_only (gaps 0)) with (@nil N). split; [apply heap_nil|]. exists []. split; [constructor|]. split; [|intros ? ? []].
    cbn [ps_top]. change (lenN (@nil N)) with 0. symmetry. apply N.min_0_r. }
  { intros i a Hi IA. apply ptr_step_ok; [lia|exact IA]. }
  rewrite ES. cbn [bind]. eexists. split; [reflexivity|]. cbn [pr_num pr_nonempty pr_min pr_max pr_sum pr_top]. destruct ST as [S1 S2 S3 S4 S5].
  split; [reflexivity|]. split; [exact S1|]. split; [exact S4|]. split; [apply top_final; exact S5|].
  destruct S2 as [[E1 M1]|M1]; destruct S3 as [[E2 M2]|M2].
  - left. auto.
  - exfalso. rewrite E1 in M2. destruct M2 as [[] _].
  - exfalso. rewrite E2 in M1. destruct M1 as [[] _].
  - right. auto.
Qed.
End Pointers.
