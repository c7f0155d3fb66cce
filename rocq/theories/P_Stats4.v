(** * Statistics: sizes and members of the arrays of a built trie *)
From Coq Require Import Floats.SpecFloat.
From Verif Require Import Prelude BitFacts M_Word P_Word M_Bits Spec P_Bits M_CompactVector P_CompactVector M_DArray M_EF P_EF P_EF2
  M_HashVec M_Mph M_FastEF P_FastEF P_FastEF3 M_SeqColl P_SeqColl M_Pool M_Text M_Trie Spec_Trie P_Trie1 P_Trie2 P_Trie3 P_Trie4 P_Trie5 P_Trie6 P_Typed
  M_Score M_Quant M_MphProb M_TrieProb.
From Coq Require Import Permutation Sorting.Sorted.

Lemma wr_inv {A} (l l' : list A) i a : wr l i a = Ok l' -> i < lenN l /\ l' = setN l i a.
Proof.
  unfold wr. destruct (N.ltb_spec i (lenN l)); [|discriminate]. intros H0. injection H0 as <-. split; [assumption|]. reflexivity.
Qed.
Lemma foldM_seq_inv {S} (I : N -> S -> Prop) (f : S -> N -> res S) : (forall i s s', I i s -> f s i = Ok s' -> I (i + 1) s') ->
  forall m s0 a b, I s0 a -> foldM f (seqN s0 m) a = Ok b -> I (s0 + N.of_nat m) b.
Proof.
  intros HS. induction m as [|m IH]; intros s0 a b H0 E; cbn [seqN foldM] in E.
  - injection E as <-. rewrite N.add_0_r. exact H0.
  - apply bind_inv in E. destruct E as (a' & E1 & E). replace (s0 + N.of_nat (Datatypes.S m)) with (s0 + 1 + N.of_nat m) by lia.
    replace (N.succ s0) with (s0 + 1) in E by lia. eapply IH; [|exact E]. eapply HS; eauto.
Qed.
(** sizes; no grams at the first level; no pointers from level K on *)
Definition shape (sizes : list N) (K : N) (arrays : list sarr) : Prop :=
  map s_size arrays = sizes /\ forall k a, nthN arrays k = Some a -> (k = 0 -> s_grams a = None) /\ (K <= k -> s_ptrs a = None).
Lemma map_setN {A B} (f : A -> B) l i a x : nthN l i = Some x -> f a = f x -> map f (setN l i a) = map f l.
Proof.
  intros H E. unfold setN, nthN in *. revert H. generalize (N.to_nat i). clear i. induction l as [|y l IH]; intros [|n] H; cbn in *; try discriminate.
  - injection H as ->. rewrite E. reflexivity.
  - rewrite IH by exact H. reflexivity.
Qed.
Lemma shape_set sizes K K' arrays k a x : shape sizes K arrays -> K <= K' -> nthN arrays k = Some x -> s_size a = s_size x ->
  (k = 0 -> s_grams a = None) -> (K' <= k -> s_ptrs a = None) -> shape sizes K' (setN arrays k a).
Proof.
  intros [S1 S2] HK Hx HS HG HP. split; [rewrite (map_setN _ _ _ _ _ Hx HS); exact S1|]. intros j b Hb.
  pose proof (nthN_lt _ _ _ Hx) as L. destruct (N.eq_dec j k) as [->|N].
  - rewrite setN_same in Hb by exact L. injection Hb as <-. split; assumption.
  - rewrite setN_other in Hb by assumption. destruct (S2 j b Hb) as [A1 A2]. split; [exact A1|]. intros Q. apply A2. lia.
Qed.
Lemma shape_new {A} (l : list (list A)) : shape (map lenN l) 0 (map (fun f => sarr_new (lenN f)) l).
Proof.
  split; [rewrite map_map; reflexivity|]. intros k a H. rewrite nthN_map in H. destruct (nthN l k); [|discriminate]. injection H as <-. split; reflexivity.
Qed.

Lemma build_order_shape env v cb remap files sizes : forall ord arrays arrays', 2 <= ord -> shape sizes (ord - 2) arrays ->
  build_order env v cb remap files arrays ord = Ok arrays' -> shape sizes (ord - 1) arrays'.
Proof.
  intros ord arrays arrays' HO S E. unfold build_order in E.
  apply bind_inv in E. destruct E as (prv & _ & E). apply bind_inv in E. destruct E as (cur & _ & E). apply bind_inv in E. destruct E as (mr & _ & E).
  apply bind_inv in E. destruct E as (b & _ & E). apply bind_inv in E. destruct E as ([ptrs b'] & _ & E).
  apply bind_inv in E. destruct E as (a & Ha & E). apply bind_inv in E. destruct E as (a1 & E1 & E). apply bind_inv in E. destruct E as (arr1 & Ew & E).
  apply bind_inv in E. destruct E as (a' & Ha' & E). apply bind_inv in E. destruct E as (a2 & E2 & Ew2).
  apply rd_inv in Ha, Ha'. apply wr_inv in Ew, Ew2. destruct Ew as [L1 ->]. destruct Ew2 as [L2 ->].
  unfold sab_build in E1. apply bind_inv in E1. destruct E1 as (ids & _ & E1). apply bind_inv in E1. destruct E1 as (f & _ & E1).
  unfold sab_build_ranks in E1. apply bind_inv in E1. destruct E1 as (vs & _ & E1). apply bind_inv in E1. destruct E1 as (r & _ & E1). injection E1 as <-.
  unfold sa_build_pointers in E2. apply bind_inv in E2. destruct E2 as (e & _ & E2). injection E2 as <-.
  assert (NE : ord - 2 <> ord - 1) by lia. rewrite setN_other in Ha' by assumption.
  pose proof S as [_ SP]. destruct (SP _ _ Ha) as [A1 A2]. destruct (SP _ _ Ha') as [B1 B2].
  eapply shape_set; [eapply (shape_set _ _ (ord - 2)); [exact S|lia|exact Ha| | |]| | | | |]; cbn [s_size s_grams s_ptrs]; try reflexivity; try lia.
  - intros _. apply A2. lia.
  - rewrite setN_other by assumption. exact Ha'.
  - exact B1.
Qed.
Lemma build_vocabulary_shape env cb lines sizes arrays v arrays' : shape sizes 0 arrays -> build_vocabulary env cb lines arrays = Ok (v, arrays') ->
  shape sizes 0 arrays'.
Proof.
  intros S E. unfold build_vocabulary in E.
  apply bind_inv in E. destruct E as (p & _ & E). apply bind_inv in E. destruct E as (recs & _ & E). apply bind_inv in E. destruct E as (sz & _ & E).
  apply bind_inv in E. destruct E as (b & _ & E). apply bind_inv in E. destruct E as (rk & _ & E). apply bind_inv in E. destruct E as (a0 & Ha & E).
  apply bind_inv in E. destruct E as (a1 & E1 & E). apply bind_inv in E. destruct E as (arr & Ew & E).
  apply bind_inv in E. destruct E as (ids & _ & E). apply bind_inv in E. destruct E as (ids' & _ & E). apply bind_inv in E. destruct E as (v' & _ & E). injection E as <- <-.
  apply rd_inv in Ha. apply wr_inv in Ew. destruct Ew as [L1 ->].
  unfold sab_build_ranks in E1. apply bind_inv in E1. destruct E1 as (vs & _ & E1). apply bind_inv in E1. destruct E1 as (r & _ & E1). injection E1 as <-.
  pose proof S as [_ SP]. destruct (SP _ _ Ha) as [A1 A2]. eapply shape_set; [exact S|lia|exact Ha|reflexivity|exact A1|exact A2].
Qed.
Lemma trie_build_shape env files order remap t : 2 <= order -> lenN files = order -> trie_build env files order remap = Ok t ->
  shape (map lenN files) (order - 1) (t_arrays t).
Proof.
  intros HO LF E. unfold trie_build in E. apply bind_inv in E. destruct E as (_ & _ & E). apply bind_inv in E. destruct E as (_ & _ & E).
  apply bind_inv in E. destruct E as (fs & EFS & E). apply bind_inv in E. destruct E as (values & _ & E). apply bind_inv in E. destruct E as (cb & _ & E).
  apply bind_inv in E. destruct E as (l1 & _ & E). apply bind_inv in E. destruct E as ([v arrays] & EV & E). apply bind_inv in E. destruct E as (arr & EF & E). injection E as <-. cbn [t_arrays].
  assert (FS : fs = files).
  { rewrite <- LF in EFS. rewrite (mapM_range (rd files) (fun x => x) files) in EFS by (intros i a H2; apply rd_nthN; assumption). rewrite map_id in EFS. congruence. }
  subst fs. pose proof (build_vocabulary_shape _ _ _ _ _ _ _ (shape_new files) EV) as S0.
  pose proof (foldM_seq_inv (fun ord a => 2 <= ord /\ shape (map lenN files) (ord - 2) a) (build_order env v cb remap files)) as FI.
  destruct (FI) with (m := N.to_nat (order - 1)) (s0 := 2) (a := arrays) (b := arr) as [_ R]; auto.
  - intros i s s' [Hi HS] ES. split; [lia|]. replace (i + 1 - 2) with (i - 1) by lia. eapply build_order_shape; eauto.
  - split; [lia|exact S0].
  - replace (2 + N.of_nat (N.to_nat (order - 1)) - 2) with (order - 1) in R by lia. exact R.
Qed.

(** ** the probability trie *)
Lemma tp_build_order_shape env v pb bb remap secs order pq bq sizes : forall ord arrays arrays', 2 <= ord -> shape sizes (ord - 2) (map a_sa arrays) ->
  tp_build_order env v pb bb remap secs order pq bq arrays ord = Ok arrays' -> shape sizes (ord - 1) (map a_sa arrays').
Proof.
  intros ord arrays arrays' HO S E. unfold tp_build_order in E.
  apply bind_inv in E. destruct E as (prv & _ & E). apply bind_inv in E. destruct E as (cur & _ & E).
  apply bind_inv in E. destruct E as (b & _ & E). apply bind_inv in E. destruct E as ([ptrs b'] & _ & E).
  apply bind_inv in E. destruct E as (a & Ha & E). apply bind_inv in E. destruct E as (a1 & E1 & E). apply bind_inv in E. destruct E as (arr1 & Ew & E).
  apply bind_inv in E. destruct E as (a' & Ha' & E). apply bind_inv in E. destruct E as (a2 & E2 & Ew2).
  apply rd_inv in Ha, Ha'. apply wr_inv in Ew, Ew2. destruct Ew as [L1 ->]. destruct Ew2 as [L2 ->].
  unfold pab_build in E1. apply bind_inv in E1. destruct E1 as (ids & _ & E1). apply bind_inv in E1. destruct E1 as (f & _ & E1).
  apply bind_inv in E1. destruct E1 as (vs & _ & E1). apply bind_inv in E1. destruct E1 as (r & _ & E1). injection E1 as <-.
  unfold sa_build_pointers in E2. apply bind_inv in E2. destruct E2 as (e & _ & E2). injection E2 as <-.
  assert (NE : ord - 2 <> ord - 1) by lia. rewrite setN_other in Ha' by assumption.
  assert (MS : forall (l : list parr) i x, map a_sa (setN l i x) = setN (map a_sa l) i (a_sa x)).
  { clear. intros l i x. unfold setN. generalize (N.to_nat i). induction l as [|y l IH]; intros [|n]; cbn; congruence. }
  rewrite !MS. cbn [a_sa].
  assert (Ga : nthN (map a_sa arrays) (ord - 1) = Some (a_sa a)) by (rewrite nthN_map, Ha; reflexivity).
  assert (Ga' : nthN (map a_sa arrays) (ord - 2) = Some (a_sa a')) by (rewrite nthN_map, Ha'; reflexivity).
  pose proof S as [_ SP]. destruct (SP _ _ Ga) as [A1 A2]. destruct (SP _ _ Ga') as [B1 B2].
  eapply shape_set; [eapply (shape_set _ _ (ord - 2)); [exact S|lia|exact Ga| | |]| | | | |]; cbn [s_size s_grams s_ptrs]; try reflexivity; try lia.
  - intros _. apply A2. lia.
  - rewrite setN_other; [exact Ga'|rewrite lenN_map; exact L1|exact NE].
  - exact B1.
Qed.
Lemma tp_build_shape env secs order remap unk pq bq m : 2 <= order -> tp_build env secs order remap unk pq bq = Ok m ->
  shape (map lenN secs) (order - 1) (map a_sa (tp_arrays m)).
Proof.
  intros HO E. unfold tp_build in E. apply bind_inv in E. destruct E as (_ & _ & E). apply bind_inv in E. destruct E as (_ & _ & E).
  destruct (lenN secs <? order); [discriminate|]. apply bind_inv in E. destruct E as ([pb bb] & _ & E). destruct (order <? lenN secs); [discriminate|].
  apply bind_inv in E. destruct E as (uni & _ & E). apply bind_inv in E. destruct E as (un & _ & E). apply bind_inv in E. destruct E as (v & _ & E).
  apply bind_inv in E. destruct E as (arr & EF & E). injection E as <-. cbn [tp_arrays].
  pose proof (foldM_seq_inv (fun ord a => 2 <= ord /\ shape (map lenN secs) (ord - 2) (map a_sa a)) (tp_build_order env v pb bb remap secs order pq bq)) as FI.
  destruct (FI) with (m := N.to_nat (order - 1)) (s0 := 2) (a := map (fun l : list (list N) => mkparr (sarr_new (lenN l)) None) secs) (b := arr) as [_ R]; auto.
  - intros i s s' [Hi HS] ES. split; [lia|]. replace (i + 1 - 2) with (i - 1) by lia. eapply tp_build_order_shape; eauto.
  - split; [lia|]. rewrite map_map. apply (shape_new secs).
  - replace (2 + N.of_nat (N.to_nat (order - 1)) - 2) with (order - 1) in R by lia. exact R.
Qed.
