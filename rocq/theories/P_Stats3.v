(** * Statistics: the levels of a trie *)
From Verif Require Import Prelude BitFacts M_Word P_Word M_Bits Spec P_Bits M_CompactVector P_CompactVector M_DArray M_EF P_EF P_EF2
  M_HashVec M_Mph M_FastEF P_FastEF P_FastEF3 M_SeqColl P_SeqColl M_Trie Spec_Trie P_Trie1 P_Trie2 P_Trie3 P_Trie4 P_Trie5 P_Trie6 M_Save M_Stats Spec_Stats Spec_Report P_Typed P_Stats1 P_Stats2.
From Coq Require Import Permutation Sorting.Sorted.

Lemma filter_split_len {A} (f g h : A -> bool) l : (forall x, In x l -> f x = orb (g x) (h x)) -> (forall x, In x l -> g x = true -> h x = false) ->
  lenN (filter f l) = lenN (filter g l) + lenN (filter h l).
Proof.
  induction l as [|x l IH]; intros H1 H2; [reflexivity|]. cbn [filter]. pose proof (H1 x (or_introl eq_refl)) as E. pose proof (H2 x (or_introl eq_refl)) as D.
  rewrite E. assert (IH' := IH (fun y Hy => H1 y (or_intror Hy)) (fun y Hy => H2 y (or_intror Hy))).
  destruct (g x); cbn [orb]; [rewrite (D eq_refl), !lenN_cons; lia|]. destruct (h x); rewrite ?lenN_cons; lia.
Qed.
Definition exts (cur : list gram) (g : gram) : N := lenN (filter (fun h => if gram_dec (removelast h) g then true else false) cur).
Lemma children_S prev cur p g : NoDup prev -> nthN prev p = Some g -> children prev cur (p + 1) = children prev cur p + exts cur g.
Proof.
  intros ND Hg. unfold children, exts. apply filter_split_len.
  - intros h _. rewrite (firstn_S_nthN prev p g Hg). destruct (in_dec gram_dec (removelast h) (firstn (N.to_nat p) prev ++ [g])) as [I|I].
    + apply in_app_or in I. destruct (in_dec gram_dec (removelast h) (firstn (N.to_nat p) prev)); [reflexivity|]. destruct I as [I|[I|[]]]; [contradiction|].
      destruct (gram_dec (removelast h) g); [reflexivity|]. congruence.
    + destruct (in_dec gram_dec (removelast h) (firstn (N.to_nat p) prev)) as [J|J]; [exfalso; apply I; apply in_or_app; left; exact J|].
      destruct (gram_dec (removelast h) g) as [E|E]; [exfalso; apply I; apply in_or_app; right; left; congruence|reflexivity].
  - intros h _. destruct (in_dec gram_dec (removelast h) (firstn (N.to_nat p) prev)) as [J|J]; [|discriminate]. intros _.
    destruct (gram_dec (removelast h) g) as [E|E]; [|reflexivity]. exfalso. rewrite E in J. apply In_nthN in J. destruct J as (i & Hi). rewrite nthN_firstn in Hi.
    destruct (N.ltb_spec i p) as [L|L]; [|discriminate]. pose proof (NoDup_nthN _ _ _ _ ND Hg Hi). lia.
Qed.
Lemma gaps_children prev cur : NoDup prev -> gaps (child_ptrs prev cur) (lenN prev) = map (exts cur) prev.
Proof.
  intros ND. apply (nth_ext _ _ 0 0).
  - unfold gaps, range. rewrite !map_length, length_seqN. unfold lenN. lia.
  - intros n Hn. unfold gaps, range in Hn. rewrite map_length, length_seqN in Hn.
    assert (LP : N.of_nat n < lenN prev) by lia. destruct (nthN_Some prev (N.of_nat n) LP) as (g & Hg).
    assert (E1 : nthN (gaps (child_ptrs prev cur) (lenN prev)) (N.of_nat n) = Some (exts cur g)).
    { unfold gaps. rewrite nthN_map, nthN_range by lia. cbn [option_map]. f_equal. unfold gap.
      rewrite (nth_nthN _ _ _ (nthN_child_ptrs prev cur (N.of_nat n) ltac:(lia))), (nth_nthN _ _ _ (nthN_child_ptrs prev cur (N.of_nat n + 1) ltac:(lia))).
      rewrite (children_S prev cur _ g ND Hg). lia. }
    assert (E2 : nthN (map (exts cur) prev) (N.of_nat n) = Some (exts cur g)) by (rewrite nthN_map, Hg; reflexivity).
    apply nth_nthN in E1, E2. rewrite Nnat.Nat2N.id in E1, E2. congruence.
Qed.

Section Levels.
Variable D : list (list (gram * N)).
Variable remap : N.
Hypothesis C : collection D remap.
Notation G := (grams D).
Notation voc := (grams D 0).
Variables (ho : heap_ops) (cap : N).
Hypothesis HF : heap_functions (ho_push ho) (ho_pop ho).
Hypothesis HK : 0 < cap < 2 ^ 64.

(** the pointers and grams of level k *)
Definition ptr_lev (p : option ef) (k : N) : Prop := exists e, p = Some e /\ ef_rep e (child_ptrs (G k) (G (k + 1))).
Definition gram_lev (g : gview) (k : N) : Prop := exists vs, view_holds g vs /\ values_of vs (lids D remap k) (child_ptrs (G (k - 1)) (G k)).

Lemma fanouts_gaps k : fanouts D k = pos_only (gaps (child_ptrs (G k) (G (k + 1))) (lenN (child_ptrs (G k) (G (k + 1))) - 1)).
Proof.
  rewrite lenN_child_ptrs. replace (lenN (G k) + 1 - 1) with (lenN (G k)) by lia. rewrite gaps_children by apply (lev_NoDup D remap C). reflexivity.
Qed.
Lemma lev_ptr_facts k : k + 1 < lenN D -> let ps := child_ptrs (G k) (G (k + 1)) in
  sortedN ps /\ Forall (fun v => v < 2 ^ 64 - 1) ps /\ 0 < lenN ps < 2 ^ 63 /\ pointers_for ps (lenN (G (k + 1))).
Proof.
  intros Hk ps. pose proof (lev_size D remap C k). pose proof (lev_size D remap C (k + 1)).
  pose proof (lev_PRE D remap C (k + 1) ltac:(lia)) as PR. pose proof (lev_MON D remap C (k + 1) ltac:(lia)) as MO. replace (k + 1 - 1) with k in * by lia.
  split; [apply child_sortedN; [apply (lev_NoDup D remap C)|exact PR|exact MO]|]. split; [|split; [unfold ps; rewrite lenN_child_ptrs; lia|]].
  - apply Forall_forall. intros p Hp. apply In_nthN in Hp. destruct Hp as (j & Hj). apply nthN_child_ptrs_inv in Hj. destruct Hj as [_ ->].
    pose proof (children_le_all (G k) (G (k + 1)) j). lia.
  - apply child_pointers; [apply (lev_NoDup D remap C)|exact PR|exact MO|]. apply (lev_nonempty D remap C). lia.
Qed.
Lemma fanouts_sum k : k + 1 < lenN D -> sumN (map (extensions D k) (G k)) = lenN (G (k + 1)).
Proof.
  intros Hk. change (map (extensions D k) (G k)) with (map (exts (G (k + 1))) (G k)). rewrite <- (gaps_children (G k) (G (k + 1))) by apply (lev_NoDup D remap C).
  destruct (lev_ptr_facts k Hk) as (S1 & S2 & S3 & P0 & _ & P2 & _). rewrite lenN_child_ptrs in *.
  replace (lenN (G k) + 1 - 1) with (lenN (G k)) in P2 by lia.
  destruct (gaps_sum _ S1 S2 (lenN (G k)) _ P2) as (E & _). rewrite E. apply nth_nthN in P0. change (N.to_nat 0) with O in P0. rewrite P0. lia.
Qed.
Lemma fanouts_nonempty k : k + 1 < lenN D -> fanouts D k <> [].
Proof.
  intros Hk Z. pose proof (fanouts_sum k Hk) as S. assert (S0 : sumN (map (extensions D k) (G k)) = 0).
  { unfold fanouts in Z. clear S. induction (map (extensions D k) (G k)) as [|x l IH]; [reflexivity|]. cbn [filter] in Z. destruct (N.ltb_spec 0 x); [discriminate|]. rewrite sumN_cons, (IH Z). lia. }
  pose proof (lev_nonempty D remap C (k + 1) Hk). destruct (G (k + 1)); [congruence|]. rewrite lenN_cons in S. lia.
Qed.
Lemma ptr_report_ok p k : k + 1 < lenN D -> ptr_lev p k -> exists e r, p = Some e /\ ef_size e =? 0 = false /\ ptr_stats ho cap e = Ok r /\ ptrs_right D cap k r.
Proof.
  intros Hk (e & HE & RE). destruct (lev_ptr_facts k Hk) as (S1 & S2 & S3 & S4).
  destruct (ptr_stats_ok ho cap e _ HF HK RE S1 S2 ltac:(lia)) as (r & ER & R1 & R2). cbv zeta in R2. rewrite <- fanouts_gaps in R2. destruct R2 as (R2 & R3 & R4 & R5).
  exists e, r. split; [exact HE|]. split; [apply N.eqb_neq; rewrite (proj2 RE); lia|]. split; [exact ER|].
  destruct R5 as [(Z & _)|(M1 & M2)]; [exfalso; exact (fanouts_nonempty k Hk Z)|].
  constructor; try assumption.
  - rewrite R1, lenN_child_ptrs. reflexivity.
  - rewrite R2, lenN_child_ptrs. replace (lenN (G k) + 1 - 1) with (lenN (G k)) by lia. rewrite gaps_children by apply (lev_NoDup D remap C). apply (fanouts_sum k Hk).
Qed.

Lemma lids_32 k : Forall (fun v => v < 2 ^ 32) (lids D remap k).
Proof. eapply Forall_impl; [|apply (lids_bound D remap C)]. cbn. intros v Hv. pose proof (lev_size D remap C 0). lia. Qed.
Lemma entropy_ok g p k : 0 < k < lenN D -> gram_lev g k -> ptr_lev p (k - 1) ->
  entropy_stats g p = Ok (fanouts D (k - 1), fold_left eat_value (lids D remap k) []).
Proof.
  intros Hk (vs & Hv & VO) (e & -> & RE). replace (k - 1 + 1) with k in RE by lia.
  destruct (lev_ptr_facts (k - 1) ltac:(lia)) as (_ & _ & S3 & S4). replace (k - 1 + 1) with k in S3, S4 by lia.
  pose proof (lev_size D remap C k). pose proof (lev_nonempty D remap C k ltac:(lia)) as NE.
  rewrite (entropy_stats_ok e g (child_ptrs (G (k - 1)) (G k)) (lids D remap k) vs RE Hv VO).
  - pose proof (fanouts_gaps (k - 1)) as FG. replace (k - 1 + 1) with k in FG by lia. rewrite FG. reflexivity.
  - rewrite lids_len. exact S4.
  - rewrite lids_len. assumption.
  - apply lids_32.
  - lia.
  - rewrite lids_len. destruct (G k); [congruence|]. rewrite lenN_cons. lia.
Qed.
End Levels.
