(** * The combinatorics of a trie level *)
From Verif Require Import Prelude BitFacts Spec Spec_Trie P_SeqColl P_FastEF3 P_EF.
From Coq Require Import Sorting.Sorted.

Lemma filter_down {A} (f : A -> bool) : forall l,
  (forall i j a b, i < j -> nthN l i = Some a -> nthN l j = Some b -> f b = true -> f a = true) ->
  forall i a, nthN l i = Some a -> (f a = true <-> i < lenN (filter f l)).
Proof.
  induction l as [|x l IH]; intros H i a Ha; [unfold nthN in Ha; destruct (N.to_nat i); discriminate|].
  cbn [filter]. rewrite nthN_cons in Ha. destruct (N.eqb_spec i 0) as [->|Hi].
  - injection Ha as ->. destruct (f a) eqn:E; [rewrite lenN_cons; split; [lia|reflexivity]|]. split; [discriminate|].
    intros L. exfalso. destruct (filter f l) as [|y r] eqn:EF; [revert L; apply N.nlt_0_r|].
    assert (In y (filter f l)) by (rewrite EF; left; reflexivity). apply filter_In in H0. destruct H0 as [Y1 Y2].
    apply In_nth_error in Y1. destruct Y1 as (k & Hk).
    assert (Hk' : nthN (a :: l) (N.of_nat k + 1) = Some y).
    { rewrite nthN_S by lia. unfold nthN. replace (N.to_nat (N.of_nat k + 1 - 1)) with k by lia. assumption. }
    rewrite (H 0 (N.of_nat k + 1) a y ltac:(lia) eq_refl Hk' Y2) in E. discriminate.
  - assert (IH' := IH ltac:(intros p q u v Hpq Hu Hv; apply (H (p + 1) (q + 1) u v); [lia|rewrite nthN_S by lia; rewrite N.add_sub; assumption|rewrite nthN_S by lia; rewrite N.add_sub; assumption]) (i - 1) a Ha).
    destruct (f x) eqn:E; [rewrite lenN_cons; rewrite IH'; lia|].
    split; intros K.
    + exfalso. rewrite (H 0 i x a ltac:(lia) eq_refl) in E; [discriminate| |assumption]. rewrite nthN_S by lia. assumption.
    + apply IH'. lia.
Qed.

Lemma NoDup_nthN {A} (l : list A) i j a : NoDup l -> nthN l i = Some a -> nthN l j = Some a -> i = j.
Proof.
  intros H Hi Hj. unfold nthN in *. assert (N.to_nat i = N.to_nat j); [|lia].
  apply (proj1 (NoDup_nth_error l) H); [apply nth_error_Some; congruence|congruence].
Qed.
Lemma In_nthN {A} (l : list A) a : In a l -> exists i, nthN l i = Some a.
Proof. intros H. apply In_nth_error in H. destruct H as (k & Hk). exists (N.of_nat k). unfold nthN. rewrite Nnat.Nat2N.id. assumption. Qed.
Lemma nthN_firstn {A} (l : list A) j i : nthN (firstn (N.to_nat j) l) i = if i <? j then nthN l i else None.
Proof.
  unfold nthN. destruct (N.ltb_spec i j).
  - assert (H' : (N.to_nat i < N.to_nat j)%nat) by lia. revert H'. generalize (N.to_nat i) (N.to_nat j). clear. intros a b. revert a b. induction l as [|x l IH]; intros a b Hab.
    + rewrite firstn_nil. reflexivity.
    + destruct b; [lia|]. destruct a; [reflexivity|]. cbn. apply IH. lia.
  - apply nth_error_None. rewrite firstn_length. lia.
Qed.

(** ** one pair of consecutive levels *)
Section Pair.
Variables prev cur : list gram.
Hypothesis ND : NoDup prev.
Hypothesis PRE : forall g, In g cur -> In (removelast g) prev.
Hypothesis MON : forall i j g g' p q, i < j -> nthN cur i = Some g -> nthN cur j = Some g' ->
  nthN prev p = Some (removelast g) -> nthN prev q = Some (removelast g') -> p <= q.

Lemma par_cnt i g p j : nthN cur i = Some g -> nthN prev p = Some (removelast g) -> (p < j <-> i < children prev cur j).
Proof.
  intros Hg Hp. unfold children. set (f := fun g => _).
  assert (F : forall g p, nthN prev p = Some (removelast g) -> (f g = true <-> p < j)).
  { clear g p Hg Hp. intros g p Hp. unfold f. destruct (in_dec gram_dec (removelast g) (firstn (N.to_nat j) prev)) as [I|I].
    - split; [|reflexivity]. intros _. apply In_nthN in I. destruct I as (k & Hk). rewrite nthN_firstn in Hk.
      destruct (N.ltb_spec k j); [|discriminate]. rewrite (NoDup_nthN _ _ _ _ ND Hp Hk). assumption.
    - split; [discriminate|]. intros L. exfalso. apply I. apply nthN_In with (i := p). rewrite nthN_firstn.
      replace (p <? j) with true by (symmetry; apply N.ltb_lt; assumption). assumption. }
  rewrite <- (F g p Hp). apply filter_down; [|assumption].
  intros a b x y Hab Hx Hy Fy. destruct (In_nthN _ _ (PRE x (nthN_In _ _ _ Hx))) as (px & Hpx).
  destruct (In_nthN _ _ (PRE y (nthN_In _ _ _ Hy))) as (py & Hpy).
  apply (F x px Hpx). apply (F y py Hpy) in Fy. pose proof (MON a b x y px py Hab Hx Hy Hpx Hpy). lia.
Qed.
Lemma children_0 : children prev cur 0 = 0.
Proof.
  unfold children. cbn [N.to_nat firstn]. replace (filter _ cur) with (@nil gram); [reflexivity|]. symmetry.
  clear. induction cur as [|g c IH]; [reflexivity|]. cbn [filter]. destruct (in_dec gram_dec (removelast g) []) as [[]|]. assumption.
Qed.
Lemma children_all : children prev cur (lenN prev) = lenN cur.
Proof.
  unfold children. replace (N.to_nat (lenN prev)) with (length prev) by (unfold lenN; lia). rewrite firstn_all. clear MON.
  induction cur as [|g c IH]; [reflexivity|]. cbn [filter]. destruct (in_dec gram_dec (removelast g) prev) as [I|I].
  - rewrite !lenN_cons. f_equal. apply IH. intros; apply PRE; right; assumption.
  - exfalso. apply I. apply PRE. left. reflexivity.
Qed.
Lemma children_le_all j : children prev cur j <= lenN cur.
Proof using Type. unfold children. generalize (fun g => if in_dec gram_dec (removelast g) (firstn (N.to_nat j) prev) then true else false). intros f. clear. induction cur as [|g c IH]; [apply N.le_refl|]. cbn [filter]. destruct (f g); rewrite ?lenN_cons; lia. Qed.
Lemma children_mono a b : a <= b -> children prev cur a <= children prev cur b.
Proof.
  intros H. destruct (N.le_gt_cases (children prev cur a) (children prev cur b)) as [L|L]; [assumption|]. exfalso.
  pose proof (children_le_all a). destruct (nthN_Some cur (children prev cur b) ltac:(lia)) as (g & Hg).
  destruct (In_nthN _ _ (PRE g (nthN_In _ _ _ Hg))) as (p & Hp).
  pose proof (proj2 (par_cnt _ g p a Hg Hp) L). assert (children prev cur b < children prev cur b); [|lia]. apply (par_cnt _ g p b Hg Hp). lia.
Qed.
(** the parent of i is the p whose range holds i *)
Lemma par_range i g p : nthN cur i = Some g -> nthN prev p = Some (removelast g) -> children prev cur p <= i < children prev cur (p + 1).
Proof. intros Hg Hp. pose proof (par_cnt i g p p Hg Hp). pose proof (par_cnt i g p (p + 1) Hg Hp). lia. Qed.
Lemma range_par i g p : nthN cur i = Some g -> children prev cur p <= i < children prev cur (p + 1) -> nthN prev p = Some (removelast g).
Proof.
  intros Hg R. destruct (In_nthN _ _ (PRE g (nthN_In _ _ _ Hg))) as (q & Hq).
  pose proof (par_cnt i g q p Hg Hq). pose proof (par_cnt i g q (p + 1) Hg Hq). replace p with q by lia. assumption.
Qed.
Lemma lenN_child_ptrs : lenN (child_ptrs prev cur) = lenN prev + 1.
Proof using Type. clear ND PRE MON. unfold child_ptrs. rewrite lenN_map, lenN_range. reflexivity. Qed.
Lemma nthN_child_ptrs j : j <= lenN prev -> nthN (child_ptrs prev cur) j = Some (children prev cur j).
Proof using Type. clear ND PRE MON. intros H. unfold child_ptrs. rewrite nthN_map, nthN_range by lia. reflexivity. Qed.
Lemma nthN_child_ptrs_inv j x : nthN (child_ptrs prev cur) j = Some x -> j <= lenN prev /\ x = children prev cur j.
Proof using Type. clear ND PRE MON.
  intros H. pose proof (nthN_lt _ _ _ H) as L. rewrite lenN_child_ptrs in L. rewrite nthN_child_ptrs in H by lia. injection H as <-. split; [lia|reflexivity].
Qed.
Lemma child_range b e : is_range (child_ptrs prev cur) b e <-> exists p, p < lenN prev /\ b = children prev cur p /\ e = children prev cur (p + 1).
Proof using Type. clear ND PRE MON.
  split.
  - intros (j & A & B). apply nthN_child_ptrs_inv in A, B. exists j. intuition lia.
  - intros (p & A & -> & ->). exists p. split; apply nthN_child_ptrs; lia.
Qed.
Lemma child_sortedN : sortedN (child_ptrs prev cur).
Proof. intros i x y A B. apply nthN_child_ptrs_inv in A, B. destruct A as [A ->], B as [B ->]. apply children_mono. lia. Qed.
Lemma child_pointers : prev <> [] -> pointers_for (child_ptrs prev cur) (lenN cur).
Proof.
  intros NE. assert (0 < lenN prev) by (destruct prev; [congruence|rewrite lenN_cons; lia]).
  split; [rewrite nthN_child_ptrs, children_0 by lia; reflexivity|]. rewrite lenN_child_ptrs. split; [lia|]. split.
  - rewrite N.add_sub, nthN_child_ptrs, children_all by lia. reflexivity.
  - exact child_sortedN.
Qed.
End Pair.

(** ** lexicographic order *)
Section Lex.
Variable voc : list gram.
Hypothesis NDV : NoDup voc.
Lemma word_lt_irrefl a : ~ word_lt voc a a.
Proof. intros (i & j & L & A & B). pose proof (NoDup_nthN _ _ _ _ NDV A B). lia. Qed.
Lemma word_lt_asym a b : word_lt voc a b -> ~ word_lt voc b a.
Proof.
  intros (i & j & L & A & B) (i' & j' & L' & A' & B').
  pose proof (NoDup_nthN _ _ _ _ NDV A B'). pose proof (NoDup_nthN _ _ _ _ NDV B A'). lia.
Qed.
Lemma gram_lt_irrefl g : ~ gram_lt voc g g.
Proof. induction g as [|a g IH]; intros H; inversion H; subst; [eapply word_lt_irrefl; eauto|auto]. Qed.
Lemma gram_lt_asym g h : gram_lt voc g h -> ~ gram_lt voc h g.
Proof.
  intros H. induction H as [a b r s L W|a r s H IH]; intros K; inversion K; subst.
  - eapply word_lt_asym; eauto.
  - eapply word_lt_irrefl; eauto.
  - eapply word_lt_irrefl; eauto.
  - auto.
Qed.
Lemma gram_lt_length g h : gram_lt voc g h -> length g = length h.
Proof. induction 1; cbn; congruence. Qed.
Lemma sorted_NoDup l : StronglySorted (gram_lt voc) l -> NoDup l.
Proof.
  induction 1 as [|a l S IH F]; constructor; [|assumption]. intros I. rewrite Forall_forall in F. exact (gram_lt_irrefl _ (F _ I)).
Qed.
Lemma sorted_pos l p q a b : StronglySorted (gram_lt voc) l -> nthN l p = Some a -> nthN l q = Some b -> gram_lt voc a b -> p < q.
Proof.
  intros S Ha Hb H. destruct (N.lt_trichotomy p q) as [L|[->|L]]; [assumption| |]; exfalso.
  - rewrite Ha in Hb. injection Hb as ->. exact (gram_lt_irrefl _ H).
  - exact (gram_lt_asym _ _ H (ss_nthN _ _ S q p b a L Hb Ha)).
Qed.
Lemma gram_lt_last : forall g h, gram_lt voc g h ->
  (removelast g = removelast h /\ word_lt voc (last g []) (last h [])) \/ gram_lt voc (removelast g) (removelast h).
Proof.
  induction 1 as [a b r s L W|a r s H IH].
  - destruct r as [|x r], s as [|y s]; try discriminate L.
    + left. split; [reflexivity|exact W].
    + right. change (removelast (a :: x :: r)) with (a :: removelast (x :: r)). change (removelast (b :: y :: s)) with (b :: removelast (y :: s)).
      constructor; [|assumption]. rewrite !removelast_firstn_len, !firstn_length. lia.
  - pose proof (gram_lt_length _ _ H) as L. destruct r as [|x r], s as [|y s]; try discriminate L; [inversion H|].
    change (removelast (a :: x :: r)) with (a :: removelast (x :: r)). change (removelast (a :: y :: s)) with (a :: removelast (y :: s)).
    change (last (a :: x :: r) []) with (last (x :: r) []). change (last (a :: y :: s) []) with (last (y :: s) []).
    destruct IH as [[E W]|G]; [left; split; [congruence|assumption]|right; constructor; assumption].
Qed.
(** with a common prefix, the last words decide *)
Lemma gram_lt_app c a b : word_lt voc a b -> gram_lt voc (c ++ [a]) (c ++ [b]).
Proof. intros W. induction c as [|x c IH]; cbn; [constructor; [reflexivity|assumption]|constructor; assumption]. Qed.
End Lex.
