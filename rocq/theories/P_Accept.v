(** * Proofs for C58, part 1: what a successful construction of the gram sequence says about the ids *)
From Verif Require Import Prelude BitFacts M_Word M_Bits Spec M_DArray M_EF P_EF M_CompactVector M_HashVec M_Mph M_FastEF P_Text P_FastEF3 P_Typed Spec_Trie P_Trie1.
From Coq Require Import Sorting.Sorted.

Lemma nth_succ {A} (x : A) l i : nthN (x :: l) (N.succ i) = nthN l i.
Proof. unfold nthN. rewrite Nnat.N2Nat.inj_succ. reflexivity. Qed.
(** the sequence refuses decreasing values *)
Lemma ef_fold_sorted l vs : forall s s', foldM (ef_step l) vs s = Ok s' ->
  (fs_i s <> 0 -> forall x, nthN vs 0 = Some x -> fs_last s <= x) /\
  forall i x y, nthN vs i = Some x -> nthN vs (i + 1) = Some y -> x <= y.
Proof.
  induction vs as [|v vs IH]; intros s s' H; cbn [foldM] in H.
  - split; [intros _ x X|intros i x y X]; rewrite nthN_nil in X; discriminate X.
  - apply bind_inv in H. destruct H as (s1 & E & H). destruct (IH _ _ H) as (A & B). unfold ef_step in E.
    destruct (negb (fs_i s =? 0) && (v <? fs_last s)) eqn:T; [discriminate E|].
    apply bind_inv in E. destruct E as (e1 & _ & E). apply bind_inv in E. destruct E as (e2 & _ & E). apply bind_inv in E. destruct E as (e3 & _ & E). injection E as <-. cbn [fs_i fs_last] in A. split.
    + intros NZ x X. change (nthN (v :: vs) 0) with (Some v) in X. injection X as <-. destruct (N.eqb_spec (fs_i s) 0); [contradiction|]. cbn [negb andb] in T. apply N.ltb_ge in T. exact T.
    + intros i x y X Y. destruct (N.eq_dec i 0) as [Z|NI]; [subst i|].
      * change (nthN (v :: vs) 0) with (Some v) in X. injection X as <-. change (0 + 1) with (N.succ 0) in Y. rewrite nth_succ in Y. apply A; [clear; lia|exact Y].
      * replace i with (N.succ (i - 1)) in X by lia. replace (i + 1) with (N.succ i) in Y by lia. rewrite nth_succ in X, Y. apply (B (i - 1)); [exact X|]. replace (i - 1 + 1) with i by lia. exact Y.
Qed.
Lemma adjacent_le vs : (forall i x y, nthN vs i = Some x -> nthN vs (i + 1) = Some y -> x <= y) ->
  forall d i x y, nthN vs i = Some x -> nthN vs (i + N.of_nat d) = Some y -> x <= y.
Proof.
  intros H. induction d as [|d IH]; intros i x y X Y.
  - replace (i + N.of_nat 0) with i in Y by lia. assert (x = y) by congruence. lia.
  - destruct (nthN_Some vs (i + 1)) as (z & Z). { apply nthN_lt in Y. lia. }
    pose proof (H _ _ _ X Z). replace (i + N.of_nat (S d)) with (i + 1 + N.of_nat d) in Y by lia. pose proof (IH _ _ _ Z Y). lia.
Qed.
Lemma efc_build_sorted vs u c : efc_build vs u = Ok c -> forall i j x y, i <= j -> nthN vs i = Some x -> nthN vs j = Some y -> x <= y.
Proof.
  intros H i j x y L X Y. unfold efc_build in H. cbv zeta in H. apply bind_inv in H. destruct H as (s & E & _). destruct (ef_fold_sorted _ _ _ _ E) as (_ & B).
  apply (adjacent_le vs B (N.to_nat (j - i)) i); [exact X|]. replace (i + N.of_nat (N.to_nat (j - i))) with j by lia. exact Y.
Qed.

(** ** positions of the continued grams, and the pointers that go with them *)
Definition below (at_ : list N) (j : N) : N := lenN (filter (fun a => a <? j) at_).
Lemma below_0 at_ : below at_ 0 = 0.
Proof. unfold below. induction at_ as [|a l IH]; [reflexivity|]. cbn [filter]. destruct (N.ltb_spec a 0); [lia|exact IH]. Qed.
Lemma below_mono at_ i j : i <= j -> below at_ i <= below at_ j.
Proof.
  intros L. unfold below. induction at_ as [|a l IH]; [apply N.le_refl|]. cbn [filter]. destruct (N.ltb_spec a i), (N.ltb_spec a j); rewrite ?lenN_cons; try lia.
Qed.
Lemma below_len at_ j : below at_ j <= lenN at_.
Proof. unfold below. induction at_ as [|a l IH]; [apply N.le_refl|]. cbn [filter]. destruct (a <? j); rewrite ?lenN_cons; lia. Qed.
Lemma below_app a b j : below (a ++ b) j = below a j + below b j.
Proof. unfold below. rewrite filter_app, lenN_app. reflexivity. Qed.
Lemma below_all at_ j : Forall (fun a => a < j) at_ -> below at_ j = lenN at_.
Proof.
  unfold below. intros F. induction F as [|a l H F IH]; [reflexivity|]. cbn [filter]. destruct (N.ltb_spec a j); [|lia]. rewrite !lenN_cons, IH. reflexivity.
Qed.
Lemma below_spec at_ : StronglySorted N.le at_ -> forall i a j, nthN at_ i = Some a -> (i < below at_ j <-> a < j).
Proof.
  intros S. induction S as [|h t S IH F]; intros i a j H; [rewrite nthN_nil in H; discriminate|].
  unfold below. cbn [filter]. destruct (N.ltb_spec h j) as [L|L].
  - rewrite lenN_cons. destruct (N.eq_dec i 0) as [Z0|NI]; [subst i|].
    + change (nthN (h :: t) 0) with (Some h) in H. injection H as <-. lia.
    + replace i with (N.succ (i - 1)) in H by lia. rewrite nth_succ in H. pose proof (IH _ _ j H) as K. unfold below in K. lia.
  - assert (Z : below t j = 0).
    { unfold below. clear - F L. induction F as [|x t Hx F IH]; [reflexivity|]. cbn [filter]. destruct (N.ltb_spec x j); [lia|exact IH]. }
    unfold below in Z. rewrite Z. split; [lia|]. intros A. exfalso. destruct (N.eq_dec i 0) as [Z0|NI]; [subst i|].
    + change (nthN (h :: t) 0) with (Some h) in H. injection H as <-. lia.
    + replace i with (N.succ (i - 1)) in H by lia. rewrite nth_succ in H. apply nthN_In in H. rewrite Forall_forall in F. pose proof (F _ H). lia.
Qed.

(** ** the prefix sums *)
Section Values.
Variable at_ : list N.
Variable n : N.
Hypothesis AS : StronglySorted N.le at_.
Hypothesis LA : lenN at_ < 2 ^ 63.
Notation ptrs := (map (below at_) (range (n + 1))).
Lemma ptr_at i p : nthN ptrs i = Some p -> p = below at_ i.
Proof.
  rewrite nthN_map. destruct (nthN (range (n + 1)) i) as [x|] eqn:E; [|discriminate]. intros H. injection H as <-. 
  pose proof (nthN_lt _ _ _ E) as L. rewrite lenN_range in L. rewrite nthN_range in E by assumption. congruence.
Qed.
Lemma next_run_inv fuel : forall pi end_ pi' st en run, end_ = below at_ pi -> next_run fuel ptrs pi end_ = Ok (pi', st, en, run) ->
  pi < pi' /\ st = end_ /\ en = below at_ pi' /\ st + run = en /\ 0 < run.
Proof.
  induction fuel as [|f IH]; intros pi end_ pi' st en run HE H; cbn [next_run] in H; [discriminate H|].
  apply bind_inv in H. destruct H as (e & E1 & H). cbv zeta in H. apply rd_inv in E1. apply ptr_at in E1.
  assert (M : end_ <= e) by (subst; apply below_mono; lia). pose proof (below_len at_ (pi + 1)) as BL. rewrite <- E1 in BL.
  rewrite sub64_le in H by lia.
  destruct (N.eqb_spec (e - end_) 0) as [Z|NZ].
  - assert (EQ : e = end_) by lia. rewrite EQ in H, E1. apply IH in H; [|exact E1]. destruct H as (H1 & H2 & H3 & H4 & H5). repeat split; try assumption; lia.
  - injection H as <- <- <- <-. repeat split; try assumption; lia.
Qed.
(** state after the ids [done]; [bases]: what was added to each *)
Record vinv (done bases : list N) (s : fbs) : Prop := {
  vi_len : lenN bases = lenN done;
  vi_vals : b_vals s = map (fun p => add64 (fst p) (snd p)) (combine done bases);
  vi_pos : b_start s + b_within s = lenN done;
  vi_run : b_start s + b_run s = b_end s;
  vi_end : b_end s = below at_ (b_pi s);
  vi_in : b_within s <= b_run s;
  vi_base : forall t b, nthN bases t = Some b -> b = 0 \/ exists q, q < t /\ nthN (b_vals s) q = Some b;
  vi_prev : forall b, nthN bases (lenN done - 1) = Some b -> b = b_prev s;
  vi_prev_old : b_prev s = 0 \/ exists q, q < lenN done /\ nthN (b_vals s) q = Some (b_prev s);
  vi_same : forall t a, nthN at_ t = Some a -> nthN at_ (t + 1) = Some a -> forall b b', nthN bases t = Some b -> nthN bases (t + 1) = Some b' -> b = b' }.
Lemma combine_snoc {A B} (l : list A) (l' : list B) x y : length l = length l' -> combine (l ++ [x]) (l' ++ [y]) = combine l l' ++ [(x, y)].
Proof. revert l'. induction l as [|a l IH]; intros [|b l'] H; try discriminate H; [reflexivity|]. cbn. rewrite IH by (injection H; auto). reflexivity. Qed.
Lemma lenN_vals done bases s : vinv done bases s -> lenN (b_vals s) = lenN done.
Proof. intros I. rewrite (vi_vals _ _ _ I). pose proof (vi_len _ _ _ I) as L. unfold lenN in *. rewrite map_length, combine_length. lia. Qed.
Lemma value_inv done bases s v s' : vinv done bases s -> fef_value ptrs s v = Ok s' -> exists b, vinv (done ++ [v]) (bases ++ [b]) s'.
Proof.
  intros I H. pose proof (lenN_vals _ _ _ I) as LV. destruct I as [I1 I2 I3 I4 I5 I6 I7 I8 I9 I10].
  assert (LC : length done = length bases) by (unfold lenN in I1; lia).
  unfold fef_value in H. apply bind_inv in H. destruct H as (s1 & E & H).
  assert (K : b_vals s1 = b_vals s /\ b_start s1 + b_within s1 = lenN done /\ b_start s1 + b_run s1 = b_end s1 /\ b_end s1 = below at_ (b_pi s1) /\ b_within s1 < b_run s1 /\
    (b_prev s1 = 0 \/ exists q, q < lenN done /\ nthN (b_vals s) q = Some (b_prev s1)) /\
    (forall t a, t + 1 = lenN done -> nthN at_ t = Some a -> nthN at_ (t + 1) = Some a -> b_prev s1 = b_prev s)).
  { destruct (N.eqb_spec (b_within s) (b_run s)) as [W|W].
    - apply bind_inv in E. destruct E as ([[[pi st] en] run] & E1 & E). cbv iota beta in E. apply bind_inv in E. destruct E as (back & E2 & E). injection E as <-. cbn [b_vals b_prev b_pi b_start b_end b_run b_within].
      destruct (next_run_inv _ _ _ _ _ _ _ I5 E1) as (H1 & H2 & H3 & H4 & H5). split; [reflexivity|]. split; [lia|]. split; [assumption|]. split; [assumption|]. split; [assumption|]. split.
      + rewrite LV in E2. destruct (N.eqb_spec (lenN done) 0) as [Z|NZ]; [injection E2 as <-; left; reflexivity|]. apply rd_inv in E2. right. exists (lenN done - 1). split; [lia|exact E2].
      + intros t a T A1 A2. exfalso. pose proof (below_spec at_ AS _ _ (b_pi s) A1) as B1. pose proof (below_spec at_ AS _ _ (b_pi s) A2) as B2. lia.
    - injection E as <-. repeat split; try assumption; try lia. }
  destruct K as (K1 & K2 & K3 & K4 & K5 & K6 & K7). injection H as <-. exists (b_prev s1).
  assert (GET : forall q x, nthN (b_vals s) q = Some x -> nthN (b_vals s ++ [add64 v (b_prev s1)]) q = Some x).
  { intros q x Q. rewrite nthN_app1; [exact Q|]. apply nthN_lt in Q. exact Q. }
  constructor; cbn [b_vals b_prev b_pi b_start b_end b_run b_within]; rewrite ?K1.
  - rewrite !lenN_app, I1. reflexivity.
  - rewrite combine_snoc by assumption. rewrite map_app, <- I2. reflexivity.
  - rewrite lenN_app. change (lenN [v]) with 1. lia.
  - assumption.
  - assumption.
  - lia.
  - intros t b T. destruct (N.lt_ge_cases t (lenN bases)) as [L|L].
    + rewrite nthN_app1 in T by assumption. destruct (I7 _ _ T) as [Z|(q & Q1 & Q2)]; [left; assumption|right; exists q; split; [assumption|apply GET; assumption]].
    + assert (t = lenN bases). { apply nthN_lt in T. rewrite lenN_app in T. change (lenN [b_prev s1]) with 1 in T. lia. } subst t.
      rewrite nthN_app2 in T by lia. rewrite N.sub_diag in T. change (Some (b_prev s1) = Some b) in T. injection T as <-. destruct K6 as [Z|(q & Q1 & Q2)]; [left; assumption|right]. exists q. split; [lia|apply GET; assumption].
  - intros b B. rewrite lenN_app in B. change (lenN [v]) with 1 in B. replace (lenN done + 1 - 1) with (lenN bases) in B by lia. rewrite nthN_app2 in B by lia. rewrite N.sub_diag in B. change (Some (b_prev s1) = Some b) in B. congruence.
  - rewrite lenN_app. change (lenN [v]) with 1. destruct K6 as [Z|(q & Q1 & Q2)]; [left; assumption|right]. exists q. split; [lia|apply GET; assumption].
  - intros t a A1 A2 b b' B1 B2. destruct (N.lt_ge_cases (t + 1) (lenN bases)) as [L|L].
    + rewrite nthN_app1 in B1 by lia. rewrite nthN_app1 in B2 by lia. exact (I10 t a A1 A2 b b' B1 B2).
    + assert (T : t + 1 = lenN bases). { apply nthN_lt in B2. rewrite lenN_app in B2. change (lenN [b_prev s1]) with 1 in B2. lia. }
      rewrite nthN_app1 in B1 by lia. rewrite nthN_app2 in B2 by lia. rewrite T, N.sub_diag in B2. change (Some (b_prev s1) = Some b') in B2. injection B2 as <-.
      rewrite (K7 t a) by (assumption || lia). apply I8. replace (lenN done - 1) with t by lia. exact B1.
Qed.
Lemma values_fold ids : forall done bases s s', vinv done bases s -> foldM (fef_value ptrs) ids s = Ok s' -> exists bases', vinv (done ++ ids) bases' s'.
Proof.
  induction ids as [|v ids IH]; intros done bases s s' I H; cbn [foldM] in H.
  - injection H as <-. exists bases. rewrite app_nil_r. exact I.
  - apply bind_inv in H. destruct H as (s1 & E & H). destruct (value_inv _ _ _ _ _ I E) as (b & I'). destruct (IH _ _ _ _ I' H) as (bs & J). exists bs. rewrite <- app_assoc in J. exact J.
Qed.
(** if the sequence was built, ids of the same context do not decrease *)
Theorem built_sorted h order ids f : Forall (fun v => v < 2 ^ 64) ids -> fef_build h order ids ptrs = Ok f ->
  forall t a x y, nthN at_ t = Some a -> nthN at_ (t + 1) = Some a -> nthN ids t = Some x -> nthN ids (t + 1) = Some y -> x <= y.
Proof.
  intros F H t a x y A1 A2 X Y. unfold fef_build in H. apply bind_inv in H. destruct H as (vals & E & H). apply bind_inv in H. destruct H as (u & _ & H).
  apply bind_inv in H. destruct H as ([off samp] & _ & H). cbv iota beta in H. apply bind_inv in H. destruct H as (c & EC & _). pose proof (efc_build_sorted _ _ _ EC) as SV. clear EC.
  unfold fef_values in E. apply bind_inv in E. destruct E as (p0 & P0 & E). apply bind_inv in E. destruct E as (p1 & P1 & E). apply bind_inv in E. destruct E as (s & E & V). injection V as <-.
  apply rd_inv in P0, P1. apply ptr_at in P0, P1. rewrite below_0 in P0. subst p0. pose proof (below_len at_ 1) as B1.
  assert (S0 : sub64 p1 0 = p1) by (rewrite sub64_le by lia; lia).
  assert (V0 : vinv [] [] (mkfbs [] 0 1 0 p1 (sub64 p1 0) 0)).
  { constructor; cbn [b_vals b_prev b_pi b_start b_end b_run b_within]; rewrite ?S0.
    - reflexivity. - reflexivity. - reflexivity. - reflexivity. - exact P1. - apply N.le_0_l.
    - intros q b Hb. rewrite nthN_nil in Hb. discriminate Hb. - intros b Hb. rewrite nthN_nil in Hb. discriminate Hb. - left. reflexivity.
    - intros q b _ _ b1 b2 Hb. rewrite nthN_nil in Hb. discriminate Hb. }
  destruct (values_fold ids [] [] _ _ V0 E) as (bases & I).
  cbn [app] in I. pose proof (lenN_vals _ _ _ I) as LV. destruct I as [I1 I2 _ _ _ _ I7 _ _ I10].
  destruct (nthN_Some bases t) as (b & Hb). { apply nthN_lt in X. lia. } destruct (nthN_Some bases (t + 1)) as (b' & Hb'). { apply nthN_lt in Y. lia. }
  assert (b' = b) by (symmetry; exact (I10 t a A1 A2 b b' Hb Hb')). subst b'.
  assert (GV : forall i z w, nthN ids i = Some z -> nthN bases i = Some w -> nthN (b_vals s) i = Some (add64 z w)).
  { intros i z w Z W. rewrite I2, nthN_map. assert (CB : nthN (combine ids bases) i = Some (z, w)); [|rewrite CB; reflexivity].
    clear - Z W. unfold nthN in *. revert Z W. generalize (N.to_nat i). revert bases. induction ids as [|h l IH]; intros [|h' l'] [|k] Z W; cbn in *; try discriminate; [congruence|]. apply IH; assumption. }
  pose proof (GV _ _ _ X Hb) as V1. pose proof (GV _ _ _ Y Hb') as V2.
  assert (LX : x < 2 ^ 64) by (apply (Forall_nthN _ _ _ _ F X)). assert (LY : y < 2 ^ 64) by (apply (Forall_nthN _ _ _ _ F Y)).
  assert (LB : b < 2 ^ 64 /\ (forall v i, t <= i -> nthN (b_vals s) i = Some v -> b <= v)).
  { destruct (I7 _ _ Hb) as [->|(q & Q1 & Q2)]; [split; [reflexivity|intros; apply N.le_0_l]|]. split.
    - rewrite I2, nthN_map in Q2. destruct (nthN (combine ids bases) q) as [[z w]|]; [|discriminate Q2]. injection Q2 as <-. cbn [fst snd]. unfold add64. apply w64_lt.
    - intros v i Hi Hv. apply (SV q i); [lia|assumption|assumption]. }
  destruct LB as (LB & GE). pose proof (GE _ t ltac:(lia) V1) as G1. pose proof (GE _ (t + 1) ltac:(lia) V2) as G2. pose proof (SV t (t + 1) _ _ ltac:(lia) V1 V2) as LE.
  assert (W : forall z, z < 2 ^ 64 -> b <= add64 z b -> add64 z b = z + b).
  { intros z LZ L. unfold add64 in *. rewrite w64_mod in *. destruct (N.lt_ge_cases (z + b) (2 ^ 64)) as [Q|Q]; [apply N.mod_small; exact Q|]. exfalso.
    assert (M : (z + b) mod 2 ^ 64 = z + b - 2 ^ 64). { symmetry. apply (N.mod_unique _ _ 1); lia. } rewrite M in L. lia. }
  rewrite (W x LX G1), (W y LY G2) in LE. lia.
Qed.
End Values.
