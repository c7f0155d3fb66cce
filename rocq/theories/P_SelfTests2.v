(** * The random data of the self-check programs of the two sequences *)
From Verif Require Import Prelude BitFacts M_Word P_Word M_Bits Spec Spec_Pef P_Bits M_CompactVector M_HashVec M_DArray M_EF M_Mph M_FastEF P_FastEF3 M_Pef
  M_Save P_Trie1 P_Pef4 M_SelfTests P_SelfTests1.

(** the pointers of ranges filled with the runs [R] from position [s], and the stored values *)
Fixpoint psums (s : N) (R : list (list N)) : list N := match R with [] => [s] | r :: R => s :: psums (s + lenN r) R end.
Fixpoint svals (acc : N) (R : list (list N)) : list N :=
  match R with [] => [] | r :: R => map (N.add acc) r ++ svals (acc + last r 0) R end.
(** a run: 0, then steps of 1 to [hi] *)
Definition steps (lo hi : N) (l : list N) : Prop := forall i x y, nthN l i = Some x -> nthN l (i + 1) = Some y -> x + lo <= y <= x + hi.
Definition good_run (r : list N) : Prop := nthN r 0 = Some 0 /\ steps 1 50 r.

Lemma nthN_succ {A} (a : A) l i : nthN (a :: l) (N.succ i) = nthN l i.
Proof. unfold nthN. rewrite N2Nat.inj_succ. reflexivity. Qed.
Lemma lenN_concat_app {A} (a b : list (list A)) : lenN (concat (a ++ b)) = lenN (concat a) + lenN (concat b).
Proof. rewrite concat_app. apply lenN_app. Qed.
Lemma psums_hd s R : nthN (psums s R) 0 = Some s.
Proof. destruct R; reflexivity. Qed.
Lemma psums_len R : forall s, lenN (psums s R) = lenN R + 1.
Proof. induction R as [|r R IH]; intros s; [reflexivity|]. cbn [psums]. rewrite !lenN_cons, IH. lia. Qed.
Lemma psums_range R : forall s b e, is_range (psums s R) b e -> exists R1 r R2, R = R1 ++ r :: R2 /\ b = s + lenN (concat R1) /\ e = b + lenN r.
Proof.
  induction R as [|r R IH]; intros s b e (j & J1 & J2).
  - pose proof (nthN_lt _ _ _ J2) as L. change (lenN (psums s [])) with 1 in L. lia.
  - cbn [psums] in J1, J2. destruct (N.eq_dec j 0) as [->|NZ].
    + injection J1 as <-. change (0 + 1) with (N.succ 0) in J2. rewrite nthN_succ, psums_hd in J2. injection J2 as <-.
      exists [], r, R. split; [reflexivity|]. cbn [concat]. change (lenN (@nil N)) with 0. lia.
    + replace j with (N.succ (j - 1)) in J1 by lia. replace (j + 1) with (N.succ (j - 1 + 1)) in J2 by lia. rewrite nthN_succ in J1, J2.
      destruct (IH (s + lenN r) b e (ex_intro _ (j - 1) (conj J1 J2))) as (R1 & r' & R2 & E1 & E2 & E3).
      exists (r :: R1), r', R2. split; [cbn; rewrite E1; reflexivity|]. split; [|exact E3]. cbn [concat]. rewrite lenN_app. lia.
Qed.
Lemma psums_last R : forall s, nthN (psums s R) (lenN (psums s R) - 1) = Some (s + lenN (concat R)).
Proof.
  induction R as [|r R IH]; intros s; [cbn; rewrite N.add_0_r; reflexivity|]. cbn [psums]. rewrite lenN_cons.
  replace (1 + lenN (psums (s + lenN r) R) - 1) with (N.succ (lenN (psums (s + lenN r) R) - 1)) by (rewrite psums_len; lia).
  rewrite nthN_succ, IH. cbn [concat]. rewrite lenN_app. f_equal. lia.
Qed.
Lemma psums_pointers R : R <> [] -> pointers_for (psums 0 R) (lenN (concat R)).
Proof.
  intros NE. split; [apply psums_hd|]. split; [rewrite psums_len; destruct R; [congruence|]; rewrite lenN_cons; lia|].
  split; [rewrite psums_last; reflexivity|]. intros i x y Hx Hy. destruct (psums_range R 0 x y) as (R1 & r & R2 & _ & _ & ->); [exists i; auto|lia].
Qed.
Lemma range_run R b e : is_range (psums 0 R) b e -> exists R1 r R2, R = R1 ++ r :: R2 /\ b = lenN (concat R1) /\ e = b + lenN r /\
  forall k, b <= k < e -> nthN (concat R) k = nthN r (k - b).
Proof.
  intros HR. destruct (psums_range R 0 b e HR) as (R1 & r & R2 & -> & E2 & E3). rewrite N.add_0_l in E2. exists R1, r, R2. split; [reflexivity|]. split; [exact E2|]. split; [exact E3|].
  intros k Hk. rewrite concat_app. cbn [concat]. rewrite nthN_app2 by lia. rewrite <- E2. rewrite nthN_app1 by lia. reflexivity.
Qed.
Lemma runs_increasing R : Forall good_run R -> increasing_in_ranges (concat R) (psums 0 R).
Proof.
  intros F b e k x y HR B1 B2 Hx Hy. destruct (range_run R b e HR) as (R1 & r & R2 & -> & E2 & E3 & H).
  apply Forall_app in F. destruct F as (_ & F). pose proof (Forall_inv F) as (_ & G). rewrite (H k ltac:(lia)) in Hx. rewrite (H (k + 1) ltac:(lia)) in Hy.
  replace (k + 1 - b) with (k - b + 1) in Hy by lia. specialize (G _ _ _ Hx Hy). lia.
Qed.
Lemma runs_first R b e : Forall good_run R -> is_range (psums 0 R) b e -> b < e /\ nthN (concat R) b = Some 0.
Proof.
  intros F HR. destruct (range_run R b e HR) as (R1 & r & R2 & -> & E2 & E3 & H). apply Forall_app in F. destruct F as (_ & F). pose proof (Forall_inv F) as (G & _).
  pose proof (nthN_lt _ _ _ G). split; [lia|]. rewrite (H b ltac:(lia)), N.sub_diag. exact G.
Qed.
Lemma svals_len R : forall acc, lenN (svals acc R) = lenN (concat R).
Proof. induction R as [|r R IH]; intros acc; [reflexivity|]. cbn [svals concat]. rewrite !lenN_app, lenN_map, IH. reflexivity. Qed.
Lemma last_nth_N (l : list N) : 0 < lenN l -> nthN l (lenN l - 1) = Some (last l 0).
Proof. intros H. apply last_nthN. exact H. Qed.
(** the value before the end of [R1] *)
Lemma svals_app R1 R2 : Forall good_run R1 -> forall acc, exists acc', svals acc (R1 ++ R2) = svals acc R1 ++ svals acc' R2 /\
  (R1 = [] /\ acc' = acc \/ 0 < lenN (concat R1) /\ nthN (svals acc R1) (lenN (concat R1) - 1) = Some acc').
Proof.
  induction 1 as [|r R1 (G & _) F IH]; intros acc; [exists acc; split; [reflexivity|left; auto]|].
  destruct (IH (acc + last r 0)) as (acc' & E & C). exists acc'. cbn [svals concat app]. rewrite E, app_assoc. split; [reflexivity|]. right. pose proof (nthN_lt _ _ _ G) as LR. rewrite lenN_app. split; [lia|].
  destruct C as [(-> & ->)|(C1 & C2)].
  - cbn [svals concat]. change (lenN (@nil N)) with 0. rewrite N.add_0_r, app_nil_r, nthN_map, (last_nth_N r LR). reflexivity.
  - rewrite nthN_app2 by (rewrite lenN_map; lia). rewrite lenN_map. rewrite <- C2. f_equal. lia.
Qed.
Lemma runs_stored R : Forall good_run R -> stored_values (svals 0 R) (concat R) (psums 0 R).
Proof.
  intros F. split; [apply svals_len|]. intros b e k id HR Hk Hid. destruct (range_run R b e HR) as (R1 & r & R2 & -> & E2 & E3 & H). rewrite (H k Hk) in Hid.
  apply Forall_app in F. destruct F as (F1 & F2). destruct (svals_app R1 (r :: R2) F1 0) as (acc & E & C). rewrite E. cbn [svals].
  assert (BF : before (svals 0 R1 ++ map (N.add acc) r ++ svals (acc + last r 0) R2) b = acc).
  { unfold before. destruct C as [(-> & ->)|(C1 & C2)].
    - subst b. reflexivity.
    - destruct (N.eqb_spec b 0) as [X|_]; [lia|]. rewrite nthN_app1 by (rewrite svals_len; lia). rewrite E2, C2. reflexivity. }
  rewrite BF. rewrite nthN_app2 by (rewrite svals_len; lia). rewrite svals_len, <- E2. rewrite nthN_app1 by (rewrite lenN_map; lia). rewrite nthN_map, Hid. cbn. f_equal. lia.
Qed.
Lemma run_bound r : steps 1 50 r -> nthN r 0 = Some 0 -> forall i x, nthN r i = Some x -> x <= 50 * i.
Proof.
  intros HS H0 i. induction i as [|i IH] using N.peano_ind; intros x Hx; [rewrite H0 in Hx; injection Hx as <-; lia|].
  pose proof (nthN_lt _ _ _ Hx) as L. destruct (nthN_Some r i ltac:(lia)) as (y & Hy). specialize (IH y Hy). rewrite <- N.add_1_r in Hx. specialize (HS i y x Hy Hx). lia.
Qed.
Lemma svals_bound R : Forall good_run R -> forall acc, Forall (fun x => x <= acc + 50 * lenN (concat R)) (svals acc R).
Proof.
  induction 1 as [|r R (G0 & G1) F IH]; intros acc; [constructor|]. cbn [svals concat]. rewrite lenN_app. pose proof (nthN_lt _ _ _ G0) as LR.
  assert (LB : last r 0 <= 50 * lenN r) by (pose proof (run_bound r G1 G0 _ _ (last_nth_N r LR)); lia). apply Forall_app. split.
  - apply Forall_forall. intros x Hx. apply in_map_iff in Hx. destruct Hx as (y & <- & Hy). apply In_nthN in Hy. destruct Hy as (i & Hi). pose proof (run_bound r G1 G0 i y Hi). pose proof (nthN_lt _ _ _ Hi). lia.
  - eapply Forall_impl; [|apply IH]. cbv beta. intros x Hx. lia.
Qed.

(** ** growing values *)
Lemma grow_len draw m : forall c l, lenN (grow draw c l m) = N.of_nat m.
Proof. induction m as [|m IH]; intros c l; [reflexivity|]. cbn [grow]. rewrite lenN_cons, IH. lia. Qed.
Lemma grow_steps draw lo hi m : (forall k, lo <= draw k <= hi) -> forall c l, l + hi * N.of_nat m < 2 ^ 64 -> steps lo hi (l :: grow draw c l m).
Proof.
  intros HD. induction m as [|m IH]; intros c l HL i x y Hx Hy.
  - pose proof (nthN_lt _ _ _ Hy) as L. change (lenN (l :: grow draw c l 0)) with 1 in L. lia.
  - cbn [grow] in *. pose proof (HD c) as D. rewrite add64_small in * by lia. destruct (N.eq_dec i 0) as [->|NZ].
    + injection Hx as <-. change (0 + 1) with (N.succ 0) in Hy. rewrite nthN_succ in Hy. injection Hy as <-. lia.
    + replace i with (N.succ (i - 1)) in Hx by lia. replace (i + 1) with (N.succ (i - 1 + 1)) in Hy by lia. rewrite nthN_succ in Hx, Hy.
      apply (IH (c + 1) (l + draw c) ltac:(lia) (i - 1) x y Hx Hy).
Qed.

(** ** cutting *)
Lemma cut_ok draw vdraw n hi : n + hi < 2 ^ 64 -> 50 * n < 2 ^ 64 -> (forall k, 1 <= draw k <= hi) -> (forall k, 1 <= vdraw k <= 50) ->
  forall fuel k offset, offset <= n -> n - offset <= N.of_nat fuel ->
  exists os, cut fuel draw k offset n = Ok os /\ forall c, exists R, fill_ranges vdraw c (combine (offset :: os) os) = concat R /\
    psums offset R = offset :: os /\ Forall good_run R /\ offset + lenN (concat R) = n.
Proof.
  intros HN H50 HD HV. induction fuel as [|fuel IH]; intros k offset L1 L2.
  - exists []. cbn [cut]. destruct (N.ltb_spec offset n) as [X|_]; [lia|]. split; [reflexivity|]. intros c. exists []. split; [reflexivity|]. split; [reflexivity|]. split; [constructor|]. cbn. change (lenN (@nil N)) with 0. lia.
  - cbn [cut]. destruct (N.ltb_spec offset n) as [X|X].
    + pose proof (HD k) as D. rewrite add64_small by lia. cbv zeta. set (o := if n <? offset + draw k then n else offset + draw k).
      assert (HO : offset < o <= n) by (unfold o; destruct (N.ltb_spec n (offset + draw k)); lia).
      destruct (IH (k + 1) o ltac:(lia) ltac:(lia)) as (os & E & H). rewrite E. exists (o :: os). split; [reflexivity|]. intros c.
      destruct (H (c + (o - (offset + 1)))) as (R & R1 & R2 & R3 & R4). set (run := 0 :: grow vdraw c 0 (N.to_nat (o - (offset + 1)))).
      assert (LR : lenN run = o - offset) by (unfold run; rewrite lenN_cons, grow_len; lia).
      exists (run :: R). split; [|split; [|split]].
      * change (combine (offset :: o :: os) (o :: os)) with ((offset, o) :: combine (o :: os) os). cbn [fill_ranges]. rewrite R1. reflexivity.
      * cbn [psums]. rewrite LR. replace (offset + (o - offset)) with o by lia. rewrite R2. reflexivity.
      * constructor; [|exact R3]. split; [reflexivity|]. apply grow_steps; [exact HV|lia].
      * cbn [concat]. rewrite lenN_app, LR. lia.
    + exists []. split; [reflexivity|]. intros c. exists []. split; [reflexivity|]. split; [reflexivity|]. split; [constructor|]. cbn. change (lenN (@nil N)) with 0. lia.
Qed.
Lemma data_ok draw vdraw n hi : 0 < n -> n + hi < 2 ^ 64 -> 50 * n < 2 ^ 64 -> (forall k, 1 <= draw k <= hi) -> (forall k, 1 <= vdraw k <= 50) ->
  exists ptrs R, cut_pointers draw n = Ok ptrs /\ ptrs = psums 0 R /\ fill_ranges vdraw 0 (ranges_of ptrs) = concat R /\ Forall good_run R /\ R <> [] /\ lenN (concat R) = n.
Proof.
  intros H0 HN H50 HD HV. destruct (cut_ok draw vdraw n hi HN H50 HD HV (N.to_nat n) 0 0 ltac:(lia) ltac:(lia)) as (os & E & H). destruct (H 0) as (R & R1 & R2 & R3 & R4).
  exists (0 :: os), R. unfold cut_pointers. rewrite E. split; [reflexivity|]. split; [symmetry; exact R2|]. split; [exact R1|]. split; [exact R3|]. split; [|lia].
  intros ->. cbn in R4. change (lenN (@nil N)) with 0 in R4. lia.
Qed.

(** ** the range of an index *)
Definition at_range (ptrs : list N) (j i : N) : Prop :=
  exists b e, nthN ptrs j = Some b /\ nthN ptrs (j + 1) = Some e /\ b <= i <= e /\ (j = 0 \/ b < i).
Lemma ranges_nth ptrs j b e : nthN ptrs j = Some b -> nthN ptrs (j + 1) = Some e -> nthN (ranges_of ptrs) j = Some (b, e).
Proof.
  unfold ranges_of. revert j. induction ptrs as [|p ptrs IH]; intros j Hb He; [rewrite nthN_nil in Hb; discriminate|].
  destruct ptrs as [|q ptrs].
  - pose proof (nthN_lt _ _ _ He) as L. change (lenN [p]) with 1 in L. lia.
  - change (combine (p :: q :: ptrs) (tl (p :: q :: ptrs))) with ((p, q) :: combine (q :: ptrs) (tl (q :: ptrs))). destruct (N.eq_dec j 0) as [->|NZ].
    + injection Hb as <-. change (0 + 1) with (N.succ 0) in He. rewrite nthN_succ in He. injection He as <-. reflexivity.
    + rewrite nthN_S in Hb, He by lia. rewrite nthN_S by lia. replace (j + 1 - 1) with (j - 1 + 1) in He by lia. apply IH; assumption.
Qed.
Lemma range_at_ok ptrs n j i : pointers_for ptrs n -> (forall b e, is_range ptrs b e -> b < e) -> i < n -> at_range ptrs j i ->
  exists j' b e, range_at (ranges_of ptrs) j i = Ok (j', (b, e)) /\ is_range ptrs b e /\ b <= i < e /\ at_range ptrs j' (i + 1).
Proof.
  intros (P0 & P1 & P2 & P3) NE Hi (b & e & Hb & He & L & C). unfold range_at. rewrite (proj2 (rd_nthN _ _ _) (ranges_nth _ _ _ _ Hb He)). cbn [bind snd].
  destruct (N.leb_spec e i) as [X|X].
  - assert (e = i) by lia. subst e. assert (LJ : j + 1 + 1 < lenN ptrs).
    { pose proof (nthN_lt _ _ _ He) as L1. destruct (N.eq_dec (j + 1) (lenN ptrs - 1)) as [E|E]; [|lia]. rewrite E, P2 in He. injection He as He. lia. }
    destruct (nthN_Some ptrs (j + 1 + 1) LJ) as (e' & He'). rewrite (proj2 (rd_nthN _ _ _) (ranges_nth _ _ _ _ He He')). cbn [bind].
    assert (HR : is_range ptrs i e') by (exists (j + 1); auto). pose proof (NE _ _ HR). exists (j + 1), i, e'. split; [reflexivity|]. split; [exact HR|]. split; [lia|].
    exists i, e'. split; [exact He|]. split; [exact He'|]. split; lia.
  - exists j, b, e. split; [reflexivity|]. split; [exists j; auto|]. split; [lia|]. exists b, e. split; [exact Hb|]. split; [exact He|]. split; lia.
Qed.
Lemma at_range_0 ptrs n : pointers_for ptrs n -> at_range ptrs 0 0.
Proof.
  intros (P0 & P1 & P2 & P3). destruct (nthN_Some ptrs 1 ltac:(lia)) as (e & He). exists 0, e. split; [exact P0|]. split; [exact He|]. split; [lia|left; reflexivity].
Qed.
