(** * Property C18, groups of more than 2^24 values *)
From Coq Require Import Reals Psatz.
From Flocq Require Import Core BinarySingleNaN.
From Coq Require Import Floats.SpecFloat.
From Verif Require P_BitProg.
From Verif Require Import Prelude BitFacts P_Word M_Word Spec M_Text M_Score M_Quant P_Quant P_Float P_Quant2 Props_Quant.

#[local] Instance p24 : Prec_gt_0 24 := eq_refl.
#[local] Instance e24 : Prec_lt_emax 24 128 := eq_refl.
#[local] Instance p53 : Prec_gt_0 53 := eq_refl.
#[local] Instance e53 : Prec_lt_emax 53 1024 := eq_refl.
#[local] Instance V32 : Valid_exp (SpecFloat.fexp 24 128) := FLT_exp_valid (SpecFloat.emin 24 128) 24.
#[local] Instance V64 : Valid_exp (SpecFloat.fexp 53 1024) := FLT_exp_valid (SpecFloat.emin 53 1024) 53.

(** the largest float below 1, negated: -0.99999994 *)
Definition almost_one : F := S754_finite true 16777215 (-24).
Lemma fin_v : fin almost_one.
Proof. split; vm_compute; reflexivity. Qed.
Lemma rv_v : rv almost_one = (- IZR (2 ^ 24 - 1) * bpow radix2 (-24))%R.
Proof. cbn [almost_one SF2R cond_Zopp]. unfold F2R. cbn [Fnum Fexp]. rewrite <- opp_IZR. reflexivity. Qed.
Lemma mult_v (j : Z) : (0 <= j <= 2 ^ 25)%Z -> fmt64 (IZR j * rv almost_one)%R.
Proof.
  intros Hj. apply generic_format_FLT. exists (Float radix2 (- (j * (2 ^ 24 - 1))) (-24)).
  - rewrite rv_v. unfold F2R. cbn [Fnum Fexp]. rewrite opp_IZR, mult_IZR. ring.
  - cbn [Fnum]. rewrite Z.abs_opp, Z.abs_eq by lia. change (radix2 ^ 53)%Z with (2 ^ 53)%Z. nia.
  - cbn [Fexp]. unfold SpecFloat.emin. lia.
Qed.
Lemma mult_small (j : Z) : (0 <= j <= 2 ^ 25)%Z -> (Rabs (IZR j * rv almost_one) < bpow radix2 1024)%R.
Proof.
  intros Hj. rewrite Rabs_mult, <- abs_IZR, Z.abs_eq by lia. apply Rle_lt_trans with (bpow radix2 25 * bpow radix2 0)%R.
  - apply Rmult_le_compat; [apply (IZR_le 0); lia|apply Rabs_pos| |].
    + change (bpow radix2 25) with (IZR (2 ^ 25)). apply IZR_le. lia.
    + rewrite rv_v, Rabs_mult, Rabs_Ropp, <- abs_IZR, Rabs_pos_eq by apply bpow_ge_0. change (bpow radix2 0) with 1%R.
      apply Rle_trans with (IZR (2 ^ 24) * bpow radix2 (-24))%R; [apply Rmult_le_compat_r; [apply bpow_ge_0|apply IZR_le; lia]|].
      change (IZR (2 ^ 24)) with (bpow radix2 24). rewrite <- bpow_plus. apply Req_le. reflexivity.
  - rewrite <- bpow_plus. apply bpow_lt. lia.
Qed.
(** the running sum is exact *)
Lemma sum_v n : forall acc (j : Z), (0 <= j)%Z -> (j + Z.of_nat n <= 2 ^ 25)%Z ->
  is_finite_SF acc = true -> rv acc = (IZR j * rv almost_one)%R ->
  let s := fold_left dadd (repeat almost_one n) acc in
  is_finite_SF s = true /\ rv s = (IZR (j + Z.of_nat n) * rv almost_one)%R.
Proof.
  induction n as [|n IH]; intros acc j J0 J FA RA.
  - cbn [repeat fold_left]. cbv zeta. replace (j + Z.of_nat 0)%Z with j by lia. auto.
  - cbn [repeat fold_left]. cbv zeta.
    assert (SE : (rv acc + rv almost_one)%R = (IZR (j + 1) * rv almost_one)%R) by (rewrite RA, plus_IZR; ring).
    assert (RE : rnd64 (rv acc + rv almost_one) = (IZR (j + 1) * rv almost_one)%R) by (rewrite SE; apply round_generic; [apply valid_rnd_N|apply mult_v; lia]).
    destruct (add_ok 53 1024 p53 e53 acc almost_one) as [S1 S2]; [exact FA|apply fin_v|rewrite RA; apply mult_v; lia|apply fin64; apply fin_v| |].
    { rewrite RE. apply mult_small. lia. }
    destruct (IH (dadd acc almost_one) (j + 1)%Z) as [T1 T2]; [lia|lia|exact S1|unfold dadd; rewrite S2; exact RE|].
    split; [exact T1|]. rewrite T2. f_equal. f_equal. lia.
Qed.
(** the centre of 2^24 + 1 values equal to -0.99999994 is -1 *)
Lemma centre_v n : Z.of_nat n = (2 ^ 24 + 1)%Z -> let c := bin_average (repeat almost_one n) in fin c /\ rv c = (-1)%R.
Proof.
  intros Hn c. destruct (sum_v n (S754_zero false) 0) as [S1 S2]; [lia|lia|reflexivity|cbn [SF2R]; rewrite Rmult_0_l; reflexivity|]. cbv zeta in S1, S2. rewrite Hn in S2.
  unfold bin_average in c. set (s := fold_left dadd (repeat almost_one n) (S754_zero false)) in *.
  assert (L : lenN (repeat almost_one n) = 2 ^ 24 + 1) by (unfold lenN; rewrite repeat_length; lia).
  assert (NE : n2f (lenN (repeat almost_one n)) = S754_finite false 8388608 1) by (rewrite L; vm_compute; reflexivity).
  unfold c. clear c. rewrite NE. clear NE L.
  assert (RN : rv (S754_finite false 8388608 1) = bpow radix2 24).
  { cbn [SF2R cond_Zopp]. unfold F2R. cbn [Fnum Fexp]. change (IZR 8388608) with (bpow radix2 23). rewrite <- bpow_plus. reflexivity. }
  assert (QE : (rv s / bpow radix2 24)%R = (- IZR (2 ^ 48 - 1) * bpow radix2 (-48))%R).
  { rewrite S2, rv_v. unfold Rdiv. rewrite <- bpow_opp. replace (bpow radix2 (-48)) with (bpow radix2 (-24) * bpow radix2 (- (24)))%R by (rewrite <- bpow_plus; reflexivity).
    replace (IZR (2 ^ 48 - 1)) with (IZR (0 + (2 ^ 24 + 1)) * IZR (2 ^ 24 - 1))%R by (rewrite <- mult_IZR; reflexivity). ring. }
  assert (GE : fmt64 (- IZR (2 ^ 48 - 1) * bpow radix2 (-48))%R).
  { apply generic_format_FLT. exists (Float radix2 (- (2 ^ 48 - 1)) (-48)); [unfold F2R; cbn [Fnum Fexp]; rewrite opp_IZR; reflexivity|cbn; lia|cbn; lia]. }
  assert (BE : (Rabs (- IZR (2 ^ 48 - 1) * bpow radix2 (-48)) <= 1)%R).
  { rewrite Rabs_mult, Rabs_Ropp, <- abs_IZR, (Rabs_pos_eq (bpow radix2 (-48))) by apply bpow_ge_0.
    apply Rle_trans with (IZR (2 ^ 48) * bpow radix2 (-48))%R; [apply Rmult_le_compat_r; [apply bpow_ge_0|apply IZR_le; lia]|]. change (IZR (2 ^ 48)) with (bpow radix2 48). rewrite <- bpow_plus. apply Req_le. reflexivity. }
  destruct (div_ok 53 1024 p53 e53 s (S754_finite false 8388608 1)) as [D1 D2]; [exact S1|reflexivity|rewrite RN; apply Rgt_not_eq, bpow_gt_0| |].
  { rewrite RN, QE. rewrite round_generic by (try apply valid_rnd_N; exact GE). apply Rle_lt_trans with 1%R; [exact BE|]. change 1%R with (bpow radix2 0). apply bpow_lt. lia. }
  rewrite RN, QE in D2. rewrite round_generic in D2 by (try apply valid_rnd_N; exact GE). fold (ddiv s (S754_finite false 8388608 1)) in D1, D2. set (d := ddiv s (S754_finite false 8388608 1)) in *.
  assert (K : F2R (Float radix2 (- (2 ^ 48 - 1)) (-48)) = (- IZR (2 ^ 48 - 1) * bpow radix2 (-48))%R) by (unfold F2R; cbn [Fnum Fexp]; rewrite opp_IZR; reflexivity).
  assert (R1 : rnd32 (- IZR (2 ^ 48 - 1) * bpow radix2 (-48))%R = (-1)%R).
  { rewrite <- K. destruct (normalize_ok 24 128 p24 e24 (- (2 ^ 48 - 1)) (-48) false) as (_ & _ & N3).
    - rewrite K. apply Rle_lt_trans with 1%R; [|change 1%R with (bpow radix2 0); apply bpow_lt; lia].
      assert (G1 : fmt32 1%R) by (change 1%R with (bpow radix2 0); apply generic_format_bpow; cbn; lia).
      assert (G2 : fmt32 (-1)%R) by (apply (generic_format_opp radix2 _ 1%R); exact G1).
      apply Rabs_le_inv in BE. apply Rabs_le. split.
      + apply Rle_trans with (rnd32 (-1)%R); [rewrite round_generic by (try apply valid_rnd_N; exact G2); apply Rle_refl|apply round_le; [apply V32|apply valid_rnd_N|apply BE]].
      + apply Rle_trans with (rnd32 1%R); [apply round_le; [apply V32|apply valid_rnd_N|apply BE]|rewrite round_generic by (try apply valid_rnd_N; exact G1); apply Rle_refl].
    - rewrite <- N3. replace (SpecFloat.binary_normalize 24 128 (- (2 ^ 48 - 1)) (-48) false) with (S754_finite true 8388608 (-23)) by (vm_compute; reflexivity).
      cbn [SF2R cond_Zopp]. unfold F2R. cbn [Fnum Fexp]. replace (bpow radix2 (-23)) with (/ IZR 8388608)%R by reflexivity. rewrite opp_IZR. field. }
  destruct d as [sd|sd| |sd m e]; try discriminate D1.
  - exfalso. cbn [SF2R] in D2. assert (0 < IZR (2 ^ 48 - 1) * bpow radix2 (-48))%R by (apply Rmult_lt_0_compat; [apply (IZR_lt 0); lia|apply bpow_gt_0]). lra.
  - cbn [d2f]. cbn [SF2R] in D2. destruct (normalize_ok 24 128 p24 e24 (cond_Zopp sd (Z.pos m)) e sd) as (E1 & E2 & E3).
    + rewrite D2, R1. apply Rle_lt_trans with 1%R; [apply Rabs_le; lra|]. change 1%R with (bpow radix2 0). apply bpow_lt. lia.
    + split; [split; assumption|]. rewrite E3, D2. exact R1.
Qed.

(** the loop over the groups, whatever their sizes *)
Lemma make_bins_any seq nb : 0 < nb -> nb <= lenN seq -> lenN seq * nb < 2 ^ 64 ->
  let start i := lenN seq * i / nb in
  let bin i := firstn (N.to_nat (start (i + 1) - start i)) (skipn (N.to_nat (start i)) seq) in
  forall k i av, i + N.of_nat k <= nb ->
  make_bins_loop k seq nb i (start i) av = Ok (av ++ map (fun j => bin_average (bin j)) (seqN i k)).
Proof.
  intros Hnb Hn Hov start bin. induction k as [|k IH]; intros i av Hk.
  - cbn. rewrite app_nil_r. reflexivity.
  - cbn [make_bins_loop seqN map].
    assert (Hm : lenN seq * (i + 1) <= lenN seq * nb) by (apply N.mul_le_mono_l; lia).
    rewrite mul64_small by lia. fold (start (i + 1)).
    assert (Hs : start i < start (i + 1)).
    { unfold start. apply N.lt_le_trans with (lenN seq * i / nb + 1); [lia|].
      replace (lenN seq * i / nb + 1) with ((lenN seq * i + 1 * nb) / nb) by (apply N.div_add; lia). apply N.div_le_mono; lia. }
    destruct (N.eqb_spec (start (i + 1)) (start i)); [lia|]. cbn [bind]. fold (bin i).
    rewrite IH by lia. rewrite <- app_assoc, <- N.add_1_r. reflexivity.
Qed.
Lemma cut_repeat {A} (v : A) n s a : (s + a <= n)%nat -> firstn a (skipn s (repeat v n)) = repeat v a.
Proof.
  intros H. replace n with (s + (a + (n - s - a)))%nat by lia. rewrite repeat_app, skipn_app, repeat_length, skipn_all2 by (rewrite repeat_length; lia).
  rewrite Nat.sub_diag. cbn [skipn app]. rewrite repeat_app, firstn_app, repeat_length, Nat.sub_diag. cbn [firstn]. rewrite app_nil_r. apply firstn_all2. rewrite repeat_length. lia.
Qed.

(** 2^26 + 1 equal values in four groups: the last group has 2^24 + 1 values, and its size is not a float.  Its centre is
    below all its values (-1 for -0.99999994) and below the other three centres. *)
Theorem C18_large_group_refuted : exists xs v cs c, lenN xs = 2 ^ 26 + 1 /\ finite v /\ Forall (fun x => x = v) xs /\ sorted xs /\
  build_probs qsc_empty xs 2 = Ok (mkqsc [2] [cs]) /\ lenN cs = 4 /\ nthN cs 3 = Some c /\
  lenN (group xs 4 3) = 2 ^ 24 + 1 /\ SFltb c v = true /\
  (exists a, nthN cs 0 = Some a /\ eqv a v) /\ ~ sorted cs.
Proof.
  remember (N.to_nat (2 ^ 26 + 1)) as n eqn:En. assert (Hn : N.of_nat n = 2 ^ 26 + 1) by (rewrite En; apply N2Nat.id). clear En.
  set (xs := repeat almost_one n). assert (L : lenN xs = 2 ^ 26 + 1) by (unfold lenN, xs; rewrite repeat_length; exact Hn).
  assert (AL : forall x, In x xs -> x = almost_one) by (intros x Hx; apply repeat_spec in Hx; exact Hx).
  set (st := fun i => lenN xs * i / 4). set (bin := fun i => firstn (N.to_nat (st (i + 1) - st i)) (skipn (N.to_nat (st i)) xs)).
  assert (BE : forall i m, st i + m <= 2 ^ 26 + 1 -> st (i + 1) = st i + m -> bin i = repeat almost_one (N.to_nat m)).
  { intros i m H1 H2. unfold bin. rewrite H2. replace (st i + m - st i) with m by lia. unfold xs. apply cut_repeat. clear - Hn H1. lia. }
  assert (ST : st 0 = 0 /\ st 1 = 2 ^ 24 /\ st 2 = 2 * 2 ^ 24 /\ st 3 = 3 * 2 ^ 24 /\ st 4 = 4 * 2 ^ 24 + 1) by (unfold st; rewrite L; repeat split; vm_compute; reflexivity).
  destruct ST as (T0 & T1 & T2 & T3 & T4).
  assert (B3 : bin 3 = repeat almost_one (N.to_nat (2 ^ 24 + 1))) by (apply BE; [rewrite T3; vm_compute; discriminate|change (3 + 1) with 4; rewrite T3, T4; reflexivity]).
  assert (B0 : bin 0 = repeat almost_one (N.to_nat (2 ^ 24))) by (apply BE; [rewrite T0; vm_compute; discriminate|change (0 + 1) with 1; rewrite T0, T1; reflexivity]).
  assert (A3 : fin (bin_average (bin 3)) /\ rv (bin_average (bin 3)) = (-1)%R).
  { rewrite B3. apply centre_v. rewrite N_nat_Z. reflexivity. }
  assert (A0 : fin (bin_average (bin 0)) /\ rv (bin_average (bin 0)) = rv almost_one).
  { destruct (average_between almost_one almost_one (bin 0) fin_v fin_v) as [H1 H2].
    - rewrite B0. unfold lenN. rewrite repeat_length, N2Nat.id. split; [reflexivity|vm_compute; discriminate].
    - rewrite B0. apply Forall_forall. intros x Hx. apply repeat_spec in Hx. subst x. split; [exact fin_v|]. split; apply Rle_refl.
    - split; [exact H1|]. apply Rle_antisym; apply H2. }
  assert (VL : (-1 < rv almost_one)%R).
  { rewrite rv_v. replace (bpow radix2 (-24)) with (/ IZR (2 ^ 24))%R by reflexivity. apply Rmult_lt_reg_r with (IZR (2 ^ 24)); [apply (IZR_lt 0); lia|].
    rewrite Rmult_assoc, Rinv_l by (apply Rgt_not_eq, (IZR_lt 0); lia). rewrite Rmult_1_r, <- opp_IZR. replace (-1 * IZR (2 ^ 24))%R with (IZR (- 2 ^ 24)) by (rewrite opp_IZR; ring). apply IZR_lt. lia. }
  assert (GL : lenN (group xs 4 3) = 2 ^ 24 + 1).
  { transitivity (lenN (bin 3)); [reflexivity|]. rewrite B3. unfold lenN. rewrite repeat_length, N2Nat.id. reflexivity. }
  assert (MB : exists f : N -> F, f 0 = bin_average (bin 0) /\ f 3 = bin_average (bin 3) /\ make_bins xs [] 4 = Ok (map f (seqN 0 4))).
  { exists (fun j => bin_average (bin j)). split; [reflexivity|]. split; [reflexivity|]. unfold make_bins. replace (4 <? 2 ^ 32) with true by reflexivity.
    pose proof (make_bins_any xs 4 ltac:(lia) ltac:(rewrite L; vm_compute; discriminate) ltac:(rewrite L; reflexivity) 4%nat 0 [] ltac:(vm_compute; discriminate)) as M. cbv beta zeta in M.
    rewrite (N.mul_0_r (lenN xs)) in M. change (0 / 4) with 0 in M. change (N.to_nat 4) with 4%nat. rewrite M. reflexivity. }
  destruct MB as (f & F0 & F3 & MB). rewrite <- F0 in A0. rewrite <- F3 in A3. replace (seqN 0 4) with [0; 1; 2; 3] in MB by reflexivity. cbn [map] in MB.
  clear F0 F3 B0 B3 BE T0 T1 T2 T3 T4. clearbody bin st. revert A0 A3 MB. generalize (f 0) (f 1) (f 2) (f 3). intros f0 f1 f2 f3 A0 A3 MB.
  exists xs, almost_one, [f0; f1; f2; f3], f3.
  split; [exact L|]. split; [split; vm_compute; reflexivity|]. split; [apply Forall_forall; exact AL|]. split; [|split; [|split; [|split; [|split; [|split; [|split]]]]]].
  - intros i j x y _ Hx Hy. apply nthN_In in Hx, Hy. rewrite (AL x Hx), (AL y Hy). vm_compute. reflexivity.
  - unfold build_probs, check_qbits. rewrite L. replace ((2 <? 2) || (32 <? 2)) with false by reflexivity. cbv iota. change (shl 1 2) with 4.
    replace ((0 <? 2 ^ 26 + 1) && (2 ^ 26 + 1 <? 4)) with false by reflexivity. cbn [bind]. rewrite MB. reflexivity.
  - reflexivity.
  - reflexivity.
  - exact GL.
  - apply flt_fin; [apply A3|exact fin_v|]. rewrite (proj2 A3). exact VL.
  - exists f0. split; [reflexivity|]. apply feqb_fin; [apply A0|exact fin_v|]. apply A0.
  - intros S. pose proof (S 0 3 f0 f3 ltac:(lia) eq_refl eq_refl) as Q. apply leb_fin in Q; [|apply A0|apply A3]. rewrite (proj2 A0), (proj2 A3) in Q. apply Rle_not_lt in Q. contradiction.
Qed.
Print Assumptions C18_large_group_refuted.
