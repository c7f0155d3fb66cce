(** * Proofs about the quantizer: groups of up to 2^29 values *)
From Coq Require Import Reals Psatz.
From Flocq Require Import Core BinarySingleNaN.
From Coq Require Import Floats.SpecFloat.
From Verif Require Import Prelude M_Word BitFacts P_Word M_Text M_Score M_Quant P_Quant P_Float P_Quant2.

#[local] Instance p24 : Prec_gt_0 24 := eq_refl.
#[local] Instance e24 : Prec_lt_emax 24 128 := eq_refl.
#[local] Instance p53 : Prec_gt_0 53 := eq_refl.
#[local] Instance e53 : Prec_lt_emax 53 1024 := eq_refl.
#[local] Instance V32 : Valid_exp (SpecFloat.fexp 24 128) := FLT_exp_valid (SpecFloat.emin 24 128) 24.
#[local] Instance V64 : Valid_exp (SpecFloat.fexp 53 1024) := FLT_exp_valid (SpecFloat.emin 53 1024) 53.
(** small multiples of floats are doubles *)
Lemma mult64b x (j : Z) : fin x -> (0 <= j <= 2 ^ 29)%Z -> fmt64 (IZR j * rv x)%R.
Proof.
  intros [V Fx] Hj. destruct x as [s|s| |s m e]; try discriminate.
  - cbn [SF2R]. rewrite Rmult_0_r. apply generic_format_0.
  - apply valid_f32 in V. destruct V as [V1 V2].
    apply generic_format_FLT. exists (Float radix2 (j * cond_Zopp s (Zpos m)) e).
    + cbn [SF2R]. unfold F2R. cbn [Fnum Fexp]. rewrite mult_IZR. ring.
    + cbn [Fnum]. rewrite Z.abs_mul. destruct s; cbn [cond_Zopp]; rewrite ?Z.abs_opp; rewrite ?Z.abs_eq by lia; change (radix2 ^ 53)%Z with (2 ^ 53)%Z; nia.
    + cbn [Fexp]. unfold SpecFloat.emin. lia.
Qed.
Lemma bpow_smallb : (bpow radix2 29 * bpow radix2 128 < bpow radix2 1024)%R.
Proof. rewrite <- bpow_plus. apply bpow_lt. lia. Qed.
Lemma between_smallb lo hi x (j : Z) : fin lo -> fin hi -> (0 <= j <= 2 ^ 29)%Z -> (IZR j * rv lo <= x <= IZR j * rv hi)%R -> (Rabs x < bpow radix2 1024)%R.
Proof.
  intros H1 H2 Hj [Hx1 Hx2]. apply fin_lt in H1, H2. apply Rabs_def2 in H1, H2.
  assert (B1 : (0 <= IZR j <= bpow radix2 29)%R). { split; [apply (IZR_le 0); lia|]. change (bpow radix2 29) with (IZR (2 ^ 29)). apply IZR_le. lia. }
  pose proof bpow_smallb. pose proof (bpow_gt_0 radix2 128).
  apply Rle_lt_trans with (bpow radix2 29 * bpow radix2 128)%R; [|assumption].
  apply Rabs_le. split.
  - apply Rle_trans with (IZR j * - bpow radix2 128)%R; [|apply Rle_trans with (IZR j * rv lo)%R; [apply Rmult_le_compat_l; lra|assumption]].
    apply Ropp_le_cancel. rewrite Ropp_involutive. replace (- (IZR j * - bpow radix2 128))%R with (IZR j * bpow radix2 128)%R by ring. apply Rmult_le_compat_r; lra.
  - apply Rle_trans with (IZR j * rv hi)%R; [assumption|]. apply Rle_trans with (IZR j * bpow radix2 128)%R; [apply Rmult_le_compat_l; lra|apply Rmult_le_compat_r; lra].
Qed.
(** the running sum of a bin *)
Lemma sum_okb lo hi : fin lo -> fin hi -> forall xs acc (j : Z), (0 <= j)%Z -> (j + Z.of_nat (length xs) <= 2 ^ 29)%Z ->
  Forall (fun x => fin x /\ (rv lo <= rv x <= rv hi)%R) xs ->
  is_finite_SF acc = true -> fmt64 (rv acc) -> (IZR j * rv lo <= rv acc <= IZR j * rv hi)%R ->
  let s := fold_left dadd xs acc in
  is_finite_SF s = true /\ fmt64 (rv s) /\
  (IZR (j + Z.of_nat (length xs)) * rv lo <= rv s <= IZR (j + Z.of_nat (length xs)) * rv hi)%R.
Proof.
  intros Hlo Hhi. induction xs as [|x xs IH]; intros acc j Hj0 Hj HF Facc Gacc B.
  - cbn [fold_left length]. replace (j + Z.of_nat 0)%Z with j by lia. cbv zeta. auto.
  - apply Forall_cons_iff in HF. destruct HF as [[Fx Bx] HF]. cbn [length] in Hj.
    assert (R : (IZR (j + 1) * rv lo <= rnd64 (rv acc + rv x) <= IZR (j + 1) * rv hi)%R).
    { rewrite plus_IZR. split.
      - rewrite <- (round_generic radix2 (SpecFloat.fexp 53 1024) ZnearestE ((IZR j + IZR 1) * rv lo)).
        + apply round_le; [apply V64|apply valid_rnd_N|lra].
        + rewrite <- plus_IZR. apply mult64b; [exact Hlo|lia].
      - rewrite <- (round_generic radix2 (SpecFloat.fexp 53 1024) ZnearestE ((IZR j + IZR 1) * rv hi)).
        + apply round_le; [apply V64|apply valid_rnd_N|lra].
        + rewrite <- plus_IZR. apply mult64b; [exact Hhi|lia]. }
    destruct (add_ok 53 1024 p53 e53 acc x) as [S1 S2]; [assumption|apply Fx|assumption|apply fin64; exact Fx| |].
    { apply (between_smallb lo hi _ (j + 1)); [assumption..|lia|exact R]. }
    destruct (IH (dadd acc x) (j + 1)%Z) as (T1 & T2 & T3); [lia|lia|exact HF|exact S1| |unfold dadd; rewrite S2; exact R|].
    { unfold dadd. rewrite S2. apply generic_format_round; [apply V64|apply valid_rnd_N]. }
    cbn [fold_left length]. replace (j + Z.of_nat (S (length xs)))%Z with (j + 1 + Z.of_nat (length xs))%Z by lia. cbv zeta. auto.
Qed.
(** counts that are floats *)
Definition float_count (n : N) : Prop := exists k e, n = k * 2 ^ e /\ k <= 2 ^ 24 /\ e <= 64.
Lemma small_count n : n <= 2 ^ 24 -> float_count n.
Proof. intros H. exists n, 0. rewrite N.pow_0_r, N.mul_1_r. split; [reflexivity|]. split; [exact H|lia]. Qed.
Lemma n2f_okb n : float_count n -> n <= 2 ^ 29 -> is_finite_SF (n2f n) = true /\ rv (n2f n) = IZR (Z.of_N n).
Proof.
  intros (k & e & EN & HK & HE) H. assert (E : F2R (Float radix2 (Z.of_N n) 0) = IZR (Z.of_N n)) by (unfold F2R; cbn [Fnum Fexp]; rewrite Rmult_1_r; reflexivity).
  assert (EK : IZR (Z.of_N n) = (IZR (Z.of_N k) * bpow radix2 (Z.of_N e))%R).
  { rewrite EN, N2Z.inj_mul, mult_IZR, N2Z.inj_pow. f_equal. rewrite <- (IZR_Zpower radix2) by lia. reflexivity. }
  assert (G : fmt32 (IZR (Z.of_N n))).
  { apply generic_format_FLT. destruct (N.eq_dec k (2 ^ 24)) as [->|Hn].
    - exists (Float radix2 (2 ^ 23) (Z.of_N e + 1)); [rewrite EK; unfold F2R; cbn [Fnum Fexp]; rewrite bpow_plus; change (bpow radix2 1) with (IZR 2); change (IZR (Z.of_N (2 ^ 24))) with (IZR (2 ^ 23 * 2)); rewrite mult_IZR; ring|cbn; lia|cbn; lia].
    - exists (Float radix2 (Z.of_N k) (Z.of_N e)); [exact EK|cbn [Fnum]; change (radix2 ^ 24)%Z with (2 ^ 24)%Z; lia|cbn; lia]. }
  destruct (normalize_ok 24 128 p24 e24 (Z.of_N n) 0 false) as (_ & H1 & H2).
  - rewrite E, round_generic by (try apply valid_rnd_N; exact G). rewrite <- abs_IZR.
    apply Rle_lt_trans with (IZR (2 ^ 29)); [apply IZR_le; lia|]. change (IZR (2 ^ 29)) with (bpow radix2 29). apply bpow_lt. lia.
  - unfold n2f. split; [exact H1|]. rewrite H2, E. apply round_generic; [apply valid_rnd_N|exact G].
Qed.
(** the centre of a bin lies between any two floats that enclose the bin *)
Lemma average_betweenb lo hi xs : fin lo -> fin hi -> 0 < lenN xs <= 2 ^ 29 -> float_count (lenN xs) -> Forall (fun x => fin x /\ (rv lo <= rv x <= rv hi)%R) xs ->
  fin (bin_average xs) /\ (rv lo <= rv (bin_average xs) <= rv hi)%R.
Proof.
  intros Hlo Hhi Hn HC HF.
  destruct (sum_okb lo hi Hlo Hhi xs (S754_zero false) 0) as (S1 & S2 & S3);
    [lia|unfold lenN in Hn; lia|exact HF|reflexivity|cbn [SF2R]; apply generic_format_0|cbn [SF2R]; lra|].
  cbv zeta in S1, S2, S3. set (s := fold_left dadd xs (S754_zero false)) in *.
  assert (En : (0 + Z.of_nat (length xs))%Z = Z.of_N (lenN xs)) by (unfold lenN; lia). rewrite En in S3.
  destruct (n2f_okb (lenN xs) HC ltac:(apply Hn)) as [N1 N2].
  assert (Pn : (0 < IZR (Z.of_N (lenN xs)))%R) by (apply (IZR_lt 0); lia).
  assert (Q : (rv lo <= rv s / rv (n2f (lenN xs)) <= rv hi)%R).
  { rewrite N2. split.
    - apply Rmult_le_reg_r with (IZR (Z.of_N (lenN xs))); [exact Pn|]. unfold Rdiv. rewrite Rmult_assoc, Rinv_l by lra. lra.
    - apply Rmult_le_reg_r with (IZR (Z.of_N (lenN xs))); [exact Pn|]. unfold Rdiv. rewrite Rmult_assoc, Rinv_l by lra. lra. }
  assert (Q' : (rv lo <= rnd64 (rv s / rv (n2f (lenN xs))) <= rv hi)%R).
  { split.
    - rewrite <- (round_generic radix2 (SpecFloat.fexp 53 1024) ZnearestE (rv lo)) by (apply fin64; exact Hlo). apply round_le; [apply V64|apply valid_rnd_N|apply Q].
    - rewrite <- (round_generic radix2 (SpecFloat.fexp 53 1024) ZnearestE (rv hi)) by (apply fin64; exact Hhi). apply round_le; [apply V64|apply valid_rnd_N|apply Q]. }
  destruct (div_ok 53 1024 p53 e53 s (n2f (lenN xs))) as [D1 D2]; [exact S1|exact N1|rewrite N2; lra| |].
  { apply (between_smallb lo hi _ 1); [assumption..|lia|]. rewrite !Rmult_1_l. exact Q'. }
  unfold bin_average. fold s. fold (ddiv s (n2f (lenN xs))) in D1, D2. set (d := ddiv s (n2f (lenN xs))) in *. rewrite <- D2 in Q'.
  assert (Q2 : (rv lo <= rnd32 (rv d) <= rv hi)%R).
  { split.
    - rewrite <- (round_generic radix2 (SpecFloat.fexp 24 128) ZnearestE (rv lo)) by (apply fin32; exact Hlo). apply round_le; [apply V32|apply valid_rnd_N|apply Q'].
    - rewrite <- (round_generic radix2 (SpecFloat.fexp 24 128) ZnearestE (rv hi)) by (apply fin32; exact Hhi). apply round_le; [apply V32|apply valid_rnd_N|apply Q']. }
  assert (B2 : (Rabs (rnd32 (rv d)) < bpow radix2 128)%R).
  { apply fin_lt, Rabs_def2 in Hlo. apply fin_lt, Rabs_def2 in Hhi. apply Rabs_def1; lra. }
  destruct d as [sd|sd| |sd m e]; try discriminate D1.
  - cbn [d2f]. split; [split; reflexivity|]. cbn [SF2R] in *. exact Q'.
  - cbn [d2f]. destruct (normalize_ok 24 128 p24 e24 (cond_Zopp sd (Z.pos m)) e sd B2) as (E1 & E2 & E3). split; [split; assumption|].
    rewrite E3. exact Q2.
Qed.

