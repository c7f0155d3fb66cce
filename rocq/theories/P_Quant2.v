(** * Proofs about the quantizer: values of the bin centres and of the chosen ranks *)
From Coq Require Import Reals Psatz.
From Flocq Require Import Core BinarySingleNaN.
From Coq Require Import Floats.SpecFloat.
From Verif Require Import Prelude M_Word BitFacts P_Word M_Text M_Score M_Quant P_Quant P_Float.

#[local] Instance p24 : Prec_gt_0 24 := eq_refl.
#[local] Instance e24 : Prec_lt_emax 24 128 := eq_refl.
#[local] Instance p53 : Prec_gt_0 53 := eq_refl.
#[local] Instance e53 : Prec_lt_emax 53 1024 := eq_refl.
Notation rv := (SF2R radix2).
Notation rnd32 x := (round radix2 (SpecFloat.fexp 24 128) ZnearestE x).
Notation rnd64 x := (round radix2 (SpecFloat.fexp 53 1024) ZnearestE x).
Notation fmt32 x := (generic_format radix2 (SpecFloat.fexp 24 128) x).
Notation fmt64 x := (generic_format radix2 (SpecFloat.fexp 53 1024) x).
#[local] Instance V32 : Valid_exp (SpecFloat.fexp 24 128) := FLT_exp_valid (SpecFloat.emin 24 128) 24.
#[local] Instance V64 : Valid_exp (SpecFloat.fexp 53 1024) := FLT_exp_valid (SpecFloat.emin 53 1024) 53.

(** finite floats *)
Definition fin (x : F) : Prop := valid_binary 24 128 x = true /\ is_finite_SF x = true.

Lemma fin_lt x : fin x -> (Rabs (rv x) < bpow radix2 128)%R.
Proof. intros [V _]. rewrite <- (B2R_SF2B 24 128 x V). apply abs_B2R_lt_emax. Qed.
Lemma fin_cmp x y : fin x -> fin y -> SFcompare x y = Some (Rcompare (rv x) (rv y)).
Proof. intros [V1 F1] [V2 F2]. apply (cmp_ok 24 128); assumption. Qed.
Lemma leb_fin x y : fin x -> fin y -> (SFleb x y = true <-> (rv x <= rv y)%R).
Proof. intros H1 H2. unfold SFleb. rewrite fin_cmp by assumption. destruct (Rcompare_spec (rv x) (rv y)); split; intro; try lra; try reflexivity; discriminate. Qed.
Lemma flt_fin x y : fin x -> fin y -> (flt x y = true <-> (rv x < rv y)%R).
Proof. intros H1 H2. unfold flt, SFltb. rewrite fin_cmp by assumption. destruct (Rcompare_spec (rv x) (rv y)); split; intro; try lra; try reflexivity; discriminate. Qed.
Lemma flt_fin_f x y : fin x -> fin y -> (flt x y = false <-> (rv y <= rv x)%R).
Proof. intros H1 H2. pose proof (flt_fin x y H1 H2) as E. destruct (flt x y); split; intro H; try reflexivity; try discriminate; try (apply proj1 in E; specialize (E eq_refl); lra). destruct (Rlt_or_le (rv x) (rv y)) as [L|L]; [apply E in L; discriminate|assumption]. Qed.
Lemma feqb_fin x y : fin x -> fin y -> (feqb x y = true <-> rv x = rv y).
Proof. intros H1 H2. unfold feqb, SFeqb. rewrite fin_cmp by assumption. destruct (Rcompare_spec (rv x) (rv y)); split; intro; try lra; try reflexivity; discriminate. Qed.

(** small multiples of floats are doubles *)
Lemma mult64 x (j : Z) : fin x -> (0 <= j <= 2 ^ 24)%Z -> fmt64 (IZR j * rv x)%R.
Proof.
  intros [V Fx] Hj. destruct x as [s|s| |s m e]; try discriminate.
  - cbn [SF2R]. rewrite Rmult_0_r. apply generic_format_0.
  - apply valid_f32 in V. destruct V as [V1 V2].
    apply generic_format_FLT. exists (Float radix2 (j * cond_Zopp s (Zpos m)) e).
    + cbn [SF2R]. unfold F2R. cbn [Fnum Fexp]. rewrite mult_IZR. ring.
    + cbn [Fnum]. rewrite Z.abs_mul. destruct s; cbn [cond_Zopp]; rewrite ?Z.abs_opp; rewrite ?Z.abs_eq by lia; change (radix2 ^ 53)%Z with (2 ^ 53)%Z; nia.
    + cbn [Fexp]. unfold SpecFloat.emin. lia.
Qed.
Lemma fin64 x : fin x -> fmt64 (rv x).
Proof. intro H. replace (rv x) with (IZR 1 * rv x)%R by ring. apply mult64; [exact H|lia]. Qed.
Lemma fin32 x : fin x -> fmt32 (rv x).
Proof. intros [V _]. apply (fmt_valid 24 128). exact V. Qed.

Lemma bpow_small : (bpow radix2 24 * bpow radix2 128 < bpow radix2 1024)%R.
Proof. rewrite <- bpow_plus. apply bpow_lt. lia. Qed.
Lemma between_small lo hi x (j : Z) : fin lo -> fin hi -> (0 <= j <= 2 ^ 24)%Z -> (IZR j * rv lo <= x <= IZR j * rv hi)%R -> (Rabs x < bpow radix2 1024)%R.
Proof.
  intros H1 H2 Hj [Hx1 Hx2]. apply fin_lt in H1, H2. apply Rabs_def2 in H1, H2.
  assert (B1 : (0 <= IZR j <= bpow radix2 24)%R). { split; [apply (IZR_le 0); lia|]. change (bpow radix2 24) with (IZR (2 ^ 24)). apply IZR_le. lia. }
  pose proof bpow_small. pose proof (bpow_gt_0 radix2 128).
  apply Rle_lt_trans with (bpow radix2 24 * bpow radix2 128)%R; [|assumption].
  apply Rabs_le. split.
  - apply Rle_trans with (IZR j * - bpow radix2 128)%R; [|apply Rle_trans with (IZR j * rv lo)%R; [apply Rmult_le_compat_l; lra|assumption]].
    apply Ropp_le_cancel. rewrite Ropp_involutive. replace (- (IZR j * - bpow radix2 128))%R with (IZR j * bpow radix2 128)%R by ring. apply Rmult_le_compat_r; lra.
  - apply Rle_trans with (IZR j * rv hi)%R; [assumption|]. apply Rle_trans with (IZR j * bpow radix2 128)%R; [apply Rmult_le_compat_l; lra|apply Rmult_le_compat_r; lra].
Qed.
(** the running sum of a bin *)
Lemma sum_ok lo hi : fin lo -> fin hi -> forall xs acc (j : Z), (0 <= j)%Z -> (j + Z.of_nat (length xs) <= 2 ^ 24)%Z ->
  Forall (fun x => fin x /\ (rv lo <= rv x <= rv hi)%R) xs ->
  is_finite_SF acc = true -> fmt64 (rv acc) -> (IZR j * rv lo <= rv acc <= IZR j * rv hi)%R ->
  let s := fold_left dadd xs acc in
  is_finite_SF s = true /\ fmt64 (rv s) /\
  (IZR (j + Z.of_nat (length xs)) * rv lo <= rv s <= IZR (j + Z.of_nat (length xs)) * rv hi)%R.
Proof.
  intros Hlo Hhi. induction xs as [|x xs IH]; intros acc j Hj0 Hj HF Facc Gacc B.
  - cbn [fold_left length]. replace (j + Z.of_nat 0)%Z with j by lia. cbv zeta. auto.
  - apply Forall_cons_iff in HF. destruct HF as [[Fx Bx] HF]. cbn [length] in Hj.
    assert (R : (IZR (j + 1) * rv lo <= rnd64 (rv acc + rv x) <= IZR (j + 1) * rv hi)%R).
    { rewrite plus_IZR. split.
      - rewrite <- (round_generic radix2 (SpecFloat.fexp 53 1024) ZnearestE ((IZR j + IZR 1) * rv lo)).
        + apply round_le; [apply V64|apply valid_rnd_N|lra].
        + rewrite <- plus_IZR. apply mult64; [exact Hlo|lia].
      - rewrite <- (round_generic radix2 (SpecFloat.fexp 53 1024) ZnearestE ((IZR j + IZR 1) * rv hi)).
        + apply round_le; [apply V64|apply valid_rnd_N|lra].
        + rewrite <- plus_IZR. apply mult64; [exact Hhi|lia]. }
    destruct (add_ok 53 1024 p53 e53 acc x) as [S1 S2]; [assumption|apply Fx|assumption|apply fin64; exact Fx| |].
    { apply (between_small lo hi _ (j + 1)); [assumption..|lia|exact R]. }
    destruct (IH (dadd acc x) (j + 1)%Z) as (T1 & T2 & T3); [lia|lia|exact HF|exact S1| |unfold dadd; rewrite S2; exact R|].
    { unfold dadd. rewrite S2. apply generic_format_round; [apply V64|apply valid_rnd_N]. }
    cbn [fold_left length]. replace (j + Z.of_nat (S (length xs)))%Z with (j + 1 + Z.of_nat (length xs))%Z by lia. cbv zeta. auto.
Qed.
(** a count is an exact float *)
Lemma n2f_ok n : 0 < n <= 2 ^ 24 -> is_finite_SF (n2f n) = true /\ rv (n2f n) = IZR (Z.of_N n).
Proof.
  intro H. assert (E : F2R (Float radix2 (Z.of_N n) 0) = IZR (Z.of_N n)) by (unfold F2R; cbn [Fnum Fexp]; rewrite Rmult_1_r; reflexivity).
  assert (G : fmt32 (IZR (Z.of_N n))).
  { apply generic_format_FLT. destruct (N.eq_dec n (2 ^ 24)) as [->|Hn].
    - exists (Float radix2 (2 ^ 23) 1); [unfold F2R; cbn [Fnum Fexp]; change (bpow radix2 1) with (IZR 2); rewrite <- mult_IZR; f_equal; reflexivity|cbn; lia|cbn; lia].
    - exists (Float radix2 (Z.of_N n) 0); [symmetry; exact E|cbn [Fnum]; change (radix2 ^ 24)%Z with (2 ^ 24)%Z; lia|cbn; lia]. }
  destruct (normalize_ok 24 128 p24 e24 (Z.of_N n) 0 false) as (_ & H1 & H2).
  - rewrite E, round_generic by (try apply valid_rnd_N; exact G). rewrite <- abs_IZR.
    apply Rle_lt_trans with (IZR (2 ^ 24)); [apply IZR_le; lia|]. change (IZR (2 ^ 24)) with (bpow radix2 24). apply bpow_lt. lia.
  - unfold n2f. split; [exact H1|]. rewrite H2, E. apply round_generic; [apply valid_rnd_N|exact G].
Qed.
(** the centre of a bin lies between any two floats that enclose the bin *)
Lemma average_between lo hi xs : fin lo -> fin hi -> 0 < lenN xs <= 2 ^ 24 -> Forall (fun x => fin x /\ (rv lo <= rv x <= rv hi)%R) xs ->
  fin (bin_average xs) /\ (rv lo <= rv (bin_average xs) <= rv hi)%R.
Proof.
  intros Hlo Hhi Hn HF.
  destruct (sum_ok lo hi Hlo Hhi xs (S754_zero false) 0) as (S1 & S2 & S3);
    [lia|unfold lenN in Hn; lia|exact HF|reflexivity|cbn [SF2R]; apply generic_format_0|cbn [SF2R]; lra|].
  cbv zeta in S1, S2, S3. set (s := fold_left dadd xs (S754_zero false)) in *.
  assert (En : (0 + Z.of_nat (length xs))%Z = Z.of_N (lenN xs)) by (unfold lenN; lia). rewrite En in S3.
  destruct (n2f_ok (lenN xs) Hn) as [N1 N2].
  assert (Pn : (0 < IZR (Z.of_N (lenN xs)))%R) by (apply (IZR_lt 0); lia).
  assert (Q : (rv lo <= rv s / rv (n2f (lenN xs)) <= rv hi)%R).
  { rewrite N2. split.
    - apply Rmult_le_reg_r with (IZR (Z.of_N (lenN xs))); [exact Pn|]. unfold Rdiv. rewrite Rmult_assoc, Rinv_l by lra. lra.
    - apply Rmult_le_reg_r with (IZR (Z.of_N (lenN xs))); [exact Pn|]. unfold Rdiv. rewrite Rmult_assoc, Rinv_l by lra. lra. }
  assert (Q' : (rv lo <= rnd64 (rv s / rv (n2f (lenN xs))) <= rv hi)%R).
  { split.
    - rewrite <- (round_generic radix2 (SpecFloat.fexp 53 1024) ZnearestE (rv lo)) by (apply fin64; exact Hlo). apply round_le; [apply V64|apply valid_rnd_N|apply Q].
    - rewrite <- (round_generic radix2 (SpecFloat.fexp 53 1024) ZnearestE (rv hi)) by (apply fin64; exact Hhi). apply round_le; [apply V64|apply valid_rnd_N|apply Q]. }
  destruct (div_ok 53 1024 p53 e53 s (n2f (lenN xs))) as [D1 D2]; [exact S1|exact N1|rewrite N2; lra| |].
  { apply (between_small lo hi _ 1); [assumption..|lia|]. rewrite !Rmult_1_l. exact Q'. }
  unfold bin_average. fold s. fold (ddiv s (n2f (lenN xs))) in D1, D2. set (d := ddiv s (n2f (lenN xs))) in *. rewrite <- D2 in Q'.
  assert (Q2 : (rv lo <= rnd32 (rv d) <= rv hi)%R).
  { split.
    - rewrite <- (round_generic radix2 (SpecFloat.fexp 24 128) ZnearestE (rv lo)) by (apply fin32; exact Hlo). apply round_le; [apply V32|apply valid_rnd_N|apply Q'].
    - rewrite <- (round_generic radix2 (SpecFloat.fexp 24 128) ZnearestE (rv hi)) by (apply fin32; exact Hhi). apply round_le; [apply V32|apply valid_rnd_N|apply Q']. }
  assert (B2 : (Rabs (rnd32 (rv d)) < bpow radix2 128)%R).
  { apply fin_lt, Rabs_def2 in Hlo. apply fin_lt, Rabs_def2 in Hhi. apply Rabs_def1; lra. }
  destruct d as [sd|sd| |sd m e]; try discriminate D1.
  - cbn [d2f]. split; [split; reflexivity|]. cbn [SF2R] in *. exact Q'.
  - cbn [d2f]. destruct (normalize_ok 24 128 p24 e24 (cond_Zopp sd (Z.pos m)) e sd B2) as (E1 & E2 & E3). split; [split; assumption|].
    rewrite E3. exact Q2.
Qed.

(** ** the bins *)
Lemma make_bins_spec seq nb : 0 < nb -> nb <= lenN seq -> lenN seq <= nb * 2 ^ 24 -> lenN seq * nb < 2 ^ 64 ->
  let start i := lenN seq * i / nb in
  let bin i := firstn (N.to_nat (start (i + 1) - start i)) (skipn (N.to_nat (start i)) seq) in
  forall k i av, i + N.of_nat k <= nb ->
  make_bins_loop k seq nb i (start i) av = Ok (av ++ map (fun j => bin_average (bin j)) (seqN i k)).
Proof.
  intros Hnb Hn Hbig Hov start bin. induction k as [|k IH]; intros i av Hk.
  - cbn. rewrite app_nil_r. reflexivity.
  - cbn [make_bins_loop seqN map].
    assert (Hm : lenN seq * (i + 1) <= lenN seq * nb) by (apply N.mul_le_mono_l; lia).
    rewrite mul64_small by lia. fold (start (i + 1)).
    assert (Hs : start i < start (i + 1)).
    { unfold start. apply N.lt_le_trans with (lenN seq * i / nb + 1); [lia|].
      replace (lenN seq * i / nb + 1) with ((lenN seq * i + 1 * nb) / nb) by (apply N.div_add; lia). apply N.div_le_mono; lia. }
    destruct (N.eqb_spec (start (i + 1)) (start i)); [lia|]. cbn [bind]. fold (bin i).
    rewrite IH by lia. rewrite <- app_assoc, <- N.add_1_r. reflexivity.
Qed.
Lemma bin_size n nb i : 0 < nb -> nb <= n -> n <= nb * 2 ^ 24 -> i < nb ->
  n * i / nb < n * (i + 1) / nb /\ n * (i + 1) / nb <= n * i / nb + 2 ^ 24 /\ n * (i + 1) / nb <= n.
Proof.
  intros H1 H2 H3 H4. split; [|split].
  - apply N.lt_le_trans with (n * i / nb + 1); [lia|].
    replace (n * i / nb + 1) with ((n * i + 1 * nb) / nb) by (apply N.div_add; lia). apply N.div_le_mono; lia.
  - replace (n * i / nb + 2 ^ 24) with ((n * i + 2 ^ 24 * nb) / nb) by (apply N.div_add; lia). apply N.div_le_mono; lia.
  - replace n with ((n * nb) / nb) at 2 by (apply N.div_mul; lia). apply N.div_le_mono; [lia|]. apply N.mul_le_mono_l. lia.
Qed.

(** ** distances *)
Lemma sub_mono a b c d : fin a -> fin b -> fin c -> fin d -> (0 <= rv a - rv b <= rv c - rv d)%R -> SFleb (fsub a b) (fsub c d) = true.
Proof.
  intros Ha Hb Hc Hd [H0 H].
  destruct (sub_ok 24 128 p24 e24 a b) as [V1 C1]; [apply Ha|apply Hb|apply fin32; assumption|apply fin32; assumption|apply Ha|apply Hb|].
  destruct (sub_ok 24 128 p24 e24 c d) as [V2 C2]; [apply Hc|apply Hd|apply fin32; assumption|apply fin32; assumption|apply Hc|apply Hd|].
  fold (fsub a b) in V1, C1. fold (fsub c d) in V2, C2.
  assert (R0 : (0 <= rnd32 (rv a - rv b))%R). { rewrite <- (round_0 radix2 (SpecFloat.fexp 24 128) ZnearestE). apply round_le; [apply V32|apply valid_rnd_N|exact H0]. }
  assert (R1 : (rnd32 (rv a - rv b) <= rnd32 (rv c - rv d))%R). { apply round_le; [apply V32|apply valid_rnd_N|exact H]. }
  destruct C1 as [(F1 & E1 & B1)|(E1 & B1)], C2 as [(F2 & E2 & B2)|(E2 & B2)].
  - apply leb_fin; [split; assumption|split; assumption|]. rewrite E1, E2. exact R1.
  - rewrite E2, Rlt_bool_false by lra. destruct (fsub a b) as [s|s| |s m e]; try reflexivity; discriminate F1.
  - rewrite Rabs_pos_eq in B1, B2 by lra. lra.
  - rewrite E1, E2, !Rlt_bool_false by lra. reflexivity.
Qed.
Lemma sub_pos a b : fin a -> fin b -> (rv b <= rv a)%R -> exists x, fsub a b = x /\ is_nan_SF x = false.
Proof.
  intros Ha Hb H. eexists. split; [reflexivity|].
  destruct (sub_ok 24 128 p24 e24 a b) as [V1 C1]; [apply Ha|apply Hb|apply fin32; assumption|apply fin32; assumption|apply Ha|apply Hb|].
  fold (fsub a b) in V1, C1. destruct C1 as [(F1 & _)|(E1 & _)]; [destruct (fsub a b); try reflexivity; discriminate|rewrite E1; reflexivity].
Qed.
Lemma sub_nan a b : fin a -> fin b -> is_nan_SF (fsub a b) = false.
Proof.
  intros Ha Hb. destruct (sub_ok 24 128 p24 e24 a b) as [V1 C1]; [apply Ha|apply Hb|apply fin32; assumption|apply fin32; assumption|apply Ha|apply Hb|].
  fold (fsub a b) in V1, C1. destruct C1 as [(F1 & _)|(E1 & _)]; [destruct (fsub a b); try reflexivity; discriminate|rewrite E1; reflexivity].
Qed.
(** a total order on what is not a NaN *)
Lemma sub_valid a b : fin a -> fin b -> valid_binary 24 128 (fsub a b) = true.
Proof. intros Ha Hb. apply (sub_ok 24 128 p24 e24 a b); [apply Ha|apply Hb|apply fin32; assumption|apply fin32; assumption|apply Ha|apply Hb]. Qed.
Definition num (x : F) : Prop := valid_binary 24 128 x = true /\ is_nan_SF x = false.
Lemma num_cases x : num x -> fin x \/ exists s, x = S754_infinity s.
Proof. intros [V Nx]. destruct x as [s|s| |s m e]; try discriminate; [left; split; [exact V|reflexivity]|right; eauto|left; split; [exact V|reflexivity]]. Qed.
Ltac dis Hf H := try discriminate H; try discriminate (proj2 Hf); try reflexivity.
Lemma leb_trans x y z : num x -> num y -> num z -> SFleb x y = true -> SFleb y z = true -> SFleb x z = true.
Proof.
  intros Hx Hy Hz H1 H2.
  destruct (num_cases x Hx) as [Fx|(sx & ->)], (num_cases y Hy) as [Fy|(sy & ->)], (num_cases z Hz) as [Fz|(sz & ->)].
  - apply leb_fin in H1; [|assumption..]. apply leb_fin in H2; [|assumption..]. apply leb_fin; [assumption..|lra].
  - destruct sz; [destruct y; dis Fy H2|]. destruct x; dis Fx H1.
  - destruct sy; [destruct x; dis Fx H1|]. destruct z; dis Fz H2.
  - destruct sz; [destruct sy; [destruct x; dis Fx H1|discriminate H2]|]. destruct x; dis Fx H1.
  - destruct sx; [destruct z; dis Fz H2|]. destruct y; dis Fy H1.
  - destruct sx, sz; try reflexivity. destruct y; dis Fy H1.
  - destruct sx; [destruct z; dis Fz H2|]. destruct sy; [discriminate H1|]. destruct z; dis Fz H2.
  - destruct sx, sy, sz; try reflexivity; discriminate.
Qed.
Lemma ltb_leb x y : flt x y = true -> SFleb x y = true.
Proof. unfold flt, SFltb, SFleb. destruct (SFcompare x y) as [[]|]; congruence. Qed.
Lemma ltb_false_leb x y : num x -> num y -> flt x y = false -> SFleb y x = true.
Proof.
  intros Hx Hy H. destruct (num_cases x Hx) as [Fx|(sx & ->)], (num_cases y Hy) as [Fy|(sy & ->)].
  - apply flt_fin_f in H; [|assumption..]. apply leb_fin; assumption.
  - destruct sy; destruct x; dis Fx H.
  - destruct sx; destruct y; dis Fy H.
  - destruct sx, sy; try reflexivity. discriminate H.
Qed.
Lemma leb_ltb_false x y : num x -> num y -> SFleb y x = true -> flt x y = false.
Proof.
  intros Hx Hy H. destruct (num_cases x Hx) as [Fx|(sx & ->)], (num_cases y Hy) as [Fy|(sy & ->)].
  - apply flt_fin_f; [assumption..|]. apply leb_fin in H; assumption.
  - destruct sy; destruct x; dis Fx H.
  - destruct sx; destruct y; dis Fy H.
  - destruct sx, sy; try reflexivity. discriminate H.
Qed.

(** ** the chosen rank *)
(** std::lower_bound on a sorted part of the sequence *)
Lemma lower_bound_sorted data v : fin v ->
  forall fuel first count,
  (forall j x, first <= j < first + count -> nthN data j = Some x -> fin x) ->
  (forall i j x y, first <= i -> i < j -> j < first + count -> nthN data i = Some x -> nthN data j = Some y -> (rv x <= rv y)%R) ->
  (N.to_nat count < fuel)%nat -> first + count <= lenN data ->
  exists r, lower_bound fuel data first count v = Ok r /\ first <= r <= first + count /\
    (forall j x, first <= j < r -> nthN data j = Some x -> (rv x < rv v)%R) /\
    (forall j x, r <= j < first + count -> nthN data j = Some x -> (rv v <= rv x)%R).
Proof.
  intro Hv. induction fuel as [|fuel IH]; intros first count HF HS Hf Hc; [lia|]. cbn [lower_bound].
  destruct (N.eqb_spec count 0); [exists first; split; [reflexivity|]; split; [lia|]; split; intros; lia|].
  assert (Hs : count / 2 < count) by (apply N.div_lt; lia).
  destruct (nthN_Some data (first + count / 2) ltac:(lia)) as (x & Hx). rewrite (proj2 (rd_nthN _ _ _) Hx). cbn [bind].
  assert (Fx : fin x) by (apply (HF (first + count / 2)); [lia|exact Hx]).
  destruct (flt x v) eqn:L.
  - apply flt_fin in L; [|assumption..].
    destruct (IH (first + count / 2 + 1) (count - count / 2 - 1)) as (r & E & B & P1 & P2).
    { intros j y Hj. apply HF. lia. } { intros i j a b H1 H2 H3. apply HS; lia. } { lia. } { lia. }
    exists r. split; [exact E|]. split; [lia|]. split; [|intros j y Hj; apply P2; lia].
    intros j y Hj Hy. destruct (N.lt_ge_cases j (first + count / 2 + 1)).
    + destruct (N.eq_dec j (first + count / 2)) as [->|]; [congruence|].
      assert (rv y <= rv x)%R by (apply (HS j (first + count / 2)); [lia|lia|lia|exact Hy|exact Hx]). lra.
    + apply (P1 j); [lia|exact Hy].
  - apply flt_fin_f in L; [|assumption..].
    destruct (IH first (count / 2)) as (r & E & B & P1 & P2).
    { intros j y Hj. apply HF. lia. } { intros i j a b H1 H2 H3. apply HS; lia. } { lia. } { lia. }
    exists r. split; [exact E|]. split; [lia|]. split; [exact P1|].
    intros j y Hj Hy. destruct (N.lt_ge_cases j (first + count / 2)).
    + apply (P2 j); [lia|exact Hy].
    + destruct (N.eq_dec j (first + count / 2)) as [->|]; [congruence|].
      assert (rv x <= rv y)%R by (apply (HS (first + count / 2) j); [lia|lia|lia|exact Hx|exact Hy]). lra.
Qed.

(** distance in floats *)
Definition fdist (x y : F) : F := if flt x y then fsub y x else fsub x y.
Lemma fdist_num x y : fin x -> fin y -> num (fdist x y).
Proof. intros Hx Hy. unfold fdist. destruct (flt x y); split; (apply sub_valid || apply sub_nan); assumption. Qed.
Lemma fdist_above x y : fin x -> fin y -> (rv x <= rv y)%R -> fdist x y = fsub y x \/ (rv x = rv y /\ fdist x y = fsub x y).
Proof. intros Hx Hy H. unfold fdist. destruct (flt x y) eqn:L; [left; reflexivity|]. apply flt_fin_f in L; [|assumption..]. right. split; [lra|reflexivity]. Qed.
Lemma dist_mono v x y : fin v -> fin x -> fin y -> (Rabs (rv v - rv x) <= Rabs (rv v - rv y))%R -> SFleb (fdist v x) (fdist v y) = true.
Proof.
  intros Hv Hx Hy H. unfold fdist. destruct (flt v x) eqn:L1, (flt v y) eqn:L2;
    try (apply flt_fin in L1; [|assumption..]); try (apply flt_fin in L2; [|assumption..]);
    try (apply flt_fin_f in L1; [|assumption..]); try (apply flt_fin_f in L2; [|assumption..]);
    apply sub_mono; try assumption; unfold Rabs in H; destruct (Rcase_abs _), (Rcase_abs _); lra.
Qed.
Lemma q_rank_nearest b k value reserved data : fin value -> nthN (q_seqs b) k = Some data -> reserved < lenN data -> reserved <= 1 ->
  (forall j x, reserved <= j -> nthN data j = Some x -> fin x) ->
  (forall i j x y, reserved <= i -> i < j -> nthN data i = Some x -> nthN data j = Some y -> (rv x <= rv y)%R) ->
  (reserved = 1 /\ feqb value fzero = true /\ q_rank b k value reserved = Ok 0) \/
  exists r c, q_rank b k value reserved = Ok r /\ reserved <= r < lenN data /\ nthN data r = Some c /\
    (forall j x, reserved <= j -> nthN data j = Some x -> SFleb (fdist value c) (fdist value x) = true) /\
    (forall j x, reserved <= j -> nthN data j = Some x -> rv x = rv value -> rv c = rv value).
Proof.
  intros Hv Hd Hr H1 HF HS. unfold q_rank. destruct ((reserved =? 1) && feqb value fzero) eqn:Z.
  - left. apply andb_prop in Z. destruct Z as [Z1 Z2]. apply N.eqb_eq in Z1. auto.
  - right. clear Z. rewrite (proj2 (rd_nthN _ _ _) Hd). cbn [bind].
    assert (Hl : forall j x, nthN data j = Some x -> j < lenN data) by (intros j x Hj; apply nthN_lt in Hj; exact Hj).
    destruct (lower_bound_sorted data value Hv (S (length data)) reserved (lenN data - reserved)) as (a & E & B & P1 & P2);
      [intros j x Hj; apply HF; lia|intros i j x y G1 G2 G3; apply HS; lia|unfold lenN in *; lia|lia|].
    rewrite E. cbn [bind]. destruct (N.eqb_spec a reserved) as [->|Ha].
    { destruct (nthN_Some data reserved Hr) as (c & Hc). exists reserved, c. split; [reflexivity|]. split; [lia|]. split; [exact Hc|].
      assert (Fc : fin c) by (apply (HF reserved); [lia|exact Hc]). assert (Bc : (rv value <= rv c)%R) by (apply (P2 reserved); [lia|exact Hc]).
      assert (Hcx : forall j x, reserved <= j -> nthN data j = Some x -> fin x /\ (rv c <= rv x)%R).
      { intros j x Hj Hx. split; [apply (HF j); assumption|]. destruct (N.eq_dec j reserved) as [->|]; [replace x with c by congruence; lra|apply (HS reserved j); [lia|lia|exact Hc|exact Hx]]. }
      split; intros j x Hj Hx.
      - destruct (Hcx j x Hj Hx) as [Fx Bx]. apply dist_mono; [assumption..|]. rewrite !Rabs_left1 by lra. lra.
      - intro Ex. destruct (Hcx j x Hj Hx) as [Fx Bx]. lra. }
    destruct (N.eqb_spec a (lenN data)) as [->|Hn].
    { destruct (nthN_Some data (lenN data - 1) ltac:(lia)) as (c & Hc). exists (lenN data - 1), c. split; [reflexivity|]. split; [lia|]. split; [exact Hc|].
      assert (Fc : fin c) by (apply (HF (lenN data - 1)); [lia|exact Hc]). assert (Bc : (rv c < rv value)%R) by (apply (P1 (lenN data - 1)); [lia|exact Hc]).
      assert (Hcx : forall j x, reserved <= j -> nthN data j = Some x -> fin x /\ (rv x <= rv c)%R).
      { intros j x Hj Hx. split; [apply (HF j); assumption|]. specialize (Hl _ _ Hx). destruct (N.eq_dec j (lenN data - 1)) as [->|]; [replace x with c by congruence; lra|apply (HS j (lenN data - 1)); [lia|lia|exact Hx|exact Hc]]. }
      split; intros j x Hj Hx.
      - destruct (Hcx j x Hj Hx) as [Fx Bx]. apply dist_mono; [assumption..|]. rewrite !Rabs_pos_eq by lra. lra.
      - intro Ex. destruct (Hcx j x Hj Hx) as [Fx Bx]. lra. }
    destruct (nthN_Some data (a - 1) ltac:(lia)) as (p & Hp). destruct (nthN_Some data a ltac:(lia)) as (c & Hc).
    rewrite (proj2 (rd_nthN _ _ _) Hp), (proj2 (rd_nthN _ _ _) Hc). cbn [bind].
    assert (Fp : fin p) by (apply (HF (a - 1)); [lia|exact Hp]). assert (Fc : fin c) by (apply (HF a); [lia|exact Hc]).
    assert (Bp : (rv p < rv value)%R) by (apply (P1 (a - 1)); [lia|exact Hp]). assert (Bc : (rv value <= rv c)%R) by (apply (P2 a); [lia|exact Hc]).
    assert (Hside : forall j x, reserved <= j -> nthN data j = Some x -> fin x /\ ((rv x <= rv p)%R \/ (rv c <= rv x)%R)).
    { intros j x Hj Hx. split; [apply (HF j); assumption|]. destruct (N.lt_ge_cases j a) as [L|L].
      - left. destruct (N.eq_dec j (a - 1)) as [->|]; [replace x with p by congruence; lra|apply (HS j (a - 1)); [lia|lia|exact Hx|exact Hp]].
      - right. destruct (N.eq_dec j a) as [->|]; [replace x with c by congruence; lra|apply (HS a j); [lia|lia|exact Hc|exact Hx]]. }
    assert (Dp : fdist value p = fsub value p). { unfold fdist. replace (flt value p) with false; [reflexivity|]. symmetry. apply flt_fin_f; [assumption..|lra]. }
    assert (Dc : SFleb (fdist value c) (fsub c value) = true /\ SFleb (fsub c value) (fdist value c) = true).
    { destruct (fdist_above value c Hv Fc Bc) as [->|[Ez ->]]; split; apply sub_mono; try assumption; lra. }
    pose proof (fdist_num value p Hv Fp) as Np. pose proof (fdist_num value c Hv Fc) as Nc.
    assert (Ncs : num (fsub c value)) by (split; [apply sub_valid|apply sub_nan]; assumption).
    destruct (flt (fsub value p) (fsub c value)) eqn:L; cbn [N.b2n].
    + exists (a - 1), p. split; [reflexivity|]. split; [lia|]. split; [exact Hp|]. split; intros j x Hj Hx.
      * destruct (Hside j x Hj Hx) as [Fx [S|S]].
        -- apply dist_mono; [assumption..|]. rewrite !Rabs_pos_eq by lra. lra.
        -- apply (leb_trans _ (fsub c value)); [exact Np|exact Ncs|apply fdist_num; assumption|rewrite Dp; apply ltb_leb; exact L|].
           apply (leb_trans _ (fdist value c)); [exact Ncs|exact Nc|apply fdist_num; assumption|apply Dc|].
           apply dist_mono; [assumption..|]. rewrite !Rabs_left1 by lra. lra.
      * intro Ex. exfalso. destruct (Hside j x Hj Hx) as [Fx [S|S]]; [lra|]. assert (Ec : rv c = rv value) by lra.
        assert (X : SFleb (fsub c value) (fsub value p) = true) by (apply sub_mono; try assumption; lra).
        rewrite leb_ltb_false in L; [discriminate|rewrite <- Dp; exact Np|exact Ncs|exact X].
    + exists a, c. rewrite N.sub_0_r. split; [reflexivity|]. split; [lia|]. split; [exact Hc|]. split; intros j x Hj Hx.
      * destruct (Hside j x Hj Hx) as [Fx [S|S]].
        -- apply (leb_trans _ (fsub c value)); [exact Nc|exact Ncs|apply fdist_num; assumption|apply Dc|].
           apply (leb_trans _ (fdist value p)); [exact Ncs|exact Np|apply fdist_num; assumption| |].
           ++ rewrite Dp. apply ltb_false_leb; [rewrite <- Dp; exact Np|exact Ncs|exact L].
           ++ apply dist_mono; [assumption..|]. rewrite !Rabs_pos_eq by lra. lra.
        -- apply dist_mono; [assumption..|]. rewrite !Rabs_left1 by lra. lra.
      * intro Ex. destruct (Hside j x Hj Hx) as [Fx [S|S]]; lra.
Qed.
