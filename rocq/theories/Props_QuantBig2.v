(** * Property C18, groups of more than 2^24 values whose sizes are floats *)
From Coq Require Import Floats.SpecFloat Reals.
From Verif Require P_BitProg.
From Verif Require Import Prelude BitFacts Spec M_Text M_Score M_Quant P_Quant P_Float P_Quant2 Props_Quant P_Quant3 Props_QuantBig.

(** sizes up to 2^29, all of them floats *)
Definition float_sizes (xs : list F) (m : N) : Prop :=
  m <= lenN xs /\ lenN xs <= m * 2 ^ 29 /\ lenN xs * m < 2 ^ 64 /\ forall i, i < m -> float_count (lenN (group xs m i)).
Lemma bin_sizeb n nb i : 0 < nb -> nb <= n -> n <= nb * 2 ^ 29 -> i < nb ->
  n * i / nb < n * (i + 1) / nb /\ n * (i + 1) / nb <= n * i / nb + 2 ^ 29 /\ n * (i + 1) / nb <= n.
Proof.
  intros H1 H2 H3 H4. split; [|split].
  - apply N.lt_le_trans with (n * i / nb + 1); [lia|].
    replace (n * i / nb + 1) with ((n * i + 1 * nb) / nb) by (apply N.div_add; lia). apply N.div_le_mono; lia.
  - replace (n * i / nb + 2 ^ 29) with ((n * i + 2 ^ 29 * nb) / nb) by (apply N.div_add; lia). apply N.div_le_mono; lia.
  - replace n with ((n * nb) / nb) at 2 by (apply N.div_mul; lia). apply N.div_le_mono; [lia|]. apply N.mul_le_mono_l. lia.
Qed.
Lemma group_neb xs m i : 0 < m -> float_sizes xs m -> i < m -> 0 < lenN (group xs m i) <= 2 ^ 29.
Proof.
  intros Hm (S1 & S2 & S3 & _) Hi. destruct (bin_sizeb (lenN xs) m i Hm S1 S2 Hi) as (B1 & B2 & B3).
  assert (E : lenN (group xs m i) = lenN xs * (i + 1) / m - lenN xs * i / m).
  { unfold group, slice. unfold lenN at 1. rewrite firstn_length, skipn_length. unfold lenN in *. lia. }
  rewrite E. lia.
Qed.
(** the centres of the groups *)
Lemma centres_okb xs m : 0 < m -> m < 2 ^ 32 -> float_sizes xs m -> sorted xs -> Forall finite xs ->
  forall av, exists cs, make_bins xs av m = Ok (av ++ cs) /\ lenN cs = m /\ Forall finite cs /\ sorted cs /\
    (forall i c, nthN cs i = Some c -> i < m /\ forall lo hi, finite lo -> finite hi -> Forall (fun x => le lo x /\ le x hi) (group xs m i) -> le lo c /\ le c hi).
Proof.
  intros Hm0 Hm HZ HS HF av. pose proof HZ as (S1 & S2 & S3 & S4).
  exists (map (fun j => bin_average (group xs m j)) (seqN 0 (N.to_nat m))).
  assert (EB : make_bins xs av m = Ok (av ++ map (fun j => bin_average (group xs m j)) (seqN 0 (N.to_nat m)))).
  { unfold make_bins. destruct (N.ltb_spec m (2 ^ 32)); [|lia].
    pose proof (make_bins_any xs m Hm0 S1 S3 (N.to_nat m) 0 av ltac:(lia)) as X. cbv beta zeta in X. rewrite (N.mul_0_r (lenN xs)) in X. rewrite (N.div_0_l m) in X by lia. exact X. }
  split; [exact EB|].
  assert (NC : forall i c, nthN (map (fun j => bin_average (group xs m j)) (seqN 0 (N.to_nat m))) i = Some c -> i < m /\ c = bin_average (group xs m i)).
  { intros i c H. rewrite nthN_map in H. unfold nthN in H at 1.
    destruct (nth_error (seqN 0 (N.to_nat m)) (N.to_nat i)) as [j|] eqn:E; [|discriminate]. pose proof E as E'. rewrite nth_error_seqN in E.
    - injection E as <-. cbn [option_map] in H. injection H as <-. assert (L : (N.to_nat i < length (seqN 0 (N.to_nat m)))%nat) by (apply nth_error_Some; congruence).
      rewrite length_seqN in L. split; [lia|]. do 2 f_equal. lia.
    - assert (L : (N.to_nat i < length (seqN 0 (N.to_nat m)))%nat) by (apply nth_error_Some; congruence). rewrite length_seqN in L. exact L. }
  assert (GF : forall i j x, nthN (group xs m i) j = Some x -> finite x).
  { intros i j x H. apply group_nth in H. rewrite Forall_forall in HF. apply HF. eapply nthN_In. apply H. }
  assert (BT : forall i lo hi, i < m -> finite lo -> finite hi -> Forall (fun x => le lo x /\ le x hi) (group xs m i) ->
    finite (bin_average (group xs m i)) /\ le lo (bin_average (group xs m i)) /\ le (bin_average (group xs m i)) hi).
  { intros i lo hi Hi Hlo Hhi HB. destruct (average_betweenb lo hi (group xs m i) Hlo Hhi (group_neb xs m i Hm0 HZ Hi) (S4 i Hi)) as [X1 X2].
    - apply Forall_forall. intros x Hx. assert (Fx : finite x). { destruct (nth_of_In _ _ Hx) as (j & Hj). eapply GF. exact Hj. }
      split; [exact Fx|]. rewrite Forall_forall in HB. destruct (HB x Hx) as [B1 B2]. apply leb_fin in B1; [|assumption..]. apply leb_fin in B2; [|assumption..]. auto.
    - split; [exact X1|]. split; apply leb_fin; try assumption; apply X2. }
  (* the first and the last value of a group enclose it *)
  assert (FL : forall i, i < m -> exists lo hi, nthN xs (lenN xs * i / m) = Some lo /\ nthN xs (lenN xs * (i + 1) / m - 1) = Some hi /\ finite lo /\ finite hi /\
     Forall (fun x => le lo x /\ le x hi) (group xs m i)).
  { intros i Hi. destruct (bin_sizeb (lenN xs) m i Hm0 S1 S2 Hi) as (B1 & B2 & B3).
    destruct (nthN_Some xs (lenN xs * i / m) ltac:(lia)) as (lo & Hlo). destruct (nthN_Some xs (lenN xs * (i + 1) / m - 1) ltac:(lia)) as (hi & Hhi).
    exists lo, hi. split; [exact Hlo|]. split; [exact Hhi|]. pose proof HF as HF'. rewrite Forall_forall in HF'.
    assert (Flo : finite lo) by (apply HF'; eapply nthN_In; exact Hlo). assert (Fhi : finite hi) by (apply HF'; eapply nthN_In; exact Hhi).
    split; [exact Flo|]. split; [exact Fhi|]. apply Forall_forall. intros x Hx. destruct (nth_of_In _ _ Hx) as (j & Hj). pose proof (GF _ _ _ Hj) as Fx. apply group_nth in Hj. destruct Hj as [Hj Lj].
    split.
    - destruct (N.eq_dec j 0) as [->|]; [rewrite N.add_0_r in Hj; replace x with lo by congruence; apply leb_fin; try assumption|apply (HS (lenN xs * i / m) (lenN xs * i / m + j) lo x); [lia|assumption|assumption]].
      all: apply RIneq.Rle_refl.
    - destruct (N.eq_dec (lenN xs * i / m + j) (lenN xs * (i + 1) / m - 1)) as [E|]; [rewrite E in Hj; replace x with hi by congruence; apply leb_fin; try assumption|apply (HS (lenN xs * i / m + j) (lenN xs * (i + 1) / m - 1) x hi); [lia|assumption|assumption]].
      all: apply RIneq.Rle_refl. }
  split; [unfold lenN; rewrite map_length, length_seqN; lia|]. split; [|split].
  - apply Forall_forall. intros c Hc. destruct (nth_of_In _ _ Hc) as (i & Hi). apply NC in Hi. destruct Hi as [Hi ->].
    destruct (FL i Hi) as (lo & hi & _ & _ & F1 & F2 & B). apply (BT i lo hi Hi F1 F2 B).
  - intros i j x y Hij Hx Hy. apply NC in Hx, Hy. destruct Hx as [Hi ->], Hy as [Hj ->].
    destruct (FL i Hi) as (lo & hi & L1 & L2 & F1 & F2 & B). destruct (FL j Hj) as (lo' & hi' & L1' & L2' & F1' & F2' & B').
    destruct (BT i lo hi Hi F1 F2 B) as (X1 & X2 & X3). destruct (BT j lo' hi' Hj F1' F2' B') as (Y1 & Y2 & Y3).
    assert (M : le hi lo').
    { destruct (bin_sizeb (lenN xs) m i Hm0 S1 S2 Hi) as (B1 & B2 & B3). apply (HS (lenN xs * (i + 1) / m - 1) (lenN xs * j / m) hi lo'); [|assumption|assumption].
      assert (A : lenN xs * (i + 1) / m <= lenN xs * j / m) by (apply N.div_le_mono; [lia|apply N.mul_le_mono_l; lia]).
      revert A B1. generalize (lenN xs * (i + 1) / m) (lenN xs * j / m) (lenN xs * i / m). intros. lia. }
    assert (num_of_fin : forall z, finite z -> num z). { intros z [V Z]. split; [exact V|destruct z; try reflexivity; discriminate]. }
    apply (leb_trans _ hi); [auto..|exact X3|]. apply (leb_trans _ lo'); auto.
  - intros i c Hc. apply NC in Hc. destruct Hc as [Hi ->]. split; [exact Hi|]. intros lo hi F1 F2 B. apply (BT i lo hi Hi F1 F2 B).
Qed.

(** With groups of more than 2^24 values the claims about the centres still hold if every group has a size that is a
    float (and at most 2^29 values).  Without that C18_large_group_refuted.  Partial: finite values, sizes. *)
Theorem C18_prob_centres_large_partial : forall b xs q, 2 <= q <= 31 -> float_sizes xs (2 ^ q) -> sorted xs -> Forall finite xs ->
  exists cs, build_probs b xs q = Ok (mkqsc (q_bits b ++ [q]) (q_seqs b ++ [cs])) /\
    lenN cs = 2 ^ q /\ Forall finite cs /\ sorted cs /\
    forall i c, nthN cs i = Some c -> forall lo hi, finite lo -> finite hi ->
      Forall (fun x => le lo x /\ le x hi) (group xs (2 ^ q) i) -> le lo c /\ le c hi.
Proof.
  intros b xs q Hq HZ HS HF. unfold build_probs, check_qbits. destruct (N.ltb_spec q 2); [lia|]. destruct (N.ltb_spec 32 q); [lia|]. cbn [orb].
  rewrite shl1 by lia. assert (P : 2 ^ q <= 2 ^ 31) by (apply N.pow_le_mono_r; lia). assert (P0 : 0 < 2 ^ q) by apply pow2_pos.
  replace ((0 <? lenN xs) && (lenN xs <? 2 ^ q)) with false by (destruct HZ as [HZ _]; destruct (N.ltb_spec (lenN xs) (2 ^ q)); [lia|symmetry; apply andb_false_r]).
  cbn [bind]. destruct (centres_okb xs (2 ^ q) P0 ltac:(lia) HZ HS HF []) as (cs & E & L & FC & SC & BC). rewrite E. cbn [bind app]. exists cs.
  split; [reflexivity|]. split; [exact L|]. split; [exact FC|]. split; [exact SC|]. intros i c Hc. apply (BC i c Hc).
Qed.
Theorem C18_backoff_centres_large_partial : forall b xs q, 2 <= q <= 32 -> 2 ^ q <= lenN xs -> float_sizes xs (2 ^ q - 1) -> sorted xs -> Forall finite xs ->
  exists cs, build_backoffs b xs q = Ok (mkqsc (q_bits b ++ [q]) (q_seqs b ++ [fzero :: cs])) /\
    lenN cs = 2 ^ q - 1 /\ Forall finite cs /\ sorted cs /\
    forall i c, nthN cs i = Some c -> forall lo hi, finite lo -> finite hi ->
      Forall (fun x => le lo x /\ le x hi) (group xs (2 ^ q - 1) i) -> le lo c /\ le c hi.
Proof.
  intros b xs q Hq HN HZ HS HF. unfold build_backoffs, check_qbits. destruct (N.ltb_spec q 2); [lia|]. destruct (N.ltb_spec 32 q); [lia|]. cbn [orb].
  rewrite shl1 by lia. assert (P : 2 ^ q <= 2 ^ 32) by (apply N.pow_le_mono_r; lia). assert (P0 : 4 <= 2 ^ q) by (change 4 with (2 ^ 2); apply N.pow_le_mono_r; lia).
  replace ((0 <? lenN xs) && (lenN xs <? 2 ^ q)) with false by (destruct (N.ltb_spec (lenN xs) (2 ^ q)); [lia|symmetry; apply andb_false_r]).
  cbn [bind]. destruct (centres_okb xs (2 ^ q - 1) ltac:(lia) ltac:(lia) HZ HS HF [fzero]) as (cs & E & L & FC & SC & BC). rewrite E. cbn [bind app]. exists cs.
  split; [reflexivity|]. split; [exact L|]. split; [exact FC|]. split; [exact SC|]. intros i c Hc. apply (BC i c Hc).
Qed.

(** the sizes of C18_prob_centres_partial are of this kind *)
Lemma small_float_sizes xs m : 0 < m -> sizes_ok (lenN xs) m -> float_sizes xs m.
Proof.
  intros Hm H. pose proof H as (S1 & S2 & S3). split; [exact S1|]. split; [lia|]. split; [exact S3|]. intros i Hi. apply small_count. apply (group_ne xs m i Hm H Hi).
Qed.
Lemma group_len xs m i : 0 < m -> i < m -> lenN (group xs m i) = lenN xs * (i + 1) / m - lenN xs * i / m.
Proof.
  intros Hm Hi. assert (B : lenN xs * (i + 1) / m <= lenN xs) by (apply N.div_le_upper_bound; [lia|]; rewrite N.mul_comm; apply N.mul_le_mono_r; lia).
  unfold group, slice. unfold lenN at 1. rewrite firstn_length, skipn_length. unfold lenN in *. lia.
Qed.
(** 2^28 values of two kinds, four groups of 2^26: the hypotheses are met *)
Example C18_large_example : exists xs, lenN xs = 2 ^ 28 /\ float_sizes xs (2 ^ 2) /\ sorted xs /\ Forall finite xs /\ ~ sizes_ok (lenN xs) (2 ^ 2).
Proof.
  remember (N.to_nat (2 ^ 27)) as n eqn:En. assert (Hn : N.of_nat n = 2 ^ 27) by (rewrite En; apply N2Nat.id). clear En.
  set (xs := repeat (fl (-2)) n ++ repeat (fl (-1)) n). assert (L : lenN xs = 2 ^ 28). { unfold xs. rewrite lenN_app. unfold lenN. rewrite !repeat_length, Hn. reflexivity. }
  assert (LN : lenN (repeat (fl (-2)) n) = 2 ^ 27) by (unfold lenN; rewrite repeat_length; exact Hn).
  exists xs. split; [exact L|]. split; [|split; [|split]].
  - split; [rewrite L; vm_compute; discriminate|]. split; [rewrite L; vm_compute; discriminate|]. split; [rewrite L; reflexivity|].
    intros i Hi. assert (GL : lenN (group xs (2 ^ 2) i) = 2 ^ 26).
    { rewrite group_len, L by lia. change (2 ^ 2) with 4 in Hi |- *. assert (C : i = 0 \/ i = 1 \/ i = 2 \/ i = 3) by lia. destruct C as [->|[->|[->| ->]]]; reflexivity. }
    rewrite GL. exists (2 ^ 23), 3. split; [reflexivity|]. split; [vm_compute; discriminate|lia].
  - intros i j x y Hij Hx Hy. unfold xs in Hx, Hy. destruct (N.lt_ge_cases i (2 ^ 27)) as [Li|Li].
    + rewrite nthN_app1 in Hx by (rewrite LN; exact Li). apply nthN_In, repeat_spec in Hx. subst x. apply nthN_In, in_app_or in Hy. destruct Hy as [Hy|Hy]; apply repeat_spec in Hy; subst y; vm_compute; reflexivity.
    + rewrite nthN_app2 in Hx by (rewrite LN; exact Li). rewrite nthN_app2 in Hy by (rewrite LN; lia). apply nthN_In, repeat_spec in Hx. apply nthN_In, repeat_spec in Hy. subst x y. vm_compute. reflexivity.
  - apply Forall_forall. intros x Hx. apply in_app_or in Hx. destruct Hx as [Hx|Hx]; apply repeat_spec in Hx; subst x; split; vm_compute; reflexivity.
  - intros (_ & H & _). rewrite L in H. vm_compute in H. apply H. reflexivity.
Qed.
Print Assumptions C18_prob_centres_large_partial.
Print Assumptions C18_backoff_centres_large_partial.
