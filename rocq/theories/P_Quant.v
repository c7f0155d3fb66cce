(** * Proofs about float patterns and the quantizer (sizes and ranks) *)
From Coq Require Import Floats.SpecFloat.
From Verif Require Import Prelude M_Word BitFacts P_Word M_Text M_Score M_Quant.

(** ** bit patterns *)
Lemma digits_bound m : (2 ^ (Zpos (digits2_pos m) - 1) <= Zpos m < 2 ^ Zpos (digits2_pos m))%Z.
Proof.
  induction m as [m IH|m IH|]; cbn [digits2_pos].
  - rewrite Pos2Z.inj_succ. replace (Z.succ (Zpos (digits2_pos m)) - 1)%Z with (Z.succ (Zpos (digits2_pos m) - 1)) by lia.
    rewrite !Z.pow_succ_r by lia. lia.
  - rewrite Pos2Z.inj_succ. replace (Z.succ (Zpos (digits2_pos m)) - 1)%Z with (Z.succ (Zpos (digits2_pos m) - 1)) by lia.
    rewrite !Z.pow_succ_r by lia. lia.
  - cbn. lia.
Qed.
(** what the finite floats are *)
Definition f32_ok (m : positive) (e : Z) : Prop :=
  (Z.pos m < 2 ^ 24)%Z /\ ((e = -149)%Z \/ ((2 ^ 23 <= Z.pos m)%Z /\ (-149 < e <= 104)%Z)).
Lemma valid_f32 s m e : valid_binary 24 128 (S754_finite s m e) = true -> f32_ok m e.
Proof.
  unfold valid_binary, bounded. intro H. apply andb_prop in H. destruct H as [H1 H2].
  apply Z.leb_le in H2. unfold canonical_mantissa, fexp, SpecFloat.emin in H1. apply Zeq_bool_eq in H1.
  pose proof (digits_bound m) as D. set (d := Zpos (digits2_pos m)) in *.
  assert (Dm : (Z.max (d + e - 24) (-149) = e)%Z) by (exact H1). clear H1.
  assert (d <= 24)%Z by lia. assert (2 ^ d <= 2 ^ 24)%Z by (apply Z.pow_le_mono_r; lia).
  split; [lia|]. destruct (Z.eq_dec e (-149)); [left; assumption|right]. assert (d = 24)%Z by lia.
  replace (d - 1)%Z with 23%Z in D by lia. lia.
Qed.
Lemma testbit_hi b (s : bool) : b < 2 ^ 31 -> N.testbit ((if s then 2 ^ 31 else 0) + b) 31 = s.
Proof.
  intro H. rewrite N.testbit_eqb. destruct s.
  - replace ((2 ^ 31 + b) / 2 ^ 31) with 1; [reflexivity|]. apply (N.div_unique _ _ _ b); lia.
  - rewrite N.div_small by lia. reflexivity.
Qed.
Lemma pattern_parts (s : bool) ex fr : ex < 256 -> fr < 2 ^ 23 ->
  let b := (if s then 2 ^ 31 else 0) + ex * 2 ^ 23 + fr in
  N.testbit b 31 = s /\ (b / 2 ^ 23) mod 256 = ex /\ b mod 2 ^ 23 = fr.
Proof.
  intros H1 H2 b. unfold b. split; [|split].
  - rewrite <- N.add_assoc. apply testbit_hi. lia.
  - assert (E : ((if s then 2 ^ 31 else 0) + ex * 2 ^ 23 + fr) / 2 ^ 23 = (if s then 256 else 0) + ex).
    { symmetry. apply (N.div_unique _ _ _ fr); [assumption|]. destruct s; lia. }
    rewrite E. destruct s; [|apply N.mod_small; lia].
    symmetry. apply (N.mod_unique _ _ 1); lia.
  - symmetry. apply (N.mod_unique _ _ ((if s then 256 else 0) + ex)); [assumption|]. destruct s; lia.
Qed.
Lemma f_bits_lt x : valid_binary 24 128 x = true -> f_bits x < 2 ^ 32 - 1.
Proof.
  destruct x as [s|s| |s m e]; intro H; cbn [f_bits].
  - destruct s; reflexivity.
  - destruct s; reflexivity.
  - reflexivity.
  - apply valid_f32 in H. destruct H as [H1 H2]. destruct (N.ltb_spec (N.pos m) (2 ^ 23)).
    + destruct s; lia.
    + assert (Z.to_N (e + 150) <= 254) by lia. assert (N.pos m - 2 ^ 23 < 2 ^ 23) by lia. destruct s; lia.
Qed.
Lemma f_of_bits_f_bits x : valid_binary 24 128 x = true -> f_of_bits (f_bits x) = x.
Proof.
  destruct x as [s|s| |s m e]; intro H; cbn [f_bits].
  - destruct s; reflexivity.
  - destruct s; reflexivity.
  - reflexivity.
  - apply valid_f32 in H. destruct H as [H1 H2]. unfold f_of_bits. destruct (N.ltb_spec (N.pos m) (2 ^ 23)) as [L|L].
    + destruct (pattern_parts s 0 (N.pos m) ltac:(reflexivity) L) as (E1 & E2 & E3).
      rewrite N.mul_0_l, N.add_0_r in E1, E2, E3. rewrite E1, E2, E3. cbn [N.eqb].
      destruct H2 as [->|[? ?]]; [reflexivity|lia].
    + destruct (pattern_parts s (Z.to_N (e + 150)) (N.pos m - 2 ^ 23) ltac:(lia) ltac:(lia)) as (E1 & E2 & E3).
      rewrite E1, E2, E3. destruct (N.eqb_spec (Z.to_N (e + 150)) 0); [lia|]. destruct (N.eqb_spec (Z.to_N (e + 150)) 255); [lia|].
      replace (N.pos m - 2 ^ 23 + 2 ^ 23) with (N.pos m) by lia. f_equal. lia.
Qed.

(** ** ranks *)
Lemma lower_bound_ok data v : forall fuel first count, (N.to_nat count < fuel)%nat -> first + count <= lenN data ->
  exists r, lower_bound fuel data first count v = Ok r /\ first <= r <= first + count.
Proof.
  induction fuel as [|fuel IH]; intros first count Hf Hc; [lia|]. cbn [lower_bound].
  destruct (N.eqb_spec count 0); [exists first; split; [reflexivity|lia]|].
  assert (Hs : count / 2 < count) by (apply N.div_lt; lia).
  destruct (nthN_Some data (first + count / 2) ltac:(lia)) as (x & Hx). rewrite (proj2 (rd_nthN _ _ _) Hx). cbn [bind].
  destruct (flt x v).
  - destruct (IH (first + count / 2 + 1) (count - count / 2 - 1) ltac:(lia) ltac:(lia)) as (r & E & B). exists r. split; [exact E|lia].
  - destruct (IH first (count / 2) ltac:(lia) ltac:(lia)) as (r & E & B). exists r. split; [exact E|lia].
Qed.
(** a rank always exists, below the number of centres, and not below the reserved ones *)
Lemma q_rank_ok b k value reserved data : nthN (q_seqs b) k = Some data -> reserved < lenN data -> reserved <= 1 ->
  exists r, q_rank b k value reserved = Ok r /\ r < lenN data /\
    ((reserved = 1 /\ feqb value fzero = true /\ r = 0) \/ reserved <= r).
Proof.
  intros Hd Hr H1. unfold q_rank. destruct ((reserved =? 1) && feqb value fzero) eqn:Z.
  - apply andb_prop in Z. destruct Z as [Z1 Z2]. apply N.eqb_eq in Z1. exists 0. split; [reflexivity|]. split; [lia|]. left. auto.
  - rewrite (proj2 (rd_nthN _ _ _) Hd). cbn [bind].
    destruct (lower_bound_ok data value (S (length data)) reserved (lenN data - reserved)) as (a & E & B); [unfold lenN in *; lia|lia|].
    rewrite E. cbn [bind]. destruct (N.eqb_spec a reserved); [exists reserved; split; [reflexivity|split; [lia|right; lia]]|].
    destruct (N.eqb_spec a (lenN data)); [exists (lenN data - 1); split; [reflexivity|split; [lia|right; lia]]|].
    destruct (nthN_Some data (a - 1) ltac:(lia)) as (x & Hx). destruct (nthN_Some data a ltac:(lia)) as (y & Hy).
    rewrite (proj2 (rd_nthN _ _ _) Hx), (proj2 (rd_nthN _ _ _) Hy). cbn [bind]. eexists. split; [reflexivity|].
    destruct (flt _ _); cbn [N.b2n]; split; lia.
Qed.
Lemma q_access_ok b k data r x : nthN (q_seqs b) k = Some data -> nthN data r = Some x -> q_access b k r = Ok x.
Proof. intros H1 H2. unfold q_access. rewrite (proj2 (rd_nthN _ _ _) H1). cbn [bind]. apply (proj2 (rd_nthN _ _ _)). exact H2. Qed.

(** ** bins *)
Lemma make_bins_loop_ok seq nb : forall k i start av, (0 < i -> av <> []) ->
  exists out, make_bins_loop k seq nb i start av = Ok (av ++ out) /\ length out = k.
Proof.
  induction k as [|k IH]; intros i start av Ha.
  - exists []. rewrite app_nil_r. auto.
  - cbn [make_bins_loop].
    assert (C : exists c, (if (mul64 (lenN seq) (i + 1)) / nb =? start
            then (if i =? 0 then Ok fninf else rd av (lenN av - 1))
            else Ok (bin_average (firstn (N.to_nat ((mul64 (lenN seq) (i + 1)) / nb - start)) (skipn (N.to_nat start) seq)))) = Ok c).
    { destruct (_ =? start); [|eauto]. destruct (N.eqb_spec i 0) as [->|Hi]; [eauto|].
      destruct (nthN_Some av (lenN av - 1)) as (x & Hx). { destruct av; [exfalso; apply Ha; [lia|reflexivity]|rewrite lenN_cons; lia]. }
      exists x. apply (proj2 (rd_nthN _ _ _)). exact Hx. }
    destruct C as (c & ->). cbn [bind].
    destruct (IH (i + 1) ((mul64 (lenN seq) (i + 1)) / nb) (av ++ [c])) as (out & E & L). { intros _ Z. destruct av; discriminate. }
    exists (c :: out). rewrite E, <- app_assoc. split; [reflexivity|cbn; lia].
Qed.
Lemma make_bins_ok seq av nb : nb < 2 ^ 32 -> exists out, make_bins seq av nb = Ok (av ++ out) /\ lenN out = nb.
Proof.
  intro H. unfold make_bins. destruct (N.ltb_spec nb (2 ^ 32)); [|lia].
  destruct (make_bins_loop_ok seq nb (N.to_nat nb) 0 0 av ltac:(lia)) as (out & E & L). exists out. split; [exact E|unfold lenN; lia].
Qed.
Lemma shl1 q : q < 64 -> shl 1 q = 2 ^ q.
Proof. intro H. unfold shl. rewrite N.shiftl_1_l. apply w64_small. apply N.pow_lt_mono_r; lia. Qed.
(** the quantizer's sequences have 2^q centres *)
Lemma build_probs_ok b sorted q : 2 <= q <= 31 -> (sorted = [] \/ 2 ^ q <= lenN sorted) ->
  exists cs, build_probs b sorted q = Ok (mkqsc (q_bits b ++ [q]) (q_seqs b ++ [cs])) /\ lenN cs = 2 ^ q.
Proof.
  intros Hq Hn. unfold build_probs, check_qbits. destruct (N.ltb_spec q 2); [lia|]. destruct (N.ltb_spec 32 q); [lia|]. cbn [orb].
  rewrite shl1 by lia. assert (P : 2 ^ q <= 2 ^ 31) by (apply N.pow_le_mono_r; lia). assert (P0 : 0 < 2 ^ q) by apply pow2_pos.
  assert (C : (0 <? lenN sorted) && (lenN sorted <? 2 ^ q) = false).
  { destruct Hn as [->|Hn]; [reflexivity|]. destruct (N.ltb_spec (lenN sorted) (2 ^ q)); [lia|apply andb_false_r]. }
  rewrite C. cbn [bind]. destruct (make_bins_ok sorted [] (2 ^ q)) as (out & E & L); [lia|]. rewrite E. cbn [bind app]. exists out. split; [reflexivity|exact L].
Qed.
Lemma build_backoffs_ok b sorted q : 2 <= q <= 32 -> (sorted = [] \/ 2 ^ q <= lenN sorted) ->
  exists cs, build_backoffs b sorted q = Ok (mkqsc (q_bits b ++ [q]) (q_seqs b ++ [fzero :: cs])) /\ lenN (fzero :: cs) = 2 ^ q.
Proof.
  intros Hq Hn. unfold build_backoffs, check_qbits. destruct (N.ltb_spec q 2); [lia|]. destruct (N.ltb_spec 32 q); [lia|]. cbn [orb].
  rewrite shl1 by lia. assert (P : 2 ^ q <= 2 ^ 32) by (apply N.pow_le_mono_r; lia). assert (P0 : 0 < 2 ^ q) by apply pow2_pos.
  assert (C : (0 <? lenN sorted) && (lenN sorted <? 2 ^ q) = false).
  { destruct Hn as [->|Hn]; [reflexivity|]. destruct (N.ltb_spec (lenN sorted) (2 ^ q)); [lia|apply andb_false_r]. }
  rewrite C. cbn [bind]. destruct (make_bins_ok sorted [fzero] (2 ^ q - 1)) as (out & E & L); [lia|]. rewrite E. cbn [bind app]. exists out. split; [reflexivity|].
  rewrite lenN_cons. lia.
Qed.
(** the number of values of a section that is quantized must be 0 or at least the number of bins *)
Lemma build_probs_few b sorted q : 0 < lenN sorted < shl 1 q -> build_probs b sorted q = Throw.
Proof.
  intro H. unfold build_probs, check_qbits. destruct (_ || _); [reflexivity|].
  destruct (N.ltb_spec 0 (lenN sorted)); [|lia]. destruct (N.ltb_spec (lenN sorted) (shl 1 q)); [|lia]. reflexivity.
Qed.

(** ** packed ranks *)
Lemma rank_pack_shift pq pr br : pq < 64 -> br < 2 ^ (64 - pq) -> rank_pack pq pr br = N.lor pr (N.shiftl br pq).
Proof.
  intros H1 H2. unfold rank_pack, shl. f_equal. apply w64_small. rewrite N.shiftl_mul_pow2.
  replace 64 with (64 - pq + pq) at 1 by lia. rewrite N.pow_add_r. apply N.mul_lt_mono_pos_r; [apply pow2_pos|exact H2].
Qed.
Lemma rank_unpack_pack pq pr br : pq < 64 -> pr < 2 ^ pq -> br < 2 ^ (64 - pq) -> rank_unpack pq (rank_pack pq pr br) = (pr, br).
Proof.
  intros H0 H1 H2. rewrite rank_pack_shift by assumption. unfold rank_unpack. rewrite shl1 by assumption.
  assert (P3 : 2 ^ pq < 2 ^ 64) by (apply N.pow_lt_mono_r; lia). rewrite sub64_small by (pose proof (pow2_pos pq); lia). rewrite <- N.pred_sub, <- N.ones_equiv. f_equal.
  - apply N.bits_inj_iff. intro i. rewrite N.land_spec, N.lor_spec. destruct (N.ltb_spec i pq) as [Z|Z].
    + rewrite N.ones_spec_low, N.shiftl_spec_low by assumption. rewrite orb_false_r, andb_true_r. reflexivity.
    + rewrite N.ones_spec_high by assumption. rewrite andb_false_r. symmetry. apply (tb_lt pr pq); assumption.
  - unfold shr. apply N.bits_inj_iff. intro i. rewrite N.shiftr_spec', N.lor_spec, N.shiftl_spec_high' by lia.
    rewrite (tb_lt pr pq) by (assumption || lia). replace (i + pq - pq) with i by lia. reflexivity.
Qed.
