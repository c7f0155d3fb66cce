(** * Property C18 (quantizer) and the packed ranks of C34 *)
From Coq Require Import Floats.SpecFloat Reals.
From Verif Require P_BitProg.
From Verif Require Import Prelude BitFacts Spec M_Text M_Score M_Quant P_Quant P_Float P_Quant2.

(** ** Specification *)
(** a float that is neither infinite nor NaN *)
Definition finite (x : F) : Prop := valid_binary 24 128 x = true /\ (match x with S754_zero _ | S754_finite _ _ _ => true | _ => false end) = true.
(** <= and = of floats *)
Definition le (x y : F) : Prop := SFleb x y = true.
Definition eqv (x y : F) : Prop := SFeqb x y = true.
Definition sorted (xs : list F) : Prop :=
  forall i j x y, i < j -> nthN xs i = Some x -> nthN xs j = Some y -> le x y.
(** |x - y| computed in floats *)
Definition distance (x y : F) : F := if SFltb x y then SFsub 24 128 y x else SFsub 24 128 x y.
(** the values of the i-th of [m] groups of (nearly) the same size *)
Definition group (xs : list F) (m i : N) : list F :=
  let n := lenN xs in slice xs (n * i / m) (n * (i + 1) / m - n * i / m).
(** sizes for which the quantizer works: at least one value for each group, at most 2^24 in a group *)
Definition sizes_ok (n m : N) : Prop := m <= n /\ n <= m * 2 ^ 24 /\ n * m < 2 ^ 64.

Lemma group_ne xs m i : 0 < m -> sizes_ok (lenN xs) m -> i < m -> 0 < lenN (group xs m i) <= 2 ^ 24.
Proof.
  intros Hm (S1 & S2 & S3) Hi. destruct (bin_size (lenN xs) m i Hm S1 S2 Hi) as (B1 & B2 & B3).
  assert (E : lenN (group xs m i) = lenN xs * (i + 1) / m - lenN xs * i / m).
  { unfold group, slice. unfold lenN at 1. rewrite firstn_length, skipn_length. unfold lenN in *. lia. }
  rewrite E. lia.
Qed.
Lemma group_nth xs m i j x : nthN (group xs m i) j = Some x -> nthN xs (lenN xs * i / m + j) = Some x /\ lenN xs * i / m + j < lenN xs * (i + 1) / m.
Proof. unfold group. rewrite P_BitProg.nthN_slice. destruct (N.ltb_spec j (lenN xs * (i + 1) / m - lenN xs * i / m)); [|discriminate]. intro H0. split; [exact H0|lia]. Qed.

Lemma nth_of_In {A} (l : list A) x : In x l -> exists i, nthN l i = Some x.
Proof. intro H. apply In_nth_error in H. destruct H as (n & H). exists (N.of_nat n). unfold nthN. rewrite Nat2N.id. exact H. Qed.
(** the centres of the groups *)
Lemma centres_ok xs m : 0 < m -> m < 2 ^ 32 -> sizes_ok (lenN xs) m -> sorted xs -> Forall finite xs ->
  forall av, exists cs, make_bins xs av m = Ok (av ++ cs) /\ lenN cs = m /\ Forall finite cs /\ sorted cs /\
    (forall i c, nthN cs i = Some c -> i < m /\ forall lo hi, finite lo -> finite hi -> Forall (fun x => le lo x /\ le x hi) (group xs m i) -> le lo c /\ le c hi).
Proof.
  intros Hm0 Hm HZ HS HF av. pose proof HZ as (S1 & S2 & S3).
  exists (map (fun j => bin_average (group xs m j)) (seqN 0 (N.to_nat m))).
  assert (EB : make_bins xs av m = Ok (av ++ map (fun j => bin_average (group xs m j)) (seqN 0 (N.to_nat m)))).
  { unfold make_bins. destruct (N.ltb_spec m (2 ^ 32)); [|lia].
    pose proof (make_bins_spec xs m Hm0 S1 S2 S3 (N.to_nat m) 0 av ltac:(lia)) as X. cbv beta zeta in X. rewrite (N.mul_0_r (lenN xs)) in X. rewrite (N.div_0_l m) in X by lia. exact X. }
  split; [exact EB|].
  assert (NC : forall i c, nthN (map (fun j => bin_average (group xs m j)) (seqN 0 (N.to_nat m))) i = Some c -> i < m /\ c = bin_average (group xs m i)).
  { intros i c H. rewrite nthN_map in H. unfold nthN in H at 1.
    destruct (nth_error (seqN 0 (N.to_nat m)) (N.to_nat i)) as [j|] eqn:E; [|discriminate]. pose proof E as E'. rewrite nth_error_seqN in E.
    - injection E as <-. cbn [option_map] in H. injection H as <-. assert (L : (N.to_nat i < length (seqN 0 (N.to_nat m)))%nat) by (apply nth_error_Some; congruence).
      rewrite length_seqN in L. split; [lia|]. do 2 f_equal. lia.
    - assert (L : (N.to_nat i < length (seqN 0 (N.to_nat m)))%nat) by (apply nth_error_Some; congruence). rewrite length_seqN in L. exact L. }
  assert (GF : forall i j x, nthN (group xs m i) j = Some x -> finite x).
  { intros i j x H. apply group_nth in H. rewrite Forall_forall in HF. apply HF. eapply nthN_In. apply H. }
  assert (BT : forall i lo hi, i < m -> finite lo -> finite hi -> Forall (fun x => le lo x /\ le x hi) (group xs m i) ->
    finite (bin_average (group xs m i)) /\ le lo (bin_average (group xs m i)) /\ le (bin_average (group xs m i)) hi).
  { intros i lo hi Hi Hlo Hhi HB. destruct (average_between lo hi (group xs m i) Hlo Hhi (group_ne xs m i Hm0 HZ Hi)) as [X1 X2].
    - apply Forall_forall. intros x Hx. assert (Fx : finite x). { destruct (nth_of_In _ _ Hx) as (j & Hj). eapply GF. exact Hj. }
      split; [exact Fx|]. rewrite Forall_forall in HB. destruct (HB x Hx) as [B1 B2]. apply leb_fin in B1; [|assumption..]. apply leb_fin in B2; [|assumption..]. auto.
    - split; [exact X1|]. split; apply leb_fin; try assumption; apply X2. }
  (* the first and the last value of a group enclose it *)
  assert (FL : forall i, i < m -> exists lo hi, nthN xs (lenN xs * i / m) = Some lo /\ nthN xs (lenN xs * (i + 1) / m - 1) = Some hi /\ finite lo /\ finite hi /\
     Forall (fun x => le lo x /\ le x hi) (group xs m i)).
  { intros i Hi. destruct (bin_size (lenN xs) m i Hm0 S1 S2 Hi) as (B1 & B2 & B3).
    destruct (nthN_Some xs (lenN xs * i / m) ltac:(lia)) as (lo & Hlo). destruct (nthN_Some xs (lenN xs * (i + 1) / m - 1) ltac:(lia)) as (hi & Hhi).
    exists lo, hi. split; [exact Hlo|]. split; [exact Hhi|]. pose proof HF as HF'. rewrite Forall_forall in HF'.
    assert (Flo : finite lo) by (apply HF'; eapply nthN_In; exact Hlo). assert (Fhi : finite hi) by (apply HF'; eapply nthN_In; exact Hhi).
    split; [exact Flo|]. split; [exact Fhi|]. apply Forall_forall. intros x Hx. destruct (nth_of_In _ _ Hx) as (j & Hj). pose proof (GF _ _ _ Hj) as Fx. apply group_nth in Hj. destruct Hj as [Hj Lj].
    split.
    - destruct (N.eq_dec j 0) as [->|]; [rewrite N.add_0_r in Hj; replace x with lo by congruence; apply leb_fin; try assumption|apply (HS (lenN xs * i / m) (lenN xs * i / m + j) lo x); [lia|assumption|assumption]].
      all: apply RIneq.Rle_refl.
    - destruct (N.eq_dec (lenN xs * i / m + j) (lenN xs * (i + 1) / m - 1)) as [E|]; [rewrite E in Hj; replace x with hi by congruence; apply leb_fin; try assumption|apply (HS (lenN xs * i / m + j) (lenN xs * (i + 1) / m - 1) x hi); [lia|assumption|assumption]].
      all: apply RIneq.Rle_refl. }
  split; [unfold lenN; rewrite map_length, length_seqN; lia|]. split; [|split].
  - apply Forall_forall. intros c Hc. destruct (nth_of_In _ _ Hc) as (i & Hi). apply NC in Hi. destruct Hi as [Hi ->].
    destruct (FL i Hi) as (lo & hi & _ & _ & F1 & F2 & B). apply (BT i lo hi Hi F1 F2 B).
  - intros i j x y Hij Hx Hy. apply NC in Hx, Hy. destruct Hx as [Hi ->], Hy as [Hj ->].
    destruct (FL i Hi) as (lo & hi & L1 & L2 & F1 & F2 & B). destruct (FL j Hj) as (lo' & hi' & L1' & L2' & F1' & F2' & B').
    destruct (BT i lo hi Hi F1 F2 B) as (X1 & X2 & X3). destruct (BT j lo' hi' Hj F1' F2' B') as (Y1 & Y2 & Y3).
    assert (M : le hi lo').
    { destruct (bin_size (lenN xs) m i Hm0 S1 S2 Hi) as (B1 & B2 & B3). apply (HS (lenN xs * (i + 1) / m - 1) (lenN xs * j / m) hi lo'); [|assumption|assumption].
      assert (A : lenN xs * (i + 1) / m <= lenN xs * j / m) by (apply N.div_le_mono; [lia|apply N.mul_le_mono_l; lia]).
      revert A B1. generalize (lenN xs * (i + 1) / m) (lenN xs * j / m) (lenN xs * i / m). intros. lia. }
    assert (num_of_fin : forall z, finite z -> num z). { intros z [V Z]. split; [exact V|destruct z; try reflexivity; discriminate]. }
    apply (leb_trans _ hi); [auto..|exact X3|]. apply (leb_trans _ lo'); auto.
  - intros i c Hc. apply NC in Hc. destruct Hc as [Hi ->]. split; [exact Hi|]. intros lo hi F1 F2 B. apply (BT i lo hi Hi F1 F2 B).
Qed.

(** the sequences built have one centre for each group of values, each centre lies between the
    smallest and the largest value of its group, and the centres are non-decreasing *)
Theorem C18_prob_centres_partial : forall b xs q, 2 <= q <= 31 -> sizes_ok (lenN xs) (2 ^ q) -> sorted xs -> Forall finite xs ->
  exists cs, build_probs b xs q = Ok (mkqsc (q_bits b ++ [q]) (q_seqs b ++ [cs])) /\
    lenN cs = 2 ^ q /\ Forall finite cs /\ sorted cs /\
    forall i c, nthN cs i = Some c -> forall lo hi, finite lo -> finite hi ->
      Forall (fun x => le lo x /\ le x hi) (group xs (2 ^ q) i) -> le lo c /\ le c hi.
Proof.
  intros b xs q Hq HZ HS HF. unfold build_probs, check_qbits. destruct (N.ltb_spec q 2); [lia|]. destruct (N.ltb_spec 32 q); [lia|]. cbn [orb].
  rewrite shl1 by lia. assert (P : 2 ^ q <= 2 ^ 31) by (apply N.pow_le_mono_r; lia). assert (P0 : 0 < 2 ^ q) by apply pow2_pos.
  replace ((0 <? lenN xs) && (lenN xs <? 2 ^ q)) with false by (destruct HZ as [HZ _]; destruct (N.ltb_spec (lenN xs) (2 ^ q)); [lia|symmetry; apply andb_false_r]).
  cbn [bind]. destruct (centres_ok xs (2 ^ q) P0 ltac:(lia) HZ HS HF []) as (cs & E & L & FC & SC & BC). rewrite E. cbn [bind app]. exists cs.
  split; [reflexivity|]. split; [exact L|]. split; [exact FC|]. split; [exact SC|]. intros i c Hc. apply (BC i c Hc).
Qed.
Theorem C18_backoff_centres_partial : forall b xs q, 2 <= q <= 32 -> 2 ^ q <= lenN xs -> sizes_ok (lenN xs) (2 ^ q - 1) -> sorted xs -> Forall finite xs ->
  exists cs, build_backoffs b xs q = Ok (mkqsc (q_bits b ++ [q]) (q_seqs b ++ [fzero :: cs])) /\
    lenN cs = 2 ^ q - 1 /\ Forall finite cs /\ sorted cs /\
    forall i c, nthN cs i = Some c -> forall lo hi, finite lo -> finite hi ->
      Forall (fun x => le lo x /\ le x hi) (group xs (2 ^ q - 1) i) -> le lo c /\ le c hi.
Proof.
  intros b xs q Hq HN HZ HS HF. unfold build_backoffs, check_qbits. destruct (N.ltb_spec q 2); [lia|]. destruct (N.ltb_spec 32 q); [lia|]. cbn [orb].
  rewrite shl1 by lia. assert (P : 2 ^ q <= 2 ^ 32) by (apply N.pow_le_mono_r; lia). assert (P0 : 4 <= 2 ^ q) by (change 4 with (2 ^ 2); apply N.pow_le_mono_r; lia).
  replace ((0 <? lenN xs) && (lenN xs <? 2 ^ q)) with false by (destruct (N.ltb_spec (lenN xs) (2 ^ q)); [lia|symmetry; apply andb_false_r]).
  cbn [bind]. destruct (centres_ok xs (2 ^ q - 1) ltac:(lia) ltac:(lia) HZ HS HF [fzero]) as (cs & E & L & FC & SC & BC). rewrite E. cbn [bind app]. exists cs.
  split; [reflexivity|]. split; [exact L|]. split; [exact FC|]. split; [exact SC|]. intros i c Hc. apply (BC i c Hc).
Qed.

(** the centre chosen for a value is the nearest one, distances being computed in floats;
    a back-off of 0 gets the reserved centre 0 *)
Theorem C18_nearest_prob : forall b k v cs, finite v -> nthN (q_seqs b) k = Some cs -> cs <> [] -> Forall finite cs -> sorted cs ->
  exists r c, q_rank b k v 0 = Ok r /\ q_access b k r = Ok c /\
    forall x, In x cs -> le (distance v c) (distance v x).
Proof.
  intros b k v cs Fv Hk Hne FC SC. rewrite Forall_forall in FC.
  destruct (q_rank_nearest b k v 0 cs Fv Hk) as [(X & _)|(r & c & E & B & Hc & D & _)]; [destruct cs; [congruence|rewrite lenN_cons; lia]|lia| | |discriminate|].
  - intros j x _ Hx. apply FC. eapply nthN_In. exact Hx.
  - intros i j x y _ Hij Hx Hy. apply leb_fin; [apply FC; eapply nthN_In; eassumption..|]. apply (SC i j x y Hij Hx Hy).
  - exists r, c. split; [exact E|]. split; [eapply q_access_ok; eassumption|]. intros x Hx. destruct (nth_of_In _ _ Hx) as (j & Hj). apply (D j x); [lia|exact Hj].
Qed.
Theorem C18_nearest_backoff : forall b k v cs, finite v -> nthN (q_seqs b) k = Some (fzero :: cs) -> cs <> [] -> Forall finite cs -> sorted cs ->
  exists r c, q_rank b k v 1 = Ok r /\ q_access b k r = Ok c /\
    if SFeqb v fzero then c = fzero else forall x, In x cs -> le (distance v c) (distance v x).
Proof.
  intros b k v cs Fv Hk Hne FC SC. rewrite Forall_forall in FC.
  assert (L1 : 1 < lenN (fzero :: cs)) by (destruct cs; [congruence|rewrite !lenN_cons; lia]).
  assert (NT : forall j x, 1 <= j -> nthN (fzero :: cs) j = Some x -> nthN cs (j - 1) = Some x).
  { intros j x Hj Hx. replace j with (j - 1 + 1) in Hx by lia. rewrite nthN_S in Hx by lia. replace (j - 1) with (j - 1 + 1 - 1) by lia. exact Hx. }
  destruct (SFeqb v fzero) eqn:Z.
  { exists 0, fzero. split; [unfold q_rank; cbn [N.eqb Pos.eqb andb]; unfold feqb; rewrite Z; reflexivity|]. split; [|reflexivity]. eapply q_access_ok; [exact Hk|reflexivity]. }
  destruct (q_rank_nearest b k v 1 (fzero :: cs) Fv Hk L1) as [(_ & X & _)|(r & c & E & B & Hc & D & _)]; [lia| | |unfold feqb in X; congruence|].
  - intros j x Hj Hx. apply FC. eapply nthN_In. apply NT; eassumption.
  - intros i j x y Hi Hij Hx Hy. apply NT in Hx; [|lia]. apply NT in Hy; [|lia].
    apply leb_fin; [apply FC; eapply nthN_In; eassumption..|]. apply (SC (i - 1) (j - 1) x y); [lia|assumption..].
  - exists r, c. split; [exact E|]. split; [eapply q_access_ok; eassumption|]. intros x Hx. destruct (nth_of_In _ _ Hx) as (j & Hj). apply (D (j + 1) x); [lia|]. rewrite nthN_S by lia. replace (j + 1 - 1) with j by lia. exact Hj.
Qed.

(** a value that fills its group alone is stored without loss; in particular nothing is lost
    when there are exactly as many values as groups *)
Lemma single_group xs m i v cs : 0 < m -> finite v -> Forall finite cs -> i < m -> lenN cs = m ->
  (forall i c, nthN cs i = Some c -> forall lo hi, finite lo -> finite hi -> Forall (fun x => le lo x /\ le x hi) (group xs m i) -> le lo c /\ le c hi) ->
  Forall (fun x => eqv x v /\ finite x) (group xs m i) -> exists c, nthN cs i = Some c /\ eqv c v.
Proof.
  intros Hm Fv FC Hi Hl BC HG. destruct (nthN_Some cs i ltac:(lia)) as (c & Hc). exists c. split; [exact Hc|].
  assert (Fc : finite c) by (rewrite Forall_forall in FC; apply FC; eapply nthN_In; exact Hc).
  destruct (BC i c Hc v v Fv Fv) as [B1 B2].
  { apply Forall_forall. intros x Hx. rewrite Forall_forall in HG. destruct (HG x Hx) as [E Fx]. apply feqb_fin in E; [|assumption..].
    split; apply leb_fin; try assumption; rewrite E; apply RIneq.Rle_refl. }
  apply leb_fin in B1, B2; try assumption. apply feqb_fin; [assumption..|]. apply RIneq.Rle_antisym; assumption.
Qed.
Lemma access_eq b k v res cs i c : finite v -> nthN (q_seqs b) k = Some cs -> res < lenN cs -> res <= 1 ->
  (forall j x, res <= j -> nthN cs j = Some x -> finite x) ->
  (forall i j x y, res <= i -> i < j -> nthN cs i = Some x -> nthN cs j = Some y -> le x y) ->
  res <= i -> nthN cs i = Some c -> eqv c v -> (res = 1 -> nthN cs 0 = Some fzero) ->
  exists r c, q_rank b k v res = Ok r /\ q_access b k r = Ok c /\ eqv c v.
Proof.
  intros Fv Hk HR H1 FC SC Hi Hc HE HZ.
  assert (SC' : forall i j x y, res <= i -> i < j -> nthN cs i = Some x -> nthN cs j = Some y -> Rdefinitions.Rle (rv x) (rv y)).
  { intros i0 j0 x y A1 A2 A3 A4. apply leb_fin; [apply (FC i0); assumption|apply (FC j0); [lia|assumption]|]. apply (SC i0 j0); assumption. }
  destruct (q_rank_nearest b k v res cs Fv Hk HR H1 FC SC') as [(X & Y & Z)|(r & c' & E & B & Hc' & _ & D)].
  - exists 0, fzero. split; [exact Z|]. split; [eapply q_access_ok; [exact Hk|apply HZ; exact X]|]. apply feqb_fin in Y; [|assumption|split; reflexivity]. apply feqb_fin; [split; reflexivity|assumption|]. symmetry. exact Y.
  - exists r, c'. split; [exact E|]. split; [eapply q_access_ok; eassumption|]. assert (Fc' : finite c') by (apply (FC r); [lia|exact Hc']).
    apply feqb_fin; [assumption..|]. apply (D i c); [exact Hi|exact Hc|]. apply feqb_fin in HE; [exact HE|apply (FC i); assumption|assumption].
Qed.
Theorem C18_own_group_lossless : forall b xs q i v, 2 <= q <= 31 -> sizes_ok (lenN xs) (2 ^ q) -> sorted xs -> Forall finite xs -> finite v ->
  i < 2 ^ q -> Forall (fun x => eqv x v) (group xs (2 ^ q) i) ->
  exists b' r c, build_probs b xs q = Ok b' /\ q_rank b' (lenN (q_seqs b)) v 0 = Ok r /\ q_access b' (lenN (q_seqs b)) r = Ok c /\ eqv c v.
Proof.
  intros b xs q i v Hq HZ HS HF Fv Hi HG. destruct (C18_prob_centres_partial b xs q Hq HZ HS HF) as (cs & E & L & FC & SC & BC).
  destruct (single_group xs (2 ^ q) i v cs) as (c & Hc & EC); [apply pow2_pos|assumption..| |].
  { apply Forall_forall. intros x Hx. rewrite Forall_forall in HG. split; [apply HG; exact Hx|]. destruct (nth_of_In _ _ Hx) as (j & Hj). apply group_nth in Hj. rewrite Forall_forall in HF. apply HF. eapply nthN_In. apply Hj. }
  pose proof (pow2_pos q) as P0. rewrite Forall_forall in FC.
  destruct (access_eq (mkqsc (q_bits b ++ [q]) (q_seqs b ++ [cs])) (lenN (q_seqs b)) v 0 cs i c) as (r & c' & E1 & E2 & E3).
  - exact Fv.
  - cbn [q_seqs]. rewrite nthN_app2 by lia. rewrite N.sub_diag. reflexivity.
  - lia.
  - lia.
  - intros j x _ Hx. apply FC. eapply nthN_In. exact Hx.
  - intros i0 j0 x y _. apply SC.
  - lia.
  - exact Hc.
  - exact EC.
  - discriminate.
  - exists (mkqsc (q_bits b ++ [q]) (q_seqs b ++ [cs])), r, c'. auto.
Qed.
Theorem C18_one_value_per_group_lossless : forall b xs q v, 2 <= q <= 31 -> lenN xs = 2 ^ q -> sorted xs -> Forall finite xs -> In v xs ->
  exists b' r c, build_probs b xs q = Ok b' /\ q_rank b' (lenN (q_seqs b)) v 0 = Ok r /\ q_access b' (lenN (q_seqs b)) r = Ok c /\ eqv c v.
Proof.
  intros b xs q v Hq HL HS HF HI. assert (P : 2 ^ q <= 2 ^ 31) by (apply N.pow_le_mono_r; lia). pose proof (pow2_pos q) as P0.
  destruct (nth_of_In _ _ HI) as (i & Hi). pose proof (nthN_lt _ _ _ Hi) as Li.
  assert (Fv : finite v) by (rewrite Forall_forall in HF; apply HF; exact HI).
  apply (C18_own_group_lossless b xs q i v); try assumption; [|lia|].
  - rewrite HL. split; [lia|]. split; [|nia]. change (2 ^ 24) with 16777216. nia.
  - apply Forall_forall. intros x Hx. destruct (nth_of_In _ _ Hx) as (j & Hj). apply group_nth in Hj. rewrite HL in Hj.
    rewrite (N.mul_comm (2 ^ q) i), (N.mul_comm (2 ^ q) (i + 1)), !N.div_mul in Hj by lia. destruct Hj as [Hj Lj]. replace j with 0 in Hj by lia. rewrite N.add_0_r in Hj.
    replace x with v by congruence. apply feqb_fin; [assumption..|reflexivity].
Qed.

(** three distinct values, four groups: the values change *)
Definition fl (z : Z) : F := binary_normalize 24 128 z 0 false.
Definition qvals : list F := map fl [-3; -2; -2; -2; -1; -1; -1; -1]%Z.
Definition qb' : res qsc := build_probs qsc_empty qvals 2.
(** the distinct values are fewer than the groups and yet -3 is stored as -2.5 *)
Theorem C18_few_distinct_lossless_refuted :
  (Forall (fun x => In x (map fl [-3; -2; -1]%Z)) qvals /\ lenN (map fl [-3; -2; -1]%Z) < 2 ^ 2 /\ sorted qvals /\ Forall finite qvals /\ sizes_ok (lenN qvals) (2 ^ 2)) /\
  exists b r c, qb' = Ok b /\ q_rank b 0 (fl (-3)) 0 = Ok r /\ q_access b 0 r = Ok c /\ SFeqb c (fl (-3)) = false /\ c = S754_finite true 10485760 (-22).
Proof.
  split.
  - split; [vm_compute; repeat (apply Forall_cons; [repeat (first [left; reflexivity|right])|]); apply Forall_nil|]. split; [reflexivity|]. split; [|split; [vm_compute; repeat constructor|vm_compute; repeat split; discriminate]].
    intros i j x y Hij Hx Hy. pose proof (nthN_lt _ _ _ Hx) as Lx. pose proof (nthN_lt _ _ _ Hy) as Ly. change (lenN qvals) with 8 in Lx, Ly.
    assert (C : forallb (fun i => forallb (fun j => match nthN qvals i, nthN qvals j with Some x, Some y => negb (i <? j) || SFleb x y | _, _ => true end) (range 8)) (range 8) = true) by (vm_compute; reflexivity).
    rewrite forallb_forall in C. assert (Ii : In i (range 8)) by (apply In_seqN; lia). assert (Ij : In j (range 8)) by (apply In_seqN; lia).
    specialize (C i Ii). rewrite forallb_forall in C. specialize (C j Ij). rewrite Hx, Hy in C. destruct (N.ltb_spec i j); [exact C|lia].
  - exists (match qb' with Ok b => b | _ => qsc_empty end), 0, (S754_finite true 10485760 (-22)). repeat split; vm_compute; reflexivity.
Qed.
(** sequences the quantizer refuses, and the width for which building never ends *)
Theorem C18_too_few_values_abort : forall b xs q, 0 < lenN xs < 2 ^ q -> q < 64 -> build_probs b xs q = Throw /\ build_backoffs b xs q = Throw.
Proof.
  intros b xs q H Hq. unfold build_probs, build_backoffs, check_qbits. rewrite shl1 by assumption. destruct (_ || _); [split; reflexivity|].
  destruct (N.ltb_spec 0 (lenN xs)); [|lia]. destruct (N.ltb_spec (lenN xs) (2 ^ q)); [|lia]. split; reflexivity.
Qed.
Theorem C18_width_32_never_ends_refuted : forall b xs, lenN xs = 0 \/ 2 ^ 32 <= lenN xs -> build_probs b xs 32 = UB.
Proof.
  intros b xs H. unfold build_probs, check_qbits. change ((32 <? 2) || (32 <? 32)) with false. cbn iota. change (shl 1 32) with (2 ^ 32).
  replace ((0 <? lenN xs) && (lenN xs <? 2 ^ 32)) with false by (destruct (N.ltb_spec (lenN xs) (2 ^ 32)), (N.ltb_spec 0 (lenN xs)); try reflexivity; lia).
  cbn [bind]. unfold make_bins. rewrite N.ltb_irrefl. reflexivity.
Qed.
(** a case meeting the hypotheses: eight values in four groups *)
Example C18_example : exists b, qb' = Ok b /\ nthN (q_seqs b) 0 = Some [S754_finite true 10485760 (-22); fl (-2); fl (-1); fl (-1)] /\
  q_rank b 0 (fl (-2)) 0 = Ok 1 /\ q_rank b 0 (fl (-5)) 0 = Ok 0.
Proof. exists (match qb' with Ok b => b | _ => qsc_empty end). repeat split; vm_compute; reflexivity. Qed.

(** ** C34: packed ranks *)
Theorem C34_ranks : forall pq bq prob_rank backoff_rank, 1 <= pq -> 1 <= bq -> pq + bq <= 64 -> prob_rank < 2 ^ pq -> backoff_rank < 2 ^ bq ->
  rank_unpack pq (rank_pack pq prob_rank backoff_rank) = (prob_rank, backoff_rank) /\ rank_pack pq prob_rank backoff_rank < 2 ^ (pq + bq).
Proof.
  intros pq bq p r H0 H1 H2 H3 H4. split; [apply rank_unpack_pack; [lia|exact H3|eapply N.lt_le_trans; [exact H4|apply N.pow_le_mono_r; lia]]|].
  rewrite rank_pack_shift; [|lia|eapply N.lt_le_trans; [exact H4|apply N.pow_le_mono_r; lia]].
  apply lor_lt.
  - eapply N.lt_le_trans; [exact H3|]. apply N.pow_le_mono_r; lia.
  - rewrite N.shiftl_mul_pow2, N.mul_comm, N.pow_add_r. apply N.mul_lt_mono_pos_l; [apply pow2_pos|exact H4].
Qed.
Example C34_ranks_example : rank_pack 8 200 3 = 968 /\ rank_unpack 8 968 = (200, 3).
Proof. split; reflexivity. Qed.

Print Assumptions C18_prob_centres_partial.
Print Assumptions C18_backoff_centres_partial.
Print Assumptions C18_nearest_prob.
Print Assumptions C18_nearest_backoff.
Print Assumptions C18_own_group_lossless.
Print Assumptions C18_one_value_per_group_lossless.
Print Assumptions C18_few_distinct_lossless_refuted.
Print Assumptions C18_too_few_values_abort.
Print Assumptions C18_width_32_never_ends_refuted.
Print Assumptions C34_ranks.
