(** * Proofs about integer codes *)
From Verif Require Import Prelude BitFacts M_Word P_Word M_Bits Spec P_Bits P_Builder P_Cursor P_BitProg P_EF P_HashVec
  M_Codes Spec_Codes.

(** ** writing *)
Lemma log2_facts n : n + 1 < 2 ^ 64 ->
  msb (add64 n 1) = N.log2 (n + 1) /\ N.log2 (n + 1) < 64 /\
  2 ^ N.log2 (n + 1) <= n + 1 < 2 ^ (N.log2 (n + 1) + 1).
Proof.
  intros H. rewrite add64_small by assumption. unfold msb. destruct (N.eqb_spec (n + 1) 0); [lia|].
  split; [reflexivity|]. split; [apply N.log2_lt_pow2; lia|]. rewrite N.add_1_r at 3. rewrite (N.add_1_r (N.log2 _)). rewrite <- N.add_1_r at 1.
  apply N.log2_spec. lia.
Qed.

Lemma xor_high x l : 2 ^ l <= x < 2 ^ (l + 1) -> N.lxor x (2 ^ l) = x - 2 ^ l /\ x - 2 ^ l < 2 ^ l.
Proof.
  intros H. rewrite N.pow_add_r in H. change (2 ^ 1) with 2 in H. split; [|lia].
  set (r := x - 2 ^ l). assert (X : x = r + 2 ^ l) by (unfold r; lia). assert (R : r < 2 ^ l) by lia.
  rewrite X. rewrite <- (N.lxor_0_r r) at 2.
  assert (E : r + 2 ^ l = N.lxor r (2 ^ l)).
  { rewrite N.add_nocarry_lxor; [reflexivity|]. apply tb_eq. intros j. rewrite N.land_spec, N.bits_0, N.pow2_bits_eqb.
    destruct (N.eqb_spec l j) as [->|]; [|apply andb_false_r]. rewrite (tb_lt r j) by (assumption || lia). reflexivity. }
  rewrite E, N.lxor_assoc, N.lxor_nilpotent. reflexivity.
Qed.

Lemma bits_high l : bits_of (2 ^ l) (l + 1) = repN false l ++ [true].
Proof.
  unfold bits_of. replace (range (l + 1)) with (range l ++ [l]).
  2: { unfold range. replace (N.to_nat (l + 1)) with (N.to_nat l + 1)%nat by lia. rewrite seqN_app. f_equal.
       cbn [seqN]. f_equal. lia. }
  rewrite map_app. cbn [map]. rewrite N.pow2_bits_true. f_equal.
  transitivity (map (fun _ : N => false) (range l)).
  - apply map_ext_in. intros j Hj. apply In_seqN in Hj. rewrite N.pow2_bits_eqb. destruct (N.eqb_spec l j); [lia|reflexivity].
  - unfold range, repN. generalize (N.to_nat l). intros m. generalize 0. induction m as [|m IH]; intros a; [reflexivity|].
    cbn [seqN map repeat]. f_equal. apply IH.
Qed.

Lemma write_gamma_ok b l n : brepl b l -> n + 1 < 2 ^ 64 -> lenN l + lenN (gamma_code n) + 64 < 2 ^ 64 ->
  exists b', write_gamma b n = Ok b' /\ brepl b' (l ++ gamma_code n).
Proof.
  intros R H L. destruct (log2_facts n H) as (E & K & P). unfold write_gamma, gamma_code in *. rewrite E.
  set (k := N.log2 (n + 1)) in *. rewrite shlU_ok by assumption. cbn [bind]. rewrite shl1 by assumption.
  destruct (xor_high _ _ P) as (X & XL). rewrite add64_small by assumption. rewrite X.
  rewrite !lenN_app, lenN_rep, lenN_bits_of in L.
  destruct (append_repl b l (2 ^ k) (k + 1) R) as (b1 & B1 & R1); [lia|apply N.pow_lt_mono_r; lia|lia|]. rewrite B1. cbn [bind].
  rewrite bits_high in R1.
  destruct (append_repl b1 _ (n + 1 - 2 ^ k) k R1) as (b2 & B2 & R2); [lia|assumption| |].
  { rewrite !lenN_app, lenN_rep. lia. }
  rewrite B2. eexists. split; [reflexivity|]. rewrite <- !app_assoc in R2. exact R2.
Qed.

Lemma write_delta_ok b l n : brepl b l -> n + 1 < 2 ^ 64 -> lenN l + lenN (delta_code n) + 64 < 2 ^ 64 ->
  exists b', write_delta b n = Ok b' /\ brepl b' (l ++ delta_code n).
Proof.
  intros R H L. destruct (log2_facts n H) as (E & K & P). unfold write_delta, delta_code in *. rewrite E.
  set (k := N.log2 (n + 1)) in *. rewrite shlU_ok by assumption. cbn [bind]. rewrite shl1 by assumption.
  destruct (xor_high _ _ P) as (X & XL). rewrite add64_small by assumption. rewrite X.
  rewrite lenN_app, lenN_bits_of in L.
  destruct (write_gamma_ok b l k R) as (b1 & B1 & R1); [lia|lia|]. rewrite B1. cbn [bind].
  destruct (append_repl b1 _ (n + 1 - 2 ^ k) k R1) as (b2 & B2 & R2); [lia|assumption| |].
  { rewrite lenN_app. lia. }
  rewrite B2. eexists. split; [reflexivity|]. rewrite <- app_assoc in R2. exact R2.
Qed.

Lemma write_item_ok b l i : brepl b l -> item_ok i -> lenN l + lenN (item_code i) + 64 < 2 ^ 64 ->
  exists b', write_item b i = Ok b' /\ brepl b' (l ++ item_code i).
Proof.
  intros R H L. destruct i as [x len|n|n|n]; cbn [item_ok item_code write_item] in *.
  - apply append_repl; [assumption|lia|apply H|lia].
  - apply write_gamma_ok; assumption.
  - unfold write_gamma_nonzero. rewrite sub64_small by lia. apply write_gamma_ok; [assumption|lia|assumption].
  - apply write_delta_ok; assumption.
Qed.

Lemma write_items_ok items : forall b l, brepl b l -> Forall item_ok items -> lenN l + lenN (items_code items) + 64 < 2 ^ 64 ->
  exists b', foldM write_item items b = Ok b' /\ brepl b' (l ++ items_code items).
Proof.
  induction items as [|i r IH]; intros b l R F L.
  - exists b. cbn. rewrite app_nil_r. auto.
  - inversion F as [|? ? F1 F2]; subst. unfold items_code in *. cbn [map concat] in *. rewrite lenN_app in L.
    destruct (write_item_ok b l i R F1) as (b1 & B1 & R1); [lia|]. cbn [foldM]. rewrite B1. cbn [bind].
    destruct (IH b1 _ R1 F2) as (b2 & B2 & R2); [rewrite lenN_app; lia|]. exists b2. split; [assumption|].
    rewrite <- app_assoc in R2. exact R2.
Qed.

Lemma append_repl2 b l c m : brepl b l -> brepl c m -> lenN l + lenN m + 64 < 2 ^ 64 ->
  exists b', bvb_append b c = Ok b' /\ brepl b' (l ++ m).
Proof.
  intros R Rc Hs. destruct (bvb_append_rep b _ _ c _ _ R Rc Hs) as (b' & E' & R'). exists b'.
  split; [assumption|]. unfold brepl. rewrite lenN_app.
  replace (num_of (l ++ m)) with (N.lor (num_of l) (N.shiftl (num_of m) (lenN l))); [assumption|].
  apply num_eq. intros i. rewrite N.lor_spec, tb_shl, !tb_num_of, bit_at_app.
  destruct (N.ltb_spec i (lenN l)).
  + destruct (N.leb_spec (lenN l) i); [lia|]. apply orb_false_r.
  + rewrite bit_at_oob by assumption. destruct (N.leb_spec (lenN l) i); [|lia]. reflexivity.
Qed.

(** ** reading *)
Definition sinv (V : N) (it : bit) (p : N) : Prop := bit_inv V it p /\ bi_buf it < 2 ^ bi_avail it.

Lemma sinv_new V p : sinv V (bit_new p) p.
Proof. split; [apply bit_inv_new|cbn; lia]. Qed.

Lemma shr_small x a l : x < 2 ^ a -> l <= a -> l < 64 -> shr x l < 2 ^ (a - l).
Proof.
  intros H L1 L2. rewrite shr_div. apply N.div_lt_upper_bound; [apply N.pow_nonzero; lia|].
  rewrite <- N.pow_add_r. replace (l + (a - l)) with a by lia. assumption.
Qed.

Lemma bit_get_sok v V n it p len : vrep v V n -> sinv V it p -> len < 64 -> p + len <= n ->
  exists it', bit_get_bits v it len = Ok (field V p len, it') /\ sinv V it' (p + len).
Proof.
  intros R (I & B) Hl Hp. destruct (bit_get_ok v V n it p len R I) as (it' & E & I'); [lia|assumption|].
  exists it'. split; [assumption|]. split; [assumption|].
  destruct I as (I1 & I2 & I4 & I3).
  unfold bit_get_bits in E. destruct (N.ltb_spec (bi_avail it) len).
  - unfold bit_fill in E. rewrite I1 in E. rewrite (bv_get_word64_ok v V n) in E by (assumption || lia). cbn [bind] in E.
    destruct (N.eqb_spec len 64); [lia|]. rewrite shlU_ok in E by assumption. cbn [bind] in E. injection E as _ <-.
    cbn [bi_buf bi_avail]. rewrite sub64_small by lia. apply shr_small; [apply field_lt|lia|lia].
  - cbn [bind] in E. destruct (N.eqb_spec len 64); [lia|]. rewrite shlU_ok in E by assumption. cbn [bind] in E. injection E as _ <-.
    cbn [bi_buf bi_avail]. rewrite sub64_small by lia. apply shr_small; [assumption|lia|lia].
Qed.

Lemma zero_run V it p k : sinv V it p -> bi_buf it = 0 -> N.testbit V (p + k) = true -> bi_avail it <= k.
Proof.
  intros ((I1 & I2 & I4 & I3) & B) Z T. destruct (N.le_gt_cases (bi_avail it) k) as [|C]; [assumption|].
  specialize (I3 k C). rewrite Z, N.bits_0, T in I3. discriminate.
Qed.

Lemma fill_ok' v V n it p : vrep v V n -> bi_pos it = p -> p < n ->
  exists it', bit_fill v it = Ok it' /\ sinv V it' p /\ bi_avail it' = 64.
Proof.
  intros R E H. unfold bit_fill. rewrite E, (bv_get_word64_ok v V n) by assumption. cbn [bind]. eexists. split; [reflexivity|].
  split; [|reflexivity]. split; [|cbn [bi_buf bi_avail]; apply field_lt]. unfold bit_inv. cbn [bi_pos bi_buf bi_avail].
  split; [reflexivity|]. split; [lia|]. split; [apply field_lt|]. intros j Hj. rewrite tb_field.
  destruct (N.ltb_spec j 64); [|lia]. cbn [andb]. f_equal. lia.
Qed.

Lemma skip_loop_full v V n : vrep v V n -> forall fuel it p k zs, sinv V it p -> bi_avail it = 64 ->
  (forall j, j < k -> N.testbit V (p + j) = false) -> N.testbit V (p + k) = true -> p + k < n ->
  k < 64 * N.of_nat fuel ->
  exists it' d, skip_zeros_loop fuel v it zs = Ok (it', zs + d) /\ d <= k /\ sinv V it' (p + d) /\ bi_buf it' <> 0.
Proof.
  intros R. induction fuel as [|f IH]; intros it p k zs I A Z T L F; [lia|]. cbn [skip_zeros_loop].
  destruct (N.eqb_spec (bi_buf it) 0) as [B|B].
  - pose proof (zero_run _ _ _ _ I B T) as K. rewrite A in *.
    assert (PI : bi_pos it = p) by apply I. rewrite PI.
    destruct (fill_ok' v V n (mkbit (p + 64) (bi_buf it) 0) (p + 64) R eq_refl) as (it1 & E1 & I1 & A1); [lia|].
    rewrite E1. cbn [bind].
    destruct (IH it1 (p + 64) (k - 64) (zs + 64) I1 A1) as (it2 & d & E2 & D & I2 & N2).
    + intros j Hj. replace (p + 64 + j) with (p + (64 + j)) by lia. apply Z. lia.
    + replace (p + 64 + (k - 64)) with (p + k) by lia. assumption.
    + lia.
    + lia.
    + exists it2, (64 + d). rewrite E2. split; [f_equal; f_equal; lia|]. split; [lia|]. split; [|assumption].
      replace (p + (64 + d)) with (p + 64 + d) by lia. assumption.
  - exists it, 0. split; [f_equal; f_equal; lia|]. split; [lia|]. split; [|assumption]. rewrite N.add_0_r. assumption.
Qed.

Lemma skip_zeros_ok v V n it p k : vrep v V n -> sinv V it p ->
  (forall j, j < k -> N.testbit V (p + j) = false) -> N.testbit V (p + k) = true ->
  exists it', bit_skip_zeros v it = Ok (k, it') /\ sinv V it' (p + k + 1).
Proof.
  intros R I Z T.
  assert (L : p + k < n).
  { destruct R as (_ & _ & _ & RV & _). destruct (N.lt_ge_cases (p + k) n); [assumption|]. rewrite (tb_lt V n) in T by assumption. discriminate. }
  unfold bit_skip_zeros.
  assert (A : exists it' d, skip_zeros_loop (S (S (length (v_bits v)))) v it 0 = Ok (it', d) /\ d <= k /\ sinv V it' (p + d) /\ bi_buf it' <> 0).
  { destruct (N.eqb_spec (bi_buf it) 0) as [B|B].
    - pose proof (zero_run _ _ _ _ I B T) as K. assert (PI : bi_pos it = p) by apply I.
      cbn [skip_zeros_loop]. destruct (N.eqb_spec (bi_buf it) 0); [|congruence]. rewrite PI.
      destruct (fill_ok' v V n (mkbit (p + bi_avail it) (bi_buf it) 0) (p + bi_avail it) R eq_refl) as (it1 & E1 & I1 & A1); [lia|].
      rewrite E1. cbn [bind].
      destruct (skip_loop_full v V n R (S (length (v_bits v))) it1 (p + bi_avail it) (k - bi_avail it) (0 + bi_avail it) I1 A1) as (it2 & d & E2 & D & I2 & N2).
      + intros j Hj. rewrite <- N.add_assoc. apply Z. lia.
      + replace (p + bi_avail it + (k - bi_avail it)) with (p + k) by lia. assumption.
      + lia.
      + destruct R as (_ & RL & _). unfold lenN, words_for in RL. dlia.
      + exists it2, (0 + bi_avail it + d). split; [exact E2|]. split; [lia|]. split; [|assumption].
        replace (p + (0 + bi_avail it + d)) with (p + bi_avail it + d) by lia. assumption.
    - exists it, 0. cbn [skip_zeros_loop]. destruct (N.eqb_spec (bi_buf it) 0); [congruence|].
      split; [reflexivity|]. split; [lia|]. rewrite N.add_0_r. auto. }
  destruct A as (it1 & d & E & D & ((I1 & I2 & I4 & I3) & I5) & NZ). rewrite E. cbn [bind]. cbv beta iota.
  destruct (lsb_opt (bi_buf it1)) as [l|] eqn:LS; [|apply lsb_opt_none in LS; congruence].
  pose proof (lsb_opt_spec _ _ LS) as (S1 & S2). unfold lsb. rewrite LS.
  assert (LA : l < bi_avail it1).
  { destruct (N.lt_ge_cases l (bi_avail it1)); [assumption|]. rewrite (tb_lt _ (bi_avail it1)) in S1 by assumption. discriminate. }
  assert (LK : d + l = k).
  { destruct (N.lt_trichotomy (d + l) k) as [C|[C|C]]; [|assumption|].
    - specialize (Z (d + l) C). rewrite I3 in S1 by assumption. rewrite <- N.add_assoc in S1. congruence.
    - specialize (S2 (k - d)). rewrite I3 in S2 by lia. replace (p + d + (k - d)) with (p + k) in S2 by lia. rewrite T in S2.
      exfalso. assert (true = false) by (apply S2; lia). discriminate. }
  eexists. split; [f_equal; f_equal; exact LK|].
  assert (SH : forall j, N.testbit (shr (shr (bi_buf it1) l) 1) j = N.testbit (bi_buf it1) (j + (l + 1))).
  { intros j. rewrite !tb_shr64. f_equal. lia. }
  split.
  - unfold bit_inv. cbn [bi_pos bi_buf bi_avail]. rewrite I1. split; [lia|]. rewrite sub64_small by lia. split; [lia|].
    split; [apply shr_lt, shr_lt; assumption|]. intros j Hj. rewrite SH, I3 by lia. f_equal. lia.
  - cbn [bi_buf bi_avail]. rewrite sub64_small by lia. apply lt_pow2_tb. intros j Hj. rewrite SH.
    apply (tb_lt _ (bi_avail it1)); [assumption|lia].
Qed.

Lemma tb_mid a b c j : N.testbit (num_of (a ++ b ++ c)) (lenN a + j) = if j <? lenN b then bit_at b j else bit_at c (j - lenN b).
Proof.
  rewrite tb_num_of, bit_at_app. destruct (N.ltb_spec (lenN a + j) (lenN a)); [lia|].
  replace (lenN a + j - lenN a) with j by lia. apply bit_at_app.
Qed.

Lemma field_mid a x len c : x < 2 ^ len -> field (num_of (a ++ bits_of x len ++ c)) (lenN a) len = x.
Proof.
  intros H. rewrite <- num_of_slice. replace (slice (a ++ bits_of x len ++ c) (lenN a) len) with (bits_of x len).
  - apply num_bits_of. assumption.
  - symmetry. apply slice_mid'; [reflexivity|apply lenN_bits_of].
Qed.

Lemma lor_high r l : r < 2 ^ l -> N.lor r (2 ^ l) = r + 2 ^ l.
Proof.
  intros R. symmetry. assert (E : N.land r (2 ^ l) = 0).
  { apply tb_eq. intros j. rewrite N.land_spec, N.bits_0, N.pow2_bits_eqb.
    destruct (N.eqb_spec l j) as [->|]; [|apply andb_false_r]. rewrite (tb_lt r j) by (assumption || lia). reflexivity. }
  rewrite N.add_nocarry_lxor by assumption. symmetry. rewrite <- N.lxor_lor by assumption. reflexivity.
Qed.

Lemma read_gamma_ok v a n c it : vrepl v (a ++ gamma_code n ++ c) -> sinv (num_of (a ++ gamma_code n ++ c)) it (lenN a) ->
  n + 1 < 2 ^ 64 ->
  exists it', read_gamma v it = Ok (n, it') /\ sinv (num_of (a ++ gamma_code n ++ c)) it' (lenN (a ++ gamma_code n)).
Proof.
  intros R I H. destruct (log2_facts n H) as (E & K & P). unfold gamma_code in *. set (k := N.log2 (n + 1)) in *.
  set (l := a ++ (repN false k ++ [true] ++ bits_of (n + 1 - 2 ^ k) k) ++ c) in *.
  destruct (xor_high _ _ P) as (_ & XL). unfold read_gamma.
  assert (LEN : lenN l = lenN a + k + 1 + k + lenN c).
  { unfold l. rewrite !lenN_app, lenN_rep, lenN_bits_of. change (lenN [true]) with 1. lia. }
  destruct (skip_zeros_ok v (num_of l) (lenN l) it (lenN a) k R I) as (it1 & E1 & I1).
  - intros j Hj. unfold l. rewrite tb_mid, !lenN_app, lenN_rep, lenN_bits_of. destruct (N.ltb_spec j (k + (lenN [true] + k))); [|lia].
    rewrite bit_at_app, lenN_rep. destruct (N.ltb_spec j k); [|lia]. rewrite bit_at_rep. apply andb_false_r.
  - unfold l. rewrite tb_mid, !lenN_app, lenN_rep, lenN_bits_of. change (lenN [true]) with 1. destruct (N.ltb_spec k (k + (1 + k))); [|lia].
    rewrite bit_at_app, lenN_rep. destruct (N.ltb_spec k k); [lia|]. rewrite N.sub_diag. reflexivity.
  - rewrite E1. cbn [bind]. cbv beta iota.
    destruct (bit_get_sok v (num_of l) (lenN l) it1 (lenN a + k + 1) k R I1) as (it2 & E2 & I2); [assumption|lia|].
    rewrite E2. cbn [bind]. cbv beta iota. rewrite shlU_ok by assumption. cbn [bind]. rewrite shl1 by assumption.
    replace (field (num_of l) (lenN a + k + 1) k) with (n + 1 - 2 ^ k).
    2: { assert (LL : l = (a ++ repN false k ++ [true]) ++ bits_of (n + 1 - 2 ^ k) k ++ c) by (unfold l; rewrite <- !app_assoc; reflexivity).
         rewrite LL. replace (lenN a + k + 1) with (lenN (a ++ repN false k ++ [true])); [symmetry; apply field_mid; assumption|].
         rewrite !lenN_app, lenN_rep. change (lenN [true]) with 1. lia. }
    rewrite lor_high by assumption. replace (n + 1 - 2 ^ k + 2 ^ k) with (n + 1) by lia. rewrite sub64_small by lia.
    replace (n + 1 - 1) with n by lia. eexists. split; [reflexivity|].
    replace (lenN (a ++ repN false k ++ [true] ++ bits_of (n + 1 - 2 ^ k) k)) with (lenN a + k + 1 + k); [assumption|].
    rewrite !lenN_app, lenN_rep, lenN_bits_of. change (lenN [true]) with 1. lia.
Qed.

Lemma read_delta_ok v a n c it : vrepl v (a ++ delta_code n ++ c) -> sinv (num_of (a ++ delta_code n ++ c)) it (lenN a) ->
  n + 1 < 2 ^ 64 ->
  exists it', read_delta v it = Ok (n, it') /\ sinv (num_of (a ++ delta_code n ++ c)) it' (lenN (a ++ delta_code n)).
Proof.
  intros R I H. destruct (log2_facts n H) as (E & K & P). unfold delta_code in *. set (k := N.log2 (n + 1)) in *.
  destruct (xor_high _ _ P) as (_ & XL). unfold read_delta.
  set (x := bits_of (n + 1 - 2 ^ k) k) in *. rewrite <- app_assoc in R, I |- *.
  destruct (read_gamma_ok v a k (x ++ c) it R I) as (it1 & E1 & I1); [lia|]. rewrite E1. cbn [bind]. cbv beta iota.
  rewrite (app_assoc a) in R, I1 |- *.
  destruct (bit_get_sok v _ _ it1 _ k R I1) as (it2 & E2 & I2); [assumption|rewrite !lenN_app; unfold x; rewrite lenN_bits_of; lia|].
  rewrite E2. cbn [bind]. cbv beta iota. rewrite shlU_ok by assumption. cbn [bind]. rewrite shl1 by assumption.
  unfold x at 1. rewrite field_mid, lor_high by assumption.
  replace (n + 1 - 2 ^ k + 2 ^ k) with (n + 1) by lia. rewrite sub64_small by lia.
  replace (n + 1 - 1) with n by lia. eexists. split; [reflexivity|].
  rewrite (app_assoc a), (lenN_app (a ++ gamma_code k)). unfold x at 2. rewrite lenN_bits_of. assumption.
Qed.

Lemma read_item_ok v a i c it : vrepl v (a ++ item_code i ++ c) -> sinv (num_of (a ++ item_code i ++ c)) it (lenN a) -> item_ok i ->
  exists it', read_item v it i = Ok (item_value i, it') /\ sinv (num_of (a ++ item_code i ++ c)) it' (lenN (a ++ item_code i)).
Proof.
  intros R I H. destruct i as [x len|n|n|n]; cbn [item_ok item_code item_value read_item] in *.
  - destruct (bit_get_sok v _ _ it _ len R I) as (it' & E & I'); [lia|rewrite !lenN_app, lenN_bits_of; lia|].
    rewrite E, field_mid by apply H. eexists. split; [reflexivity|]. rewrite (lenN_app a), lenN_bits_of. assumption.
  - apply read_gamma_ok; assumption.
  - unfold read_gamma_nonzero. destruct (read_gamma_ok v a (n - 1) c it R I) as (it' & E & I'); [lia|]. rewrite E. cbn [bind]. cbv beta iota.
    rewrite add64_small by lia. replace (n - 1 + 1) with n by lia. eexists. split; [reflexivity|assumption].
  - apply read_delta_ok; assumption.
Qed.

Lemma read_items_ok v : forall items a c it, vrepl v (a ++ items_code items ++ c) -> sinv (num_of (a ++ items_code items ++ c)) it (lenN a) ->
  Forall item_ok items -> read_items v it items = Ok (expected (lenN a) items).
Proof.
  induction items as [|i r IH]; intros a c it R I F; [reflexivity|]. inversion F as [|? ? F1 F2]; subst.
  unfold items_code in *. cbn [map concat] in *. fold (items_code r) in *. rewrite <- app_assoc in R, I.
  destruct (read_item_ok v a i (items_code r ++ c) it R I F1) as (it' & E & I'). cbn [read_items expected]. rewrite E. cbn [bind]. cbv beta iota.
  rewrite (app_assoc a) in R, I'. rewrite (IH (a ++ item_code i) c it' R I' F2). cbn [bind].
  assert (PI : bi_pos it' = lenN (a ++ item_code i)) by apply I'. rewrite PI, lenN_app. reflexivity.
Qed.
