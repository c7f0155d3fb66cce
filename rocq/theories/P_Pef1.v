(** * Proofs for compact_elias_fano: the cursor after skip0, and writing *)
From Verif Require Import Prelude BitFacts M_Word P_Word M_Bits Spec P_Bits P_Builder P_Cursor P_BitProg P_EF P_HashVec
  M_CompactVector M_Codes Spec_Codes P_Codes M_FastEF M_Pef.
Lemma uit_skip0_at v V n it p k q : vrep v V n -> 64 * words_for n < 2 ^ 64 ->
  uit_at v V it p -> u_pos it <= p ->
  nthN (fpos (fun i => negb ((p <=? i) && N.testbit V i)) (u_pos it) (64 * words_for n)) k = Some q -> p <= q ->
  exists it', uit_skip0 v it k = Ok it' /\ u_pos it' = q /\ uit_at v V it' q.
Proof.
  intros HR HS [HB HP] Hpp Hq Hpq. assert (QL : q < 64 * lenN (v_bits v)) by (destruct HR as (_ & E2 & _); rewrite E2; apply nthN_fpos in Hq; lia). pose proof HR as (H1 & H2 & H3 & H4 & H5). rewrite <- H2 in HS, Hq.
  unfold uit_skip0. set (F := fun i => negb ((p <=? i) && N.testbit V i)) in *.
  destruct HB as [Hb1 Hb2].
  assert (B : buf_at F (u_pos it / 64) (u_pos it)
     (N.land (not64 (u_buf it)) (shl (N.ones 64) (u_pos it mod 64)))).
  { split; [dlia|]. intros j. rewrite N.land_spec, tb_not64, tb_shl64, tb_ones, Hb2.
    destruct (N.ltb_spec j 64); cbn [andb]; [|reflexivity].
    destruct (N.ltb_spec (j - u_pos it mod 64) 64); [|lia]. rewrite andb_true_r, andb_comm. f_equal.
    destruct (N.leb_spec (u_pos it mod 64) j); destruct (N.leb_spec (u_pos it) (64 * (u_pos it / 64) + j)); try reflexivity; dlia. }
  (* beyond the current word F is the complement of V: use the loop with a shifted reader *)
  set (G := fun i => negb (N.testbit V i)).
  assert (RG : reads G true (v_bits v)) by (eapply reads_zeros; eauto).
  (* the loop lemma needs the same predicate for the first buffer and the words read;
     F and G agree from the next word on *)
  assert (AG : forall i, 64 * (u_pos it / 64) + 64 <= i -> F i = G i).
  { intros i Hi. subst F G. cbn beta. destruct (N.leb_spec p i); [reflexivity|lia]. }
  assert (LOOP : forall fuel, (N.to_nat (lenN (v_bits v) - u_pos it / 64) < fuel)%nat ->
     exists pos' buf' sk r, skip_loop fuel true (v_bits v) (u_pos it)
        (N.land (not64 (u_buf it)) (shl (N.ones 64) (u_pos it mod 64))) 0 k = Ok (pos', buf', sk) /\
       buf' < 2 ^ 64 /\ pos' < 2 ^ 64 /\ pos' / 64 = q / 64 /\ nthN (ones_pos buf' 64) (k - sk) = Some r /\
       q = 64 * (q / 64) + r /\ forall j, j < 64 -> q <= 64 * (q / 64) + j -> N.testbit buf' j = negb (N.testbit V (64 * (q / 64) + j))).
  { intros [|fuel] Hf; [lia|]. cbn [skip_loop].
    set (buf := N.land (not64 (u_buf it)) (shl (N.ones 64) (u_pos it mod 64))) in *.
    pose proof (buf_lt _ _ _ _ B) as BL. pose proof (buf_ones _ _ _ _ B) as BO.
    rewrite popcount_correct by assumption. rewrite N.add_0_l.
    assert (LB : lenN (ones_pos buf 64) = lenN (fpos F (u_pos it) (64 * (u_pos it / 64) + 64))) by (rewrite BO, lenN_map; reflexivity).
    rewrite (fpos_split F _ (64 * (u_pos it / 64) + 64)) in Hq by dlia.
    destruct (N.leb_spec (lenN (ones_pos buf 64)) k) as [L|L].
    - rewrite nthN_app2 in Hq by lia.
      assert (PN : add64 (u_pos it) 64 = u_pos it + 64) by (apply add64_small; dlia). rewrite PN.
      assert (PB : (u_pos it + 64) / 64 = u_pos it / 64 + 1) by dlia.
      assert (NB : u_pos it / 64 + 1 < lenN (v_bits v)).
      { destruct (N.lt_ge_cases (u_pos it / 64 + 1) (lenN (v_bits v))); [assumption|].
        rewrite fpos_empty in Hq by lia. apply nthN_lt in Hq. rewrite lenN_nil in Hq. lia. }
      rewrite PB, rd_wd by assumption. cbn [bind].
      destruct (skip_loop_ok G true (v_bits v) RG HS fuel (u_pos it + 64) (64 * (u_pos it / 64 + 1))
         (not64 (wd (v_bits v) (u_pos it / 64 + 1))) (lenN (ones_pos buf 64)) k q)
        as (pos' & buf' & sk & p' & E & R1 & R2 & R3 & R4 & R5 & r & R6 & R7); rewrite ?PB; auto; try lia.
      + apply (buf_next G true (v_bits v)); assumption.
      + replace (64 * (u_pos it / 64 + 1)) with (64 * (u_pos it / 64) + 64) by lia.
        rewrite <- (fpos_ext F G) by (intros; apply AG; lia). rewrite <- Hq. f_equal. lia.
      + exists pos', buf', sk, r. split; [exact E|]. split; [eapply buf_lt; eauto|]. split; [assumption|]. split; [assumption|]. split; [assumption|]. split; [assumption|].
        intros j Hj Hqj. destruct R1 as [R1a R1b]. rewrite R1b, R2. destruct (N.ltb_spec j 64); [|lia]. destruct (N.leb_spec p' (64 * (q / 64) + j)); [|lia]. reflexivity.
    - rewrite nthN_app1 in Hq by lia. rewrite BO, nthN_map in Hq.
      destruct (nthN (ones_pos buf 64) k) as [r|] eqn:Er; [|discriminate].
      cbn [option_map] in Hq. injection Hq as <-.
      pose proof (nthN_In _ _ _ Er) as Ir. rewrite fpos_ones in Ir. apply In_fpos in Ir.
      assert (QB : (64 * (u_pos it / 64) + r) / 64 = u_pos it / 64) by dlia.
      exists (u_pos it), buf, 0, r. rewrite N.sub_0_r, QB. split; [reflexivity|]. split; [assumption|]. split; [dlia|]. split; [reflexivity|]. split; [assumption|]. split; [reflexivity|].
      intros j Hj Hqj. destruct B as [B1 B2]. rewrite B2. destruct (N.ltb_spec j 64); [|lia]. destruct (N.leb_spec (u_pos it) (64 * (u_pos it / 64) + j)); [|dlia].
      unfold F. destruct (N.leb_spec p (64 * (u_pos it / 64) + j)); [reflexivity|lia]. }
  destruct (LOOP (S (S (length (v_bits v))))) as (pos' & buf' & sk & r & E & R0 & R1 & R2 & R3 & R4 & R5).
  { unfold lenN. lia. }
  rewrite E. cbn [bind]. rewrite (select_ok _ _ r) by assumption. cbn [bind].
  assert (UP : align64 pos' + r = q) by (rewrite align64_ok by assumption; lia).
  eexists. split; [reflexivity|]. cbn [u_pos]. split; [exact UP|]. split; cbn [u_pos u_buf]; rewrite UP; [|assumption].
  split; [dlia|]. intros j. rewrite N.land_spec, tb_not64, tb_shl64, tb_ones.
  destruct (N.ltb_spec j 64); cbn [andb]; [|reflexivity].
  destruct (N.ltb_spec (j - r) 64); [|lia]. rewrite andb_true_r.
  destruct (N.leb_spec r j); destruct (N.leb_spec q (64 * (q / 64) + j)); try (exfalso; lia).
  - cbn [andb]. rewrite R5 by assumption. rewrite negb_involutive, andb_true_r. reflexivity.
  - rewrite !andb_false_r. reflexivity.
Qed.

(** ** the shape of an encoded partition *)
Definition clb (u n : N) : N := if n <? u then msb (u / n) else 0.
Definition chl (u n : N) : N := n + u / 2 ^ clb u n + 2.
Definition highs (l hl : N) (vs : list N) : list bool := map (fun j => existsb (N.eqb j) (hpos l 1 vs)) (range hl).
Definition cef_code (u : N) (vs : list N) : list bool :=
  highs (clb u (lenN vs)) (chl u (lenN vs)) vs ++ lows (clb u (lenN vs)) vs.

Lemma clb_bound u n : 0 < n -> u < 2 ^ 57 -> clb u n <= 56 /\ u / 2 ^ clb u n <= 2 * n.
Proof.
  intros Hn Hu. unfold clb. destruct (N.ltb_spec n u) as [L|L].
  - assert (Q : u / n <> 0) by (intros E; apply N.div_small_iff in E; lia).
    unfold msb. destruct (N.eqb_spec (u / n) 0); [contradiction|].
    assert (P : 2 ^ N.log2 (u / n) <= u / n < 2 ^ N.succ (N.log2 (u / n))) by (apply N.log2_spec; lia).
    assert (QL : u / n < 2 ^ 57) by (apply N.le_lt_trans with u; [apply N.div_le_upper_bound; nia|assumption]).
    split.
    + assert (N.log2 (u / n) < 57) by (apply N.log2_lt_pow2; lia). lia.
    + set (k := N.log2 (u / n)) in *. rewrite N.pow_succ_r' in P. destruct P as [_ P].
      assert (u < n * (2 * 2 ^ k)).
      { pose proof (N.div_mod u n ltac:(lia)). pose proof (N.mod_lt u n ltac:(lia)). set (q := u / n) in *. nia. }
      apply N.lt_le_incl, N.div_lt_upper_bound; [apply N.pow_nonzero; lia|]. nia.
  - rewrite N.pow_0_r, N.div_1_r. lia.
Qed.

(** with at most 128 elements there are no sampled pointers *)
Definition cof_of (base u n : N) : cof :=
  mkcof u n (clb u n) (N.ones (clb u n)) (chl u n) (ceil_log2 (chl u n)) 0 0 base base base (base + chl u n) (base + chl u n + n * clb u n).

Lemma mask_ones l : l < 64 -> sub64 (shl 1 l) 1 = N.ones l.
Proof.
  intros H. rewrite shl1 by assumption. pose proof (pow2_pos l). assert (2 ^ l < 2 ^ 64) by (apply N.pow_lt_mono_r; lia).
  rewrite sub64_small by lia. rewrite N.ones_equiv. lia.
Qed.

Lemma cof_new_ok base u n : 0 < n <= 128 -> u < 2 ^ 57 -> cof_new base u n = Ok (cof_of base u n).
Proof.
  intros Hn Hu. unfold cof_new. destruct (N.eqb_spec n 0); [lia|]. fold (clb u n).
  destruct (clb_bound u n ltac:(lia) Hu) as (B1 & B2). rewrite mask_ones by lia.
  rewrite shr_div. fold (chl u n).
  assert (P0 : shr (chl u n - n) log_sampling0 = 0).
  { rewrite shr_div. unfold chl, log_sampling0. apply N.div_small. revert B2. generalize (u / 2 ^ clb u n). intros q B2. change (2 ^ 9) with 512. lia. }
  assert (P1 : shr n log_sampling1 = 0) by (rewrite shr_div; apply N.div_small; unfold log_sampling1; change (2 ^ 8) with 256; lia).
  rewrite P0, P1. unfold cof_of. rewrite !N.mul_0_l, !N.add_0_r. reflexivity.
Qed.

(** ** writing *)
Lemma set_ptr0s_none o b x y r : r < x -> x - r <= 512 -> r <= y -> y - r <= 512 -> x < 2 ^ 63 -> y < 2 ^ 63 -> set_ptr0s o b x y r = Ok b.
Proof.
  intros H1 H2 H3 H4 H5 H6. unfold set_ptr0s. rewrite !sub64_small by lia. unfold ceil_div, log_sampling0.
  change (shl 1 9 =? 0) with false. cbv iota. change (shl 1 9) with 512. rewrite add64_small, sub64_small by lia.
  assert (E : (x - r + 512 - 1) / 512 = 1).
  { symmetry. apply (N.div_unique _ _ _ (x - r - 1)); lia. }
  rewrite E. cbn [bind]. generalize (S (N.to_nat ((y - r) / 512))). intros f.
  assert (G : (shl 1 log_sampling0 <? y - r) = false) by (apply N.ltb_ge; change (shl 1 log_sampling0) with 512; lia).
  destruct f; cbn [set_ptr0s_loop]; rewrite G; reflexivity.
Qed.

Lemma lenN_highs l hl vs : lenN (highs l hl vs) = hl.
Proof. unfold highs. rewrite lenN_map, lenN_range. reflexivity. Qed.
Lemma bit_highs l hl vs j : bit_at (highs l hl vs) j = (j <? hl) && existsb (N.eqb j) (hpos l 1 vs).
Proof.
  destruct (N.ltb_spec j hl); cbn [andb].
  - apply bit_at_nthN. unfold highs. rewrite nthN_map, nthN_range by assumption. reflexivity.
  - apply bit_at_oob. rewrite lenN_highs. assumption.
Qed.

Definition cwinv (l : list bool) (u n : N) (a : list N) (s : cws) : Prop :=
  brep (cw_b s) (num_of (l ++ highs (clb u n) (chl u n) a ++ lows (clb u n) a)) (lenN l + chl u n + n * clb u n) /\
  cw_i s = lenN a /\ (a = [] /\ cw_lh s = 0 \/ nthN a (lenN a - 1) = Some (cw_last s) /\ cw_lh s = cw_last s / 2 ^ clb u n + lenN a).

Lemma cef_step_ok l u n a v s : 0 < n <= 128 -> u < 2 ^ 57 -> lenN l < 2 ^ 62 -> lenN a < n -> v < u -> Forall (fun x => x < u) a ->
  (forall x, nthN a (lenN a - 1) = Some x -> x <= v) -> cwinv l u n a s ->
  exists s', cef_step (cof_of (lenN l) u n) s v = Ok s' /\ cwinv l u n (a ++ [v]) s'.
Proof.
  intros Hn Hu HL Ha Hv Hb Hs (I1 & I2 & I3). unfold cef_step, cof_of. cbn [of_lb of_mask of_ho of_lo of_p1o of_ps of_p0o].
  destruct (clb_bound u n ltac:(lia) Hu) as (B1 & B2). set (lb := clb u n) in *. rewrite I2.
  assert (T : negb (lenN a =? 0) && (v <? cw_last s) = false).
  { destruct I3 as [(-> & _)|(J & _)]; [reflexivity|]. apply andb_false_iff. right. apply N.ltb_ge. apply Hs. assumption. }
  rewrite T. rewrite shr_div.
  assert (HV : v / 2 ^ lb <= u / 2 ^ lb) by (apply N.div_le_mono; [apply N.pow_nonzero; lia|lia]).
  assert (CH : chl u n = n + u / 2 ^ lb + 2) by reflexivity. set (h := v / 2 ^ lb) in *. set (q := u / 2 ^ lb) in *. assert (HQ : Some q = Some (u / 2 ^ lb)) by reflexivity. clearbody q.
  assert (H256 : h <= 256) by lia. assert (HH : Some h = Some (v / 2 ^ lb)) by reflexivity. clearbody h. rewrite (add64_small h (lenN a)), (add64_small (h + lenN a) 1) by lia.
  destruct (bvb_set_rep _ _ _ (lenN l + (h + lenN a + 1)) true I1) as (b1 & E1 & R1).
  { rewrite CH. generalize (n * lb). intros. lia. }
  rewrite E1. cbn [bind]. rewrite N.land_ones.
  assert (MB : v mod 2 ^ lb < 2 ^ lb) by (apply N.mod_lt, N.pow_nonzero; lia).
  destruct (bvb_set_bits_rep _ _ _ (lenN l + chl u n + lenN a * lb) (v mod 2 ^ lb) lb R1 ltac:(lia) MB ltac:(nia)) as (b2 & E2 & R2).
  rewrite E2. cbn [bind].
  assert (PT : negb (lenN a =? 0) && (N.land (lenN a) (sub64 (shl 1 log_sampling1) 1) =? 0) = false).
  { change (sub64 (shl 1 log_sampling1) 1) with (N.ones 8). rewrite N.land_ones, N.mod_small by (change (2 ^ 8) with 256; lia).
    destruct (lenN a =? 0); reflexivity. }
  rewrite PT. cbn [bind].
  assert (LH : exists h0, cw_lh s = h0 + lenN a /\ h0 <= 256 /\ (a = [] -> h0 = 0)).
  { destruct I3 as [(-> & E)|(J & E)]; [exists 0; rewrite E; change (lenN (@nil N)) with 0; repeat split; lia|].
    exists (cw_last s / 2 ^ lb). split; [assumption|]. split.
    - assert (cw_last s < u) by (eapply Forall_forall in Hb; [exact Hb|eapply nthN_In; exact J]).
      assert (CQ : cw_last s / 2 ^ lb <= q) by (injection HQ as ->; apply N.div_le_mono; [apply N.pow_nonzero; lia|lia]). generalize dependent (cw_last s / 2 ^ lb). intros; lia.
    - intros ->. unfold nthN in J. destruct (N.to_nat (lenN [] - 1)); discriminate. }
  destruct LH as (h0 & LH1 & LH2 & LH3).
  rewrite set_ptr0s_none; rewrite ?LH1, ?add64_small by lia; try lia.
  cbn [bind]. eexists. split; [reflexivity|]. unfold cwinv. cbn [cw_b cw_i cw_last cw_lh]. fold lb. rewrite lenN_app. change (lenN [v]) with 1.
  split; [|split; [reflexivity|right; split; [replace (lenN a + 1 - 1) with (lenN a) by lia; apply nthN_snoc|injection HH as <-; lia]]].
  match type of R2 with brep _ ?X _ => replace (num_of (l ++ highs lb (chl u n) (a ++ [v]) ++ lows lb (a ++ [v]))) with X; [exact R2|] end.
  apply num_eq. intros i. rewrite tb_splice by assumption. rewrite bvb_set_true_tb, tb_num_of, !bit_at_app, !lenN_highs, !bit_highs.
  rewrite lows_app, bit_at_app, lenN_lows. replace (lows lb [v]) with (bits_of (v mod 2 ^ lb) lb) by (unfold lows; cbn; rewrite app_nil_r; reflexivity). rewrite bit_at_bits_of.
  rewrite hpos_snoc, existsb_app. cbn [existsb]. rewrite orb_false_r. injection HH as <-.
  assert (HC : h + lenN a + 1 < chl u n) by (rewrite CH; lia).
  revert HC HL. generalize (chl u n). intros hl HC HL.
  destruct (N.ltb_spec i (lenN l)) as [A|A].
  - destruct (N.leb_spec (lenN l + hl + lenN a * lb) i); [exfalso; lia|]. cbn [andb].
    destruct (N.eqb_spec i (lenN l + (h + lenN a + 1))); [exfalso; lia|]. reflexivity.
  - destruct (N.ltb_spec (i - lenN l) hl) as [B|B]; cbn [andb].
    + destruct (N.leb_spec (lenN l + hl + lenN a * lb) i); [exfalso; lia|]. cbn [andb].
      rewrite orb_comm. f_equal.
      destruct (N.eqb_spec i (lenN l + (h + lenN a + 1))); destruct (N.eqb_spec (i - lenN l) (h + (1 + lenN a))); (reflexivity || (exfalso; lia)).
    + destruct (N.eqb_spec i (lenN l + (h + lenN a + 1))); [exfalso; lia|]. cbn [orb].
      destruct (N.ltb_spec (i - lenN l - hl) (lenN a * lb)) as [C|C].
      * destruct (N.leb_spec (lenN l + hl + lenN a * lb) i); [exfalso; lia|]. reflexivity.
      * destruct (N.leb_spec (lenN l + hl + lenN a * lb) i); [|exfalso; lia]. cbn [andb].
        replace (i - lenN l - hl - lenN a * lb) with (i - (lenN l + hl + lenN a * lb)) by (clear; lia).
        set (d := i - (lenN l + hl + lenN a * lb)).
        destruct (N.ltb_spec i (lenN l + hl + lenN a * lb + lb)) as [D|D].
        -- destruct (N.ltb_spec d lb) as [G|G]; [reflexivity|exfalso; clear - G D A B C; subst d; lia].
        -- destruct (N.ltb_spec d lb) as [G|G]; [exfalso; clear - G D A B C; subst d; lia|]. cbn [andb]. apply bit_at_oob. rewrite lenN_lows. clear - G; lia.
Qed.

Lemma cef_steps_ok l u n : 0 < n <= 128 -> u < 2 ^ 57 -> lenN l < 2 ^ 62 -> forall b a s, lenN a + lenN b <= n -> Forall (fun x => x < u) (a ++ b) ->
  sortedN (a ++ b) -> cwinv l u n a s ->
  exists s', foldM (cef_step (cof_of (lenN l) u n)) b s = Ok s' /\ cwinv l u n (a ++ b) s'.
Proof.
  intros Hn Hu HL. induction b as [|v b IH]; intros a s Hl F S I.
  - exists s. rewrite app_nil_r. split; [reflexivity|assumption].
  - rewrite lenN_cons in Hl. pose proof F as F'. apply Forall_app in F'. destruct F' as [F1 F2]. pose proof (Forall_inv F2) as F3. cbn beta in F3.
    destruct (cef_step_ok l u n a v s Hn Hu HL ltac:(lia) F3 F1) as (s1 & E1 & I1); [|exact I|].
    { intros x Hx. destruct (N.eq_dec (lenN a) 0) as [Z|Z].
      - apply nthN_lt in Hx. lia.
      - apply (S (lenN a - 1)); [rewrite nthN_app1 by lia; exact Hx|]. replace (lenN a - 1 + 1) with (lenN a) by lia. rewrite nthN_app2, N.sub_diag by lia. reflexivity. }
    cbn [foldM]. rewrite E1. cbn [bind]. destruct (IH (a ++ [v]) s1) as (s2 & E2 & I2).
    + rewrite lenN_app. change (lenN [v]) with 1. lia.
    + rewrite <- app_assoc. exact F.
    + rewrite <- app_assoc. exact S.
    + exact I1.
    + exists s2. rewrite <- app_assoc in I2. split; assumption.
Qed.

Lemma lenN_cef_code u vs : lenN (cef_code u vs) = chl u (lenN vs) + lenN vs * clb u (lenN vs).
Proof. unfold cef_code. rewrite lenN_app, lenN_highs, lenN_lows. reflexivity. Qed.

Lemma cef_write_ok b l vs u : brepl b l -> 0 < lenN vs <= 128 -> u < 2 ^ 57 -> lenN l < 2 ^ 62 -> Forall (fun x => x < u) vs -> sortedN vs ->
  exists b', cef_write b vs u = Ok b' /\ brepl b' (l ++ cef_code u vs).
Proof.
  intros R Hn Hu HL F S. unfold cef_write. destruct R as (R1 & R2 & R3 & R4 & R5 & R6). rewrite R5.
  rewrite cof_new_ok by assumption. cbn [bind]. set (n := lenN vs) in *.
  destruct (clb_bound u n ltac:(lia) Hu) as (B1 & B2). set (lb := clb u n) in *.
  assert (CH : chl u n = n + u / 2 ^ lb + 2) by reflexivity.
  assert (EE : of_end (cof_of (lenN l) u n) - lenN l = chl u n + n * lb) by (cbn [of_end cof_of]; fold lb; lia). rewrite EE.
  assert (SM : chl u n + n * lb < 2 ^ 20).
  { rewrite CH. revert B2. generalize (u / 2 ^ lb). intros. change (2 ^ 20) with 1048576. nia. }
  assert (Z : brep (bvb_zero_extend b (chl u n + n * lb)) (num_of l) (lenN l + (chl u n + n * lb))).
  { apply bvb_zero_extend_rep; [repeat (split; [assumption|]); assumption|]. change (2 ^ 20) with 1048576 in SM. lia. }
  destruct (cef_steps_ok l u n Hn Hu HL vs [] (mkcws (bvb_zero_extend b (chl u n + n * lb)) 0 0 0)) as (s & E & (I1 & I2 & I3)).
  - change (lenN (@nil N)) with 0. unfold n. lia.
  - exact F.
  - exact S.
  - split; [|split; [reflexivity|left; split; reflexivity]]. cbn [cw_b]. fold lb. rewrite <- N.add_assoc.
    replace (num_of (l ++ highs lb (chl u n) [] ++ lows lb [])) with (num_of l); [exact Z|].
    apply num_eq. intros i. rewrite tb_num_of, !bit_at_app, lenN_highs, bit_highs. cbn [hpos existsb]. rewrite andb_false_r.
    change (bit_at (lows lb []) (i - lenN l - chl u n)) with (bit_at [] (i - lenN l - chl u n)). rewrite (bit_at_oob []) by (rewrite lenN_nil; lia).
    destruct (N.ltb_spec i (lenN l)); [reflexivity|]. destruct (i - lenN l <? chl u n); apply bit_at_oob; assumption.
  - rewrite E. cbn [bind]. cbn [app] in I1, I3. destruct I3 as [(V0 & _)|(J & LH)].
    { exfalso. subst vs. change (lenN (@nil N)) with 0 in n. lia. }
    assert (LT : cw_last s < u) by (eapply Forall_forall in F; [exact F|eapply nthN_In; exact J]). fold n in LH.
    assert (cw_last s / 2 ^ lb <= u / 2 ^ lb) by (apply N.div_le_mono; [apply N.pow_nonzero; lia|lia]). fold lb in LH.
    rewrite LH. set (h := cw_last s / 2 ^ lb) in *. cbn [of_hl cof_of]. rewrite set_ptr0s_none; rewrite ?CH, ?add64_small by lia; try lia.
    eexists. split; [reflexivity|]. unfold brepl. rewrite lenN_app, lenN_cef_code. fold n. fold lb. rewrite N.add_assoc. unfold cef_code. fold n. fold lb. exact I1.
Qed.
