(** * Proofs about scanning: predecessor1, unary_iterator *)
From Verif Require Import Prelude BitFacts M_Word P_Word M_Bits Spec P_Bits P_Builder.

(** positions in [a,b) satisfying F, increasing *)
Definition fpos (F : N -> bool) (a b : N) : list N := filter F (seqN a (N.to_nat (b - a))).

Lemma fpos_ones V n : ones_pos V n = fpos (N.testbit V) 0 n.
Proof. unfold ones_pos, fpos, range. rewrite N.sub_0_r. reflexivity. Qed.

Lemma fpos_split F a b c : a <= b -> b <= c -> fpos F a c = fpos F a b ++ fpos F b c.
Proof.
  intros H1 H2. unfold fpos. replace (N.to_nat (c - a)) with (N.to_nat (b - a) + N.to_nat (c - b))%nat by lia.
  rewrite seqN_app, filter_app. do 3 f_equal. lia.
Qed.

Lemma In_fpos F a b x : In x (fpos F a b) <-> a <= x < b /\ F x = true.
Proof. unfold fpos. rewrite filter_In, In_seqN. intuition lia. Qed.

Lemma fpos_empty F a b : b <= a -> fpos F a b = [].
Proof. intros. unfold fpos. replace (N.to_nat (b - a)) with O by lia. reflexivity. Qed.

Lemma fpos_none F a b : (forall i, a <= i < b -> F i = false) -> fpos F a b = [].
Proof.
  intros H. destruct (fpos F a b) as [|x l] eqn:E; [reflexivity|].
  assert (In x (fpos F a b)) as I by (rewrite E; left; reflexivity).
  apply In_fpos in I. destruct I as [I1 I2]. rewrite H in I2 by assumption. discriminate.
Qed.

Lemma fpos_ext F G a b : (forall i, a <= i < b -> F i = G i) -> fpos F a b = fpos G a b.
Proof.
  intros H. unfold fpos. apply filter_ext_in. intros i Hi. apply In_seqN in Hi. apply H. lia.
Qed.

Lemma fpos_cons F a b : a < b -> fpos F a b = (if F a then [a] else []) ++ fpos F (a + 1) b.
Proof.
  intros H. rewrite (fpos_split F a (a + 1) b) by lia. f_equal. unfold fpos.
  replace (N.to_nat (a + 1 - a)) with 1%nat by lia. reflexivity.
Qed.

(** shifting the index *)
Lemma fpos_shift F a b d : fpos F (a + d) (b + d) = map (N.add d) (fpos (fun i => F (d + i)) a b).
Proof.
  unfold fpos. replace (b + d - (a + d)) with (b - a) by lia.
  generalize (N.to_nat (b - a)). intros k. revert a. induction k as [|k IH]; intros a; [reflexivity|].
  cbn [seqN filter]. replace (N.succ (a + d)) with (N.succ a + d) by lia. rewrite IH.
  replace (a + d) with (d + a) by lia. destruct (F (d + a)); reflexivity.
Qed.

(** the k-th selected position: everything about it *)
Lemma nthN_fpos F a b k q : nthN (fpos F a b) k = Some q ->
  a <= q < b /\ F q = true /\ lenN (fpos F a q) = k.
Proof.
  intros H. pose proof (nthN_In _ _ _ H) as I. apply In_fpos in I. destruct I as [I1 I2].
  split; [assumption|]. split; [assumption|].
  rewrite (fpos_split F a q b) in H by lia. rewrite (fpos_cons F q b), I2 in H by lia.
  rewrite nthN_app in H. destruct (N.ltb_spec k (lenN (fpos F a q))) as [L|L].
  - apply nthN_In in H. apply In_fpos in H. lia.
  - cbn [app] in H. rewrite nthN_cons in H. destruct (N.eqb_spec (k - lenN (fpos F a q)) 0); [lia|].
    apply nthN_In in H. apply In_fpos in H. lia.
Qed.

Lemma nthN_fpos_intro F a b q : a <= q < b -> F q = true -> nthN (fpos F a b) (lenN (fpos F a q)) = Some q.
Proof.
  intros H1 H2. rewrite (fpos_split F a q b) by lia. rewrite nthN_app2 by lia. rewrite N.sub_diag.
  rewrite (fpos_cons F q b), H2 by lia. reflexivity.
Qed.

(** a buffered word: the bits of F at positions >= p inside block [blk] *)
Definition buf_at (F : N -> bool) (blk p buf : N) : Prop :=
  64 * blk <= p <= 64 * blk + 64 /\
  forall j, N.testbit buf j = (j <? 64) && ((p <=? 64 * blk + j) && F (64 * blk + j)).

Lemma buf_lt F blk p buf : buf_at F blk p buf -> buf < 2 ^ 64.
Proof.
  intros [_ H]. apply lt_pow2_tb. intros i Hi. rewrite H. destruct (N.ltb_spec i 64); [lia|reflexivity].
Qed.

Lemma buf_ones F blk p buf : buf_at F blk p buf ->
  fpos F p (64 * blk + 64) = map (N.add (64 * blk)) (ones_pos buf 64).
Proof.
  intros [Hp H]. rewrite fpos_ones.
  replace p with ((p - 64 * blk) + 64 * blk) at 1 by lia.
  replace (64 * blk + 64) with (64 + 64 * blk) by lia. rewrite fpos_shift. f_equal.
  rewrite (fpos_split (N.testbit buf) 0 (p - 64 * blk) 64) by lia.
  rewrite (fpos_none (N.testbit buf) 0).
  - cbn [app]. apply fpos_ext. intros i Hi. rewrite H.
    destruct (N.ltb_spec i 64); [|lia]. destruct (N.leb_spec p (64 * blk + i)); [|lia]. reflexivity.
  - intros i Hi. rewrite H. destruct (N.leb_spec p (64 * blk + i)); [lia|]. bt.
Qed.

Definition reads (F : N -> bool) (neg : bool) (ws : list N) : Prop :=
  forall b, b < lenN ws -> forall j, N.testbit (if neg then not64 (wd ws b) else wd ws b) j = (j <? 64) && F (64 * b + j).

Lemma buf_next F neg ws b : reads F neg ws -> b < lenN ws ->
  buf_at F b (64 * b) (if neg then not64 (wd ws b) else wd ws b).
Proof.
  intros H Hb. split; [lia|]. intros j. rewrite H by assumption.
  destruct (N.leb_spec (64 * b) (64 * b + j)); [reflexivity|lia].
Qed.

Lemma skip_loop_ok F neg ws : reads F neg ws -> 64 * lenN ws < 2 ^ 64 ->
  forall fuel pos p buf skipped k q,
  buf_at F (pos / 64) p buf -> pos / 64 < lenN ws -> skipped <= k ->
  (N.to_nat (lenN ws - pos / 64) < fuel)%nat ->
  nthN (fpos F p (64 * lenN ws)) (k - skipped) = Some q ->
  exists pos' buf' skipped' p',
    skip_loop fuel neg ws pos buf skipped k = Ok (pos', buf', skipped') /\
    buf_at F (pos' / 64) p' buf' /\ pos' / 64 = q / 64 /\ skipped' <= k /\ p <= p' <= q /\
    pos' < 2 ^ 64 /\
    exists r, nthN (ones_pos buf' 64) (k - skipped') = Some r /\ q = 64 * (q / 64) + r.
Proof.
  intros HR HL. induction fuel as [|fuel IH]; intros pos p buf skipped k q Hb Hpos Hsk Hf Hq; [lia|].
  cbn [skip_loop]. pose proof (buf_lt _ _ _ _ Hb) as Hlt. rewrite popcount_correct by assumption.
  pose proof (buf_ones _ _ _ _ Hb) as BO.
  assert (LB : lenN (ones_pos buf 64) = lenN (fpos F p (64 * (pos / 64) + 64))) by (rewrite BO, lenN_map; reflexivity).
  destruct Hb as [Hp Hbits]. rewrite (fpos_split F p (64 * (pos / 64) + 64)) in Hq by lia.
  destruct (N.leb_spec (skipped + lenN (ones_pos buf 64)) k) as [L|L].
  - rewrite nthN_app2 in Hq by lia.
    assert (PN : add64 pos 64 = pos + 64) by (apply add64_small; dlia). rewrite PN.
    assert (PB : (pos + 64) / 64 = pos / 64 + 1) by dlia.
    assert (NB : pos / 64 + 1 < lenN ws).
    { destruct (N.lt_ge_cases (pos / 64 + 1) (lenN ws)); [assumption|].
      rewrite fpos_empty in Hq by lia. apply nthN_lt in Hq. rewrite lenN_nil in Hq. lia. }
    rewrite PB, rd_wd by assumption. cbn [bind].
    specialize (IH (pos + 64) (64 * (pos / 64 + 1)) (if neg then not64 (wd ws (pos / 64 + 1)) else wd ws (pos / 64 + 1))
       (skipped + lenN (ones_pos buf 64)) k q).
    destruct IH as (pos' & buf' & sk' & p' & E & R1 & R2 & R3 & R4 & R5); try rewrite PB; auto; try lia.
    + apply buf_next; assumption.
    + replace (64 * (pos / 64 + 1)) with (64 * (pos / 64) + 64) by lia.
      rewrite <- Hq. f_equal. lia.
    + exists pos', buf', sk', p'. split; [exact E|]. split; [exact R1|]. split; [exact R2|]. split; [exact R3|].
      split; [lia|exact R5].
  - rewrite nthN_app1 in Hq by lia. exists pos, buf, skipped, p.
    split; [reflexivity|]. split; [split; assumption|].
    rewrite BO, nthN_map in Hq. destruct (nthN (ones_pos buf 64) (k - skipped)) as [r|] eqn:Er; [|discriminate].
    cbn [option_map] in Hq. injection Hq as <-.
    pose proof (nthN_In _ _ _ Er) as Ir. rewrite fpos_ones in Ir. apply In_fpos in Ir. destruct Ir as [Ir1 Ir2].
    rewrite Hbits in Ir2. destruct (N.leb_spec p (64 * (pos / 64) + r)); [|rewrite andb_false_r in Ir2; discriminate].
    repeat split; try lia; try dlia. exists r. split; [reflexivity|dlia].
Qed.

(** ** the iterator *)
(* [it] stands at word [u_pos/64]; what it still has to deliver is the ones of V at positions >= p *)
Definition uit_at (v : bv) (V : N) (it : uit) (p : N) : Prop :=
  buf_at (N.testbit V) (u_pos it / 64) p (u_buf it) /\ u_pos it < 64 * lenN (v_bits v).

Lemma reads_bits v V n : vrep v V n -> reads (N.testbit V) false (v_bits v).
Proof. intros (H1 & H2 & H3 & H4 & H5) b Hb j. rewrite wd_tb by assumption. rewrite H3. reflexivity. Qed.

Lemma reads_zeros v V n : vrep v V n -> reads (fun i => negb (N.testbit V i)) true (v_bits v).
Proof.
  intros (H1 & H2 & H3 & H4 & H5) b Hb j. rewrite tb_not64, wd_tb, H3 by assumption.
  destruct (j <? 64); reflexivity.
Qed.

Lemma uit_new_ok v V n pos : vrep v V n -> pos < 64 * words_for n ->
  exists it, uit_new v pos = Ok it /\ uit_at v V it pos /\ u_pos it = pos.
Proof.
  intros HR Hp. pose proof HR as (H1 & H2 & H3 & H4 & H5). unfold uit_new. rewrite shr6, land63.
  rewrite rd_wd by (rewrite H2; dlia). cbn [bind]. eexists. split; [reflexivity|].
  cbn [u_pos u_buf]. split; [|reflexivity]. split; cbn [u_pos u_buf]; [|rewrite H2; assumption].
  split; [dlia|]. intros j. rewrite N.land_spec, tb_shl64, tb_ones, wd_tb, H3 by assumption.
  destruct (N.ltb_spec j 64); cbn [andb]; [|reflexivity].
  destruct (N.ltb_spec (j - pos mod 64) 64); [|lia]. rewrite andb_true_r, andb_comm. f_equal.
  destruct (N.leb_spec (pos mod 64) j); destruct (N.leb_spec pos (64 * (pos / 64) + j)); try reflexivity; dlia.
Qed.

Lemma align64_ok p : p < 2 ^ 64 -> align64 p = 64 * (p / 64).
Proof.
  intros H. unfold align64. apply tb_eq. intros i. rewrite N.land_spec, tb_not64.
  change 63 with (N.ones 6). rewrite tb_ones.
  replace (64 * (p / 64)) with (p / 2 ^ 6 * 2 ^ 6) by (change (2 ^ 6) with 64; lia).
  rewrite tb_mul, tb_div. destruct (N.leb_spec 6 i).
  - destruct (N.ltb_spec i 6); [lia|]. cbn [negb andb]. rewrite andb_true_r. replace (i - 6 + 6) with i by lia.
    destruct (N.ltb_spec i 64); [apply andb_true_r|]. rewrite (tb_lt p 64) by assumption. reflexivity.
  - destruct (N.ltb_spec i 6); [|lia]. bt.
Qed.

Lemma next_loop_ok F ws : reads F false ws -> 64 * lenN ws < 2 ^ 64 ->
  forall fuel pos p buf q,
  buf_at F (pos / 64) p buf -> pos / 64 < lenN ws ->
  (N.to_nat (lenN ws - pos / 64) < fuel)%nat ->
  nthN (fpos F p (64 * lenN ws)) 0 = Some q ->
  exists pos' buf' r p', next_loop fuel ws pos buf = Ok (pos', buf', r) /\
    pos' < 2 ^ 64 /\ pos' / 64 = q / 64 /\ q = 64 * (q / 64) + r /\
    buf_at F (q / 64) p' buf' /\ lsb_opt buf' = Some r.
Proof.
  intros HR HL. induction fuel as [|fuel IH]; intros pos p buf q Hb Hpos Hf Hq; [lia|].
  cbn [next_loop]. pose proof (buf_ones _ _ _ _ Hb) as BO. pose proof Hb as [Hp Hbits].
  rewrite (fpos_split F p (64 * (pos / 64) + 64)) in Hq by lia.
  destruct (lsb_opt buf) as [r|] eqn:El.
  - apply lsb_opt_spec in El as EL2. destruct EL2 as [S1 S2].
    assert (E1 : fpos F p (64 * (pos / 64) + 64) = 64 * (pos / 64) + r :: fpos F (64 * (pos / 64) + r + 1) (64 * (pos / 64) + 64)).
    { rewrite Hbits in S1. destruct (N.ltb_spec r 64); [|discriminate].
      destruct (N.leb_spec p (64 * (pos / 64) + r)); [|rewrite andb_false_r in S1; discriminate]. cbn [andb] in S1.
      rewrite (fpos_split F p (64 * (pos / 64) + r)) by lia.
      rewrite (fpos_none F p (64 * (pos / 64) + r)).
      - cbn [app]. rewrite fpos_cons, S1 by lia. reflexivity.
      - intros i Hi. specialize (S2 (i - 64 * (pos / 64)) ltac:(lia)). rewrite Hbits in S2.
        destruct (N.ltb_spec (i - 64 * (pos / 64)) 64); [|lia].
        destruct (N.leb_spec p (64 * (pos / 64) + (i - 64 * (pos / 64)))); [|lia]. cbn [andb] in S2.
        rewrite <- S2. f_equal. lia. }
    rewrite E1 in Hq. cbn [app] in Hq. rewrite nthN_0 in Hq. injection Hq as <-.
    rewrite Hbits in S1. destruct (N.ltb_spec r 64); [|discriminate].
    exists pos, buf, r, p. replace ((64 * (pos / 64) + r) / 64) with (pos / 64) by dlia.
    repeat split; auto; dlia.
  - apply lsb_opt_none in El. subst buf.
    assert (E1 : fpos F p (64 * (pos / 64) + 64) = []) by (rewrite BO; reflexivity).
    rewrite E1 in Hq. cbn [app] in Hq.
    assert (PN : add64 pos 64 = pos + 64) by (apply add64_small; dlia). rewrite PN, shr6.
    assert (PB : (pos + 64) / 64 = pos / 64 + 1) by dlia.
    assert (NB : pos / 64 + 1 < lenN ws).
    { destruct (N.lt_ge_cases (pos / 64 + 1) (lenN ws)); [assumption|].
      rewrite fpos_empty in Hq by lia. discriminate. }
    rewrite PB, rd_wd by assumption. cbn [bind].
    apply (IH (pos + 64) (64 * (pos / 64 + 1))); rewrite ?PB; auto; try lia.
    + apply (buf_next F false ws); assumption.
    + replace (64 * (pos / 64 + 1)) with (64 * (pos / 64) + 64) by lia. exact Hq.
Qed.

Lemma buf_clear F blk p buf r q : buf_at F blk p buf -> lsb_opt buf = Some r -> q = 64 * blk + r ->
  buf_at F blk (q + 1) (N.land buf (sub64 buf 1)).
Proof.
  intros Hb El Hq. pose proof (buf_lt _ _ _ _ Hb) as BL. destruct (clear_lsb _ _ El) as [C C0].
  rewrite sub64_small by lia. rewrite C. destruct Hb as [Hp Hbits].
  destruct (lsb_opt_spec _ _ El) as [S1 S2]. pose proof S1 as S1'. rewrite Hbits in S1'.
  destruct (N.ltb_spec r 64); [|discriminate].
  split; [lia|]. intros j. rewrite N.ldiff_spec, tb_pow2.
  destruct (N.eqb_spec j r) as [->|].
  - destruct (N.leb_spec (q + 1) (64 * blk + r)); [lia|]. bt.
  - cbn [negb]. rewrite andb_true_r. destruct (N.leb_spec (q + 1) (64 * blk + j)).
    + rewrite Hbits. f_equal. destruct (N.leb_spec p (64 * blk + j)); [reflexivity|].
      rewrite Hbits in S1. destruct (N.leb_spec p (64 * blk + r)); [lia|]. rewrite andb_false_r in S1. discriminate.
    + rewrite S2 by lia. bt.
Qed.

Lemma uit_next_ok v V n it p q : vrep v V n -> 64 * words_for n < 2 ^ 64 ->
  uit_at v V it p ->
  nthN (fpos (N.testbit V) p n) 0 = Some q ->
  exists it', uit_next v it = Ok (q, it') /\ uit_at v V it' (q + 1) /\ u_pos it' = q.
Proof.
  intros HR HS [HB HP] Hq. pose proof HR as (H1 & H2 & H3 & H4 & H5). rewrite <- H2 in HS.
  assert (Hpn : p <= n).
  { destruct (N.le_gt_cases p n); [assumption|]. rewrite fpos_empty in Hq by lia. discriminate. }
  assert (HN : n <= 64 * lenN (v_bits v)) by (rewrite H2; unfold words_for; dlia).
  destruct (next_loop_ok _ _ (reads_bits v V n HR) HS (S (S (length (v_bits v)))) (u_pos it) p (u_buf it) q)
    as (pos' & buf' & r & p' & E & R1 & R2 & R3 & R4 & R5); auto.
  - dlia.
  - unfold lenN. lia.
  - rewrite (fpos_split _ p n) by lia. rewrite nthN_app1; [exact Hq|]. eapply nthN_lt; eauto.
  - unfold uit_next. rewrite E. cbn [bind].
    assert (QQ : align64 pos' + r = q) by (rewrite align64_ok by assumption; lia). rewrite QQ.
    eexists. split; [reflexivity|]. split; [|reflexivity].
    apply nthN_fpos in Hq. split; cbn [u_pos u_buf]; [|lia].
    eapply buf_clear; eauto.
Qed.

Lemma select_ok buf k r : buf < 2 ^ 64 -> nthN (ones_pos buf 64) k = Some r -> select_in_word buf k = Ok r.
Proof.
  intros HL Hr. destruct (select_in_word_correct buf k HL) as (r' & E & E').
  - eapply nthN_lt; eauto.
  - congruence.
Qed.

Lemma buf_mask F blk p buf r q : buf_at F blk p buf -> q = 64 * blk + r -> r < 64 -> p <= q ->
  buf_at F blk q (N.land buf (shl (N.ones 64) r)).
Proof.
  intros [Hp Hbits] Hq Hr Hpq. split; [lia|]. intros j. rewrite N.land_spec, tb_shl64, tb_ones, Hbits.
  destruct (N.ltb_spec j 64); cbn [andb]; [|reflexivity].
  destruct (N.ltb_spec (j - r) 64); [|lia]. rewrite andb_true_r.
  destruct (N.leb_spec r j); destruct (N.leb_spec q (64 * blk + j)); try (exfalso; lia); bt.
  destruct (N.leb_spec p (64 * blk + j)); [|lia]. reflexivity.
Qed.

Lemma uit_skip_ok v V n it p k q : vrep v V n -> 64 * words_for n < 2 ^ 64 ->
  uit_at v V it p ->
  nthN (fpos (N.testbit V) p n) k = Some q ->
  exists it', uit_skip v it k = Ok it' /\ uit_at v V it' q /\ u_pos it' = q.
Proof.
  intros HR HS [HB HP] Hq. pose proof HR as (H1 & H2 & H3 & H4 & H5). rewrite <- H2 in HS.
  assert (Hpn : p <= n).
  { destruct (N.le_gt_cases p n); [assumption|]. rewrite fpos_empty in Hq by lia. apply nthN_lt in Hq.
    rewrite lenN_nil in Hq. lia. }
  assert (HN : n <= 64 * lenN (v_bits v)) by (rewrite H2; unfold words_for; dlia).
  destruct (skip_loop_ok _ _ _ (reads_bits v V n HR) HS (S (S (length (v_bits v)))) (u_pos it) p (u_buf it) 0 k q)
    as (pos' & buf' & sk & p' & E & R1 & R2 & R3 & R4 & R5 & r & R6 & R7); auto.
  - dlia.
  - lia.
  - unfold lenN. lia.
  - rewrite N.sub_0_r. rewrite (fpos_split _ p n) by lia. rewrite nthN_app1; [exact Hq|]. eapply nthN_lt; eauto.
  - unfold uit_skip. rewrite E. cbn [bind]. rewrite (select_ok _ _ r) by (try eapply buf_lt; eauto). cbn [bind].
    assert (r < 64). { apply nthN_In in R6. rewrite fpos_ones in R6. apply In_fpos in R6. lia. }
    assert (QQ : align64 pos' + r = q) by (rewrite align64_ok by assumption; lia). rewrite QQ.
    eexists. split; [reflexivity|]. split; [|reflexivity]. apply nthN_fpos in Hq.
    split; cbn [u_pos u_buf]; [|lia]. rewrite <- R2. eapply buf_mask; eauto; lia.
Qed.

(** skip0: the bits already delivered since the start of ... [u_pos, p) count as zeros *)
Lemma uit_skip0_ok v V n it p k q : vrep v V n -> 64 * words_for n < 2 ^ 64 ->
  uit_at v V it p -> u_pos it <= p ->
  nthN (fpos (fun i => negb ((p <=? i) && N.testbit V i)) (u_pos it) (64 * words_for n)) k = Some q ->
  exists it', uit_skip0 v it k = Ok it' /\ u_pos it' = q.
Proof.
  intros HR HS [HB HP] Hpp Hq. pose proof HR as (H1 & H2 & H3 & H4 & H5). rewrite <- H2 in HS, Hq.
  unfold uit_skip0. set (F := fun i => negb ((p <=? i) && N.testbit V i)) in *.
  destruct HB as [Hb1 Hb2].
  assert (B : buf_at F (u_pos it / 64) (u_pos it)
     (N.land (not64 (u_buf it)) (shl (N.ones 64) (u_pos it mod 64)))).
  { split; [dlia|]. intros j. rewrite N.land_spec, tb_not64, tb_shl64, tb_ones, Hb2.
    destruct (N.ltb_spec j 64); cbn [andb]; [|reflexivity].
    destruct (N.ltb_spec (j - u_pos it mod 64) 64); [|lia]. rewrite andb_true_r, andb_comm. f_equal.
    destruct (N.leb_spec (u_pos it mod 64) j); destruct (N.leb_spec (u_pos it) (64 * (u_pos it / 64) + j)); try reflexivity; dlia. }
  (* beyond the current word F is the complement of V: use the loop with a shifted reader *)
  set (G := fun i => negb (N.testbit V i)).
  assert (RG : reads G true (v_bits v)) by (eapply reads_zeros; eauto).
  (* the loop lemma needs the same predicate for the first buffer and the words read;
     F and G agree from the next word on *)
  assert (AG : forall i, 64 * (u_pos it / 64) + 64 <= i -> F i = G i).
  { intros i Hi. subst F G. cbn beta. destruct (N.leb_spec p i); [reflexivity|lia]. }
  assert (LOOP : forall fuel, (N.to_nat (lenN (v_bits v) - u_pos it / 64) < fuel)%nat ->
     exists pos' buf' sk r, skip_loop fuel true (v_bits v) (u_pos it)
        (N.land (not64 (u_buf it)) (shl (N.ones 64) (u_pos it mod 64))) 0 k = Ok (pos', buf', sk) /\
       buf' < 2 ^ 64 /\ pos' < 2 ^ 64 /\ pos' / 64 = q / 64 /\ nthN (ones_pos buf' 64) (k - sk) = Some r /\
       q = 64 * (q / 64) + r).
  { intros [|fuel] Hf; [lia|]. cbn [skip_loop].
    set (buf := N.land (not64 (u_buf it)) (shl (N.ones 64) (u_pos it mod 64))) in *.
    pose proof (buf_lt _ _ _ _ B) as BL. pose proof (buf_ones _ _ _ _ B) as BO.
    rewrite popcount_correct by assumption. rewrite N.add_0_l.
    assert (LB : lenN (ones_pos buf 64) = lenN (fpos F (u_pos it) (64 * (u_pos it / 64) + 64))) by (rewrite BO, lenN_map; reflexivity).
    rewrite (fpos_split F _ (64 * (u_pos it / 64) + 64)) in Hq by dlia.
    destruct (N.leb_spec (lenN (ones_pos buf 64)) k) as [L|L].
    - rewrite nthN_app2 in Hq by lia.
      assert (PN : add64 (u_pos it) 64 = u_pos it + 64) by (apply add64_small; dlia). rewrite PN.
      assert (PB : (u_pos it + 64) / 64 = u_pos it / 64 + 1) by dlia.
      assert (NB : u_pos it / 64 + 1 < lenN (v_bits v)).
      { destruct (N.lt_ge_cases (u_pos it / 64 + 1) (lenN (v_bits v))); [assumption|].
        rewrite fpos_empty in Hq by lia. apply nthN_lt in Hq. rewrite lenN_nil in Hq. lia. }
      rewrite PB, rd_wd by assumption. cbn [bind].
      destruct (skip_loop_ok G true (v_bits v) RG HS fuel (u_pos it + 64) (64 * (u_pos it / 64 + 1))
         (not64 (wd (v_bits v) (u_pos it / 64 + 1))) (lenN (ones_pos buf 64)) k q)
        as (pos' & buf' & sk & p' & E & R1 & R2 & R3 & R4 & R5 & r & R6 & R7); rewrite ?PB; auto; try lia.
      + apply (buf_next G true (v_bits v)); assumption.
      + replace (64 * (u_pos it / 64 + 1)) with (64 * (u_pos it / 64) + 64) by lia.
        rewrite <- (fpos_ext F G) by (intros; apply AG; lia). rewrite <- Hq. f_equal. lia.
      + exists pos', buf', sk, r. split; [exact E|]. split; [eapply buf_lt; eauto|]. auto.
    - rewrite nthN_app1 in Hq by lia. rewrite BO, nthN_map in Hq.
      destruct (nthN (ones_pos buf 64) k) as [r|] eqn:Er; [|discriminate].
      cbn [option_map] in Hq. injection Hq as <-.
      pose proof (nthN_In _ _ _ Er) as Ir. rewrite fpos_ones in Ir. apply In_fpos in Ir.
      exists (u_pos it), buf, 0, r. rewrite N.sub_0_r.
      repeat split; auto; dlia. }
  destruct (LOOP (S (S (length (v_bits v))))) as (pos' & buf' & sk & r & E & R0 & R1 & R2 & R3 & R4).
  { unfold lenN. lia. }
  rewrite E. cbn [bind]. rewrite (select_ok _ _ r) by assumption. cbn [bind].
  eexists. split; [reflexivity|]. cbn [u_pos]. rewrite align64_ok by assumption. lia.
Qed.

(** ** predecessor1 *)
Lemma pred1_loop_ok ws : words ws -> lenN ws < 2 ^ 64 -> forall fuel block word q pos,
  block < lenN ws -> (N.to_nat block < fuel)%nat -> 64 * block <= pos ->
  (forall j, N.testbit word j = (j <? 64) && ((64 * block + j <=? pos) && N.testbit (wval ws) (64 * block + j))) ->
  q <= pos -> q < 64 * (block + 1) -> N.testbit (wval ws) q = true ->
  (forall j, q < j -> j <= pos -> N.testbit (wval ws) j = false) ->
  pred1_loop fuel ws block word = Ok q.
Proof.
  intros Hw HL. induction fuel as [|fuel IH]; intros block word q pos Hb Hf Hbp Hword Hqp Hqb Hq Hno; [lia|].
  cbn [pred1_loop]. destruct (msb_opt word) as [r|] eqn:E.
  - apply msb_opt_spec in E. destruct E as [S1 S2]. f_equal. rewrite Hword in S1.
    destruct (N.ltb_spec r 64); [|discriminate]. destruct (N.leb_spec (64 * block + r) pos); [|discriminate].
    cbn [andb] in S1. destruct (N.lt_trichotomy (block * 64 + r) q) as [L|[L|L]]; [exfalso|assumption|exfalso].
    + specialize (S2 (q - 64 * block) ltac:(lia)). rewrite Hword in S2.
      destruct (N.ltb_spec (q - 64 * block) 64); [|lia].
      replace (64 * block + (q - 64 * block)) with q in S2 by lia. destruct (N.leb_spec q pos); [|lia].
      rewrite Hq in S2. discriminate.
    + rewrite Hno in S1 by lia. discriminate.
  - unfold msb_opt in E. destruct (N.eqb_spec word 0); [|discriminate]. subst word.
    assert (QB : q < 64 * block).
    { destruct (N.lt_ge_cases q (64 * block)); [assumption|]. specialize (Hword (q - 64 * block)).
      rewrite N.bits_0 in Hword. destruct (N.ltb_spec (q - 64 * block) 64); [|lia].
      replace (64 * block + (q - 64 * block)) with q in Hword by lia. destruct (N.leb_spec q pos); [|lia].
      rewrite Hq in Hword. discriminate. }
    rewrite sub64_small by lia. rewrite rd_wd by lia. cbn [bind].
    apply (IH _ _ q pos); auto; try lia. intros j. rewrite wd_tb by assumption.
    destruct (N.ltb_spec j 64); [|reflexivity]. destruct (N.leb_spec (64 * (block - 1) + j) pos); [reflexivity|lia].
Qed.

Lemma bv_predecessor1_ok v V n pos q : vrep v V n -> words_for n < 2 ^ 64 -> pos < n -> q <= pos ->
  N.testbit V q = true -> (forall j, q < j -> j <= pos -> N.testbit V j = false) ->
  bv_predecessor1 v pos = Ok q.
Proof.
  intros (H1 & H2 & H3 & H4 & H5) HL Hp Hqp Hq Hno. unfold bv_predecessor1.
  assert (B : pos / 64 < lenN (v_bits v)) by (rewrite H2; unfold words_for; dlia).
  rewrite rd_wd by assumption. cbn [bind]. rewrite <- H3 in *.
  apply (pred1_loop_ok _ H1 ltac:(lia) _ _ _ q pos); auto; try (unfold lenN in *; lia); try dlia.
  - intros j. rewrite tb_shr64, tb_shl64, wd_tb by assumption.
    destruct (N.ltb_spec (j + (64 - pos mod 64 - 1)) 64).
    + destruct (N.leb_spec (64 - pos mod 64 - 1) (j + (64 - pos mod 64 - 1))); [|lia]. cbn [andb].
      replace (j + (64 - pos mod 64 - 1) - (64 - pos mod 64 - 1)) with j by lia.
      destruct (N.ltb_spec j 64); [|lia]. cbn [andb].
      destruct (N.leb_spec (64 * (pos / 64) + j) pos); [reflexivity|]. dlia.
    + cbn [andb]. destruct (N.ltb_spec j 64); [|reflexivity]. cbn [andb].
      destruct (N.leb_spec (64 * (pos / 64) + j) pos); [|reflexivity]. exfalso. dlia.
Qed.
