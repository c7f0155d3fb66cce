(** * Proofs about bit vectors *)
From Verif Require Import Prelude BitFacts M_Word P_Word M_Bits Spec.

Ltac bt := cbn [andb orb negb]; rewrite ?andb_false_r, ?andb_true_r, ?orb_false_r, ?orb_true_r;
  cbn [andb orb negb]; try reflexivity.

Lemma shr6 p : shr p 6 = p / 64.
Proof. rewrite shr_div. reflexivity. Qed.
Lemma land63 p : N.land p 63 = p mod 64.
Proof. change 63 with (N.ones 6). rewrite N.land_ones. reflexivity. Qed.
Lemma shr3 p : shr p 3 = p / 8.
Proof. rewrite shr_div. reflexivity. Qed.
Lemma land7 p : N.land p 7 = p mod 8.
Proof. change 7 with (N.ones 3). rewrite N.land_ones. reflexivity. Qed.

Lemma shl1_sub1 len : len < 64 -> sub64 (shl 1 len) 1 = N.ones len.
Proof.
  intros H. unfold shl. rewrite N.shiftl_mul_pow2, N.mul_1_l.
  rewrite w64_small by (apply N.pow_lt_mono_r; lia).
  pose proof (pow2_pos len).
  rewrite sub64_small; [rewrite N.ones_equiv; lia|lia|apply N.pow_lt_mono_r; lia].
Qed.

Lemma width_mask_ones junk len : len <= 64 -> width_mask junk len = N.ones len.
Proof.
  intros H. unfold width_mask. destruct (N.eqb_spec len 64) as [->|].
  - cbn [N.ltb]. apply tb_eq. intros i. rewrite N.lor_spec, tb_ones.
    destruct (N.ltb_spec i 64); [reflexivity|]. cbn [orb].
    apply (tb_lt _ 64); [apply w64_lt|assumption].
  - destruct (N.ltb_spec len 64); [|lia]. rewrite N.lor_0_l. apply shl1_sub1. assumption.
Qed.

Lemma upd_ok ws i f : i < lenN ws -> upd ws i f = Ok (setN ws i (f (wd ws i))).
Proof. intros. unfold upd. rewrite rd_wd by assumption. cbn [bind]. apply wr_setN. assumption. Qed.

Lemma setN_setN {A} (l : list A) i a b : i < lenN l -> setN (setN l i a) i b = setN l i b.
Proof.
  intros H. apply nthN_ext. intros j. rewrite !nthN_setN by (rewrite ?lenN_setN; assumption).
  destruct (j =? i); reflexivity.
Qed.

Lemma upd_upd ws i f g : i < lenN ws ->
  (ws <- upd ws i f ;; upd ws i g) = Ok (setN ws i (g (f (wd ws i)))).
Proof.
  intros H. rewrite upd_ok by assumption. cbn [bind]. rewrite upd_ok by (rewrite lenN_setN; assumption).
  rewrite setN_setN by assumption. rewrite wd_setN by assumption. rewrite N.eqb_refl. reflexivity.
Qed.

Lemma bind_assoc {A B C} (m : res A) (f : A -> res B) (g : B -> res C) :
  bind (bind m f) g = bind m (fun a => bind (f a) g).
Proof. destruct m; reflexivity. Qed.

Lemma upd_upd_k {R} ws i f g (k : list N -> res R) : i < lenN ws ->
  (ws <- upd ws i f ;; ws <- upd ws i g ;; k ws) = k (setN ws i (g (f (wd ws i)))).
Proof.
  intros H. rewrite <- bind_assoc. rewrite upd_upd by assumption. reflexivity.
Qed.

(** testbit of a word array after replacing a word *)
Lemma wval_setN_tb ws b a i : words ws -> a < 2 ^ 64 -> b < lenN ws ->
  N.testbit (wval (setN ws b a)) i =
  if i / 64 =? b then N.testbit a (i mod 64) else N.testbit (wval ws) i.
Proof.
  intros H Ha Hb. rewrite !wval_tb by (try apply words_setN; assumption).
  rewrite wd_setN by assumption. destruct (i / 64 =? b); reflexivity.
Qed.

Lemma masked_lt w m v : w < 2 ^ 64 -> v < 2 ^ 64 -> N.lor (N.land w m) v < 2 ^ 64.
Proof. intros. apply lor_lt; [apply land_lt_l|]; assumption. Qed.

Lemma store_field_ok ws pos v len :
  words ws -> 0 < len <= 64 -> v < 2 ^ len -> pos + len <= 64 * lenN ws ->
  exists ws', store_field ws pos (N.ones len) v len = Ok ws' /\ words ws' /\
    lenN ws' = lenN ws /\
    forall i, N.testbit (wval ws') i =
      if (pos <=? i) && (i <? pos + len) then N.testbit v (i - pos)
      else N.testbit (wval ws) i.
Proof.
  intros Hw Hl Hv Hp. unfold store_field. rewrite shr6, land63.
  assert (B : pos / 64 < lenN ws) by dlia.
  rewrite upd_upd_k by assumption.
  assert (M : forall w x, w < 2 ^ 64 -> N.lor (N.land w (not64 x)) (shl v (pos mod 64)) < 2 ^ 64).
  { intros. apply masked_lt; [assumption|apply shl_lt]. }
  assert (WL : wd ws (pos / 64) < 2 ^ 64) by (apply wd_lt, Hw).
  destruct (N.ltb_spec (64 - pos mod 64) len) as [L|L].
  - rewrite !shrU_ok by dlia. cbn [bind].
    assert (B1 : pos / 64 + 1 < lenN ws) by dlia.
    rewrite upd_upd by (rewrite lenN_setN; assumption).
    rewrite wd_setN by assumption. destruct (N.eqb_spec (pos / 64 + 1) (pos / 64)); [lia|].
    assert (WL1 : wd ws (pos / 64 + 1) < 2 ^ 64) by (apply wd_lt, Hw).
    assert (V : shr v (64 - pos mod 64) < 2 ^ 64).
    { apply shr_lt. eapply lt_pow2_le; [exact Hv|lia]. }
    eexists. split; [reflexivity|]. split; [|split].
    + repeat apply words_setN; auto. apply masked_lt; assumption.
    + rewrite !lenN_setN. reflexivity.
    + intros i. rewrite !wval_setN_tb; auto;
        try (rewrite lenN_setN; assumption); try (apply words_setN; auto);
        try (apply masked_lt; assumption).
      rewrite N.lor_spec, N.land_spec, tb_not64, !tb_shr64, tb_ones.
      rewrite N.lor_spec, N.land_spec, tb_not64, !tb_shl64, tb_ones.
      rewrite !wd_tb by assumption.
      destruct (N.eqb_spec (i / 64) (pos / 64 + 1)) as [E1|E1].
      * assert (I : i = 64 * (pos / 64 + 1) + i mod 64) by dlia.
        assert (Hi : i mod 64 < 64) by dlia.
        rewrite <- I. destruct (N.ltb_spec (i mod 64) 64); [|lia]. cbn [andb].
        replace (i mod 64 + (64 - pos mod 64)) with (i - pos) by dlia.
        destruct (N.leb_spec pos i); [|dlia]. cbn [andb].
        destruct (N.ltb_spec (i - pos) len); destruct (N.ltb_spec i (pos + len)); try (exfalso; lia).
        -- bt.
        -- rewrite (tb_lt v len) by (assumption || lia). bt.
      * destruct (N.eqb_spec (i / 64) (pos / 64)) as [E2|E2].
        -- assert (I : i = 64 * (pos / 64) + i mod 64) by dlia.
           assert (Hi : i mod 64 < 64) by dlia.
           rewrite <- I. destruct (N.ltb_spec (i mod 64) 64); [|lia]. cbn [andb].
           destruct (N.leb_spec (pos mod 64) (i mod 64)); destruct (N.leb_spec pos i); try (exfalso; dlia); cbn [andb].
           ++ replace (i mod 64 - pos mod 64) with (i - pos) by dlia.
              destruct (N.ltb_spec (i - pos) len); destruct (N.ltb_spec i (pos + len)); try (exfalso; dlia); bt.
           ++ bt.
        -- destruct (N.leb_spec pos i); destruct (N.ltb_spec i (pos + len)); try reflexivity. dlia.
  - eexists. split; [reflexivity|]. split; [|split].
    + apply words_setN; auto.
    + rewrite !lenN_setN. reflexivity.
    + intros i. rewrite !wval_setN_tb; auto.
      rewrite N.lor_spec, N.land_spec, tb_not64, !tb_shl64, tb_ones.
      rewrite !wd_tb by assumption.
      destruct (N.eqb_spec (i / 64) (pos / 64)) as [E2|E2].
      * assert (I : i = 64 * (pos / 64) + i mod 64) by dlia.
        assert (Hi : i mod 64 < 64) by dlia.
        rewrite <- I. destruct (N.ltb_spec (i mod 64) 64); [|lia]. cbn [andb].
        destruct (N.leb_spec (pos mod 64) (i mod 64)); destruct (N.leb_spec pos i); try (exfalso; dlia); cbn [andb].
        -- replace (i mod 64 - pos mod 64) with (i - pos) by dlia.
           destruct (N.ltb_spec (i - pos) len); destruct (N.ltb_spec i (pos + len)); try (exfalso; dlia).
           ++ bt.
           ++ rewrite (tb_lt v len) by (assumption || lia). bt.
        -- bt.
      * destruct (N.leb_spec pos i); destruct (N.ltb_spec i (pos + len)); try reflexivity. dlia.
Qed.

Lemma load_field_ok ws pos len :
  words ws -> 0 < len <= 64 -> pos + len <= 64 * lenN ws ->
  load_field ws pos (N.ones len) len = Ok (field (wval ws) pos len).
Proof.
  intros Hw Hl Hp. unfold load_field. rewrite shr6, land63.
  assert (B : pos / 64 < lenN ws) by dlia.
  destruct (N.leb_spec (pos mod 64 + len) 64) as [L|L].
  - rewrite rd_wd by assumption. cbn [bind]. f_equal. apply tb_eq. intros i.
    rewrite tb_field, N.land_spec, tb_shr64, tb_ones, wd_tb by assumption.
    destruct (N.ltb_spec i len); [|apply andb_false_r]. rewrite andb_true_r. cbn [andb].
    destruct (N.ltb_spec (i + pos mod 64) 64); [|lia]. cbn [andb]. f_equal. dlia.
  - assert (B1 : pos / 64 + 1 < lenN ws) by dlia.
    rewrite !rd_wd by assumption. cbn [bind]. f_equal. apply tb_eq. intros i.
    rewrite tb_field, N.lor_spec, N.land_spec, tb_shr64, tb_shl64, tb_ones, !wd_tb by assumption.
    destruct (N.ltb_spec i len).
    + rewrite andb_true_r. cbn [andb]. destruct (N.ltb_spec (i + pos mod 64) 64).
      * cbn [andb]. destruct (N.leb_spec (64 - pos mod 64) i); [lia|]. cbn [andb].
        rewrite andb_false_r, orb_false_r. f_equal. dlia.
      * cbn [andb orb]. destruct (N.ltb_spec i 64); [|lia].
        destruct (N.leb_spec (64 - pos mod 64) i); [|lia]. cbn [andb].
        destruct (N.ltb_spec (i - (64 - pos mod 64)) 64); [|exfalso; dlia]. cbn [andb]. f_equal. dlia.
    + rewrite andb_false_r, orb_false_r. cbn [andb].
      destruct (N.ltb_spec (i + pos mod 64) 64); [dlia|]. reflexivity.
Qed.

Lemma get_word64_ok ws pos : words ws -> pos < 64 * lenN ws ->
  get_word64 ws pos = Ok (field (wval ws) pos 64).
Proof.
  intros Hw Hp. unfold get_word64. rewrite shr6, land63.
  rewrite rd_wd by dlia. cbn [bind].
  assert (Z : forall i, 64 * lenN ws <= i -> N.testbit (wval ws) i = false).
  { intros i Hi. eapply tb_lt; [apply wval_lt, Hw|assumption]. }
  destruct (N.eqb_spec (pos mod 64) 0) as [E|E]; cbn [negb andb].
  - f_equal. apply tb_eq. intros i. rewrite tb_field, tb_shr64, wd_tb by assumption.
    rewrite E, N.add_0_r. f_equal. f_equal. dlia.
  - destruct (N.ltb_spec (pos / 64 + 1) (lenN ws)).
    + rewrite rd_wd by assumption. cbn [bind]. f_equal. apply tb_eq. intros i.
      rewrite tb_field, N.lor_spec, tb_shr64, tb_shl64, !wd_tb by assumption.
      destruct (N.ltb_spec i 64); cbn [andb].
      * destruct (N.ltb_spec (i + pos mod 64) 64).
        -- cbn [andb]. destruct (N.leb_spec (64 - pos mod 64) i); [lia|]. cbn [andb].
           rewrite orb_false_r. f_equal. dlia.
        -- cbn [andb orb]. destruct (N.leb_spec (64 - pos mod 64) i); [|lia]. cbn [andb].
           destruct (N.ltb_spec (i - (64 - pos mod 64)) 64); [|exfalso; dlia]. cbn [andb]. f_equal. dlia.
      * destruct (N.ltb_spec (i + pos mod 64) 64); [lia|]. reflexivity.
    + f_equal. apply tb_eq. intros i. rewrite tb_field, tb_shr64, wd_tb by assumption.
      destruct (N.ltb_spec i 64); cbn [andb].
      * destruct (N.ltb_spec (i + pos mod 64) 64); cbn [andb].
        -- f_equal. dlia.
        -- symmetry. apply Z. dlia.
      * destruct (N.ltb_spec (i + pos mod 64) 64); [lia|]. reflexivity.
Qed.

