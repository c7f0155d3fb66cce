(** * Proofs about hash_compact_vector and compact_triplets_vector *)
From Verif Require Import Prelude BitFacts M_Word P_Word M_Bits Spec P_Bits P_Builder P_BitProg M_HashVec.
From Verif Require Import P_EF.

Lemma tb_trunc hb x i : N.testbit (trunc hb x) i = (i <? hb) && N.testbit x i.
Proof. unfold trunc. rewrite N.land_spec, tb_ones. apply andb_comm. Qed.
Lemma trunc_lt hb x : trunc hb x < 2 ^ hb.
Proof. apply land_lt_r, ones_lt. Qed.
Lemma trunc_small hb x : x < 2 ^ hb -> trunc hb x = x.
Proof. intros. unfold trunc. rewrite N.land_ones. apply N.mod_small. assumption. Qed.

Definition hwords (hb : N) (ws : list N) : Prop := Forall (fun w => w < 2 ^ hb) ws.
Lemma hwd_lt hb ws i : hwords hb ws -> wd ws i < 2 ^ hb.
Proof.
  intros H. destruct (N.lt_ge_cases i (lenN ws)) as [L|L].
  - exact (Forall_nthN _ _ _ _ H (wd_nthN _ _ L)).
  - rewrite wd_oob by assumption. apply pow2_pos.
Qed.
Lemma updh_ok hb ws i f : i < lenN ws -> updh hb ws i f = Ok (setN ws i (trunc hb (f (wd ws i)))).
Proof. intros H. unfold updh. rewrite upd_ok by assumption. reflexivity. Qed.
Lemma hwords_setN hb ws i x : hwords hb ws -> hwords hb (setN ws i (trunc hb x)).
Proof. intros H. apply Forall_setN; [assumption|apply trunc_lt]. Qed.

(** hash sizes of the code *)
Definition hbok1 (hb w : N) : Prop := (hb = 64 /\ 1 <= w <= 64) \/ (hb = 32 /\ 1 <= w <= 32).
Definition hbok (hb w : N) : Prop := (hb = 64 /\ 1 <= w <= 64) \/ (hb = 32 /\ (1 <= w <= 32 \/ w = 64)).
Lemma hbok_cases hb w : hbok hb w -> hbok1 hb w \/ (hb = 32 /\ w = 64).
Proof. unfold hbok, hbok1. lia. Qed.

Definition hmok (hb w m : N) : Prop := m = N.ones w \/ (hb = 32 /\ w = 32 /\ m = N.ones 64).
Lemma h_mask_ones hb w : hbok hb w -> hmok hb w (h_mask_of hb w).
Proof.
  intros H. destruct (N.eq_dec hb 32) as [->|Hne].
  { destruct (N.eq_dec w 32) as [->|]; [right; auto|left]. destruct H as [[? _]|[_ H]]; [lia|].
    unfold h_mask_of. destruct (N.eqb_spec w 32); [lia|]. destruct (N.eqb_spec w 64) as [->|]; [reflexivity|]. cbn [orb].
    unfold shl. change (w64 (N.shiftl 1 w)) with (trunc 64 (N.shiftl 1 w)). rewrite N.shiftl_1_l.
    rewrite trunc_small by (apply N.pow_lt_mono_r; lia). pose proof (pow2_pos w).
    rewrite sub64_small; [| lia | apply N.pow_lt_mono_r; lia]. rewrite N.ones_equiv, N.pred_sub. reflexivity. }
  left. unfold h_mask_of. destruct (N.eqb_spec w 64) as [->|].
  - rewrite orb_true_r. reflexivity.
  - destruct (N.eqb_spec w hb) as [->|]; [destruct H; lia|]. cbn [orb].
    apply tb_eq. intros i. rewrite tb_ones. assert (w < 64) by (destruct H; lia).
    rewrite sub64_small; unfold shl; rewrite N.shiftl_1_l, w64_small by (apply N.pow_lt_mono_r; lia).
    + rewrite <- (N.pred_sub (2 ^ w)), <- N.ones_equiv. apply tb_ones.
    + pose proof (pow2_pos w). lia.
    + apply N.pow_lt_mono_r; lia.
Qed.

(** bit [b] of word [j] *)
Definition gb (ws : list N) (j b : N) : bool := N.testbit (wd ws j) b.

Lemma key_mask_ones hb s : s < hb -> hb <= 64 -> sub64 (trunc hb (N.shiftl 1 s)) 1 = N.ones s.
Proof.
  intros H1 H2. rewrite N.shiftl_1_l. assert (2 ^ s < 2 ^ hb) by (apply N.pow_lt_mono_r; lia).
  rewrite trunc_small by assumption. pose proof (pow2_pos s).
  rewrite sub64_small; [| lia | apply N.pow_lt_mono_r; lia].
  rewrite N.ones_equiv, N.pred_sub. reflexivity.
Qed.

(** one slot store, on the words *)
Lemma hcv_set_words1 hb c i k v : hbok1 hb (h_width c) -> h_mask c = N.ones (h_width c) ->
  hwords hb (h_bits c) -> k < 2 ^ hb -> v < 2 ^ h_width c ->
  i * (hb + h_width c) + hb + h_width c <= hb * lenN (h_bits c) -> i * (hb + h_width c) < 2 ^ hb ->
  exists ws', hcv_set hb c i k v = Ok (mkhcv (h_size c) (h_width c) (h_mask c) ws') /\
    lenN ws' = lenN (h_bits c) /\ hwords hb ws' /\
    forall j b, b < hb -> gb ws' j b =
      (let x := hb * j + b in let p := i * (hb + h_width c) in
       if (p <=? x) && (x <? p + hb) then N.testbit k (x - p)
       else if (p + hb <=? x) && (x <? p + hb + h_width c) then N.testbit v (x - p - hb)
       else gb (h_bits c) j b).
Proof.
  intros HB HM HW Hk Hv HL Hp. set (w := h_width c) in *. set (ws := h_bits c) in *. set (p := i * (hb + w)) in *.
  unfold hcv_set. fold w. fold ws. rewrite HM.
  rewrite mul64_small; [|fold p; destruct HB as [[-> ?] | [-> ?]]; [assumption|lia]]. fold p. rewrite trunc_small by assumption.
  assert (SH : N.land p (hb - 1) = p mod hb).
  { destruct HB as [[-> ?] | [-> ?]]; [apply land63|]. change (32 - 1) with (N.ones 5). apply N.land_ones. }
  rewrite SH. clear SH.
  assert (E : p = hb * (p / hb) + p mod hb) by (apply N.div_mod; destruct HB; lia).
  assert (Hs : p mod hb < hb) by (apply N.mod_upper_bound; destruct HB; lia).
  set (b := p / hb) in *. set (s := p mod hb) in *. clearbody b s p.
  assert (L0 : b < lenN ws) by (destruct HB as [[-> ?] | [-> ?]]; lia).
  assert (L1 : b + 1 < lenN ws) by (destruct HB as [[-> ?] | [-> ?]]; lia).
  assert (HW0 : forall j, wd ws j < 2 ^ hb) by (intros; apply hwd_lt; assumption).
  assert (HH : hb <= 64 /\ 1 <= w <= hb /\ (hb = 32 -> w <= 32) /\ 32 <= hb) by (destruct HB as [[-> ?] | [-> ?]]; lia).
  destruct (N.eqb_spec s 0) as [S0|S0]; cbn [negb].
  - rewrite updh_ok by assumption. cbn [bind]. rewrite updh_ok by (rewrite lenN_setN; assumption). cbn [bind].
    rewrite updh_ok by (rewrite !lenN_setN; assumption). cbn [bind].
    replace ((hb =? 32) && (32 <? w)) with false.
    2: { symmetry. destruct (N.eqb_spec hb 32); cbn [andb]; [|reflexivity]. apply N.ltb_ge. lia. }
    cbn [bind]. eexists. split; [reflexivity|]. split; [rewrite !lenN_setN; reflexivity|].
    split; [repeat apply hwords_setN; assumption|].
    intros j x Hx. unfold gb. cbv zeta.
    repeat (rewrite wd_setN by (rewrite ?lenN_setN; assumption)).
    rewrite N.eqb_refl. destruct (N.eqb_spec (b + 1) b); [lia|].
    destruct (N.eqb_spec j (b + 1)) as [->|J1]; [|destruct (N.eqb_spec j b) as [->|J0]].
    + rewrite !tb_trunc, N.lor_spec, !tb_trunc, N.land_spec, tb_not64, tb_ones.
      replace (hb * (b + 1) + x) with (p + hb + x) by lia.
      destruct (N.ltb_spec x hb); [|lia]. destruct (N.ltb_spec x 64); [|lia]. cbn [andb].
      destruct (N.leb_spec p (p + hb + x)); [|lia]. destruct (N.ltb_spec (p + hb + x) (p + hb)); [lia|]. cbn [andb].
      destruct (N.leb_spec (p + hb) (p + hb + x)); [|lia].
      replace (p + hb + x - p - hb) with x by lia.
      destruct (N.ltb_spec x w); destruct (N.ltb_spec (p + hb + x) (p + hb + w)); try (exfalso; lia); cbn [andb negb].
      * rewrite andb_false_r. reflexivity.
      * rewrite andb_true_r, (tb_lt v w) by assumption. apply orb_false_r.
    + rewrite tb_trunc. destruct (N.ltb_spec x hb); [|lia]. cbn [andb].
      destruct (N.leb_spec p (hb * b + x)); [|lia]. destruct (N.ltb_spec (hb * b + x) (p + hb)); [|lia]. cbn [andb].
      f_equal. lia.
    + assert (hb * j + x < p \/ p + hb + w <= hb * j + x).
      { destruct HB as [[-> ?] | [-> ?]]; lia. }
      destruct (N.leb_spec p (hb * j + x)); destruct (N.ltb_spec (hb * j + x) (p + hb)); try (exfalso; lia); cbn [andb];
      destruct (N.leb_spec (p + hb) (hb * j + x)); destruct (N.ltb_spec (hb * j + x) (p + hb + w)); try (exfalso; lia); reflexivity.
  - rewrite key_mask_ones by lia.
    do 2 (rewrite updh_ok by (rewrite ?lenN_setN; assumption); cbn [bind]).
    do 4 (rewrite updh_ok by (rewrite ?lenN_setN; assumption); cbn [bind]).
    set (ws1 := setN _ (b + 1) _).
    assert (LW : lenN ws1 = lenN ws) by (unfold ws1; rewrite !lenN_setN; reflexivity).
    assert (HW1 : hwords hb ws1) by (unfold ws1; repeat apply hwords_setN; assumption).
    assert (T1 : forall j x, x < hb -> gb ws1 j x =
      if j =? b + 1 then (if x <? s then N.testbit k (x + (hb - s)) else if x <? s + w then N.testbit v (x - s) else gb ws j x)
      else if j =? b then (if x <? s then gb ws j x else N.testbit k (x - s)) else gb ws j x).
    { intros j x Hx. unfold gb, ws1. repeat (rewrite wd_setN by (rewrite ?lenN_setN; assumption)).
      rewrite !N.eqb_refl. destruct (N.eqb_spec (b + 1) b); [lia|].
      destruct (N.eqb_spec j (b + 1)) as [->|J1]; [|destruct (N.eqb_spec j b) as [->|J0]; [|reflexivity]].
      - repeat first [rewrite tb_trunc | rewrite N.lor_spec | rewrite N.land_spec | rewrite tb_not64 | rewrite tb_shl64
          | rewrite tb_ones | rewrite tb_shr64].
        destruct (N.ltb_spec x hb); [|lia]. destruct (N.ltb_spec x 64); [|lia]. cbn [andb negb].
        destruct (N.ltb_spec x s); destruct (N.leb_spec s x); try (exfalso; lia); cbn [andb negb].
        + rewrite ?andb_false_r, ?andb_true_r, ?orb_false_r. reflexivity.
        + rewrite (tb_lt k hb) by (assumption || lia). destruct (N.ltb_spec (x - s) w); destruct (N.ltb_spec x (s + w)); try (exfalso; lia); cbn [andb negb].
          * rewrite ?andb_false_r. reflexivity.
          * rewrite (tb_lt v w) by assumption. rewrite ?andb_true_r, ?orb_false_r. reflexivity.
      - repeat first [rewrite tb_trunc | rewrite N.lor_spec | rewrite N.land_spec | rewrite tb_shl | rewrite tb_ones].
        destruct (N.ltb_spec x hb); [|lia]. cbn [andb].
        destruct (N.ltb_spec x s); destruct (N.leb_spec s x); try (exfalso; lia); cbn [andb].
        + rewrite ?andb_true_r, ?orb_false_r. reflexivity.
        + rewrite andb_false_r. reflexivity. }
    destruct (N.ltb_spec (hb - s) w) as [R|R].
    + assert (L2 : b + 2 < lenN ws) by (destruct HB as [[-> ?] | [-> ?]]; lia).
      rewrite updh_ok by (rewrite LW; assumption). cbn [bind]. rewrite updh_ok by (rewrite lenN_setN, LW; assumption). cbn [bind].
      replace ((hb =? 32) && (hb - s + 32 <? w)) with false.
      2: { symmetry. destruct (N.eqb_spec hb 32); cbn [andb]; [|reflexivity]. apply N.ltb_ge. lia. }
      cbn [bind]. eexists. split; [reflexivity|]. split; [rewrite !lenN_setN; assumption|].
      split; [repeat apply hwords_setN; assumption|].
      intros j x Hx. unfold gb at 1. cbv zeta.
      repeat (rewrite wd_setN by (rewrite ?lenN_setN, LW; assumption)). rewrite N.eqb_refl.
      destruct (N.eqb_spec j (b + 2)) as [->|J2].
      * repeat first [rewrite tb_trunc | rewrite N.lor_spec | rewrite N.land_spec | rewrite tb_not64 | rewrite tb_shr64 | rewrite tb_ones].
        fold (gb ws1 (b + 2) x). rewrite T1 by assumption.
        destruct (N.eqb_spec (b + 2) (b + 1)); [lia|]. destruct (N.eqb_spec (b + 2) b); [lia|].
        destruct (N.ltb_spec x hb); [|lia]. destruct (N.ltb_spec x 64); [|lia]. cbn [andb negb].
        replace (hb * (b + 2) + x) with (p + hb + (hb - s + x)) by lia.
        destruct (N.ltb_spec (p + hb + (hb - s + x)) (p + hb)); [lia|]. rewrite andb_false_r.
        destruct (N.leb_spec (p + hb) (p + hb + (hb - s + x))); [|lia]. cbn [andb].
        replace (p + hb + (hb - s + x) - p - hb) with (x + (hb - s)) by lia.
        destruct (N.ltb_spec (x + (hb - s)) w); destruct (N.ltb_spec (p + hb + (hb - s + x)) (p + hb + w)); try (exfalso; lia); cbn [negb].
        -- rewrite andb_false_r. reflexivity.
        -- rewrite (tb_lt v w) by assumption. rewrite andb_true_r, orb_false_r. reflexivity.
      * fold (gb ws1 j x). rewrite T1 by assumption.
        destruct (N.eqb_spec j (b + 1)) as [->|J1]; [|destruct (N.eqb_spec j b) as [->|J0]].
        -- replace (hb * (b + 1) + x) with (p + (hb - s) + x) by lia.
           destruct (N.leb_spec p (p + (hb - s) + x)); [|lia]. cbn [andb].
           destruct (N.ltb_spec x s); destruct (N.ltb_spec (p + (hb - s) + x) (p + hb)); try (exfalso; lia); [f_equal; lia|].
           destruct (N.leb_spec (p + hb) (p + (hb - s) + x)); [|lia]. cbn [andb].
           destruct (N.ltb_spec x (s + w)); destruct (N.ltb_spec (p + (hb - s) + x) (p + hb + w)); try (exfalso; lia); [f_equal; lia].
        -- destruct (N.ltb_spec x s).
           ++ destruct (N.leb_spec p (hb * b + x)); [lia|]. cbn [andb]. destruct (N.leb_spec (p + hb) (hb * b + x)); [lia|]. reflexivity.
           ++ destruct (N.leb_spec p (hb * b + x)); [|lia]. destruct (N.ltb_spec (hb * b + x) (p + hb)); [|lia]. cbn [andb]. f_equal. lia.
        -- assert (hb * j + x < p \/ p + hb + w <= hb * j + x).
           { destruct HB as [[-> ?] | [-> ?]]; lia. }
           destruct (N.leb_spec p (hb * j + x)); destruct (N.ltb_spec (hb * j + x) (p + hb)); try (exfalso; lia); cbn [andb];
           destruct (N.leb_spec (p + hb) (hb * j + x)); destruct (N.ltb_spec (hb * j + x) (p + hb + w)); try (exfalso; lia); reflexivity.
    + cbn [bind]. eexists. split; [reflexivity|]. split; [assumption|]. split; [assumption|].
      intros j x Hx. cbv zeta. rewrite T1 by assumption.
      destruct (N.eqb_spec j (b + 1)) as [->|J1]; [|destruct (N.eqb_spec j b) as [->|J0]].
      * replace (hb * (b + 1) + x) with (p + (hb - s) + x) by lia.
        destruct (N.leb_spec p (p + (hb - s) + x)); [|lia]. cbn [andb].
        destruct (N.ltb_spec x s); destruct (N.ltb_spec (p + (hb - s) + x) (p + hb)); try (exfalso; lia); [f_equal; lia|].
        destruct (N.leb_spec (p + hb) (p + (hb - s) + x)); [|lia]. cbn [andb].
        destruct (N.ltb_spec x (s + w)); destruct (N.ltb_spec (p + (hb - s) + x) (p + hb + w)); try (exfalso; lia); [f_equal; lia|reflexivity].
      * destruct (N.ltb_spec x s).
        -- destruct (N.leb_spec p (hb * b + x)); [lia|]. cbn [andb]. destruct (N.leb_spec (p + hb) (hb * b + x)); [lia|]. reflexivity.
        -- destruct (N.leb_spec p (hb * b + x)); [|lia]. destruct (N.ltb_spec (hb * b + x) (p + hb)); [|lia]. cbn [andb]. f_equal. lia.
      * assert (hb * j + x < p \/ p + hb + w <= hb * j + x).
        { destruct HB as [[-> ?] | [-> ?]]; lia. }
        destruct (N.leb_spec p (hb * j + x)); destruct (N.ltb_spec (hb * j + x) (p + hb)); try (exfalso; lia); cbn [andb];
        destruct (N.leb_spec (p + hb) (hb * j + x)); destruct (N.ltb_spec (hb * j + x) (p + hb + w)); try (exfalso; lia); reflexivity.
Qed.

Lemma land31' i : N.land (trunc 32 (mul64 i (32 + 32))) (32 - 1) = 0.
Proof.
  change (32 - 1) with (N.ones 5). rewrite N.land_ones. change (32 + 32) with 64.
  assert (E : trunc 32 (mul64 i 64) = 64 * (i mod 2 ^ 26)).
  { unfold trunc, mul64. rewrite w64_mod, N.land_ones. change (2 ^ 64) with (2 ^ 58 * 64). 
    rewrite N.mul_mod_distr_r by lia. rewrite N.mul_comm. change (2 ^ 32) with (64 * 2 ^ 26).
    rewrite N.mul_mod_distr_l by lia. f_equal. change (2 ^ 58) with (2 ^ 26 * 2 ^ 32).
    rewrite N.mod_mul_r by lia. rewrite (N.mul_comm (2 ^ 26)), N.mod_add by lia. apply N.mod_mod. lia. }
  rewrite E. change (2 ^ 5) with 32. replace (64 * (i mod 2 ^ 26)) with ((2 * (i mod 2 ^ 26)) * 32) by lia.
  apply N.mod_mul. lia.
Qed.
Lemma trunc_not m x : hmok 32 32 m -> trunc 32 (N.land x (not64 m)) = trunc 32 (N.land x (not64 (N.ones 32))).
Proof.
  intros M. apply tb_eq. intros j. rewrite !tb_trunc, !N.land_spec, !tb_not64.
  destruct (N.ltb_spec j 32); cbn [andb]; [|reflexivity]. f_equal. f_equal. f_equal.
  destruct M as [-> | (_ & _ & ->)]; [reflexivity|]. rewrite !tb_ones. destruct (N.ltb_spec j 32); destruct (N.ltb_spec j 64); try lia; reflexivity.
Qed.
Lemma upd_ext ws i f g : (forall x, f x = g x) -> upd ws i f = upd ws i g.
Proof. intros H. unfold upd. destruct (rd ws i); cbn [bind]; rewrite ?H; reflexivity. Qed.
Definition with_mask (c : hcv) (m : N) := mkhcv (h_size c) (h_width c) m (h_bits c).
Lemma hcv_set_mask c i k v : h_width c = 32 -> hmok 32 32 (h_mask c) ->
  hcv_set 32 c i k v = (c' <- hcv_set 32 (with_mask c (N.ones 32)) i k v ;; Ok (with_mask c' (h_mask c))).
Proof.
  intros W M. unfold hcv_set, with_mask. cbn [h_size h_width h_mask h_bits]. rewrite W. rewrite land31'. cbn [negb N.eqb].
  destruct (updh 32 (h_bits c) (trunc 32 (mul64 i (32 + 32)) / 32) (fun _ => k)) as [ws1| |]; cbn [bind]; try reflexivity.
  unfold updh at 1. rewrite (upd_ext _ _ _ _ (fun x => trunc_not _ x M)). fold (updh 32 ws1 (trunc 32 (mul64 i (32 + 32)) / 32 + 1) (fun x => N.land x (not64 (N.ones 32)))).
  destruct (updh 32 ws1 _ _) as [ws2| |]; cbn [bind]; try reflexivity.
  destruct (updh 32 ws2 _ _) as [ws3| |]; cbn [bind]; reflexivity.
Qed.
Lemma hcv_get_mask c i : h_width c = 32 -> hmok 32 32 (h_mask c) -> hwords 32 (h_bits c) ->
  hcv_get 32 c i = hcv_get 32 (with_mask c (N.ones 32)) i.
Proof.
  intros W M HW. unfold hcv_get, with_mask. cbn [h_size h_width h_mask h_bits]. rewrite W. rewrite land31'. cbn [negb N.eqb].
  destruct (rd (h_bits c) _) as [w0| |]; cbn [bind]; try reflexivity.
  destruct (rd (h_bits c) (_ + 1)) as [w1| |] eqn:E; cbn [bind]; try reflexivity.
  replace (N.land w1 (h_mask c)) with (N.land w1 (N.ones 32)); [reflexivity|].
  apply rd_nthN in E. pose proof (Forall_nthN _ _ _ _ HW E) as L. cbn beta in L.
  apply tb_eq. intros j. rewrite !N.land_spec. destruct M as [-> | (_ & _ & ->)]; [reflexivity|].
  rewrite !tb_ones. destruct (N.lt_ge_cases j 32) as [J|J].
  - destruct (N.ltb_spec j 32); destruct (N.ltb_spec j 64); try lia; reflexivity.
  - rewrite (tb_lt w1 32) by assumption. reflexivity.
Qed.
(** 64-bit values with 32-bit keys: every slot starts at a word boundary *)
Lemma hcv_set_words2 c i k v : h_width c = 64 -> h_mask c = N.ones 64 ->
  hwords 32 (h_bits c) -> k < 2 ^ 32 -> v < 2 ^ 64 ->
  i * (32 + 64) + 32 + 64 <= 32 * lenN (h_bits c) -> i * (32 + 64) < 2 ^ 32 ->
  exists ws', hcv_set 32 c i k v = Ok (mkhcv (h_size c) 64 (h_mask c) ws') /\
    lenN ws' = lenN (h_bits c) /\ hwords 32 ws' /\
    forall j b, b < 32 -> gb ws' j b =
      (let x := 32 * j + b in let p := i * (32 + 64) in
       if (p <=? x) && (x <? p + 32) then N.testbit k (x - p)
       else if (p + 32 <=? x) && (x <? p + 32 + 64) then N.testbit v (x - p - 32)
       else gb (h_bits c) j b).
Proof.
  intros W HM HW Hk Hv HL Hp. unfold hcv_set. rewrite W, HM. set (ws := h_bits c) in *.
  rewrite mul64_small by lia. rewrite trunc_small by assumption.
  assert (SH : N.land (i * (32 + 64)) (32 - 1) = 0).
  { change (32 - 1) with (N.ones 5). rewrite N.land_ones. change (2 ^ 5) with 32. replace (i * (32 + 64)) with ((i * 3) * 32) by lia. apply N.mod_mul. lia. }
  assert (E : i * (32 + 64) / 32 = i * 3).
  { replace (i * (32 + 64)) with ((i * 3) * 32) by lia. apply N.div_mul. lia. }
  rewrite SH, E. cbn [negb N.eqb]. set (b := i * 3) in *.
  assert (L0 : b < lenN ws) by lia. assert (L1 : b + 1 < lenN ws) by lia. assert (L2 : b + 2 < lenN ws) by lia.
  change ((32 =? 32) && (32 <? 64)) with true. cbv beta iota. change (64 - 32) with 32.
  repeat (rewrite updh_ok by (rewrite ?lenN_setN; assumption); cbn [bind]).
  eexists. split; [reflexivity|]. split; [rewrite !lenN_setN; reflexivity|]. split; [repeat apply hwords_setN; assumption|].
  intros j x Hx. cbv zeta. replace (i * (32 + 64)) with (32 * b) by (unfold b; lia). clearbody b. unfold gb.
  repeat (rewrite wd_setN by (rewrite ?lenN_setN; assumption)). rewrite !N.eqb_refl.
  destruct (N.eqb_spec (b + 1) b); [lia|]. destruct (N.eqb_spec (b + 2) b); [lia|]. destruct (N.eqb_spec (b + 2) (b + 1)); [lia|].
  assert (X : (x <? 32) = true) by (apply N.ltb_lt; assumption). assert (X64 : (x <? 64) = true) by (apply N.ltb_lt; lia). assert (X32 : (x + 32 <? 64) = true) by (apply N.ltb_lt; lia).
  destruct (N.eqb_spec j (b + 2)) as [->|J2]; [|destruct (N.eqb_spec j (b + 1)) as [->|J1]; [|destruct (N.eqb_spec j b) as [->|J0]]].
  - repeat first [rewrite tb_trunc | rewrite N.lor_spec | rewrite N.land_spec | rewrite tb_not64 | rewrite tb_shr64 | rewrite tb_ones].
    rewrite X, X64, X32. cbn [andb negb]. rewrite andb_false_r. cbn [orb].
    destruct (N.ltb_spec (32 * (b + 2) + x) (32 * b + 32)); [lia|]. rewrite andb_false_r.
    destruct (N.leb_spec (32 * b + 32) (32 * (b + 2) + x)); [|lia]. destruct (N.ltb_spec (32 * (b + 2) + x) (32 * b + 32 + 64)); [|lia]. cbn [andb]. f_equal. lia.
  - repeat first [rewrite tb_trunc | rewrite N.lor_spec | rewrite N.land_spec | rewrite tb_not64 | rewrite tb_ones].
    rewrite X, X64. cbn [andb negb]. rewrite andb_false_r. cbn [orb].
    destruct (N.ltb_spec (32 * (b + 1) + x) (32 * b + 32)); [lia|]. rewrite andb_false_r.
    destruct (N.leb_spec (32 * b + 32) (32 * (b + 1) + x)); [|lia]. destruct (N.ltb_spec (32 * (b + 1) + x) (32 * b + 32 + 64)); [|lia]. cbn [andb]. f_equal. lia.
  - rewrite tb_trunc, X. cbn [andb].
    destruct (N.leb_spec (32 * b) (32 * b + x)); [|lia]. destruct (N.ltb_spec (32 * b + x) (32 * b + 32)); [|lia]. cbn [andb]. f_equal. lia.
  - destruct (N.leb_spec (32 * b) (32 * j + x)); destruct (N.ltb_spec (32 * j + x) (32 * b + 32)); try (exfalso; lia); cbn [andb];
    destruct (N.leb_spec (32 * b + 32) (32 * j + x)); destruct (N.ltb_spec (32 * j + x) (32 * b + 32 + 64)); try (exfalso; lia); reflexivity.
Qed.
Lemma hcv_set_words hb c i k v : hbok hb (h_width c) -> hmok hb (h_width c) (h_mask c) ->
  hwords hb (h_bits c) -> k < 2 ^ hb -> v < 2 ^ h_width c ->
  i * (hb + h_width c) + hb + h_width c <= hb * lenN (h_bits c) -> i * (hb + h_width c) < 2 ^ hb ->
  exists ws', hcv_set hb c i k v = Ok (mkhcv (h_size c) (h_width c) (h_mask c) ws') /\
    lenN ws' = lenN (h_bits c) /\ hwords hb ws' /\
    forall j b, b < hb -> gb ws' j b =
      (let x := hb * j + b in let p := i * (hb + h_width c) in
       if (p <=? x) && (x <? p + hb) then N.testbit k (x - p)
       else if (p + hb <=? x) && (x <? p + hb + h_width c) then N.testbit v (x - p - hb)
       else gb (h_bits c) j b).
Proof.
  intros HB0 HM0 HW Hk Hv HL Hp. destruct (hbok_cases _ _ HB0) as [HB|[-> HB]].
  2: { rewrite HB in *. apply hcv_set_words2; auto. destruct HM0 as [HM|(_ & HM & _)]; [assumption|discriminate]. }
  destruct HM0 as [HM | (-> & W & HM)]; [apply hcv_set_words1; assumption|].
  destruct (hcv_set_words1 32 (with_mask c (N.ones 32)) i k v) as (ws' & E & T); cbn [with_mask h_size h_width h_mask h_bits]; rewrite ?W in *; auto.
  exists ws'. rewrite hcv_set_mask by (rewrite ?HM; try assumption; right; auto). rewrite E. cbn [bind]. cbn [with_mask h_size h_width h_mask h_bits] in T. rewrite W in T. split; [|exact T].
  unfold with_mask. cbn [h_size h_width h_mask h_bits]. rewrite W. reflexivity.
Qed.

(** flat bits *)
Definition fb (hb : N) (ws : list N) (y : N) : bool := gb ws (y / hb) (y mod hb).
Lemma gb_fb hb ws j x : x < hb -> gb ws j x = fb hb ws (hb * j + x).
Proof.
  intros H. unfold fb. f_equal.
  - rewrite N.mul_comm, N.div_add_l by lia. rewrite N.div_small by assumption. lia.
  - rewrite N.add_comm, N.mul_comm, N.mod_add by lia. rewrite N.mod_small by assumption. reflexivity.
Qed.

(** the table holds [f i = (key, value)] in slot i *)
Definition hrep (hb : N) (c : hcv) (n w : N) (f : N -> N * N) : Prop :=
  hbok hb w /\ h_size c = n /\ h_width c = w /\ hmok hb w (h_mask c) /\ hwords hb (h_bits c) /\
  n * (hb + w) <= hb * lenN (h_bits c) /\ n * (hb + w) <= 2 ^ hb /\
  forall i, i < n -> fst (f i) < 2 ^ hb /\ snd (f i) < 2 ^ w /\
    (forall x, x < hb -> fb hb (h_bits c) (i * (hb + w) + x) = N.testbit (fst (f i)) x) /\
    (forall x, x < w -> fb hb (h_bits c) (i * (hb + w) + hb + x) = N.testbit (snd (f i)) x).

Lemma hrep_new hb n w : hbok hb w -> n * (hb + w) <= 2 ^ hb -> n * (hb + w) < 2 ^ 64 ->
  exists c, hcv_new hb n w = Ok c /\ hrep hb c n w (fun _ => (0, 0)).
Proof.
  intros HB HN HN'. unfold hcv_new. destruct (N.eqb_spec w 0); [destruct HB; lia|].
  destruct (N.ltb_spec 64 w); [destruct HB; lia|]. eexists. split; [reflexivity|].
  unfold hrep. cbn [h_size h_width h_mask h_bits fst snd]. rewrite mul64_small by assumption.
  assert (Z : forall y, fb hb (repN 0 ((n * (hb + w) + (hb - 1)) / hb)) y = false).
  { intros y. unfold fb, gb. replace (wd _ _) with 0; [apply N.bits_0|].
    unfold wd, repN. symmetry. apply nth_repeat. }
  split; [exact HB|]. split; [reflexivity|]. split; [reflexivity|]. split; [apply h_mask_ones; exact HB|].
  split; [apply Forall_rep, pow2_pos|]. split.
  { rewrite lenN_rep. destruct HB as [[-> _] | [-> _]]; dlia. }
  split; [exact HN|]. intros i Hi. split; [apply pow2_pos|]. split; [apply pow2_pos|].
  split; intros x Hx; rewrite Z, N.bits_0; reflexivity.
Qed.

Lemma slot_sep i i' n a : i < n -> i' < n -> i <> i' -> i * a + a <= i' * a \/ i' * a + a <= i * a.
Proof. intros. destruct (N.lt_ge_cases i i'); [left|right]; nia. Qed.

Lemma hcv_set_ok hb c n w f i k v : hrep hb c n w f -> i < n -> k < 2 ^ hb -> v < 2 ^ w ->
  exists c', hcv_set hb c i k v = Ok c' /\ hrep hb c' n w (fun j => if j =? i then (k, v) else f j).
Proof.
  intros (HB & H1 & H2 & H3 & H4 & H5 & H6 & H7) Hi Hk Hv.
  assert (HP : i * (hb + w) + hb + w <= n * (hb + w)) by nia.
  assert (H0 : 1 <= hb + w) by (destruct HB; lia).
  destruct (hcv_set_words hb c i k v) as (ws' & E & LL & WW & T); rewrite ?H2; auto; [lia|lia|].
  rewrite E. eexists. split; [reflexivity|]. rewrite H2 in *. unfold hrep. cbn [h_size h_width h_mask h_bits].
  rewrite LL. split; [exact HB|]. repeat (split; [assumption || reflexivity|]).
  assert (HB0 : hb <> 0) by (destruct HB; lia).
  assert (T' : forall y, fb hb ws' y = if (i * (hb + w) <=? y) && (y <? i * (hb + w) + hb) then N.testbit k (y - i * (hb + w))
       else if (i * (hb + w) + hb <=? y) && (y <? i * (hb + w) + hb + w) then N.testbit v (y - i * (hb + w) - hb)
       else fb hb (h_bits c) y).
  { intros y. unfold fb at 1. rewrite T by (apply N.mod_upper_bound; assumption). cbv zeta.
    rewrite <- (N.div_mod y hb) by assumption. reflexivity. }
  intros j Hj. destruct (H7 j Hj) as (J1 & J2 & J3 & J4). destruct (N.eqb_spec j i) as [->|NE]; cbn [fst snd].
  - split; [assumption|]. split; [assumption|]. split; intros x Hx; rewrite T'.
    + destruct (N.leb_spec (i * (hb + w)) (i * (hb + w) + x)); [|lia].
      destruct (N.ltb_spec (i * (hb + w) + x) (i * (hb + w) + hb)); [|lia]. cbn [andb]. f_equal. lia.
    + destruct (N.ltb_spec (i * (hb + w) + hb + x) (i * (hb + w) + hb)); [lia|]. rewrite andb_false_r.
      destruct (N.leb_spec (i * (hb + w) + hb) (i * (hb + w) + hb + x)); [|lia].
      destruct (N.ltb_spec (i * (hb + w) + hb + x) (i * (hb + w) + hb + w)); [|lia]. cbn [andb]. f_equal. lia.
  - split; [assumption|]. split; [assumption|].
    pose proof (slot_sep i j n (hb + w) Hi Hj (not_eq_sym NE)) as SEP.
    assert (K : forall y, j * (hb + w) <= y < j * (hb + w) + (hb + w) -> fb hb ws' y = fb hb (h_bits c) y).
    { intros y Hy. rewrite T'. revert SEP Hy. generalize (i * (hb + w)) (j * (hb + w)). intros a a' SEP Hy.
      destruct (N.leb_spec a y); destruct (N.ltb_spec y (a + hb)); try (exfalso; lia); cbn [andb];
      destruct (N.leb_spec (a + hb) y); destruct (N.ltb_spec y (a + hb + w)); try (exfalso; lia); reflexivity. }
    split; intros x Hx; rewrite K by lia; auto.
Qed.

Lemma hcv_get_ok1 hb c n w f i : hbok1 hb w -> hrep hb c n w f -> h_mask c = N.ones w -> i < n -> hcv_get hb c i = Ok (f i).
Proof.
  intros HB (_ & H1 & H2 & _ & H4 & H5 & H6 & H7) H3 Hi. destruct (H7 i Hi) as (J1 & J2 & J3 & J4).
  assert (HP : i * (hb + w) + hb + w <= n * (hb + w)) by nia.
  unfold hcv_get. rewrite H2, H3. set (ws := h_bits c) in *.
  assert (HH : hb <= 64 /\ 1 <= w <= hb /\ (hb = 32 -> w <= 32) /\ 32 <= hb) by (destruct HB as [[-> ?] | [-> ?]]; lia).
  set (p := i * (hb + w)) in *.
  assert (Hp : p < 2 ^ hb) by lia.
  rewrite mul64_small; [|fold p; destruct HB as [[-> _] | [-> _]]; [assumption|lia]]. fold p. rewrite trunc_small by assumption.
  assert (SH : N.land p (hb - 1) = p mod hb).
  { destruct HB as [[-> _] | [-> _]]; [apply land63|]. change (32 - 1) with (N.ones 5). apply N.land_ones. }
  rewrite SH. clear SH.
  assert (E : p = hb * (p / hb) + p mod hb) by (apply N.div_mod; destruct HB; lia).
  assert (Hs : p mod hb < hb) by (apply N.mod_upper_bound; destruct HB; lia).
  set (b := p / hb) in *. set (s := p mod hb) in *. clearbody b s p.
  assert (L0 : b < lenN ws) by (destruct HB as [[-> ?] | [-> ?]]; lia).
  assert (L1 : b + 1 < lenN ws) by (destruct HB as [[-> ?] | [-> ?]]; lia).
  assert (G : forall j x, x < hb -> N.testbit (wd ws j) x = fb hb ws (hb * j + x)).
  { intros j x Hx. fold (gb ws j x). apply gb_fb. assumption. }
  assert (GZ : forall j x, hb <= x -> N.testbit (wd ws j) x = false).
  { intros j x Hx. apply (tb_lt _ hb); [apply hwd_lt; assumption|assumption]. }
  destruct (f i) as [k v]. cbn [fst snd] in *.
  rewrite (rd_wd ws b L0), (rd_wd ws (b + 1) L1). cbn [bind].
  assert (KV : forall a a' : N, a = k -> a' = v -> Ok (a, a') = Ok (k, v)) by (intros; subst; reflexivity).
  destruct (N.eqb_spec s 0) as [S0|S0]; cbn [negb].
  - replace ((hb =? 32) && (32 <? w)) with false.
    2: { symmetry. destruct (N.eqb_spec hb 32); cbn [andb]; [|reflexivity]. apply N.ltb_ge. lia. }
    apply KV; apply tb_eq; intros x.
    + destruct (N.lt_ge_cases x hb) as [X|X].
      * rewrite G, <- J3 by assumption. f_equal. lia.
      * rewrite GZ, (tb_lt k hb) by assumption. reflexivity.
    + rewrite N.land_spec, tb_ones. destruct (N.ltb_spec x w) as [X|X].
      * rewrite G, <- J4 by lia. rewrite andb_true_r. f_equal. lia.
      * rewrite andb_false_r, (tb_lt v w) by assumption. reflexivity.
  - assert (K : trunc hb (N.lor (shr (wd ws b) s) (trunc hb (N.shiftl (wd ws (b + 1)) (hb - s)))) = k).
    { apply tb_eq. intros x. rewrite tb_trunc, N.lor_spec, tb_shr64, tb_trunc, tb_shl.
      destruct (N.ltb_spec x hb) as [X|X]; cbn [andb]; [|rewrite (tb_lt k hb) by assumption; reflexivity].
      destruct (N.leb_spec (hb - s) x) as [Y|Y]; cbn [andb].
      - rewrite GZ by lia. rewrite G by lia. rewrite <- J3 by assumption. cbn [orb]. f_equal. lia.
      - rewrite orb_false_r, G by lia. rewrite <- J3 by assumption. f_equal. lia. }
    rewrite K. destruct (N.ltb_spec (hb - s) w) as [R|R].
    + assert (L2 : b + 2 < lenN ws) by (destruct HB as [[-> ?] | [-> ?]]; lia).
      rewrite (rd_wd ws (b + 2) L2). cbn [bind].
      replace ((hb =? 32) && (hb - s + 32 <? w)) with false.
      2: { symmetry. destruct (N.eqb_spec hb 32); cbn [andb]; [|reflexivity]. apply N.ltb_ge. lia. }
      apply KV; [reflexivity|]. apply tb_eq. intros x.
      assert (MO : sub64 (shl 1 (w - (hb - s))) 1 = N.ones (w - (hb - s))).
      { unfold shl. change (w64 (N.shiftl 1 (w - (hb - s)))) with (trunc 64 (N.shiftl 1 (w - (hb - s)))). apply key_mask_ones; lia. }
      rewrite MO, N.lor_spec, N.land_spec, tb_shr64, tb_ones, tb_shl64, N.land_spec, tb_ones.
      destruct (N.ltb_spec x w) as [X|X].
      * destruct (N.ltb_spec x 64); [|lia]. cbn [andb]. rewrite andb_true_r. destruct (N.leb_spec (hb - s) x) as [Y|Y]; cbn [andb].
        -- rewrite GZ by lia. destruct (N.ltb_spec (x - (hb - s)) (w - (hb - s))); [|lia]. rewrite andb_true_r. cbn [orb].
           rewrite G by lia. rewrite <- J4 by assumption. f_equal. lia.
        -- rewrite orb_false_r, G by lia. rewrite <- J4 by assumption. f_equal. lia.
      * rewrite andb_false_r. cbn [orb]. destruct (N.ltb_spec (x - (hb - s)) (w - (hb - s))); [lia|].
        rewrite andb_false_r, andb_false_r. rewrite (tb_lt v w) by assumption. apply andb_false_r.
    + apply KV; [reflexivity|]. apply tb_eq. intros x. rewrite N.land_spec, tb_shr64, tb_ones.
      destruct (N.ltb_spec x w) as [X|X].
      * rewrite andb_true_r, G by lia. rewrite <- J4 by assumption. f_equal. lia.
      * rewrite andb_false_r, (tb_lt v w) by assumption. reflexivity.
Qed.

Lemma hcv_get_ok2 c n f i : hrep 32 c n 64 f -> i < n -> hcv_get 32 c i = Ok (f i).
Proof.
  intros (_ & H1 & H2 & H3 & H4 & H5 & H6 & H7) Hi. destruct (H7 i Hi) as (J1 & J2 & J3 & J4).
  destruct H3 as [H3|(_ & H3 & _)]; [|discriminate].
  unfold hcv_get. rewrite H2, H3. set (ws := h_bits c) in *.
  rewrite mul64_small by nia. rewrite trunc_small by nia.
  assert (SH : N.land (i * (32 + 64)) (32 - 1) = 0).
  { change (32 - 1) with (N.ones 5). rewrite N.land_ones. change (2 ^ 5) with 32. replace (i * (32 + 64)) with ((i * 3) * 32) by lia. apply N.mod_mul. lia. }
  assert (E : i * (32 + 64) / 32 = i * 3).
  { replace (i * (32 + 64)) with ((i * 3) * 32) by lia. apply N.div_mul. lia. }
  rewrite SH, E. cbn [negb N.eqb]. set (b := i * 3) in *.
  assert (L0 : b < lenN ws) by lia. assert (L1 : b + 1 < lenN ws) by lia. assert (L2 : b + 2 < lenN ws) by lia.
  change ((32 =? 32) && (32 <? 64)) with true. cbv beta iota. change (64 - 32) with 32.
  rewrite (rd_wd ws b L0), (rd_wd ws (b + 1) L1), (rd_wd ws (b + 2) L2). cbn [bind].
  assert (MO : sub64 (shl 1 32) 1 = N.ones 32) by reflexivity. rewrite MO.
  assert (G : forall j x, x < 32 -> N.testbit (wd ws j) x = fb 32 ws (32 * j + x)).
  { intros j x Hx. fold (gb ws j x). apply gb_fb. assumption. }
  assert (GZ : forall j x, 32 <= x -> N.testbit (wd ws j) x = false).
  { intros j x Hx. apply (tb_lt _ 32); [apply hwd_lt; assumption|assumption]. }
  destruct (f i) as [k v]. cbn [fst snd] in *.
  assert (KV : forall a a' : N, a = k -> a' = v -> Ok (a, a') = Ok (k, v)) by (intros; subst; reflexivity).
  apply KV; apply tb_eq; intros x.
  - destruct (N.lt_ge_cases x 32) as [X|X].
    + rewrite G, <- J3 by assumption. f_equal. lia.
    + rewrite GZ, (tb_lt k 32) by assumption. reflexivity.
  - rewrite N.lor_spec, N.land_spec, tb_ones, tb_shl64, N.land_spec, tb_ones.
    destruct (N.lt_ge_cases x 32) as [X|X]; [|destruct (N.lt_ge_cases x 64) as [Y|Y]].
    + destruct (N.ltb_spec x 64); [|lia]. destruct (N.leb_spec 32 x); [lia|]. cbn [andb]. rewrite andb_true_r, orb_false_r.
      rewrite G, <- J4 by lia. f_equal. lia.
    + rewrite GZ by assumption. destruct (N.ltb_spec x 64); [|lia]. destruct (N.leb_spec 32 x); [|lia]. cbn [andb orb].
      destruct (N.ltb_spec (x - 32) 32); [|lia]. rewrite andb_true_r. rewrite G, <- J4 by lia. f_equal. lia.
    + rewrite (tb_lt v 64) by assumption. destruct (N.ltb_spec x 64); [lia|]. cbn [andb]. rewrite andb_false_r. reflexivity.
Qed.
Lemma hcv_get_ok hb c n w f i : hrep hb c n w f -> i < n -> hcv_get hb c i = Ok (f i).
Proof.
  intros R Hi. pose proof R as (HB0 & H1 & H2 & HM & H4 & H5 & H6 & H7).
  destruct (hbok_cases _ _ HB0) as [HB|[-> ->]]; [|apply (hcv_get_ok2 _ _ _ _ R Hi)].
  destruct HM as [HM | (-> & -> & HM)]; [apply (hcv_get_ok1 hb c n w f); assumption|].
  rewrite hcv_get_mask by (try assumption; right; auto).
  apply (hcv_get_ok1 32 _ n 32 f); [assumption| |reflexivity|assumption]. unfold hrep. cbn [with_mask h_size h_width h_mask h_bits].
  repeat (split; [first [assumption | reflexivity | left; reflexivity]|]). assumption.
Qed.

(** ** bits_iterator: reading consecutive fields *)
Definition bit_inv (V : N) (it : bit) (p : N) : Prop :=
  bi_pos it = p /\ bi_avail it <= 64 /\ bi_buf it < 2 ^ 64 /\
  forall j, j < bi_avail it -> N.testbit (bi_buf it) j = N.testbit V (p + j).

Lemma bit_inv_new V p : bit_inv V (bit_new p) p.
Proof. split; [reflexivity|]. split; [cbn; lia|]. split; [cbn; lia|]. intros j H. cbn in H. lia. Qed.

Lemma bit_get_ok v V n it p len : vrep v V n -> bit_inv V it p -> len <= 64 -> p + len <= n ->
  exists it', bit_get_bits v it len = Ok (field V p len, it') /\ bit_inv V it' (p + len).
Proof.
  intros R (I1 & I2 & I4 & I3) Hl Hp. unfold bit_get_bits.
  assert (A : exists it1, (if bi_avail it <? len then bit_fill v it else Ok it) = Ok it1 /\
     bi_pos it1 = p /\ len <= bi_avail it1 <= 64 /\ bi_buf it1 < 2 ^ 64 /\
     (forall j, j < bi_avail it1 -> N.testbit (bi_buf it1) j = N.testbit V (p + j))).
  { destruct (N.ltb_spec (bi_avail it) len).
    - unfold bit_fill. rewrite I1, (bv_get_word64_ok v V n) by (assumption || lia). cbn [bind]. eexists. split; [reflexivity|].
      cbn [bi_pos bi_avail bi_buf]. split; [reflexivity|]. split; [lia|]. split; [apply field_lt|]. intros j Hj. rewrite tb_field.
      destruct (N.ltb_spec j 64); [|lia]. cbn [andb]. f_equal. lia.
    - exists it. split; [reflexivity|]. split; [assumption|]. split; [lia|]. split; assumption. }
  destruct A as (it1 & E & A1 & A2 & A4 & A3). rewrite E. cbn [bind]. rewrite A1.
  destruct (N.eqb_spec len 64) as [->|].
  - replace (bi_buf it1) with (field V p 64).
    2: { apply tb_eq. intros j. rewrite tb_field. destruct (N.ltb_spec j 64); cbn [andb].
      * rewrite A3 by lia. f_equal. lia.
      * symmetry. apply (tb_lt _ 64); assumption. }
    eexists. split; [reflexivity|]. unfold bit_inv. cbn [bi_pos bi_avail bi_buf].
    replace (bi_avail it1) with 64 by lia. split; [reflexivity|]. split; [vm_compute; discriminate|].
    split; [apply field_lt|]. intros j Hj. vm_compute in Hj. destruct j; discriminate.
  - assert (len < 64) by lia. rewrite shlU_ok by assumption. cbn [bind]. rewrite shl1 by assumption.
    assert (MO : sub64 (2 ^ len) 1 = N.ones len).
    { rewrite sub64_small; [rewrite N.ones_equiv, N.pred_sub; reflexivity|pose proof (pow2_pos len); lia|apply N.pow_lt_mono_r; lia]. }
    rewrite MO. replace (N.land (bi_buf it1) (N.ones len)) with (field V p len).
    2: { apply tb_eq. intros j. rewrite tb_field, N.land_spec, tb_ones. destruct (N.ltb_spec j len); cbn [andb].
      * rewrite A3 by lia. rewrite andb_true_r. f_equal. lia.
      * rewrite andb_false_r. reflexivity. }
    eexists. split; [reflexivity|]. unfold bit_inv. cbn [bi_pos bi_avail bi_buf]. rewrite sub64_small by lia.
    split; [reflexivity|]. split; [lia|]. split; [apply shr_lt; assumption|]. intros j Hj. rewrite tb_shr64, A3 by lia. f_equal. lia.
Qed.

(** ** triplets *)
Definition trep (w1 w2 w3 V n : N) (f : N -> N * N * N) : Prop :=
  forall i, i < n -> let '(x, y, z) := f i in
    let p := i * (w1 + w2 + w3) in
    field V p w1 = x /\ field V (p + w1) w2 = y /\ field V (p + w1 + w2) w3 = z.
Definition ctb_rep (b : ctb) (n w1 w2 w3 : N) (f : N -> N * N * N) : Prop :=
  (1 <= w1 <= 64 /\ 1 <= w2 <= 64 /\ 1 <= w3 <= 64) /\ n * (w1 + w2 + w3) + 64 < 2 ^ 64 /\
  tb_size b = n /\ tb_w1 b = w1 /\ tb_w2 b = w2 /\ tb_w3 b = w3 /\
  exists V, brep (tb_bits b) V (n * (w1 + w2 + w3)) /\ trep w1 w2 w3 V n f.

Lemma field0 p l : field 0 p l = 0.
Proof. unfold field. rewrite N.div_0_l by (apply N.pow_nonzero; lia). apply N.mod_0_l, N.pow_nonzero. lia. Qed.

Lemma ctb_new_ok n w1 w2 w3 : 1 <= w1 <= 64 -> 1 <= w2 <= 64 -> 1 <= w3 <= 64 -> n * (w1 + w2 + w3) + 64 < 2 ^ 64 ->
  exists b, ctb_new n w1 w2 w3 = Ok b /\ ctb_rep b n w1 w2 w3 (fun _ => (0, 0, 0)).
Proof.
  intros H1 H2 H3 HN. unfold ctb_new, ct_width.
  destruct (N.eqb_spec w1 0); [lia|]. destruct (N.eqb_spec w2 0); [lia|]. destruct (N.eqb_spec w3 0); [lia|].
  destruct (N.ltb_spec 64 w1); [lia|]. destruct (N.ltb_spec 64 w2); [lia|]. destruct (N.ltb_spec 64 w3); [lia|]. cbn [orb].
  rewrite (add64_small w1 w2), (add64_small (w1 + w2) w3), mul64_small by lia.
  eexists. split; [reflexivity|]. unfold ctb_rep. cbn [tb_size tb_w1 tb_w2 tb_w3 tb_bits].
  split; [lia|]. split; [lia|]. repeat (split; [reflexivity|]). exists 0. split; [apply bvb_new0_rep|].
  intros i Hi. cbv zeta. rewrite !field0. auto.
Qed.

Lemma field_splice_in V p v l : v < 2 ^ l -> field (splice V p v l) p l = v.
Proof.
  intros Hv. apply tb_eq. intros j. rewrite tb_field, tb_splice by assumption.
  destruct (N.ltb_spec j l); cbn [andb].
  - destruct (N.leb_spec p (j + p)); [|lia]. destruct (N.ltb_spec (j + p) (p + l)); [|lia]. cbn [andb]. f_equal. lia.
  - symmetry. apply (tb_lt v l); assumption.
Qed.
Lemma field_splice_out V p v l p' l' : v < 2 ^ l -> p' + l' <= p \/ p + l <= p' -> field (splice V p v l) p' l' = field V p' l'.
Proof.
  intros Hv D. apply tb_eq. intros j. rewrite !tb_field, tb_splice by assumption.
  destruct (N.ltb_spec j l'); cbn [andb]; [|reflexivity].
  destruct (N.leb_spec p (j + p')); destruct (N.ltb_spec (j + p') (p + l)); try (exfalso; lia); reflexivity.
Qed.

Lemma ctb_set_ok b n w1 w2 w3 f i x y z : ctb_rep b n w1 w2 w3 f -> i < n -> x < 2 ^ w1 -> y < 2 ^ w2 -> z < 2 ^ w3 ->
  exists b', ctb_set b i (x, y, z) = Ok b' /\ ctb_rep b' n w1 w2 w3 (fun j => if j =? i then (x, y, z) else f j).
Proof.
  intros (W & HN & E0 & E1 & E2 & E3 & V & R & T) Hi Hx Hy Hz. unfold ctb_set. rewrite E0, E1, E2, E3.
  rewrite (add64_small w1 w2), (add64_small (w1 + w2) w3) by lia.
  assert (HP : i * (w1 + w2 + w3) + (w1 + w2 + w3) <= n * (w1 + w2 + w3)) by nia.
  rewrite mul64_small by lia. set (p := i * (w1 + w2 + w3)) in *.
  rewrite (add64_small p w1), (add64_small (p + w1) w2) by lia.
  destruct (bvb_set_bits_rep _ _ _ p x w1 R) as (b1 & B1 & R1); [lia|assumption|lia|]. rewrite B1. cbn [bind].
  destruct (bvb_set_bits_rep _ _ _ (p + w1) y w2 R1) as (b2 & B2 & R2); [lia|assumption|lia|]. rewrite B2. cbn [bind].
  destruct (bvb_set_bits_rep _ _ _ (p + w1 + w2) z w3 R2) as (b3 & B3 & R3); [lia|assumption|lia|]. rewrite B3. cbn [bind].
  eexists. split; [reflexivity|]. unfold ctb_rep. cbn [tb_size tb_w1 tb_w2 tb_w3 tb_bits].
  split; [assumption|]. split; [assumption|]. repeat (split; [reflexivity|]). eexists. split; [exact R3|].
  intros j Hj. specialize (T j Hj). destruct (N.eqb_spec j i) as [->|NE].
  - cbv zeta. fold p. split; [|split].
    + rewrite !field_splice_out by (assumption || lia). apply field_splice_in. assumption.
    + rewrite field_splice_out by (assumption || lia). apply field_splice_in. assumption.
    + apply field_splice_in. assumption.
  - pose proof (slot_sep i j n (w1 + w2 + w3) Hi Hj (not_eq_sym NE)) as SEP. fold p in SEP.
    destruct (f j) as [[a c] d]. cbv zeta in *. destruct T as (T1 & T2 & T3).
    revert SEP T1 T2 T3. generalize (j * (w1 + w2 + w3)). intros q SEP T1 T2 T3.
    rewrite !field_splice_out by (assumption || lia). auto.
Qed.

Lemma ct_get_ok b n w1 w2 w3 f i : ctb_rep b n w1 w2 w3 f -> i < n -> ct_get (ctb_build b) i = Ok (f i).
Proof.
  intros (W & HN & E0 & E1 & E2 & E3 & V & R & T) Hi. specialize (T i Hi). destruct (f i) as [[x y] z]. cbv zeta in T. destruct T as (T1 & T2 & T3).
  unfold ct_get, ctb_build. cbn [t_w1 t_w2 t_w3 t_bits t_size]. rewrite E1, E2, E3. pose proof (brep_build _ _ _ R) as VR.
  rewrite (add64_small w1 w2), (add64_small (w1 + w2) w3) by lia.
  assert (HP : i * (w1 + w2 + w3) + (w1 + w2 + w3) <= n * (w1 + w2 + w3)) by nia.
  rewrite mul64_small by lia. set (p := i * (w1 + w2 + w3)) in *.
  destruct (bit_get_ok _ _ _ _ p w1 VR (bit_inv_new V p)) as (i1 & G1 & I1); [lia|lia|]. rewrite G1. cbn [bind].
  destruct (bit_get_ok _ _ _ _ _ w2 VR I1) as (i2 & G2 & I2); [lia|lia|]. rewrite G2. cbn [bind].
  destruct (bit_get_ok _ _ _ _ _ w3 VR I2) as (i3 & G3 & I3); [lia|lia|]. rewrite G3. cbn [bind]. congruence.
Qed.
