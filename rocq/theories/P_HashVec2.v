(** * hash_compact_vector with 32-bit keys and values of 33 to 63 bits, set in increasing order

    [set] of such a slot may clear bits of the slots after it (C05_width33_refuted), but not of the slots before it. *)
From Verif Require Import Prelude BitFacts M_Word P_Word M_Bits P_Bits M_HashVec P_HashVec.

Definition fresh_from (ws : list N) (p : N) : Prop := forall j b, b < 32 -> p <= 32 * j + b -> gb ws j b = false.
Lemma fresh_word ws p j : hwords 32 ws -> fresh_from ws p -> p <= 32 * j -> wd ws j = 0.
Proof.
  intros HW F L. apply N.bits_inj_0. intros x. destruct (N.lt_ge_cases x 32) as [X|X]; [apply (F j x X); lia|].
  apply (tb_lt _ 32); [apply hwd_lt; exact HW|exact X].
Qed.

Lemma hcv_set_fresh c i k v : 33 <= h_width c <= 63 -> h_mask c = N.ones (h_width c) ->
  hwords 32 (h_bits c) -> k < 2 ^ 32 -> v < 2 ^ h_width c ->
  i * (32 + h_width c) + 32 + h_width c <= 32 * lenN (h_bits c) -> i * (32 + h_width c) < 2 ^ 32 ->
  fresh_from (h_bits c) (i * (32 + h_width c)) ->
  exists ws', hcv_set 32 c i k v = Ok (mkhcv (h_size c) (h_width c) (h_mask c) ws') /\
    lenN ws' = lenN (h_bits c) /\ hwords 32 ws' /\
    forall j b, b < 32 -> gb ws' j b =
      (let x := 32 * j + b in let p := i * (32 + h_width c) in
       if (p <=? x) && (x <? p + 32) then N.testbit k (x - p)
       else if (p + 32 <=? x) && (x <? p + 32 + h_width c) then N.testbit v (x - p - 32)
       else gb (h_bits c) j b).
Proof.
  intros HB HM HW Hk Hv HL Hp HF. set (w := h_width c) in *. set (ws := h_bits c) in *. set (p := i * (32 + w)) in *.
  unfold hcv_set. fold w. fold ws. rewrite HM.
  rewrite mul64_small by (fold p; lia). fold p. rewrite trunc_small by assumption.
  assert (SH : N.land p (32 - 1) = p mod 32) by (change (32 - 1) with (N.ones 5); apply N.land_ones).
  rewrite SH. clear SH.
  assert (E : p = 32 * (p / 32) + p mod 32) by (apply N.div_mod; lia).
  assert (Hs : p mod 32 < 32) by (apply N.mod_upper_bound; lia).
  set (b := p / 32) in *. set (s := p mod 32) in *. clearbody b s p.
  assert (L0 : b < lenN ws) by lia. assert (L1 : b + 1 < lenN ws) by lia. assert (L2 : b + 2 < lenN ws) by lia.
  assert (Z1 : wd ws (b + 1) = 0) by (apply (fresh_word ws p); [assumption|assumption|lia]).
  assert (Z2 : wd ws (b + 2) = 0) by (apply (fresh_word ws p); [assumption|assumption|lia]).
  assert (Z3 : wd ws (b + 3) = 0) by (apply (fresh_word ws p); [assumption|assumption|lia]).
  change (32 =? 32) with true. cbn [andb].
  assert (Far : forall j x, x < 32 -> j <> b -> j <> b + 1 -> j <> b + 2 -> (j <> b + 3 \/ 32 * (b + 3) + x >= p + 32 + w) ->
    gb ws j x = (if (p <=? 32 * j + x) && (32 * j + x <? p + 32) then N.testbit k (32 * j + x - p)
       else if (p + 32 <=? 32 * j + x) && (32 * j + x <? p + 32 + w) then N.testbit v (32 * j + x - p - 32) else gb ws j x)).
  { intros j x Hx J0 J1 J2 J3. assert (32 * j + x < p \/ p + 32 + w <= 32 * j + x) by (destruct (N.eq_dec j (b + 3)); lia).
    destruct (N.leb_spec p (32 * j + x)); destruct (N.ltb_spec (32 * j + x) (p + 32)); try (exfalso; lia); cbn [andb];
    destruct (N.leb_spec (p + 32) (32 * j + x)); destruct (N.ltb_spec (32 * j + x) (p + 32 + w)); try (exfalso; lia); reflexivity. }
  destruct (N.eqb_spec s 0) as [S0|S0]; cbn [negb].
  - destruct (N.ltb_spec 32 w) as [_|X]; [|lia].
    repeat (rewrite updh_ok by (rewrite ?lenN_setN; assumption); cbn [bind]).
    eexists. split; [reflexivity|]. split; [rewrite !lenN_setN; reflexivity|]. split; [repeat apply hwords_setN; assumption|].
    intros j x Hx. cbv zeta. unfold gb at 1. repeat (rewrite wd_setN by (rewrite ?lenN_setN; assumption)). rewrite !N.eqb_refl.
    destruct (N.eqb_spec (b + 1) b); [lia|]. destruct (N.eqb_spec (b + 2) b); [lia|]. destruct (N.eqb_spec (b + 2) (b + 1)); [lia|].
    rewrite Z1, Z2, !N.land_0_l. change (trunc 32 0) with 0. rewrite !N.lor_0_l.
    destruct (N.eqb_spec j (b + 2)) as [->|J2]; [|destruct (N.eqb_spec j (b + 1)) as [->|J1]; [|destruct (N.eqb_spec j b) as [->|J0]]].
    + rewrite tb_trunc, tb_shr64. destruct (N.ltb_spec x 32); [|lia]. cbn [andb].
      destruct (N.ltb_spec (32 * (b + 2) + x) (p + 32)); [lia|]. rewrite andb_false_r. destruct (N.leb_spec (p + 32) (32 * (b + 2) + x)); [|lia]. cbn [andb].
      destruct (N.ltb_spec (32 * (b + 2) + x) (p + 32 + w)); [f_equal; lia|]. unfold gb. rewrite Z2, N.bits_0. apply (tb_lt v w); [assumption|lia].
    + rewrite tb_trunc. destruct (N.ltb_spec x 32); [|lia]. cbn [andb].
      destruct (N.ltb_spec (32 * (b + 1) + x) (p + 32)); [lia|]. rewrite andb_false_r. destruct (N.leb_spec (p + 32) (32 * (b + 1) + x)); [|lia]. cbn [andb].
      destruct (N.ltb_spec (32 * (b + 1) + x) (p + 32 + w)); [f_equal; lia|lia].
    + rewrite tb_trunc. destruct (N.ltb_spec x 32); [|lia]. cbn [andb].
      destruct (N.leb_spec p (32 * b + x)); [|lia]. destruct (N.ltb_spec (32 * b + x) (p + 32)); [|lia]. cbn [andb]. f_equal. lia.
    + apply Far; auto. lia.
  - rewrite key_mask_ones by lia. destruct (N.ltb_spec (32 - s) w) as [_|X]; [|lia].
    do 8 (rewrite updh_ok by (rewrite ?lenN_setN; assumption); cbn [bind]).
    set (ws1 := setN _ (b + 2) _).
    assert (LW : lenN ws1 = lenN ws) by (unfold ws1; rewrite !lenN_setN; reflexivity).
    assert (HW1 : hwords 32 ws1) by (unfold ws1; repeat apply hwords_setN; assumption).
    assert (T1 : forall j x, x < 32 -> gb ws1 j x =
      if j =? b + 2 then N.testbit v (x + (32 - s))
      else if j =? b + 1 then (if x <? s then N.testbit k (x + (32 - s)) else N.testbit v (x - s))
      else if j =? b then (if x <? s then gb ws j x else N.testbit k (x - s)) else gb ws j x).
    { intros j x Hx. unfold gb at 1, ws1. repeat (rewrite wd_setN by (rewrite ?lenN_setN; assumption)). rewrite !N.eqb_refl.
      destruct (N.eqb_spec (b + 1) b); [lia|]. destruct (N.eqb_spec (b + 2) b); [lia|]. destruct (N.eqb_spec (b + 2) (b + 1)); [lia|].
      rewrite Z1, Z2, !N.land_0_l. change (trunc 32 0) with 0. rewrite !N.lor_0_l.
      destruct (N.eqb_spec j (b + 2)) as [->|J2]; [|destruct (N.eqb_spec j (b + 1)) as [->|J1]; [|destruct (N.eqb_spec j b) as [->|J0]; [|reflexivity]]].
      - rewrite tb_trunc, tb_shr64. destruct (N.ltb_spec x 32); [|lia]. reflexivity.
      - repeat first [rewrite tb_trunc | rewrite N.lor_spec | rewrite N.land_spec | rewrite tb_not64 | rewrite tb_shl64 | rewrite tb_ones | rewrite tb_shr64].
        destruct (N.ltb_spec x 32); [|lia]. destruct (N.ltb_spec x 64); [|lia]. cbn [andb negb].
        destruct (N.ltb_spec x s); destruct (N.leb_spec s x); try (exfalso; lia); cbn [andb negb].
        + rewrite ?andb_false_r, ?andb_true_r, ?orb_false_r. reflexivity.
        + rewrite (tb_lt k 32) by (assumption || lia). cbn [andb orb]. reflexivity.
      - repeat first [rewrite tb_trunc | rewrite N.lor_spec | rewrite N.land_spec | rewrite tb_shl | rewrite tb_ones].
        destruct (N.ltb_spec x 32); [|lia]. cbn [andb].
        destruct (N.ltb_spec x s); destruct (N.leb_spec s x); try (exfalso; lia); cbn [andb].
        + rewrite ?andb_true_r, ?orb_false_r. reflexivity.
        + rewrite andb_false_r. reflexivity. }
    assert (Z13 : wd ws1 (b + 3) = 0).
    { apply N.bits_inj_0. intros x. destruct (N.lt_ge_cases x 32) as [X|X]; [|apply (tb_lt _ 32); [apply hwd_lt; exact HW1|exact X]].
      fold (gb ws1 (b + 3) x). rewrite T1 by assumption. destruct (N.eqb_spec (b + 3) (b + 2)); [lia|]. destruct (N.eqb_spec (b + 3) (b + 1)); [lia|]. destruct (N.eqb_spec (b + 3) b); [lia|].
      unfold gb. rewrite Z3. apply N.bits_0. }
    assert (T2 : forall j x, x < 32 -> (j <> b + 3 \/ 32 * (b + 3) + x >= p + 32 + w) -> gb ws1 j x =
      (if (p <=? 32 * j + x) && (32 * j + x <? p + 32) then N.testbit k (32 * j + x - p)
       else if (p + 32 <=? 32 * j + x) && (32 * j + x <? p + 32 + w) then N.testbit v (32 * j + x - p - 32) else gb ws j x)).
    { intros j x Hx J3. rewrite T1 by assumption.
      destruct (N.eqb_spec j (b + 2)) as [->|J2]; [|destruct (N.eqb_spec j (b + 1)) as [->|J1]; [|destruct (N.eqb_spec j b) as [->|J0]]].
      - destruct (N.ltb_spec (32 * (b + 2) + x) (p + 32)); [lia|]. rewrite andb_false_r. destruct (N.leb_spec (p + 32) (32 * (b + 2) + x)); [|lia]. cbn [andb].
        destruct (N.ltb_spec (32 * (b + 2) + x) (p + 32 + w)); [f_equal; lia|]. unfold gb. rewrite Z2, N.bits_0. apply (tb_lt v w); [assumption|lia].
      - destruct (N.leb_spec p (32 * (b + 1) + x)); [|lia]. cbn [andb].
        destruct (N.ltb_spec x s); destruct (N.ltb_spec (32 * (b + 1) + x) (p + 32)); try (exfalso; lia); [f_equal; lia|].
        destruct (N.leb_spec (p + 32) (32 * (b + 1) + x)); [|lia]. cbn [andb]. destruct (N.ltb_spec (32 * (b + 1) + x) (p + 32 + w)); [f_equal; lia|lia].
      - destruct (N.ltb_spec x s).
        + destruct (N.leb_spec p (32 * b + x)); [lia|]. cbn [andb]. destruct (N.leb_spec (p + 32) (32 * b + x)); [lia|]. reflexivity.
        + destruct (N.leb_spec p (32 * b + x)); [|lia]. destruct (N.ltb_spec (32 * b + x) (p + 32)); [|lia]. cbn [andb]. f_equal. lia.
      - apply Far; auto. }
    destruct (N.ltb_spec (32 - s + 32) w) as [R|R].
    + assert (L3 : b + 3 < lenN ws) by lia.
      do 2 (rewrite updh_ok by (rewrite ?lenN_setN, ?LW; assumption); cbn [bind]).
      eexists. split; [reflexivity|]. split; [rewrite !lenN_setN; assumption|]. split; [repeat apply hwords_setN; assumption|].
      intros j x Hx. cbv zeta. unfold gb at 1. repeat (rewrite wd_setN by (rewrite ?lenN_setN, ?LW; assumption)). rewrite !N.eqb_refl.
      rewrite Z13, !N.land_0_l. change (trunc 32 0) with 0. rewrite !N.lor_0_l.
      destruct (N.eqb_spec j (b + 3)) as [->|J3]; [|fold (gb ws1 j x); apply T2; auto].
      rewrite tb_trunc, tb_shr64. destruct (N.ltb_spec x 32); [|lia]. cbn [andb].
      destruct (N.ltb_spec (32 * (b + 3) + x) (p + 32)); [lia|]. rewrite andb_false_r. destruct (N.leb_spec (p + 32) (32 * (b + 3) + x)); [|lia]. cbn [andb].
      destruct (N.ltb_spec (32 * (b + 3) + x) (p + 32 + w)); [f_equal; lia|]. unfold gb. rewrite Z3, N.bits_0. apply (tb_lt v w); [assumption|lia].
    + eexists. split; [reflexivity|]. split; [assumption|]. split; [assumption|]. intros j x Hx. cbv zeta. apply T2; [assumption|lia].
Qed.

(** the slots before [m] hold [f], the rest is still zero *)
Definition hrepf (c : hcv) (n w : N) (f : N -> N * N) (m : N) : Prop :=
  h_size c = n /\ h_width c = w /\ h_mask c = N.ones w /\ hwords 32 (h_bits c) /\
  n * (32 + w) <= 32 * lenN (h_bits c) /\ n * (32 + w) <= 2 ^ 32 /\ m <= n /\ fresh_from (h_bits c) (m * (32 + w)) /\
  forall i, i < m -> fst (f i) < 2 ^ 32 /\ snd (f i) < 2 ^ w /\
    (forall x, x < 32 -> fb 32 (h_bits c) (i * (32 + w) + x) = N.testbit (fst (f i)) x) /\
    (forall x, x < w -> fb 32 (h_bits c) (i * (32 + w) + 32 + x) = N.testbit (snd (f i)) x).

Lemma h_mask_wide w : 33 <= w <= 63 -> h_mask_of 32 w = N.ones w.
Proof.
  intros H. unfold h_mask_of. destruct (N.eqb_spec w 32); [lia|]. destruct (N.eqb_spec w 64); [lia|]. cbn [orb].
  rewrite ?N.lor_0_l. unfold shl. change (w64 (N.shiftl 1 w)) with (trunc 64 (N.shiftl 1 w)). apply key_mask_ones; lia.
Qed.
Lemma hrepf_new n w f : 33 <= w <= 63 -> n * (32 + w) <= 2 ^ 32 -> exists c, hcv_new 32 n w = Ok c /\ hrepf c n w f 0.
Proof.
  intros HB HN. unfold hcv_new. destruct (N.eqb_spec w 0); [lia|]. destruct (N.ltb_spec 64 w); [lia|]. eexists. split; [reflexivity|].
  unfold hrepf. cbn [h_size h_width h_mask h_bits]. rewrite mul64_small by lia.
  split; [reflexivity|]. split; [reflexivity|]. split; [apply h_mask_wide; exact HB|]. split; [apply Forall_rep, pow2_pos|].
  split; [rewrite lenN_rep; dlia|]. split; [exact HN|]. split; [lia|]. split.
  - intros j b _ _. unfold gb. replace (wd _ _) with 0; [apply N.bits_0|]. unfold wd, repN. symmetry. apply nth_repeat.
  - intros i Hi. lia.
Qed.
Lemma hrepf_set c n w f m : 33 <= w <= 63 -> hrepf c n w f m -> m < n -> fst (f m) < 2 ^ 32 -> snd (f m) < 2 ^ w ->
  exists c', hcv_set 32 c m (fst (f m)) (snd (f m)) = Ok c' /\ hrepf c' n w f (m + 1).
Proof.
  intros HB (H1 & H2 & H3 & H4 & H5 & H6 & _ & HF & H7) Hi Hk Hv. subst w.
  assert (HP : m * (32 + h_width c) + 32 + h_width c <= n * (32 + h_width c)) by nia.
  destruct (hcv_set_fresh c m (fst (f m)) (snd (f m)) HB H3 H4 Hk Hv ltac:(lia) ltac:(lia) HF) as (ws' & E & L & HW & T).
  rewrite E. eexists. split; [reflexivity|]. unfold hrepf. cbn [h_size h_width h_mask h_bits]. rewrite L.
  set (w := h_width c) in *. set (p := m * (32 + w)) in *.
  assert (TF : forall y, fb 32 ws' y = if (p <=? y) && (y <? p + 32) then N.testbit (fst (f m)) (y - p)
       else if (p + 32 <=? y) && (y <? p + 32 + w) then N.testbit (snd (f m)) (y - p - 32) else fb 32 (h_bits c) y).
  { intros y. unfold fb. pose proof (N.mod_lt y 32 ltac:(lia)). rewrite T by assumption. cbv zeta. rewrite <- (N.div_mod y 32) by lia. reflexivity. }
  split; [exact H1|]. split; [reflexivity|]. split; [exact H3|]. split; [exact HW|]. split; [exact H5|]. split; [exact H6|]. split; [lia|].
  split.
  - intros j b Hb Hl. rewrite T by assumption. cbv zeta. replace ((m + 1) * (32 + w)) with (p + 32 + w) in Hl by (unfold p; lia).
    destruct (N.ltb_spec (32 * j + b) (p + 32)); [lia|]. rewrite andb_false_r. destruct (N.ltb_spec (32 * j + b) (p + 32 + w)); [lia|]. rewrite andb_false_r.
    apply HF; [assumption|lia].
  - intros i Hm. destruct (N.eq_dec i m) as [->|NE].
    + split; [exact Hk|]. split; [exact Hv|]. fold p. split; intros x Hx; rewrite TF.
      * destruct (N.leb_spec p (p + x)); [|lia]. destruct (N.ltb_spec (p + x) (p + 32)); [|lia]. cbn [andb]. f_equal. lia.
      * destruct (N.ltb_spec (p + 32 + x) (p + 32)); [lia|]. rewrite andb_false_r.
        destruct (N.leb_spec (p + 32) (p + 32 + x)); [|lia]. destruct (N.ltb_spec (p + 32 + x) (p + 32 + w)); [|lia]. cbn [andb]. f_equal. lia.
    + destruct (H7 i ltac:(lia)) as (J1 & J2 & J3 & J4). assert (i * (32 + w) + 32 + w <= p) by (unfold p; nia).
      split; [exact J1|]. split; [exact J2|]. split; intros x Hx; rewrite TF; [rewrite <- J3 by exact Hx|rewrite <- J4 by exact Hx];
      [destruct (N.leb_spec p (i * (32 + w) + x)); [lia|]; destruct (N.leb_spec (p + 32) (i * (32 + w) + x)); [lia|]
      |destruct (N.leb_spec p (i * (32 + w) + 32 + x)); [lia|]; destruct (N.leb_spec (p + 32) (i * (32 + w) + 32 + x)); [lia|]]; reflexivity.
Qed.
Lemma hrepf_get c n w f m i : 33 <= w <= 63 -> hrepf c n w f m -> i < m -> hcv_get 32 c i = Ok (f i).
Proof.
  intros HB (H1 & H2 & H3 & H4 & H5 & H6 & HM & HF & H7) Hi. destruct (H7 i Hi) as (J1 & J2 & J3 & J4).
  assert (HP : i * (32 + w) + 32 + w <= n * (32 + w)) by nia.
  unfold hcv_get. rewrite H2, H3. set (ws := h_bits c) in *. set (p := i * (32 + w)) in *.
  rewrite mul64_small by (fold p; lia). fold p. rewrite trunc_small by lia.
  assert (SH : N.land p (32 - 1) = p mod 32) by (change (32 - 1) with (N.ones 5); apply N.land_ones).
  rewrite SH. clear SH.
  assert (E : p = 32 * (p / 32) + p mod 32) by (apply N.div_mod; lia).
  assert (Hs : p mod 32 < 32) by (apply N.mod_upper_bound; lia).
  set (b := p / 32) in *. set (s := p mod 32) in *. clearbody b s p.
  assert (L0 : b < lenN ws) by lia. assert (L1 : b + 1 < lenN ws) by lia. assert (L2 : b + 2 < lenN ws) by lia.
  assert (G : forall j x, x < 32 -> N.testbit (wd ws j) x = fb 32 ws (32 * j + x)).
  { intros j x Hx. fold (gb ws j x). apply gb_fb. assumption. }
  assert (GZ : forall j x, 32 <= x -> N.testbit (wd ws j) x = false).
  { intros j x Hx. apply (tb_lt _ 32); [apply hwd_lt; assumption|assumption]. }
  assert (MO : forall a, 1 <= a <= 63 -> sub64 (shl 1 a) 1 = N.ones a).
  { intros a Ha. unfold shl. change (w64 (N.shiftl 1 a)) with (trunc 64 (N.shiftl 1 a)). apply key_mask_ones; lia. }
  destruct (f i) as [k v]. cbn [fst snd] in *. change (32 =? 32) with true. cbn [andb].
  rewrite (rd_wd ws b L0), (rd_wd ws (b + 1) L1), (rd_wd ws (b + 2) L2). cbn [bind].
  assert (KV : forall a a' : N, a = k -> a' = v -> Ok (a, a') = Ok (k, v)) by (intros; subst; reflexivity).
  destruct (N.eqb_spec s 0) as [S0|S0]; cbn [negb].
  - destruct (N.ltb_spec 32 w) as [_|X]; [|lia]. apply KV; apply tb_eq; intros x.
    + destruct (N.lt_ge_cases x 32) as [X|X].
      * rewrite G, <- J3 by assumption. f_equal. lia.
      * rewrite GZ, (tb_lt k 32) by assumption. reflexivity.
    + rewrite MO, N.lor_spec, N.land_spec, tb_ones, tb_shl64, N.land_spec, tb_ones by lia.
      destruct (N.ltb_spec x w) as [X|X].
      * destruct (N.ltb_spec x 64); [|lia]. rewrite andb_true_r. cbn [andb]. destruct (N.leb_spec 32 x) as [Y|Y]; cbn [andb].
        -- rewrite GZ by assumption. destruct (N.ltb_spec (x - 32) (w - 32)); [|lia]. rewrite andb_true_r. cbn [orb]. rewrite G, <- J4 by lia. f_equal. lia.
        -- rewrite orb_false_r, G, <- J4 by lia. f_equal. lia.
      * rewrite andb_false_r. cbn [orb]. destruct (N.ltb_spec (x - 32) (w - 32)); [lia|]. rewrite !andb_false_r, (tb_lt v w) by assumption. reflexivity.
  - assert (K : trunc 32 (N.lor (shr (wd ws b) s) (trunc 32 (N.shiftl (wd ws (b + 1)) (32 - s)))) = k).
    { apply tb_eq. intros x. rewrite tb_trunc, N.lor_spec, tb_shr64, tb_trunc, tb_shl.
      destruct (N.ltb_spec x 32) as [X|X]; cbn [andb]; [|rewrite (tb_lt k 32) by assumption; reflexivity].
      destruct (N.leb_spec (32 - s) x) as [Y|Y]; cbn [andb].
      - rewrite GZ by lia. rewrite G by lia. rewrite <- J3 by assumption. cbn [orb]. f_equal. lia.
      - rewrite orb_false_r, G by lia. rewrite <- J3 by assumption. f_equal. lia. }
    rewrite K. destruct (N.ltb_spec (32 - s) w) as [_|X]; [|lia]. rewrite MO by lia.
    destruct (N.ltb_spec (32 - s + 32) w) as [R|R].
    + assert (L3 : b + 3 < lenN ws) by lia. rewrite (rd_wd ws (b + 3) L3). cbn [bind]. rewrite MO by lia.
      apply KV; [reflexivity|]. apply tb_eq. intros x.
      rewrite !N.lor_spec, N.land_spec, tb_shr64, tb_ones, !tb_shl64, !N.land_spec, !tb_ones.
      destruct (N.ltb_spec x w) as [X|X].
      * destruct (N.ltb_spec x 64); [|lia]. rewrite andb_true_r. cbn [andb].
        destruct (N.leb_spec (32 - s) x) as [Y|Y]; [destruct (N.leb_spec (32 + (32 - s)) x) as [Z|Z]|]; cbn [andb].
        -- rewrite (GZ (b + 1)) by lia. rewrite (GZ (b + 2)) by lia. destruct (N.ltb_spec (x - (32 + (32 - s))) (w - 32 - (32 - s))); [|lia].
           rewrite andb_true_r. cbn [andb orb]. rewrite G, <- J4 by lia. f_equal. lia.
        -- rewrite (GZ (b + 1)) by lia. destruct (N.ltb_spec (x - (32 - s)) (w - (32 - s))); [|lia]. rewrite andb_true_r, orb_false_r. cbn [orb].
           rewrite G, <- J4 by lia. f_equal. lia.
        -- destruct (N.leb_spec (32 + (32 - s)) x); [lia|]. cbn [andb]. rewrite !orb_false_r, G, <- J4 by lia. f_equal. lia.
      * rewrite andb_false_r. cbn [orb]. destruct (N.ltb_spec (x - (32 - s)) (w - (32 - s))); [lia|]. destruct (N.ltb_spec (x - (32 + (32 - s))) (w - 32 - (32 - s))); [lia|].
        rewrite !andb_false_r, (tb_lt v w) by assumption. reflexivity.
    + apply KV; [reflexivity|]. apply tb_eq. intros x.
      rewrite N.lor_spec, N.land_spec, tb_shr64, tb_ones, tb_shl64, N.land_spec, tb_ones.
      destruct (N.ltb_spec x w) as [X|X].
      * destruct (N.ltb_spec x 64); [|lia]. cbn [andb]. rewrite andb_true_r. destruct (N.leb_spec (32 - s) x) as [Y|Y]; cbn [andb].
        -- rewrite GZ by lia. destruct (N.ltb_spec (x - (32 - s)) (w - (32 - s))); [|lia]. rewrite andb_true_r. cbn [orb].
           rewrite G by lia. rewrite <- J4 by assumption. f_equal. lia.
        -- rewrite orb_false_r, G by lia. rewrite <- J4 by assumption. f_equal. lia.
      * rewrite andb_false_r. cbn [orb]. destruct (N.ltb_spec (x - (32 - s)) (w - (32 - s))); [lia|].
        rewrite andb_false_r, andb_false_r. rewrite (tb_lt v w) by assumption. apply andb_false_r.
Qed.

(** ** every width, in increasing order *)
Lemma fold_set_wide n w f : 33 <= w <= 63 -> (forall i, i < n -> fst (f i) < 2 ^ 32 /\ snd (f i) < 2 ^ w) ->
  forall k b c, b + N.of_nat k <= n -> hrepf c n w f b ->
  exists c', foldM (fun c i => hcv_set 32 c i (fst (f i)) (snd (f i))) (seqN b k) c = Ok c' /\ hrepf c' n w f (b + N.of_nat k).
Proof.
  intros HB HV. induction k as [|k IH]; intros b c L R; cbn [seqN foldM].
  - exists c. split; [reflexivity|]. replace (b + N.of_nat 0) with b by lia. exact R.
  - destruct (HV b ltac:(lia)) as (V1 & V2). destruct (hrepf_set c n w f b HB R ltac:(lia) V1 V2) as (c1 & E1 & R1). rewrite E1. cbn [bind].
    destruct (IH (b + 1) c1 ltac:(lia) R1) as (c2 & E2 & R2). exists c2. split; [replace (N.succ b) with (b + 1) by lia; exact E2|].
    replace (b + N.of_nat (S k)) with (b + 1 + N.of_nat k) by lia. exact R2.
Qed.
Lemma fold_set_any hb n w f : hbok hb w -> (forall i, i < n -> fst (f i) < 2 ^ hb /\ snd (f i) < 2 ^ w) ->
  forall k b c g, b + N.of_nat k <= n -> hrep hb c n w g -> (forall i, i < b -> g i = f i) ->
  exists c' g', foldM (fun c i => hcv_set hb c i (fst (f i)) (snd (f i))) (seqN b k) c = Ok c' /\ hrep hb c' n w g' /\ forall i, i < b + N.of_nat k -> g' i = f i.
Proof.
  intros HB HV. induction k as [|k IH]; intros b c g L R HG; cbn [seqN foldM].
  - exists c, g. split; [reflexivity|]. split; [exact R|]. intros i Hi. apply HG. lia.
  - destruct (HV b ltac:(lia)) as (V1 & V2). destruct (hcv_set_ok hb c n w g b _ _ R ltac:(lia) V1 V2) as (c1 & E1 & R1). rewrite E1. cbn [bind].
    destruct (IH (b + 1) c1 _ ltac:(lia) R1) as (c2 & g2 & E2 & R2 & G2).
    { intros i Hi. cbv beta. destruct (N.eqb_spec i b) as [->|NE]; [destruct (f b); reflexivity|apply HG; lia]. }
    exists c2, g2. split; [replace (N.succ b) with (b + 1) by lia; exact E2|]. split; [exact R2|]. intros i Hi. apply G2. lia.
Qed.
Theorem hcv_in_order hb n w (f : N -> N * N) : hb = 32 \/ hb = 64 -> 1 <= w <= 64 -> n * (hb + w) <= 2 ^ hb -> n * (hb + w) < 2 ^ 64 ->
  (forall i, i < n -> fst (f i) < 2 ^ hb /\ snd (f i) < 2 ^ w) ->
  exists c, (c0 <- hcv_new hb n w ;; foldM (fun c i => hcv_set hb c i (fst (f i)) (snd (f i))) (range n) c0) = Ok c /\
    forall i, i < n -> hcv_get hb c i = Ok (f i).
Proof.
  intros HH Hw H1 H2 HV. assert (C : hbok hb w \/ (hb = 32 /\ 33 <= w <= 63)) by (unfold hbok; lia). destruct C as [HB|[-> HB]].
  - destruct (hrep_new hb n w HB H1 H2) as (c0 & E0 & R0). rewrite E0. cbn [bind]. unfold range.
    destruct (fold_set_any hb n w f HB HV (N.to_nat n) 0 c0 _ ltac:(lia) R0) as (c & g & E & R & G); [intros i Hi; lia|].
    exists c. split; [exact E|]. intros i Hi. rewrite (hcv_get_ok hb c n w g i R Hi). rewrite G by lia. reflexivity.
  - destruct (hrepf_new n w f HB H1) as (c0 & E0 & R0). rewrite E0. cbn [bind]. unfold range.
    destruct (fold_set_wide n w f HB HV (N.to_nat n) 0 c0 ltac:(lia) R0) as (c & E & R).
    exists c. split; [exact E|]. intros i Hi. apply (hrepf_get c n w f _ i HB R). lia.
Qed.
