(** * fast_ef_sequence: find on an empty range *)
From Verif Require Import Prelude BitFacts M_Word P_Word M_Bits Spec P_Bits P_Builder P_Cursor P_BitProg
  M_CompactVector P_CompactVector M_DArray P_DArray M_EF P_EF P_EF2 M_HashVec M_Mph P_Mph P_MphTables M_FastEF P_FastEF P_FastEF2 P_FastEF3.
Local Open Scope N_scope.

(** the walk over the high parts does not stop at the end of the range when it starts there; it stops at the first
    high part that is large enough, if there is one *)
Lemma scan_high_empty c vs VH NH hi hid q y : efc_rep c vs -> vrep (e_high c) VH NH -> fpos (N.testbit VH) 0 NH = hpos (e_l c) 0 vs ->
  nthN vs q = Some y -> hid <= y / 2 ^ e_l c -> forall fuel it lo v, hi <= lo -> lo <= q -> (N.to_nat (q + 1 - lo) <= fuel)%nat -> nthN vs lo = Some v ->
  uit_at (e_high c) VH it (v / 2 ^ e_l c + lo + 1) -> u_pos it = v / 2 ^ e_l c + lo ->
  exists it' lo' v', scan_high fuel c it (v / 2 ^ e_l c + lo) lo hi hid = Ok (Some (it', v' / 2 ^ e_l c + lo', lo')) /\
    lo <= lo' <= q /\ nthN vs lo' = Some v' /\ hid <= v' / 2 ^ e_l c /\
    uit_at (e_high c) VH it' (v' / 2 ^ e_l c + lo' + 1) /\ u_pos it' = v' / 2 ^ e_l c + lo' /\
    (forall p x, lo <= p < lo' -> nthN vs p = Some x -> x / 2 ^ e_l c < hid).
Proof.
  intros R VR FP Hq Hy. pose proof R as (VH' & NH' & Hl & Hn & HN & VR' & FP' & DO & LO & HF & HB).
  assert (NH' = NH) as -> by (destruct VR as (_ & _ & _ & _ & <-), VR' as (_ & _ & _ & _ & <-); reflexivity).
  clear VR' FP'. pose proof (nthN_lt _ _ _ Hq) as Lq.
  induction fuel as [|fuel IH]; intros it lo v Hlo Hloq Hfuel Hv A U; [lia|].
  pose proof (HB v (nthN_In _ _ _ Hv)) as HBv. pose proof (nthN_lt _ _ _ Hv) as Llo.
  cbn [scan_high]. rewrite sub64_add by (apply (lt_chain _ _ _ _ (2 ^ 64) Llo HBv); lia).
  destruct (N.ltb_spec (v / 2 ^ e_l c) hid) as [LT|GE].
  - rewrite add64_small by lia. destruct (N.eqb_spec (lo + 1) hi) as [EH|NH1]; [lia|].
    assert (lo <> q) by (intros ->; assert (v = y) by congruence; subst y; lia).
    destruct (nthN_Some vs (lo + 1) ltac:(lia)) as (v1 & Hv1).
    assert (Q : nthN (fpos (N.testbit VH) (v / 2 ^ e_l c + lo + 1) NH) 0 = Some (v1 / 2 ^ e_l c + (lo + 1))).
    { pose proof (ones_from c vs VH NH R VR FP (lo + 1) ltac:(lia) 0 ltac:(lia)) as O.
      replace (lo + 1 + pv vs (lo + 1) / 2 ^ e_l c) with (v / 2 ^ e_l c + lo + 1) in O.
      - rewrite O, N.add_0_r. apply hpos_some. assumption.
      - unfold pv. destruct (N.eqb_spec (lo + 1) 0); [lia|]. replace (lo + 1 - 1) with lo by lia. rewrite Hv. lia. }
    destruct (uit_next_ok (e_high c) VH NH it _ _ VR ltac:(unfold words_for; dlia) A Q) as (it' & E & A' & U').
    rewrite E. cbn [bind].
    destruct (IH it' (lo + 1) v1 ltac:(lia) ltac:(lia) ltac:(lia) Hv1 A' U') as (it2 & lo2 & v2 & E' & B1 & B2 & B3 & B4 & B5 & B6).
    exists it2, lo2, v2. split; [exact E'|]. split; [lia|]. repeat (split; [assumption|]).
    intros p x Hp Hx. destruct (N.eq_dec p lo) as [->|]; [congruence|]. apply (B6 p); [lia|assumption].
  - exists it, lo, v. split; [reflexivity|]. repeat (split; [solve [assumption|lia]|]). intros p x Hp. lia.
Qed.

(** what the search answers on an empty range, if some value from there on is not below the one searched for *)
Theorem fef_scan_empty_high c vs b id q y : efc_rep c vs -> sortedN vs -> b <= q -> nthN vs q = Some y -> id / 2 ^ e_l c <= y / 2 ^ e_l c -> id < 2 ^ 64 ->
  exists r, fef_scan c b b id (pv vs b) = Ok r /\
    (b < r /\ nthN vs r = Some id /\ (forall v, nthN vs b = Some v -> v / 2 ^ e_l c < id / 2 ^ e_l c) \/ r = not_found /\ (forall p v, b < p -> nthN vs p = Some id -> nthN vs b = Some v -> v / 2 ^ e_l c = id / 2 ^ e_l c)).
Proof.
  intros R HS Hbq Hq Hy Hid. pose proof R as (VH & NH & Hl & Hn & HN & VR & FP & DO & LO & HF & HB).
  pose proof (nthN_lt _ _ _ Hq) as Lq.
  destruct (nthN_Some vs b ltac:(lia)) as (v & Hv). pose proof (HB v (nthN_In _ _ _ Hv)) as HBv.
  pose proof (pv_le vs b v HS Hv) as PL.
  assert (P0 : 2 ^ e_l c <> 0) by (apply N.pow_nonzero; lia).
  assert (PD : pv vs b / 2 ^ e_l c <= v / 2 ^ e_l c) by (apply N.div_le_mono; assumption).
  unfold fef_scan. rewrite shr_div, shr_div. rewrite add64_small by lia.
  destruct (uit_new_ok _ _ _ (b + pv vs b / 2 ^ e_l c) VR) as (it0 & E0 & A0 & _). { unfold words_for. dlia. }
  rewrite E0. cbn [bind].
  assert (Q : nthN (fpos (N.testbit VH) (b + pv vs b / 2 ^ e_l c) NH) 0 = Some (v / 2 ^ e_l c + b)).
  { rewrite (ones_from c vs VH NH R VR FP) by lia. rewrite N.add_0_r. apply hpos_some. assumption. }
  destruct (uit_next_ok (e_high c) VH NH it0 _ _ VR ltac:(unfold words_for; dlia) A0 Q) as (it1 & E1 & A1 & U1).
  rewrite E1. cbn [bind].
  assert (SZ : v_size (e_high c) = NH) by (destruct VR as (_ & _ & _ & _ & <-); reflexivity).
  destruct (scan_high_empty c vs VH NH b (id / 2 ^ e_l c) q y R VR FP Hq Hy (S (N.to_nat (v_size (e_high c)))) it1 b v (N.le_refl _) Hbq ltac:(rewrite SZ; lia) Hv A1 U1)
    as (it2 & lo2 & v2 & E2 & B1 & B2 & B3 & B4 & B5 & B6); rewrite E2; cbn [bind].
  pose proof (HB v2 (nthN_In _ _ _ B2)) as HBv2. pose proof (nthN_lt _ _ _ B2) as Hl2.
  rewrite sub64_add by (apply (lt_chain _ _ _ _ (2 ^ 64) Hl2 HBv2); lia).
  destruct (N.ltb_spec (id / 2 ^ e_l c) (v2 / 2 ^ e_l c)) as [LT|GE].
  - exists not_found. split; [reflexivity|]. right. split; [reflexivity|]. intros p w Hp Hx Hb. exfalso.
    destruct (N.lt_ge_cases p lo2) as [L|L]; [specialize (B6 p id ltac:(lia) Hx); lia|].
    assert (v2 <= id) by (apply (sortedN_le vs HS lo2 p); auto).
    assert (v2 / 2 ^ e_l c <= id / 2 ^ e_l c) by (apply N.div_le_mono; assumption). lia.
  - assert (HE : v2 / 2 ^ e_l c = id / 2 ^ e_l c) by lia.
    rewrite shlU_ok by assumption. cbn [bind]. rewrite land_mask by assumption.
    destruct (zero_after c vs VH NH lo2 v2 R VR FP HS B2) as (z & Z1 & Z2 & Z3 & Z4 & Z5).
    set (p2 := v2 / 2 ^ e_l c + lo2) in *.
    destruct (uit_skip0_ok (e_high c) VH NH it2 (p2 + 1) 1 z VR ltac:(unfold words_for; dlia) B4 ltac:(lia)) as (it3 & E3 & U3).
    { rewrite B5. exact Z2. }
    rewrite E3. cbn [bind]. rewrite U3. rewrite (sub64_small z) by lia.
    destruct (N.eq_dec lo2 b) as [EB|NB].
    + subst lo2. rewrite sub64_small by lia. rewrite N.sub_diag, N.min_0_r. exists not_found. split; [reflexivity|]. right. split; [reflexivity|].
      intros p w Hp Hx Hw. assert (w = v2) by congruence. subst w. exact HE.
    + assert (SB : N.min (z - p2) (sub64 b lo2) = z - p2).
      { apply N.min_l. assert (W : sub64 b lo2 = b + (2 ^ 64 - lo2)) by (unfold sub64; rewrite (w64_small b), (w64_small lo2) by (clear - Hn Hl2 B1; lia); apply w64_small; clear - Hn Hl2 B1 NB; lia).
        rewrite W. clear - Hn Hl2 Z1 HN. lia. }
      rewrite SB. set (run := z - p2).
      assert (A : low_at (e_l c) vs (if e_l c =? 0 then d_pos (e_d1 c) else 0) 0 lo2).
      { unfold low_at. destruct DO as [D1 _]. rewrite lenN_hpos in D1. destruct (N.eqb_spec (e_l c) 0); [lia|]. split; [lia|]. intros j Hj. lia. }
      destruct (scan_low_ok c vs id R HS Hid (N.to_nat run) _ 0 lo2 A) as (r & Er & F); rewrite ?N2Nat.id in *.
      * unfold run. pose proof (Z5 (z - p2 - 1) ltac:(lia)). lia.
      * intros j x Hj Hx. rewrite <- HE. apply (Z3 j x); [lia|unfold run in Hj; lia|assumption].
      * exists r. split; [exact Er|]. destruct F as [[F1 F2]|[F1 F2]]; [left; split; [lia|split; [assumption|intros w Hw; apply (B6 b w); [lia|assumption]]]|right].
        split; [assumption|]. intros j w Hj Hx Hw. exfalso.
        destruct (N.lt_ge_cases j lo2) as [L|L]; [specialize (B6 j id ltac:(lia) Hx); lia|].
        destruct (N.lt_ge_cases j (lo2 + run)) as [L'|L']; [exact (F2 j ltac:(lia) Hx)|].
        assert (v2 / 2 ^ e_l c < id / 2 ^ e_l c) by (apply (Z4 j id); [unfold run in L'; lia|assumption]). lia.
Qed.

Theorem fef_scan_empty c vs b id q y : efc_rep c vs -> sortedN vs -> b <= q -> nthN vs q = Some y -> id <= y -> id < 2 ^ 64 ->
  exists r, fef_scan c b b id (pv vs b) = Ok r /\
    (b < r /\ nthN vs r = Some id /\ (forall v, nthN vs b = Some v -> v / 2 ^ e_l c < id / 2 ^ e_l c) \/ r = not_found /\ (forall p v, b < p -> nthN vs p = Some id -> nthN vs b = Some v -> v / 2 ^ e_l c = id / 2 ^ e_l c)).
Proof.
  intros R HS Hbq Hq Hy Hid. apply (fef_scan_empty_high c vs b id q y); auto. apply N.div_le_mono; [apply N.pow_nonzero; lia|assumption].
Qed.
Theorem fef_find_empty h f ids ptrs vs b id q y : fef_rep h f ids ptrs vs -> is_range ptrs b b -> b <= q -> nthN vs q = Some y -> id + pv vs b <= y ->
  exists r, fef_find h f (b, b) id = Ok r /\
    (b < r /\ nthN vs r = Some (id + pv vs b) /\ (forall v, nthN vs b = Some v -> v / 2 ^ e_l (f_core f) < (id + pv vs b) / 2 ^ e_l (f_core f)) \/ r = not_found /\ (forall p v, b < p -> nthN vs p = Some (id + pv vs b) -> nthN vs b = Some v -> v / 2 ^ e_l (f_core f) = (id + pv vs b) / 2 ^ e_l (f_core f))).
Proof.
  intros (F1 & RC & V & SV & P & Hn & SA) R Hq Hy Hle. pose proof V as (VL & _).
  pose proof RC as (VH & NH & _ & _ & _ & _ & _ & _ & _ & HF & _). pose proof (Forall_nthN _ _ _ _ HF Hy) as H64. cbn beta in H64.
  pose proof (nthN_lt _ _ _ Hy) as Lq.
  unfold fef_find. rewrite sub64_small by lia. rewrite N.sub_diag. unfold sampling_threshold. cbn [N.leb N.compare].
  assert (PR : (if b =? 0 then Ok 0 else fef_get f (sub64 b 1)) = Ok (pv vs b)).
  { unfold pv, fef_get. destruct (N.eqb_spec b 0); [reflexivity|]. rewrite sub64_small by lia.
    destruct (nthN_Some vs (b - 1) ltac:(lia)) as (x & Hx). rewrite Hx. apply (efc_get_ok _ vs); assumption. }
  rewrite PR. cbn [bind]. change (bsearch_scan (S (N.to_nat 0)) (f_core f) b b) with (bsearch_scan 1 (f_core f) b b). cbn [bsearch_scan].
  rewrite sub64_small by lia. rewrite N.sub_diag. change (linear_scan_threshold <? 0) with false. cbv iota.
  rewrite add64_small by lia. apply (fef_scan_empty _ vs b (id + pv vs b) q y); auto. lia.
Qed.
