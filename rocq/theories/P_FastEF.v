(** * Proofs about fast_ef_sequence: scanning and searching *)
From Verif Require Import Prelude BitFacts M_Word P_Word M_Bits Spec P_Bits P_Builder P_Cursor P_BitProg
  M_CompactVector P_CompactVector M_DArray P_DArray M_EF P_EF M_FastEF.

(** the element before index i (0 before the first) *)
Definition pv (vs : list N) (i : N) : N :=
  if i =? 0 then 0 else match nthN vs (i - 1) with Some x => x | None => 0 end.

(** the result r of searching x in vs[lo, hi) *)
Definition found (vs : list N) (lo hi x r : N) : Prop :=
  (lo <= r < hi /\ nthN vs r = Some x) \/ (r = not_found /\ forall p, lo <= p < hi -> nthN vs p <> Some x).

Lemma fpos_all F a b : a <= b -> (forall i, a <= i < b -> F i = true) -> lenN (fpos F a b) = b - a.
Proof.
  intros Hab H. unfold fpos. remember (N.to_nat (b - a)) as k eqn:Ek. assert (HK : b = a + N.of_nat k) by lia. clear Ek. subst b.
  revert a Hab H. induction k as [|k IH]; intros a Hab H.
  - cbn [seqN filter]. change (lenN (@nil N)) with 0. lia.
  - cbn [seqN filter]. rewrite H by lia. rewrite lenN_cons. rewrite <- N.add_1_r. rewrite IH; [lia|lia|]. intros. apply H. lia.
Qed.

Lemma pv_lt vs : Forall (fun v => v < 2 ^ 64) vs -> forall i, pv vs i < 2 ^ 64.
Proof.
  intros HF i. unfold pv. destruct (i =? 0); [reflexivity|]. destruct (nthN vs (i - 1)) eqn:E; [|reflexivity].
  exact (Forall_nthN _ _ _ _ HF E).
Qed.
Lemma pv_le vs i v : sortedN vs -> nthN vs i = Some v -> pv vs i <= v.
Proof.
  intros HS Hv. unfold pv. destruct (N.eqb_spec i 0); [lia|]. destruct (nthN vs (i - 1)) eqn:E; [|lia].
  apply (HS (i - 1)); [assumption|]. replace (i - 1 + 1) with i by lia. assumption.
Qed.

(** ** STEP 2: the low parts *)
Definition low_at (l : N) (vs : list N) (avail word i : N) : Prop :=
  if l =? 0 then lenN vs <= avail + i
  else avail * l <= 64 /\ forall j, j < avail * l -> N.testbit word j = N.testbit (num_of (lows l vs)) (i * l + j).

Lemma low_step c vs avail word i v : efc_rep c vs -> low_at (e_l c) vs avail word i -> nthN vs i = Some v ->
  exists word' avail',
    (if avail =? 0 then w <- bv_get_word64 (e_low c) (mul64 i (e_l c)) ;; Ok (w, sub64 (ef_chunks (e_l c)) 1)
     else Ok (word, avail - 1)) = Ok (word', avail') /\
    N.land word' (sub64 (shl 1 (e_l c)) 1) = v mod 2 ^ e_l c /\ low_at (e_l c) vs avail' (shr word' (e_l c)) (i + 1).
Proof.
  intros (VH & NH & Hl & Hn & HN & VR & FP & DO & LO & HF & HB) A5 Hv. pose proof (nthN_lt _ _ _ Hv) as Hi.
  set (l := e_l c) in *. unfold low_at in *. set (VL := num_of (lows l vs)) in *.
  destruct (N.eqb_spec l 0) as [L0|L0].
  - destruct (N.eqb_spec avail 0); [lia|]. eexists. eexists. split; [reflexivity|].
    rewrite land_mask by assumption. rewrite L0, N.pow_0_r, !N.mod_1_r. split; [reflexivity|lia].
  - destruct A5 as [A5 A6].
    assert (LF : forall buf a, l <= a -> (forall j, j < a -> N.testbit buf j = N.testbit VL (i * l + j)) ->
                 N.land buf (sub64 (shl 1 l) 1) = v mod 2 ^ l).
    { intros buf a Ha Hb. rewrite land_mask by assumption. rewrite <- (lows_field l vs i v Hv).
      apply tb_eq. intros j. rewrite tb_mod, tb_field. destruct (N.ltb_spec j l); cbn [andb]; [|reflexivity].
      rewrite Hb by lia. unfold VL. f_equal. lia. }
    destruct (N.eqb_spec avail 0) as [Z|Z].
    + rewrite mul64_small by nia.
      rewrite (bv_get_word64_ok _ _ _ _ LO) by (rewrite lenN_lows; fold l; nia). cbn [bind].
      assert (C1 : ef_chunks l * l <= 64 /\ 1 <= ef_chunks l <= 64).
      { unfold ef_chunks. destruct (N.eqb_spec l 0); [lia|]. pose proof (N.mul_div_le 64 l ltac:(lia)).
        assert (1 <= 64 / l) by (apply N.div_le_lower_bound; lia).
        assert (64 / l <= 64) by (apply N.div_le_upper_bound; nia). nia. }
      rewrite sub64_small by lia. eexists. eexists. split; [reflexivity|]. split.
      * apply (LF _ 64); [lia|]. intros j Hj. rewrite tb_field. destruct (N.ltb_spec j 64); [|lia]. cbn [andb]. unfold VL, l. f_equal. lia.
      * split; [nia|]. intros j Hj. rewrite tb_shr64, tb_field. destruct (N.ltb_spec (j + l) 64); [|nia]. cbn [andb].
        unfold VL, l. f_equal. lia.
    + eexists. eexists. split; [reflexivity|]. split.
      * apply (LF _ (avail * l)); [nia|assumption].
      * split; [nia|]. intros j Hj. rewrite tb_shr64, A6 by nia. f_equal. lia.
Qed.

Lemma scan_low_ok c vs id : efc_rep c vs -> sortedN vs -> id < 2 ^ 64 -> forall run avail word lo,
  low_at (e_l c) vs avail word lo -> lo + N.of_nat run <= lenN vs ->
  (forall p v, lo <= p < lo + N.of_nat run -> nthN vs p = Some v -> v / 2 ^ e_l c = id / 2 ^ e_l c) ->
  exists r, scan_low run c avail word lo (id mod 2 ^ e_l c) = Ok r /\ found vs lo (lo + N.of_nat run) id r.
Proof.
  intros R HS Hid. pose proof R as (VH & NH & Hl & Hn & _). set (l := e_l c) in *.
  assert (P0 : 2 ^ l <> 0) by (apply N.pow_nonzero; lia).
  induction run as [|run IH]; intros avail word lo A Hr Hh.
  - exists not_found. split; [reflexivity|]. right. split; [reflexivity|]. lia.
  - destruct (nthN_Some vs lo ltac:(lia)) as (v & Hv).
    destruct (low_step c vs avail word lo v R A Hv) as (word' & avail' & E & L & A'). fold l in E, L, A'.
    cbn [scan_low]. fold l. rewrite E. cbn [bind]. rewrite shlU_ok by assumption. cbn [bind]. rewrite L.
    pose proof (Hh lo v ltac:(lia) Hv) as HH.
    pose proof (N.div_mod v (2 ^ l) P0) as DV. pose proof (N.div_mod id (2 ^ l) P0) as DI.
    destruct (N.eqb_spec (v mod 2 ^ l) (id mod 2 ^ l)) as [EQ|NE].
    + exists lo. split; [reflexivity|]. left. split; [lia|]. rewrite Hv. f_equal. rewrite DV, DI, HH, EQ. reflexivity.
    + destruct (N.ltb_spec (id mod 2 ^ l) (v mod 2 ^ l)) as [LT|GE].
      * exists not_found. split; [reflexivity|]. right. split; [reflexivity|]. intros p Hp Hx.
        assert (v <= id) by (apply (sortedN_le vs HS lo p); auto; lia).
        rewrite HH in DV. clear - LT DV DI H. lia.
      * rewrite shrU_ok by assumption. cbn [bind]. rewrite add64_small by lia.
        destruct (IH avail' (shr word' l) (lo + 1) A' ltac:(lia)) as (r & Er & F).
        { intros p x Hp Hx. apply (Hh p x); [lia|assumption]. }
        exists r. split; [exact Er|]. destruct F as [[F1 F2]|[F1 F2]]; [left; split; [lia|assumption]|right].
        split; [assumption|]. intros p Hp. destruct (N.eq_dec p lo) as [->|]; [|apply F2; lia].
        rewrite Hv. intros X. injection X as ->. apply NE. reflexivity.
Qed.

(** ** STEP 1: the high parts *)
(** the cursor stands so that the k-th one from p is the (i+k)-th of the sequence *)
Lemma ones_from c vs VH NH : efc_rep c vs -> vrep (e_high c) VH NH -> fpos (N.testbit VH) 0 NH = hpos (e_l c) 0 vs ->
  forall i, i < lenN vs -> forall k, i + k < lenN vs ->
  nthN (fpos (N.testbit VH) (i + pv vs i / 2 ^ e_l c) NH) k = nthN (hpos (e_l c) 0 vs) (i + k).
Proof.
  intros R VR FP i Hi k Hk. unfold pv. destruct (N.eqb_spec i 0) as [->|NZ].
  - rewrite N.div_0_l by (apply N.pow_nonzero; lia). rewrite N.add_0_l, FP. f_equal.
  - destruct (nthN_Some vs (i - 1) ltac:(lia)) as (x & Hx). rewrite Hx.
    pose proof (hpos_some (e_l c) vs (i - 1) x Hx) as HP. set (q := x / 2 ^ e_l c + (i - 1)) in *.
    replace (i + x / 2 ^ e_l c) with (q + 1) by lia. rewrite <- FP in HP. pose proof HP as HP'.
    apply nthN_fpos in HP. destruct HP as (Q1 & Q2 & Q3).
    rewrite <- FP. replace (i + k) with (i - 1 + (1 + k)) by lia. rewrite <- (fpos_from _ _ _ _ _ _ HP').
    rewrite (fpos_cons _ q), Q2 by lia. cbn [app]. rewrite nthN_S by lia. f_equal. lia.
Qed.

Lemma ones_next F p NH v k : nthN (fpos F p NH) 0 = Some v -> nthN (fpos F p NH) (k + 1) = nthN (fpos F (v + 1) NH) k.
Proof.
  intros H. pose proof (nthN_fpos _ _ _ _ _ H) as (Q1 & Q2 & Q3).
  rewrite (fpos_split _ p v) by lia. rewrite nthN_app2 by lia. rewrite Q3.
  rewrite (fpos_cons _ v), Q2 by lia. cbn [app]. rewrite nthN_S by lia. f_equal. lia.
Qed.

Lemma scan_high_ok c vs VH NH hi hid : efc_rep c vs -> vrep (e_high c) VH NH -> fpos (N.testbit VH) 0 NH = hpos (e_l c) 0 vs ->
  hi <= lenN vs -> forall fuel it lo v, lo < hi -> (N.to_nat (hi - lo) < fuel)%nat -> nthN vs lo = Some v ->
  uit_at (e_high c) VH it (v / 2 ^ e_l c + lo + 1) -> u_pos it = v / 2 ^ e_l c + lo ->
  (scan_high fuel c it (v / 2 ^ e_l c + lo) lo hi hid = Ok None /\ (forall p x, lo <= p < hi -> nthN vs p = Some x -> x / 2 ^ e_l c < hid)) \/
  exists it' lo' v', scan_high fuel c it (v / 2 ^ e_l c + lo) lo hi hid = Ok (Some (it', v' / 2 ^ e_l c + lo', lo')) /\
    lo <= lo' < hi /\ nthN vs lo' = Some v' /\ hid <= v' / 2 ^ e_l c /\
    uit_at (e_high c) VH it' (v' / 2 ^ e_l c + lo' + 1) /\ u_pos it' = v' / 2 ^ e_l c + lo' /\
    (forall p x, lo <= p < lo' -> nthN vs p = Some x -> x / 2 ^ e_l c < hid).
Proof.
  intros R VR FP Hhi. pose proof R as (VH' & NH' & Hl & Hn & HN & VR' & FP' & DO & LO & HF & HB).
  assert (NH' = NH) as -> by (destruct VR as (_ & _ & _ & _ & <-), VR' as (_ & _ & _ & _ & <-); reflexivity).
  clear VR' FP'.
  induction fuel as [|fuel IH]; intros it lo v Hlo Hfuel Hv A U; [lia|].
  pose proof (HB v (nthN_In _ _ _ Hv)) as HBv.
  cbn [scan_high]. rewrite sub64_add by (apply (lt_chain _ _ _ _ (2 ^ 64) (N.lt_le_trans _ _ _ Hlo Hhi) HBv); lia).
  destruct (N.ltb_spec (v / 2 ^ e_l c) hid) as [LT|GE].
  - rewrite add64_small by lia. destruct (N.eqb_spec (lo + 1) hi) as [EH|NH1].
    + left. split; [reflexivity|]. intros p x Hp Hx. assert (p = lo) by lia. congruence.
    + destruct (nthN_Some vs (lo + 1) ltac:(lia)) as (v1 & Hv1).
      assert (Q : nthN (fpos (N.testbit VH) (v / 2 ^ e_l c + lo + 1) NH) 0 = Some (v1 / 2 ^ e_l c + (lo + 1))).
      { pose proof (ones_from c vs VH NH R VR FP (lo + 1) ltac:(lia) 0 ltac:(lia)) as O.
        replace (lo + 1 + pv vs (lo + 1) / 2 ^ e_l c) with (v / 2 ^ e_l c + lo + 1) in O.
        - rewrite O, N.add_0_r. apply hpos_some. assumption.
        - unfold pv. destruct (N.eqb_spec (lo + 1) 0); [lia|]. replace (lo + 1 - 1) with lo by lia. rewrite Hv. lia. }
      destruct (uit_next_ok (e_high c) VH NH it _ _ VR ltac:(unfold words_for; dlia) A Q) as (it' & E & A' & U').
      rewrite E. cbn [bind].
      destruct (IH it' (lo + 1) v1 ltac:(lia) ltac:(lia) Hv1 A' U') as [(E' & G)|(it2 & lo2 & v2 & E' & B1 & B2 & B3 & B4 & B5 & B6)].
      * left. split; [exact E'|]. intros p x Hp Hx. destruct (N.eq_dec p lo) as [->|]; [congruence|]. apply (G p); [lia|assumption].
      * right. exists it2, lo2, v2. split; [exact E'|]. split; [lia|]. repeat (split; [assumption|]).
        intros p x Hp Hx. destruct (N.eq_dec p lo) as [->|]; [congruence|]. apply (B6 p); [lia|assumption].
  - right. exists it, lo, v. split; [reflexivity|]. repeat (split; [solve [assumption|lia]|]). intros p x Hp. lia.
Qed.

(** the first zero after a one, and the elements sharing its high part *)
Lemma zero_after c vs VH NH lo v : efc_rep c vs -> vrep (e_high c) VH NH -> fpos (N.testbit VH) 0 NH = hpos (e_l c) 0 vs ->
  sortedN vs -> nthN vs lo = Some v ->
  let p := v / 2 ^ e_l c + lo in
  exists z, p < z < NH /\ nthN (fpos (fun i => negb ((p + 1 <=? i) && N.testbit VH i)) p (64 * words_for NH)) 1 = Some z /\
    (forall j x, lo <= j -> j < lo + (z - p) -> nthN vs j = Some x -> x / 2 ^ e_l c = v / 2 ^ e_l c) /\
    (forall j x, lo + (z - p) <= j -> nthN vs j = Some x -> v / 2 ^ e_l c < x / 2 ^ e_l c) /\
    (forall j, j < z - p -> lo + j < lenN vs).
Proof.
  intros R VR FP HS Hv p. pose proof R as (VH' & NH' & Hl & Hn & HN & VR' & FP' & DO & LO & HF & HB).
  assert (NH' = NH) as -> by (destruct VR as (_ & _ & _ & _ & <-), VR' as (_ & _ & _ & _ & <-); reflexivity). clear VR' FP'.
  set (l := e_l c) in *. pose proof (nthN_lt _ _ _ Hv) as Hlo. pose proof (HB v (nthN_In _ _ _ Hv)) as HBv.
  assert (P0 : 2 ^ l <> 0) by (apply N.pow_nonzero; lia).
  assert (ONE : forall j x, nthN vs j = Some x -> nthN (fpos (N.testbit VH) 0 NH) j = Some (x / 2 ^ l + j)).
  { intros j x Hx. rewrite FP. apply hpos_some. assumption. }
  assert (ZL : N.testbit VH (NH - 1) = false).
  { destruct (N.testbit VH (NH - 1)) eqn:T; [|reflexivity]. exfalso.
    assert (I : In (NH - 1) (fpos (N.testbit VH) 0 NH)) by (apply In_fpos; split; [lia|assumption]).
    rewrite FP in I. apply In_nth_error in I. destruct I as (k & Hk).
    assert (Hk' : nthN (hpos l 0 vs) (N.of_nat k) = Some (NH - 1)) by (unfold nthN; rewrite Nat2N.id; assumption).
    rewrite nthN_hpos in Hk'. destruct (nthN vs (N.of_nat k)) as [x|] eqn:Ex; [|discriminate]. cbn [option_map] in Hk'. injection Hk' as Hk'.
    pose proof (HB x (nthN_In _ _ _ Ex)). pose proof (nthN_lt _ _ _ Ex). lia. }
  assert (HP : p + 1 < NH) by (unfold p; pose proof (HB v (nthN_In _ _ _ Hv)); lia).
  assert (PT : N.testbit VH p = true) by (apply (nthN_fpos _ _ _ _ _ (ONE lo v Hv))).
  pose proof (words_for_ge NH) as WG.
  set (Z := fpos (fun i => negb (N.testbit VH i)) (p + 1) NH).
  assert (NE : 0 < lenN Z).
  { assert (I : In (NH - 1) Z) by (apply In_fpos; split; [lia|]; rewrite ZL; reflexivity). destruct Z; [destruct I|]. rewrite lenN_cons. lia. }
  destruct (nthN_Some Z 0 NE) as (z & Hz). pose proof (nthN_fpos _ _ _ _ _ Hz) as (Z1 & Z2 & Z3).
  assert (ZF : forall i, p <= i < z -> N.testbit VH i = true).
  { intros i Hi. destruct (N.eq_dec i p) as [->|]; [assumption|]. destruct (N.testbit VH i) eqn:T; [reflexivity|]. exfalso.
    assert (I : In i (fpos (fun i => negb (N.testbit VH i)) (p + 1) z)) by (apply In_fpos; split; [lia|]; rewrite T; reflexivity).
    destruct (fpos _ (p + 1) z); [destruct I|]. rewrite lenN_cons in Z3. lia. }
  (* the ones from p on *)
  assert (OF : forall j, j < z - p -> nthN (fpos (N.testbit VH) 0 NH) (lo + j) = Some (p + j)).
  { intros j Hj. rewrite <- (fpos_from _ _ _ _ _ _ (ONE lo v Hv)). fold p.
    replace j with (lenN (fpos (N.testbit VH) p (p + j))) at 1.
    - apply nthN_fpos_intro; [lia|]. apply ZF. lia.
    - rewrite fpos_all; [lia|lia|]. intros i Hi. apply ZF. lia. }
  exists z. split; [lia|]. split; [|split; [|split]].
  - rewrite (fpos_cons _ p) by lia. assert (X : negb ((p + 1 <=? p) && N.testbit VH p) = true).
    { destruct (N.leb_spec (p + 1) p); [lia|]. reflexivity. }
    rewrite X. cbn [app]. rewrite nthN_S by lia. replace (1 - 1) with 0 by lia.
    rewrite (fpos_split _ (p + 1) NH) by lia. rewrite nthN_app1.
    + rewrite (fpos_ext _ (fun i => negb (N.testbit VH i))); [exact Hz|]. intros i Hi. destruct (N.leb_spec (p + 1) i); [reflexivity|lia].
    + rewrite (fpos_ext _ (fun i => negb (N.testbit VH i))); [exact NE|]. intros i Hi. destruct (N.leb_spec (p + 1) i); [reflexivity|lia].
  - intros j x Hj1 Hj2 Hx. pose proof (OF (j - lo) ltac:(lia)) as O. replace (lo + (j - lo)) with j in O by lia.
    rewrite (ONE j x Hx) in O. injection O as O. unfold p in O. lia.
  - intros j x Hj Hx. pose proof (nthN_lt _ _ _ Hx) as Hjn.
    (* the element at index lo + (z - p) *)
    destruct (nthN_Some vs (lo + (z - p)) ltac:(lia)) as (y & Hy).
    assert (y <= x) by (apply (sortedN_le vs HS (lo + (z - p)) j); auto).
    assert (y / 2 ^ l <= x / 2 ^ l) by (apply N.div_le_mono; assumption).
    assert (v / 2 ^ l <= y / 2 ^ l).
    { apply N.div_le_mono; [assumption|]. apply (sortedN_le vs HS lo (lo + (z - p))); auto. lia. }
    destruct (N.eq_dec (v / 2 ^ l) (y / 2 ^ l)) as [EQ|]; [|lia]. exfalso.
    pose proof (nthN_fpos _ _ _ _ _ (ONE _ y Hy)) as (_ & T & _).
    replace (y / 2 ^ l + (lo + (z - p))) with z in T by (unfold p; unfold p in Z1; lia). rewrite T in Z2. discriminate.
  - intros j Hj. pose proof (OF j Hj) as O. apply nthN_lt in O. rewrite FP, lenN_hpos in O. assumption.
Qed.

Theorem fef_scan_ok c vs lo hi id : efc_rep c vs -> sortedN vs -> lo < hi -> hi <= lenN vs -> id < 2 ^ 64 ->
  exists r, fef_scan c lo hi id (pv vs lo) = Ok r /\ found vs lo hi id r.
Proof.
  intros R HS Hlo Hhi Hid. pose proof R as (VH & NH & Hl & Hn & HN & VR & FP & DO & LO & HF & HB).
  destruct (nthN_Some vs lo ltac:(lia)) as (v & Hv). pose proof (HB v (nthN_In _ _ _ Hv)) as HBv.
  pose proof (pv_le vs lo v HS Hv) as PL.
  assert (P0 : 2 ^ e_l c <> 0) by (apply N.pow_nonzero; lia).
  assert (PD : pv vs lo / 2 ^ e_l c <= v / 2 ^ e_l c) by (apply N.div_le_mono; assumption).
  unfold fef_scan. rewrite shr_div, shr_div. rewrite add64_small by lia.
  destruct (uit_new_ok _ _ _ (lo + pv vs lo / 2 ^ e_l c) VR) as (it0 & E0 & A0 & _). { unfold words_for. dlia. }
  rewrite E0. cbn [bind].
  assert (Q : nthN (fpos (N.testbit VH) (lo + pv vs lo / 2 ^ e_l c) NH) 0 = Some (v / 2 ^ e_l c + lo)).
  { rewrite (ones_from c vs VH NH R VR FP) by lia. rewrite N.add_0_r. apply hpos_some. assumption. }
  destruct (uit_next_ok (e_high c) VH NH it0 _ _ VR ltac:(unfold words_for; dlia) A0 Q) as (it1 & E1 & A1 & U1).
  rewrite E1. cbn [bind].
  assert (SZ : v_size (e_high c) = NH) by (destruct VR as (_ & _ & _ & _ & <-); reflexivity).
  destruct (scan_high_ok c vs VH NH hi (id / 2 ^ e_l c) R VR FP Hhi (S (N.to_nat (v_size (e_high c)))) it1 lo v Hlo ltac:(rewrite SZ; lia) Hv A1 U1)
    as [(E2 & G)|(it2 & lo2 & v2 & E2 & B1 & B2 & B3 & B4 & B5 & B6)]; rewrite E2; cbn [bind].
  - exists not_found. split; [reflexivity|]. right. split; [reflexivity|]. intros p Hp Hx. specialize (G p id Hp Hx). lia.
  - pose proof (HB v2 (nthN_In _ _ _ B2)) as HBv2. pose proof (nthN_lt _ _ _ B2) as Hl2.
    rewrite sub64_add by (apply (lt_chain _ _ _ _ (2 ^ 64) Hl2 HBv2); lia).
    destruct (N.ltb_spec (id / 2 ^ e_l c) (v2 / 2 ^ e_l c)) as [LT|GE].
    + exists not_found. split; [reflexivity|]. right. split; [reflexivity|]. intros p Hp Hx.
      destruct (N.lt_ge_cases p lo2) as [L|L]; [specialize (B6 p id ltac:(lia) Hx); lia|].
      assert (v2 <= id) by (apply (sortedN_le vs HS lo2 p); auto).
      assert (v2 / 2 ^ e_l c <= id / 2 ^ e_l c) by (apply N.div_le_mono; assumption). lia.
    + assert (HE : v2 / 2 ^ e_l c = id / 2 ^ e_l c) by lia.
      rewrite shlU_ok by assumption. cbn [bind]. rewrite land_mask by assumption.
      destruct (zero_after c vs VH NH lo2 v2 R VR FP HS B2) as (z & Z1 & Z2 & Z3 & Z4 & Z5).
      set (p2 := v2 / 2 ^ e_l c + lo2) in *.
      destruct (uit_skip0_ok (e_high c) VH NH it2 (p2 + 1) 1 z VR ltac:(unfold words_for; dlia) B4 ltac:(lia)) as (it3 & E3 & U3).
      { rewrite B5. exact Z2. }
      rewrite E3. cbn [bind]. rewrite U3. rewrite !sub64_small by lia.
      set (run := N.min (z - p2) (hi - lo2)).
      assert (A : low_at (e_l c) vs (if e_l c =? 0 then d_pos (e_d1 c) else 0) 0 lo2).
      { unfold low_at. destruct DO as [D1 _]. rewrite lenN_hpos in D1. destruct (N.eqb_spec (e_l c) 0); [lia|]. split; [lia|]. intros j Hj. lia. }
      destruct (scan_low_ok c vs id R HS Hid (N.to_nat run) _ 0 lo2 A) as (r & Er & F); rewrite ?N2Nat.id in *.
      * unfold run. lia.
      * intros j x Hj Hx. rewrite <- HE. apply (Z3 j x); [lia|unfold run in Hj; lia|assumption].
      * exists r. split; [exact Er|]. destruct F as [[F1 F2]|[F1 F2]]; [left; split; [unfold run in F1; lia|assumption]|right].
        split; [assumption|]. intros j Hj Hx.
        destruct (N.lt_ge_cases j lo2) as [L|L]; [specialize (B6 j id ltac:(lia) Hx); lia|].
        destruct (N.lt_ge_cases j (lo2 + run)) as [L'|L']; [exact (F2 j ltac:(lia) Hx)|].
        assert (v2 / 2 ^ e_l c < id / 2 ^ e_l c) by (apply (Z4 j id); [unfold run in L'; lia|assumption]). lia.
Qed.
