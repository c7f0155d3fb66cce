(** * fast_ef_sequence: find on an empty range, every case *)
From Verif Require Import Prelude BitFacts M_Word P_Word M_Bits Spec P_Bits P_Builder P_Cursor P_BitProg
  M_CompactVector P_CompactVector M_DArray P_DArray M_EF P_EF P_EF2 M_HashVec M_Mph P_Mph P_MphTables M_FastEF P_FastEF P_FastEF2 P_FastEF3 P_FastEF4.
Local Open Scope N_scope.

(** the scan for the next one runs off the words when there is none *)
Lemma next_loop_none F ws : reads F false ws -> 64 * lenN ws < 2 ^ 64 ->
  forall fuel pos p buf, buf_at F (pos / 64) p buf -> pos / 64 < lenN ws -> fpos F p (64 * lenN ws) = [] -> next_loop fuel ws pos buf = UB.
Proof.
  intros HR HL. induction fuel as [|fuel IH]; intros pos p buf Hb Hpos Hq; [reflexivity|].
  cbn [next_loop]. pose proof (buf_ones _ _ _ _ Hb) as BO. pose proof Hb as [Hp Hbits].
  rewrite (fpos_split F p (64 * (pos / 64) + 64)) in Hq by lia. apply app_eq_nil in Hq. destruct Hq as [Q1 Q2]. rewrite Q1 in BO.
  destruct (lsb_opt buf) as [r|] eqn:El.
  - exfalso. apply lsb_opt_spec in El as EL2. destruct EL2 as [S1 _]. rewrite Hbits in S1. destruct (N.ltb_spec r 64) as [L|]; [|discriminate].
    assert (X : nthN (fpos F p (64 * (pos / 64) + 64)) 0 <> None).
    { cbn [andb] in S1. apply andb_prop in S1. destruct S1 as [S1 S2]. apply N.leb_le in S1. intros X. rewrite (fpos_split F p (64 * (pos / 64) + r)) in X by lia.
      rewrite (fpos_cons F (64 * (pos / 64) + r)) in X by lia. rewrite S2 in X. destruct (fpos F p (64 * (pos / 64) + r)); discriminate. }
    rewrite Q1 in X. apply X. reflexivity.
  - apply lsb_opt_none in El. subst buf.
    assert (PN : add64 pos 64 = pos + 64) by (apply add64_small; dlia). rewrite PN, shr6.
    assert (PB : (pos + 64) / 64 = pos / 64 + 1) by dlia. rewrite PB.
    destruct (N.lt_ge_cases (pos / 64 + 1) (lenN ws)) as [NB|NB].
    + rewrite rd_wd by assumption. cbn [bind]. apply (IH (pos + 64) (64 * (pos / 64 + 1))); rewrite ?PB; auto.
      * apply (buf_next F false ws); assumption.
      * replace (64 * (pos / 64 + 1)) with (64 * (pos / 64) + 64) by lia. exact Q2.
    + assert (RD : rd ws (pos / 64 + 1) = UB) by (unfold rd; destruct (N.ltb_spec (pos / 64 + 1) (lenN ws)); [lia|reflexivity]). rewrite RD. reflexivity.
Qed.
Lemma uit_next_none v V n it p : vrep v V n -> 64 * words_for n < 2 ^ 64 -> uit_at v V it p -> fpos (N.testbit V) p n = [] -> uit_next v it = UB.
Proof.
  intros HR HS [HB HP] Hq. pose proof HR as (H1 & H2 & H3 & H4 & H5). rewrite <- H2 in HS. unfold uit_next.
  assert (Z : fpos (N.testbit V) p (64 * lenN (v_bits v)) = []).
  { destruct (N.le_gt_cases p n) as [L|L].
    - rewrite (fpos_split _ p n) by (unfold words_for in H2; dlia). rewrite Hq. cbn [app]. apply fpos_none. intros i Hi. apply (tb_lt V n); [exact H4|lia].
    - apply fpos_none. intros i Hi. apply (tb_lt V n); [exact H4|lia]. }
  rewrite (next_loop_none _ _ (reads_bits v V n HR) HS _ (u_pos it) p (u_buf it) HB ltac:(dlia) Z). reflexivity.
Qed.
Lemma ones_end c vs VH NH : efc_rep c vs -> vrep (e_high c) VH NH -> fpos (N.testbit VH) 0 NH = hpos (e_l c) 0 vs ->
  fpos (N.testbit VH) (lenN vs + pv vs (lenN vs) / 2 ^ e_l c) NH = [].
Proof.
  intros R VR FP. assert (P0 : 2 ^ e_l c <> 0) by (apply N.pow_nonzero; lia). unfold pv. destruct (N.eqb_spec (lenN vs) 0) as [E|NZ].
  - rewrite N.div_0_l by exact P0. rewrite N.add_0_r, E, FP. destruct vs; [reflexivity|rewrite lenN_cons in E; lia].
  - destruct (nthN_Some vs (lenN vs - 1) ltac:(lia)) as (x & Hx). rewrite Hx.
    pose proof (hpos_some (e_l c) vs _ x Hx) as HP. replace (lenN vs + x / 2 ^ e_l c) with (x / 2 ^ e_l c + (lenN vs - 1) + 1) by lia. set (q := x / 2 ^ e_l c + (lenN vs - 1)) in *.
    rewrite <- FP in HP. pose proof (fpos_from _ _ _ _ _ 1 HP) as X. apply nthN_fpos in HP. destruct HP as (Q1 & Q2 & _).
    rewrite (fpos_cons _ q), Q2 in X by lia. cbn [app] in X. rewrite nthN_S in X by lia. replace (lenN vs - 1 + 1) with (lenN vs) in X by lia.
    assert (Y : nthN (fpos (N.testbit VH) 0 NH) (lenN vs) = None).
    { rewrite FP. destruct (nthN (hpos (e_l c) 0 vs) (lenN vs)) as [z|] eqn:E; [|reflexivity]. apply nthN_lt in E. rewrite lenN_hpos in E. lia. }
    rewrite Y in X. change (1 - 1) with 0 in X. destruct (fpos (N.testbit VH) (q + 1) NH); [reflexivity|discriminate].
Qed.
Lemma ones_end' c vs VH NH x : efc_rep c vs -> vrep (e_high c) VH NH -> fpos (N.testbit VH) 0 NH = hpos (e_l c) 0 vs ->
  nthN vs (lenN vs - 1) = Some x -> fpos (N.testbit VH) (x / 2 ^ e_l c + (lenN vs - 1) + 1) NH = [].
Proof.
  intros R VR FP Hx. rewrite <- (ones_end c vs VH NH R VR FP). f_equal. pose proof (nthN_lt _ _ _ Hx). unfold pv. destruct (N.eqb_spec (lenN vs) 0); [lia|]. rewrite Hx. lia.
Qed.
Lemma scan_high_none c vs VH NH hi hid : efc_rep c vs -> vrep (e_high c) VH NH -> fpos (N.testbit VH) 0 NH = hpos (e_l c) 0 vs ->
  (forall p x, hi <= p -> nthN vs p = Some x -> x / 2 ^ e_l c < hid) -> forall fuel it lo v, hi <= lo -> nthN vs lo = Some v ->
  uit_at (e_high c) VH it (v / 2 ^ e_l c + lo + 1) -> scan_high fuel c it (v / 2 ^ e_l c + lo) lo hi hid = UB.
Proof.
  intros R VR FP HH. pose proof R as (VH' & NH' & Hl & Hn & HN & VR' & FP' & DO & LO & HF & HB).
  assert (NH' = NH) as -> by (destruct VR as (_ & _ & _ & _ & <-), VR' as (_ & _ & _ & _ & <-); reflexivity). clear VR' FP'.
  induction fuel as [|fuel IH]; intros it lo v Hlo Hv A; pose proof (HB v (nthN_In _ _ _ Hv)) as HBv; pose proof (nthN_lt _ _ _ Hv) as Llo;
    cbn [scan_high]; rewrite sub64_add by (apply (lt_chain _ _ _ _ (2 ^ 64) Llo HBv); lia); (destruct (N.ltb_spec (v / 2 ^ e_l c) hid) as [LT|GE]; [|specialize (HH lo v Hlo Hv); lia]); [reflexivity|].
  rewrite add64_small by lia. destruct (N.eqb_spec (lo + 1) hi) as [EH|NH1]; [lia|].
  destruct (N.eq_dec lo (lenN vs - 1)) as [E|E].
  - rewrite (uit_next_none (e_high c) VH NH it (v / 2 ^ e_l c + lo + 1) VR ltac:(unfold words_for; dlia) A); [reflexivity|]. rewrite E in *. apply (ones_end' c vs VH NH v R VR FP Hv).
  - destruct (nthN_Some vs (lo + 1) ltac:(lia)) as (v1 & Hv1).
    assert (Q : nthN (fpos (N.testbit VH) (v / 2 ^ e_l c + lo + 1) NH) 0 = Some (v1 / 2 ^ e_l c + (lo + 1))).
    { pose proof (ones_from c vs VH NH R VR FP (lo + 1) ltac:(lia) 0 ltac:(lia)) as O.
      replace (lo + 1 + pv vs (lo + 1) / 2 ^ e_l c) with (v / 2 ^ e_l c + lo + 1) in O.
      - rewrite O, N.add_0_r. apply hpos_some. assumption.
      - unfold pv. destruct (N.eqb_spec (lo + 1) 0); [lia|]. replace (lo + 1 - 1) with lo by lia. rewrite Hv. lia. }
    destruct (uit_next_ok (e_high c) VH NH it _ _ VR ltac:(unfold words_for; dlia) A Q) as (it' & E' & A' & U').
    rewrite E'. cbn [bind]. apply (IH it' (lo + 1) v1 ltac:(lia) Hv1 A').
Qed.
(** the other case of [fef_scan_empty_high] *)
Theorem fef_scan_empty_above c vs b id : efc_rep c vs -> sortedN vs -> b <= lenN vs -> (forall p x, b <= p -> nthN vs p = Some x -> x / 2 ^ e_l c < id / 2 ^ e_l c) ->
  fef_scan c b b id (pv vs b) = UB.
Proof.
  intros R HS Hb HH. pose proof R as (VH & NH & Hl & Hn & HN & VR & FP & DO & LO & HF & HB).
  assert (P0 : 2 ^ e_l c <> 0) by (apply N.pow_nonzero; lia).
  assert (PB : b + pv vs b / 2 ^ e_l c < 2 ^ 63 + 1).
  { unfold pv. destruct (N.eqb_spec b 0) as [->|NZ]; [rewrite N.div_0_l by exact P0; lia|]. destruct (nthN_Some vs (b - 1) ltac:(lia)) as (x & Hx). rewrite Hx. pose proof (HB x (nthN_In _ _ _ Hx)). lia. }
  unfold fef_scan. rewrite shr_div, shr_div. rewrite add64_small by lia.
  destruct (N.lt_ge_cases (b + pv vs b / 2 ^ e_l c) (64 * words_for NH)) as [L|L].
  - destruct (uit_new_ok _ _ _ (b + pv vs b / 2 ^ e_l c) VR L) as (it0 & E0 & A0 & _). rewrite E0. cbn [bind].
    destruct (N.eq_dec b (lenN vs)) as [E|NE].
    + rewrite (uit_next_none (e_high c) VH NH it0 _ VR ltac:(unfold words_for; dlia) A0); [reflexivity|]. rewrite E. apply (ones_end c vs VH NH R VR FP).
    + destruct (nthN_Some vs b ltac:(lia)) as (v & Hv).
      assert (Q : nthN (fpos (N.testbit VH) (b + pv vs b / 2 ^ e_l c) NH) 0 = Some (v / 2 ^ e_l c + b)).
      { rewrite (ones_from c vs VH NH R VR FP) by lia. rewrite N.add_0_r. apply hpos_some. assumption. }
      destruct (uit_next_ok (e_high c) VH NH it0 _ _ VR ltac:(unfold words_for; dlia) A0 Q) as (it1 & E1 & A1 & U1). rewrite E1. cbn [bind].
      rewrite (scan_high_none c vs VH NH b (id / 2 ^ e_l c) R VR FP HH _ it1 b v (N.le_refl _) Hv A1). reflexivity.
  - unfold uit_new. rewrite shr6. destruct VR as (_ & HW & _). assert (RD : rd (v_bits (e_high c)) ((b + pv vs b / 2 ^ e_l c) / 64) = UB) by (unfold rd; destruct (N.ltb_spec ((b + pv vs b / 2 ^ e_l c) / 64) (lenN (v_bits (e_high c)))); [dlia|reflexivity]). rewrite RD. reflexivity.
Qed.

(** find on an empty range: with [w] = id + the value before the range (64-bit sum) *)
Theorem fef_find_empty_any h f ids ptrs vs b id : fef_rep h f ids ptrs vs -> is_range ptrs b b -> let w := add64 id (pv vs b) in
  ((exists q y, b <= q /\ nthN vs q = Some y /\ w / 2 ^ e_l (f_core f) <= y / 2 ^ e_l (f_core f)) /\
   exists r, fef_find h f (b, b) id = Ok r /\
    (b < r /\ nthN vs r = Some w /\ (forall v, nthN vs b = Some v -> v / 2 ^ e_l (f_core f) < w / 2 ^ e_l (f_core f)) \/
     r = not_found /\ (forall p v, b < p -> nthN vs p = Some w -> nthN vs b = Some v -> v / 2 ^ e_l (f_core f) = w / 2 ^ e_l (f_core f)))) \/
  ((forall p x, b <= p -> nthN vs p = Some x -> x / 2 ^ e_l (f_core f) < w / 2 ^ e_l (f_core f)) /\ fef_find h f (b, b) id = UB).
Proof.
  intros FR R w. pose proof FR as (F1 & RC & V & SV & P & Hn & SA). pose proof V as (VL & _).
  pose proof (range_bounds ptrs _ b b P R) as B.
  pose proof RC as (VH & NH & Hl & _ & _ & _ & _ & _ & _ & HF & _).
  assert (F : fef_find h f (b, b) id = fef_scan (f_core f) b b w (pv vs b)).
  { unfold fef_find. rewrite sub64_small by lia. rewrite N.sub_diag. unfold sampling_threshold. cbn [N.leb N.compare].
    assert (PR : (if b =? 0 then Ok 0 else fef_get f (sub64 b 1)) = Ok (pv vs b)).
    { unfold pv, fef_get. destruct (N.eqb_spec b 0); [reflexivity|]. rewrite sub64_small by lia.
      destruct (nthN_Some vs (b - 1) ltac:(lia)) as (x & Hx). rewrite Hx. apply (efc_get_ok _ vs); assumption. }
    rewrite PR. cbn [bind]. change (bsearch_scan (S (N.to_nat 0)) (f_core f) b b) with (bsearch_scan 1 (f_core f) b b). cbn [bsearch_scan].
    rewrite sub64_small by lia. rewrite N.sub_diag. change (linear_scan_threshold <? 0) with false. reflexivity. }
  rewrite F. assert (W : w < 2 ^ 64) by apply w64_lt.
  assert (D : (exists q y, b <= q /\ nthN vs q = Some y /\ w / 2 ^ e_l (f_core f) <= y / 2 ^ e_l (f_core f)) \/ (forall p x, b <= p -> nthN vs p = Some x -> x / 2 ^ e_l (f_core f) < w / 2 ^ e_l (f_core f))).
  { destruct (N.eq_dec b (lenN vs)) as [->|NE]; [right; intros p x Hp Hx; apply nthN_lt in Hx; lia|].
    destruct (nthN_Some vs (lenN vs - 1) ltac:(lia)) as (y & Hy). destruct (N.lt_ge_cases (y / 2 ^ e_l (f_core f)) (w / 2 ^ e_l (f_core f))) as [L|L].
    - right. intros p x Hp Hx. pose proof (nthN_lt _ _ _ Hx). assert (x <= y) by (apply (sortedN_le vs SV p (lenN vs - 1)); auto; lia).
      apply N.le_lt_trans with (y / 2 ^ e_l (f_core f)); [apply N.div_le_mono; [apply N.pow_nonzero; lia|assumption]|exact L].
    - left. exists (lenN vs - 1), y. split; [lia|auto]. }
  destruct D as [(q & y & D1 & D2 & D3)|D].
  - left. split; [exists q, y; auto|]. apply (fef_scan_empty_high _ vs b w q y); auto.
  - right. split; [exact D|]. apply fef_scan_empty_above; auto. lia.
Qed.
(** the answer of find on any range of the sequence, whatever is searched for *)
Corollary fef_find_any h f ids ptrs vs b e id r : fef_rep h f ids ptrs vs -> is_range ptrs b e -> id < 2 ^ 64 -> fef_find h f (b, e) id = Ok r -> r = not_found \/ b <= r < lenN ids.
Proof.
  intros FR R Hid E. pose proof FR as (F1 & RC & V & SV & P & Hn & SA). pose proof V as (VL & _). pose proof (range_bounds ptrs _ b e P R) as B.
  destruct (N.lt_ge_cases b e) as [L|L].
  - destruct (fef_find_ok h f ids ptrs vs b e id FR R L Hid) as (r' & Er & SR). assert (r' = r) by congruence. subst r'.
    destruct SR as [[H _]|[H _]]; [right; lia|left; assumption].
  - assert (e = b) by lia. subst e. destruct (fef_find_empty_any h f ids ptrs vs b id FR R) as [(_ & r' & Er & D)|(_ & X)]; [|congruence].
    assert (r' = r) by congruence. subst r'. destruct D as [(H1 & H2 & _)|(H & _)]; [right; apply nthN_lt in H2; lia|left; assumption].
Qed.
