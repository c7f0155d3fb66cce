(** * Proofs for compact_elias_fano: histories of calls *)
From Verif Require Import Prelude BitFacts M_Word P_Word M_Bits Spec P_Bits P_Builder P_Cursor P_BitProg P_EF P_HashVec P_CompactVector
  M_CompactVector M_Codes Spec_Codes P_Codes M_FastEF M_Pef M_CEF Spec_CEF P_Pef1 P_CEF1 P_CEF2 P_DArray.

(** a field of a run of fields *)
Lemma flds_bit w : forall xs k i, i < w -> bit_at (flds w xs) (k * w + i) = match nthN xs k with Some x => N.testbit x i | None => false end.
Proof.
  induction xs as [|x xs IH]; intros k i Hi.
  - rewrite nthN_None by (rewrite lenN_nil; lia). apply bit_at_oob. apply N.le_0_l.
  - unfold flds in *. cbn [map concat]. rewrite bit_at_app, lenN_bits_of, bit_at_bits_of. destruct (N.eq_dec k 0) as [->|Hk].
    + rewrite N.mul_0_l, N.add_0_l. destruct (N.ltb_spec i w); [|lia]. cbn [andb]. reflexivity.
    + destruct (N.ltb_spec (k * w + i) w); [exfalso; nia|]. replace (k * w + i - w) with ((k - 1) * w + i) by nia. rewrite IH by exact Hi.
      rewrite (nthN_S x xs k) by lia. reflexivity.
Qed.

Lemma field_flds A C w xs k x : nthN xs k = Some x -> x < 2 ^ w -> field (num_of (A ++ flds w xs ++ C)) (lenN A + k * w) w = x.
Proof.
  intros Hk Hx. apply tb_eq. intros i. rewrite tb_field. destruct (N.ltb_spec i w) as [L|L]; cbn [andb].
  - rewrite tb_num_of, bit_at_app. destruct (N.ltb_spec (i + (lenN A + k * w)) (lenN A)); [lia|]. rewrite bit_at_app, flds_len.
    pose proof (nthN_lt _ _ _ Hk). destruct (N.ltb_spec (i + (lenN A + k * w) - lenN A) (lenN xs * w)); [|exfalso; nia].
    replace (i + (lenN A + k * w) - lenN A) with (k * w + i) by lia. rewrite flds_bit by exact L. rewrite Hk. reflexivity.
  - symmetry. apply (tb_lt x w); assumption.
Qed.

(** counting the elements of a prefix *)
Lemma count_prefix {T} (P : T -> bool) : forall vs c, c <= lenN vs -> (forall j y, nthN vs j = Some y -> P y = (j <? c)) -> lenN (filter P vs) = c.
Proof.
  induction vs as [|x vs IH]; intros c Hc HP; [cbn [filter]; change (lenN (@nil T)) with 0 in *; lia|]. rewrite lenN_cons in Hc. cbn [filter].
  pose proof (HP 0 x eq_refl) as H0. destruct (N.eq_dec c 0) as [->|Nc].
  - rewrite H0. change (0 <? 0) with false. cbv iota. apply IH; [lia|]. intros j y Hy. rewrite (HP (j + 1) y); [destruct (N.ltb_spec (j + 1) 0); destruct (N.ltb_spec j 0); lia || reflexivity|]. rewrite nthN_S by lia. replace (j + 1 - 1) with j by lia. exact Hy.
  - rewrite H0. destruct (N.ltb_spec 0 c); [|lia]. rewrite lenN_cons, (IH (c - 1)); [lia|lia|].
    intros j y Hy. rewrite (HP (j + 1) y); [|rewrite nthN_S by lia; replace (j + 1 - 1) with j by lia; exact Hy].
    destruct (N.ltb_spec (j + 1) c); destruct (N.ltb_spec j (c - 1)); try reflexivity; lia.
Qed.

Section Inst.
Variable v : bv.
Variables l l2 : list bool.
Variable u : N.
Variable vs : list N.
Variable x0 : N.
Hypothesis R : vrepl v (l ++ gcode u vs ++ l2).
Hypothesis Hn : 0 < lenN vs < 2 ^ 40.
Hypothesis Hu : u < 2 ^ 57.
Hypothesis HS : sortedN vs.
Hypothesis HF : Forall (fun x => x < u) vs.
Hypothesis Hx0 : x0 < 2 ^ 64.
Hypothesis HT : lenN (l ++ gcode u vs ++ l2) < 2 ^ 62.
Notation n := (lenN vs).
Notation lb := (clb u (lenN vs)).
Notation ps := (cps u (lenN vs)).
Notation OO := (gof (lenN l) u (lenN vs)).
Notation l1 := (l ++ ptrs u (lenN vs) vs (u / 2 ^ clb u (lenN vs) + 2)).

Lemma R1 : vrepl v (l1 ++ cef_code u vs ++ l2).
Proof. unfold gcode in R. rewrite <- !app_assoc in *. exact R. Qed.
Lemma HT1 : lenN (l1 ++ cef_code u vs ++ l2) < 2 ^ 62.
Proof. unfold gcode in HT. rewrite <- !app_assoc in *. exact HT. Qed.
Lemma l1_len : lenN l1 = lenN l + cp0 u n * ps + cp1 n * ps.
Proof. rewrite lenN_app, ptrs_len. lia. Qed.

Lemma pointer_ok A C xs off k x : l ++ gcode u vs ++ l2 = A ++ flds ps xs ++ C -> off = lenN A -> k <> 0 -> nthN xs (k - 1) = Some x -> x < 2 ^ ps ->
  cen_pointer v [x0] OO off k = Ok x.
Proof.
  intros E -> Hk Hx Lx. unfold cen_pointer. destruct (N.eqb_spec k 0) as [?|_]; [contradiction|]. cbn [gof of_ps]. destruct (cps_bound u n Hn Hu) as (_ & P2 & _).
  pose proof R as R'. unfold vrepl in R'. rewrite E in R'.
  destruct (word56_ok v _ _ x0 (lenN A + (k - 1) * ps) ps R' Hx0) as (w & E1 & E2); [clear - P2; lia| |].
  { rewrite !lenN_app, flds_len. pose proof (nthN_lt _ _ _ Hx) as L. revert L. generalize (k - 1) (lenN xs) ps. clear. intros. nia. }
  rewrite E1. cbn [bind]. rewrite shlU_ok by (clear - P2; lia). cbn [bind].
  replace (sub64 (shl 1 ps) 1) with (N.ones ps).
  2: { unfold shl. rewrite N.shiftl_1_l, w64_small by (apply N.pow_lt_mono_r; clear - P2; lia). assert (1 <= 2 ^ ps) by (apply N.neq_0_lt_0 in Hk; clear; pose proof (N.pow_nonzero 2 ps ltac:(lia)); lia).
       rewrite sub64_small by (try exact H; apply N.pow_lt_mono_r; clear - P2; lia). rewrite N.ones_equiv. symmetry. apply N.sub_1_r. }
  rewrite E2. rewrite (field_flds A C ps xs (k - 1) x Hx Lx). reflexivity.
Qed.

Lemma hp1 k y : k <> 0 -> nthN vs (256 * k) = Some y -> cen_pointer v [x0] OO (of_p1o OO) k = Ok (hp lb y + 256 * k + 1).
Proof.
  intros Hk Hy. destruct (cps_bound u n Hn Hu) as (P1 & P2 & P3). pose proof (nthN_lt _ _ _ Hy) as L.
  apply (pointer_ok (l ++ flds ps (map (ptr0 lb vs (u / 2 ^ lb + 2)) (range (cp0 u n)))) (cef_code u vs ++ l2) (map (ptr1 lb vs) (range (cp1 n)))).
  - unfold gcode, ptrs. rewrite <- !app_assoc. reflexivity.
  - cbn [gof of_p1o]. rewrite lenN_app, flds_len, lenN_map, lenN_range. reflexivity.
  - exact Hk.
  - rewrite nthN_map. destruct (N.lt_ge_cases (k - 1) (cp1 n)) as [K|K].
    + rewrite nthN_range by exact K. cbn [option_map]. f_equal. unfold ptr1. replace (k - 1 + 1) with k by lia. rewrite Hy. reflexivity.
    + exfalso. unfold cp1 in K. assert (k <= n / 256) by (apply N.div_le_lower_bound; lia). lia.
  - assert (y < u) by (eapply Forall_forall in HF; [exact HF|eapply nthN_In; exact Hy]). pose proof (hpart_mono lb y u ltac:(lia)) as HM. unfold hpart in HM.
    unfold chl in P1. change (hp lb y) with (y / 2 ^ lb). revert HM P1 L. generalize (y / 2 ^ lb) (u / 2 ^ lb) (2 ^ ps). clear. intros. lia.
Qed.
Lemma hp0 k c : k <> 0 -> 512 * k <= hp lb u -> c <= n -> (forall j y, nthN vs j = Some y -> (512 * k <=? hp lb y) = (c <=? j)) ->
  cen_pointer v [x0] OO (of_p0o OO) k = Ok (c + 512 * k).
Proof.
  intros Hk HK Hc HC. destruct (cps_bound u n Hn Hu) as (P1 & P2 & P3).
  assert (BL : below lb vs (512 * k) = c).
  { unfold below. apply count_prefix; [exact Hc|]. intros j y Hy. pose proof (HC j y Hy) as E. change (hpart lb y) with (hp lb y). rewrite (N.ltb_antisym (512 * k)), E, (N.ltb_antisym c). reflexivity. }
  assert (KB : k <= cp0 u n) by (apply cp0_bound; change (u / 2 ^ lb) with (hp lb u); lia).
  replace (c + 512 * k) with (ptr0 lb vs (u / 2 ^ lb + 2) (k - 1)).
  2: { unfold ptr0. replace (k - 1 + 1) with k by lia. change (u / 2 ^ lb) with (hp lb u). destruct (N.ltb_spec (512 * k) (hp lb u + 2)); lia. }
  apply (pointer_ok l (flds ps (map (ptr1 lb vs) (range (cp1 n))) ++ cef_code u vs ++ l2) (map (ptr0 lb vs (u / 2 ^ lb + 2)) (range (cp0 u n)))).
  - unfold gcode, ptrs. rewrite <- !app_assoc. reflexivity.
  - reflexivity.
  - exact Hk.
  - rewrite nthN_map, nthN_range by lia. reflexivity.
  - unfold ptr0. replace (k - 1 + 1) with k by lia. rewrite BL. change (u / 2 ^ lb) with (hp lb u). destruct (N.ltb_spec (512 * k) (hp lb u + 2)); [|lia].
    unfold chl in P1. change (u / 2 ^ lb) with (hp lb u) in P1. revert HK P1 Hc. generalize (hp lb u) (2 ^ ps). clear. intros. lia.
Qed.

Notation CST := (cst v l1 l2 u vs OO).
Lemma call_step c i o : CST c i -> call_ok vs u i o ->
  exists c', cen_call v [x0] c o = Ok (answer vs u i o, c') /\ CST c' (position_after vs u i o).
Proof.
  intros C HO. assert (VA : forall c j, CST c j -> ce_pos c = j /\ ce_val c = value_at vs u j /\ j <= n).
  { intros d j (D1 & D2 & D3). split; [exact D2|]. unfold value_at. destruct D3 as [(it & T1 & _)|(T1 & T2)].
    - rewrite T1. split; [reflexivity|]. apply nthN_lt in T1. lia.
    - rewrite nthN_None by lia. split; [exact T2|lia]. }
  assert (OL : of_lo OO = lenN l1 + chl u n) by (rewrite l1_len; reflexivity).
  assert (OH : of_ho OO = lenN l1) by (rewrite l1_len; reflexivity).
  destruct (VA _ _ C) as (C1 & C2 & C3). destruct o as [p|x| |]; cbn [cen_call call_ok position_after answer] in *.
  - destruct (cen_move_ok v l1 l2 u vs x0 R1 Hn Hu HS HF Hx0 HT1 OO eq_refl eq_refl eq_refl eq_refl OH OL hp1 hp0 c i p C HO) as (c' & E & C').
    rewrite E. cbn [bind]. destruct (VA _ _ C') as (D1 & D2 & _). rewrite D1, D2. exists c'. split; [reflexivity|exact C'].
  - destruct (cen_next_geq_ok v l1 l2 u vs x0 R1 Hn Hu HS HF Hx0 HT1 OO eq_refl eq_refl eq_refl eq_refl OH OL hp1 hp0 c i x C HO) as (c' & j & E & C' & J1 & J2).
    rewrite E. cbn [bind]. destruct (VA _ _ C') as (D1 & D2 & _). rewrite D1, D2. exists c'.
    assert (EJ : (if x =? value_at vs u i then i else lower_bound vs x) = j).
    { destruct (N.eqb_spec x (value_at vs u i)) as [Q|Q]; [symmetry; apply J1; congruence|]. destruct J2 as (J2 & J3); [congruence|].
      unfold lower_bound. apply count_prefix; [exact J2|]. intros k y Hy. rewrite (N.ltb_antisym x y), (N.ltb_antisym j k). f_equal. apply (J3 k y Hy). }
    rewrite EJ. split; [reflexivity|exact C'].
  - destruct (cen_next_ok v l1 l2 u vs x0 R1 Hn Hu HS HF Hx0 HT1 OO eq_refl eq_refl eq_refl eq_refl OH OL hp1 hp0 c i C HO) as (c' & E & C').
    rewrite E. cbn [bind]. destruct (VA _ _ C') as (D1 & D2 & _). rewrite D1, D2. exists c'. split; [reflexivity|exact C'].
  - rewrite (cen_prev_ok v l1 l2 u vs x0 R1 Hn Hu HS HF Hx0 HT1 OO eq_refl eq_refl eq_refl eq_refl OH OL hp1 hp0 c i C). cbn [bind]. rewrite C1. exists c. split; [reflexivity|exact C].
Qed.

Lemma calls_step : forall os c i, CST c i -> calls_ok vs u i os -> cen_calls v [x0] c os = Ok (answers vs u i os).
Proof.
  induction os as [|o os IH]; intros c i C H; [reflexivity|]. destruct H as (H1 & H2). destruct (call_step c i o C H1) as (c' & E & C').
  cbn [cen_calls answers]. rewrite E. destruct (answer vs u i o) as [p y]. cbn [bind]. cbv beta iota. rewrite (IH _ _ C' H2). reflexivity.
Qed.

Lemma calls_run os c : calls_ok vs u n os -> cen_new (lenN l) u n = Ok c -> cen_calls v [x0] c os = Ok (answers vs u n os).
Proof.
  intros H E. unfold cen_new in E. rewrite gof_new_ok in E by (lia || assumption). cbn [bind] in E. injection E as <-. apply calls_step; [|exact H].
  split; [reflexivity|]. split; [reflexivity|]. right. split; reflexivity.
Qed.
End Inst.

(** ** unsorted lists *)
Lemma first_descent : forall b a, sortedN a -> ~ sortedN (a ++ b) -> exists b1 x b2, b = b1 ++ x :: b2 /\ sortedN (a ++ b1) /\ exists y, nthN (a ++ b1) (lenN (a ++ b1) - 1) = Some y /\ x < y.
Proof.
  induction b as [|x b IH]; intros a S NS; [rewrite app_nil_r in NS; contradiction|].
  assert (D : sortedN (a ++ [x]) \/ exists y, nthN a (lenN a - 1) = Some y /\ x < y).
  { destruct (nthN a (lenN a - 1)) as [y|] eqn:E.
    - destruct (N.lt_ge_cases x y) as [L|L]; [right; exists y; auto|left].
      intros i p q Hp Hq. pose proof (nthN_lt _ _ _ Hq) as LQ. rewrite lenN_app in LQ. change (lenN [x]) with 1 in LQ. pose proof (nthN_lt _ _ _ E) as LE.
      rewrite nthN_app1 in Hp by lia. destruct (N.eq_dec (i + 1) (lenN a)) as [Q|Q].
      + rewrite Q, nthN_snoc in Hq. injection Hq as <-. replace (lenN a - 1) with i in E by lia. congruence.
      + rewrite nthN_app1 in Hq by lia. exact (S i p q Hp Hq).
    - left. destruct a as [|z a]; [|exfalso; destruct (nthN_Some (z :: a) (lenN (z :: a) - 1)) as (w & Hw); [rewrite lenN_cons; lia|congruence]].
      intros i p q Hp Hq. apply nthN_lt in Hq. cbn [app] in Hq. change (lenN [x]) with 1 in Hq. lia. }
  destruct D as [D|(y & E & L)].
  - destruct (IH (a ++ [x]) D) as (b1 & z & b2 & Eb & S1 & y & Y1 & Y2); [rewrite <- app_assoc; exact NS|].
    rewrite <- app_assoc in S1, Y1. exists (x :: b1), z, b2. split; [rewrite Eb; reflexivity|]. split; [exact S1|]. exists y. split; [exact Y1|exact Y2].
  - exists [], x, b. split; [reflexivity|]. rewrite app_nil_r. split; [exact S|]. exists y. auto.
Qed.

Lemma gwrite_unsorted b l vs u : brepl b l -> lenN vs < 2 ^ 40 -> u < 2 ^ 57 -> lenN l < 2 ^ 61 -> Forall (fun x => x < u) vs -> ~ sortedN vs ->
  cef_write b vs u = Throw.
Proof.
  intros R Hn0 Hu HL F NS. destruct (first_descent vs [] (fun i x y H => ltac:(apply nthN_lt in H; rewrite lenN_nil in H; lia)) NS) as (b1 & x & b2 & Eb & S1 & y & Y1 & Y2).
  cbn [app] in S1, Y1. assert (Hn : 0 < lenN vs < 2 ^ 40). { split; [|exact Hn0]. rewrite Eb, lenN_app, lenN_cons. lia. }
  unfold cef_write. pose proof R as R'. destruct R' as (_ & _ & _ & _ & R5 & _). rewrite R5. rewrite gof_new_ok by (lia || assumption). cbn [bind].
  pose proof (ginit_ok b l vs u R Hn Hu HL) as G. cbv zeta in G. set (n := lenN vs) in *. set (s0 := mkcws _ 0 0 0) in *.
  assert (LB : lenN b1 < n) by (unfold n; rewrite Eb, lenN_app, lenN_cons; lia). rewrite Eb. rewrite foldM_app.
  destruct (gsteps_ok l u n Hn Hu ltac:(change (2 ^ 62) with 4611686018427387904; change (2 ^ 61) with 2305843009213693952 in HL; lia) b1 [] s0) as (s & E & (I1 & I2 & I3 & I4)).
  - change (lenN (@nil N)) with 0. lia.
  - cbn [app]. rewrite Eb in F. apply Forall_app in F. apply F.
  - exact S1.
  - exact G.
  - rewrite E. cbn [bind foldM app] in *. unfold cef_step at 1. rewrite I2. pose proof (nthN_lt _ _ _ Y1) as LY.
    destruct I3 as [J|J]; [congruence|]. assert (cw_last s = y) by congruence. rewrite H.
    destruct (N.eqb_spec (lenN b1) 0); [lia|]. destruct (N.ltb_spec x y); [|lia]. reflexivity.
Qed.
