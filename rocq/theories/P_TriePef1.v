(** * Tries over uniform_pef: gram sequences and rank sequences *)
From Verif Require Import Prelude BitFacts M_Word P_Word M_Bits Spec P_Bits M_CompactVector P_CompactVector M_DArray M_EF P_EF P_EF2
  M_HashVec M_Mph P_Mph P_MphTables M_FastEF P_FastEF P_FastEF3 M_Text P_Text P_Text2 M_SeqColl P_SeqColl M_Pool P_Pool M_Pef P_Pef3 P_Pef4 P_Pef5 P_Pef6 Spec_Pef
  M_Trie M_TriePef Spec_Trie P_Trie1 P_Trie2 P_Trie3 P_Trie4.
From Coq Require Import Permutation Sorting.Sorted.

(** ** stored values *)
Lemma vals_bound vs ids ptrs M : pointers_for ptrs (lenN ids) -> values_of vs ids ptrs -> Forall (fun v => v <= M) ids ->
  forall k x, nthN vs k = Some x -> x <= (k + 1) * M.
Proof.
  intros P (VL & VO) HF k. induction k as [k IH] using (well_founded_induction N.lt_wf_0). intros x Hx.
  pose proof (nthN_lt _ _ _ Hx) as L. rewrite VL in L. destruct (nthN_Some ids k L) as (id & Hid). pose proof (Forall_nthN _ _ _ _ HF Hid) as HM. cbv beta in HM.
  destruct (in_some_range ptrs (lenN ids) P k L) as (b & e & R & B1 & B2).
  rewrite (VO b e k id R (conj B1 B2) Hid) in Hx. injection Hx as <-. unfold pv. destruct (N.eqb_spec b 0); [lia|].
  destruct (nthN vs (b - 1)) as [y|] eqn:Ey; [|lia]. pose proof (IH (b - 1) ltac:(lia) y Ey) as Hy. replace (b - 1 + 1) with b in Hy by lia.
  assert (b * M <= k * M) by (apply N.mul_le_mono_r; lia). lia.
Qed.

(** ** rank sequences *)
Lemma prefix_sums_facts vs : sumN vs < 2 ^ 56 -> sortedN (prefix_sums 0 vs) /\ Forall (fun x => x < 2 ^ 56) (prefix_sums 0 vs) /\
  forall i, i < lenN vs -> nthN (prefix_sums 0 vs) i = Some (sumN (firstn (N.to_nat (i + 1)) vs)).
Proof.
  intros HB. assert (NP : forall i, i < lenN vs -> nthN (prefix_sums 0 vs) i = Some (sumN (firstn (N.to_nat (i + 1)) vs))).
  { intros i Hi. rewrite nthN_prefix_sums by (auto; lia). reflexivity. }
  split; [|split; [|exact NP]].
  - intros i x y Hx Hy. pose proof (nthN_lt _ _ _ Hy) as Ly. rewrite lenN_prefix_sums in Ly.
    rewrite NP in Hx, Hy by lia. injection Hx as <-. injection Hy as <-.
    destruct (nthN_Some vs (i + 1) Ly) as (v & Hv). rewrite (firstn_succ vs (i + 1) v Hv), sumN_app. lia.
  - apply Forall_forall. intros x Hx. destruct (In_nthN _ _ Hx) as (i & Hi). pose proof (nthN_lt _ _ _ Hi) as L. rewrite lenN_prefix_sums in L.
    rewrite NP in Hi by exact L. injection Hi as <-. pose proof (sumN_firstn_le (N.to_nat (i + 1)) vs). lia.
Qed.
Definition one_pad (p : pads) : Prop := exists x0 x1, p = mkpads [x0] [x1] /\ x0 < 2 ^ 64 /\ x1 < 2 ^ 64.
(** a rank sequence that answers [vs], whatever was asked before *)
Definition rseq_good (env : penv) (k : N) (vs : list N) (r : rseq) : Prop := exists I : rseq -> Prop, I r /\
  forall r', I r' -> forall i v, nthN vs i = Some v -> exists r'', rk_get env k r' i = Ok (v, r'') /\ I r''.
Lemma rseq_get env k vs r i v : rseq_good env k vs r -> nthN vs i = Some v -> exists r', rk_get env k r i = Ok (v, r') /\ rseq_good env k vs r'.
Proof. intros (I & H1 & H2) Hv. destruct (H2 r H1 i v Hv) as (r' & E & HI). exists r'. split; [exact E|]. exists I. auto. Qed.

Lemma rk_build_ok env k vs order n : vs <> [] -> lenN vs < 2 ^ 31 -> Forall (fun v => v < n) vs -> n <= lenN vs ->
  (pe_pspef env = true -> lenN vs * n < 2 ^ 56 /\ one_pad (pe_rpad env k)) ->
  exists r, rk_build env k vs order = Ok r /\ rseq_good env k vs r.
Proof.
  intros NE L F Hn HP. unfold rk_build. destruct (pe_pspef env) eqn:EP.
  2:{ destruct (ranks_build_ok (te_kind (pe_t env)) vs order NE L) as (r & E & R). { eapply Forall_impl; [|exact F]. cbv beta. intros; lia. }
      rewrite E. cbn [bind]. eexists. split; [reflexivity|]. exists (eq (RR r)). split; [reflexivity|]. intros r' <- i v Hv. cbn [rk_get]. rewrite (R i v Hv). cbn [bind].
      eexists. split; reflexivity. }
  destruct (HP eq_refl) as (HM & x0 & x1 & EPD & Hx0 & Hx1). assert (L0 : 0 < lenN vs) by (destruct vs; [congruence|rewrite lenN_cons; lia]).
  assert (SB : forall m, sumN (firstn m vs) <= lenN vs * n).
  { intros m. pose proof (sumN_firstn_le m vs). enough (sumN vs <= lenN vs * n) by lia. clear - F. induction vs as [|v vs IH]; [apply N.le_0_l|].
    pose proof (Forall_inv F) as F1. cbv beta in F1. rewrite sumN_cons, lenN_cons. specialize (IH (Forall_inv_tail F)). lia. }
  assert (SV : sumN vs < 2 ^ 56). { pose proof (SB (length vs)) as X. rewrite firstn_all in X. lia. }
  destruct (prefix_sums_facts vs SV) as (SS & SF & NP). set (ps := prefix_sums 0 vs) in *. assert (LP : lenN ps = lenN vs) by apply lenN_prefix_sums.
  assert (RL : nthN ps (lenN ps - 1) = Some (va ps (lenN ps - 1))) by (apply va_nth; lia).
  rewrite sub64_small by lia. rewrite (proj2 (rd_nthN _ _ _) RL). cbn [bind].
  destruct (build_u_get ps order x0 x1) as (f & e & GG & E1 & E2 & E3 & G0 & GET); auto.
  { rewrite LP. change (2 ^ 40) with (2 ^ 31 * 512). lia. }
  { unfold span_ok. rewrite LP. intros LE. pose proof (va_nth ps (lenN vs - 1) ltac:(lia)) as V. rewrite NP in V by lia. injection V as <-.
    pose proof (SB (N.to_nat (lenN vs - 1 + 1))) as X. assert (lenN vs * n <= 128 * 128). { assert (lenN vs <= 128) by (unfold piece in LE; destruct (2 <? order); lia). apply N.mul_le_mono; lia. } lia. }
  rewrite E1. cbn [bind]. rewrite EPD, E3. cbn [bind]. eexists. split; [reflexivity|]. exists (fun r => exists e, r = RPEF f e /\ GG e). split; [exists e; auto|].
  intros r' (e1 & -> & G1) i v Hv. cbn [rk_get]. rewrite EPD. pose proof (nthN_lt _ _ _ Hv) as Li.
  pose proof (firstn_succ vs i v Hv) as FS. pose proof (NP i Li) as Ni. rewrite FS, sumN_app in Ni. cbn [sumN fold_right] in Ni. rewrite N.add_0_r in Ni.
  pose proof (SB (N.to_nat (i + 1))) as SL. rewrite FS, sumN_app in SL. cbn [sumN fold_right] in SL. 
  destruct (N.eqb_spec i 0) as [->|NZ].
  - destruct (GET e1 0 _ G1 Ni) as (e2 & Q1 & Q2). rewrite Q1. cbn [bind]. cbv beta iota. eexists. split; [change (firstn (N.to_nat 0) vs) with (@nil N); reflexivity|]. exists e2. auto.
  - pose proof (NP (i - 1) ltac:(lia)) as Nj. replace (i - 1 + 1) with i in Nj by lia.
    destruct (pe_swap env).
    + destruct (GET e1 (i - 1) _ G1 Nj) as (e2 & Q1 & Q2). rewrite Q1. cbn [bind]. cbv beta iota. destruct (GET e2 i _ Q2 Ni) as (e3 & Q3 & Q4). rewrite Q3. cbn [bind]. cbv beta iota.
      eexists. split; [|exists e3; auto]. do 2 f_equal. rewrite sub64_small by lia. lia.
    + destruct (GET e1 i _ G1 Ni) as (e2 & Q1 & Q2). rewrite Q1. cbn [bind]. cbv beta iota. destruct (GET e2 (i - 1) _ Q2 Nj) as (e3 & Q3 & Q4). rewrite Q3. cbn [bind]. cbv beta iota.
      eexists. split; [|exists e3; auto]. do 2 f_equal. rewrite sub64_small by lia. lia.
Qed.

(** ** gram sequences *)
Section Grams.
Variable D : list (list (gram * N)).
Variable remap : N.
Hypothesis C : collection D remap.
Variable env : penv.
Notation G := (grams D).
Notation voc := (grams D 0).

(** a gram sequence that finds every gram of level k, whatever was asked before *)
(** id [id] is missing among the children of gram [p], is not 0 and is below the id of some child *)
Definition sib_missing (k p id : N) : Prop :=
  id <> 0 /\ (exists y i, nthN (G k) i = Some y /\ nthN (G (k - 1)) p = Some (removelast y) /\ id < lid D remap k y) /\
  (forall y, In y (G k) -> nthN (G (k - 1)) p = Some (removelast y) -> lid D remap k y <> id).
Definition gs_good (k : N) (g : gseq) : Prop := exists I : gseq -> Prop, I g /\
  forall g', I g' ->
    (forall i x p, nthN (G k) i = Some x -> nthN (G (k - 1)) p = Some (removelast x) ->
       exists g'', g_find env k g' (kids D k p, kids D k (p + 1)) (lid D remap k x) = Ok (i, g'') /\ I g'') /\
    (forall p id, sib_missing k p id -> exists g'', g_find env k g' (kids D k p, kids D k (p + 1)) id = Ok (not_found, g'') /\ I g'').
Lemma gs_find k g i x p : gs_good k g -> nthN (G k) i = Some x -> nthN (G (k - 1)) p = Some (removelast x) ->
  exists g', g_find env k g (kids D k p, kids D k (p + 1)) (lid D remap k x) = Ok (i, g') /\ gs_good k g'.
Proof. intros (I & H1 & H2) Hx Hp. destruct (proj1 (H2 g H1) i x p Hx Hp) as (g' & E & HI). exists g'. split; [exact E|]. exists I. auto. Qed.
Lemma gs_miss k g p id : gs_good k g -> sib_missing k p id ->
  exists g', g_find env k g (kids D k p, kids D k (p + 1)) id = Ok (not_found, g') /\ gs_good k g'.
Proof. intros (I & H1 & H2) Hm. destruct (proj2 (H2 g H1) p id Hm) as (g' & E & HI). exists g'. split; [exact E|]. exists I. auto. Qed.

(** what a level of a trie over uniform_pef must satisfy *)
Definition pef_level (k : N) : Prop :=
  lenN (G k) * lenN voc < 2 ^ 56 /\ one_pad (pe_gpad env k) /\
  (lenN (G k) <= piece (k + 1) -> lenN (G k) * lenN voc < 2 ^ 31 /\
    (lenN (G k) = 1 \/ Forall (fun x => x = 0) (lids D remap k) \/ exists i x, 0 < i /\ nthN (lids D remap k) i = Some x /\ x <> 0)).

Lemma lids_inc k : 0 < k -> increasing_in_ranges (lids D remap k) (child_ptrs (G (k - 1)) (G k)).
Proof.
  intros Hk b e j x y HR Hb He Hx Hy. apply child_range in HR. destruct HR as (p & Hp & -> & ->).
  apply nthN_lids in Hx, Hy. destruct Hx as (g & Hg & ->). destruct Hy as (h & Hh & ->).
  apply (lid_increasing D remap C k j (j + 1) g h); [assumption|assumption|assumption| |lia].
  pose proof (kid_parent D remap C k _ g p Hk Hg ltac:(unfold kids; lia)) as P1. pose proof (kid_parent D remap C k _ h p Hk Hh ltac:(unfold kids; lia)) as P2. congruence.
Qed.
Lemma level_ptrs k : 0 < k < lenN D -> pointers_for (child_ptrs (G (k - 1)) (G k)) (lenN (lids D remap k)).
Proof.
  intros [Hk HkD]. rewrite lids_len. apply child_pointers; [apply (lev_NoDup D remap C)|apply (lev_PRE D remap C); assumption|apply (lev_MON D remap C); assumption|].
  apply (lev_nonempty D remap C). lia.
Qed.
Lemma level_range k i x p : 0 < k -> nthN (G k) i = Some x -> nthN (G (k - 1)) p = Some (removelast x) ->
  is_range (child_ptrs (G (k - 1)) (G k)) (kids D k p) (kids D k (p + 1)) /\ kids D k p <= i < kids D k (p + 1) /\ nthN (lids D remap k) i = Some (lid D remap k x).
Proof.
  intros Hk Hx Hp. split; [apply child_range; exists p; split; [eapply nthN_lt; eauto|split; reflexivity]|]. split; [apply (kid_range D remap C k i x p); assumption|].
  apply nthN_lids. exists x. auto.
Qed.

(** the stored value of a missing id that is not 0 and is below some child is nowhere in the sequence *)
Lemma pef_missing k p id ids ptrs vs res i y : 0 < k -> ids = lids D remap k -> sortedN vs -> values_of vs ids ptrs ->
  is_range ptrs (kids D k p) (kids D k (p + 1)) -> kids D k p <= i < kids D k (p + 1) -> nthN ids i = Some (lid D remap k y) -> id < lid D remap k y -> id <> 0 ->
  (forall y, In y (G k) -> nthN (G (k - 1)) p = Some (removelast y) -> lid D remap k y <> id) ->
  nthN vs res = Some (id + before vs (kids D k p)) -> False.
Proof.
  intros Hk EI SV (VL & VO) R1 R2 R3 M4 M1 M5 RV.
  pose proof (VO _ _ i _ R1 R2 R3) as Vi.
  destruct (N.lt_ge_cases res (kids D k p)) as [L|L].
  - destruct (nthN_Some vs (kids D k p - 1)) as (z & Hz). { pose proof (nthN_lt _ _ _ R3). lia. }
    assert (B : before vs (kids D k p) = z). { unfold before. destruct (N.eqb_spec (kids D k p) 0); [lia|]. rewrite Hz. reflexivity. }
    rewrite B in RV. pose proof (sortedN_le vs SV res (kids D k p - 1) _ _ ltac:(lia) RV Hz). lia.
  - destruct (N.lt_ge_cases res (kids D k (p + 1))) as [L2|L2].
    + destruct (nthN_Some ids res) as (z & Hz). { apply nthN_lt in RV. lia. }
      rewrite (VO _ _ res z R1 (conj L L2) Hz) in RV. injection RV as RV. assert (z = id) by (change (before vs (kids D k p)) with (pv vs (kids D k p)) in RV; lia). subst z.
      rewrite EI in Hz. apply nthN_lids in Hz. destruct Hz as (g & Hg & Eg). apply (M5 g); [eapply nthN_In; exact Hg| |symmetry; exact Eg].
      apply (kid_parent D remap C k res g p Hk Hg). lia.
    + pose proof (sortedN_le vs SV i res _ _ ltac:(lia) Vi RV) as LE. change (before vs (kids D k p)) with (pv vs (kids D k p)) in LE. lia.
Qed.

Lemma g_build_pef k : 0 < k < lenN D -> pe_pef env = true -> pef_level k ->
  exists g, g_build env k (lids D remap k) (child_ptrs (G (k - 1)) (G k)) (k + 1) = Ok g /\ gs_good k g.
Proof.
  intros Hk EP (L1 & (x0 & x1 & EPD & Hx0 & Hx1) & L2). unfold g_build. rewrite EP, EPD.
  set (ids := lids D remap k) in *. set (ptrs := child_ptrs (G (k - 1)) (G k)) in *. assert (P : pointers_for ptrs (lenN ids)) by (apply level_ptrs; exact Hk).
  assert (LI : lenN ids = lenN (G k)) by apply lids_len. pose proof (lev_size D remap C k) as SZ. pose proof (lev_size D remap C 0) as SZ0.
  assert (NZ : 0 < lenN (G k)). { pose proof (lev_nonempty D remap C k ltac:(lia)) as X. destruct (G k); [congruence|rewrite lenN_cons; lia]. }
  assert (V0 : 0 < lenN voc). { pose proof (lev_nonempty D remap C 0 ltac:(lia)) as X. destruct voc; [congruence|rewrite lenN_cons; lia]. }
  assert (HM : Forall (fun v => v <= lenN voc - 1) ids).
  { apply Forall_forall. intros x Hx. unfold ids, lids in Hx. apply in_map_iff in Hx. destruct Hx as (g & <- & Hg). pose proof (lid_bound D remap C k g Hg). lia. }
  assert (LP : lenN ptrs < 2 ^ 32). { unfold ptrs. rewrite lenN_child_ptrs. pose proof (lev_size D remap C (k - 1)). lia. }
  destruct (fef_values_ok ids ptrs (lenN voc - 1) P ltac:(lia)) as (vs & EV & VO & _); [|exact HM|].
  { apply N.le_lt_trans with (2 ^ 32 * (lenN voc - 1)); [apply N.mul_le_mono_r; lia|]. change (2 ^ 64) with (2 ^ 32 * 2 ^ 32). apply N.mul_lt_mono_pos_l; lia. }
  pose proof (vals_bound vs ids ptrs (lenN voc - 1) P VO HM) as VB. pose proof VO as (VL & VO2).
  assert (VM : forall j x, nthN vs j = Some x -> x + lenN (G k) <= lenN (G k) * lenN voc).
  { intros j x Hx. pose proof (VB j x Hx) as B. pose proof (nthN_lt _ _ _ Hx) as LJ. assert ((j + 1) * (lenN voc - 1) <= lenN (G k) * (lenN voc - 1)) by (apply N.mul_le_mono_r; lia).
    assert (E0 : lenN (G k) * (lenN voc - 1) = lenN (G k) * lenN voc - lenN (G k)) by (rewrite N.mul_sub_distr_l; lia). rewrite E0 in H. clear E0. clear - B H NZ V0. assert (lenN (G k) * 1 <= lenN (G k) * lenN voc) by (apply N.mul_le_mono_l; lia). 
    generalize dependent ((j + 1) * (lenN voc - 1)). generalize dependent (lenN (G k) * lenN voc). intros. lia. }
  assert (HF : Forall (fun x => x < 2 ^ 56) vs).
  { apply Forall_forall. intros x Hx. destruct (In_nthN _ _ Hx) as (j & Hj). pose proof (VM j x Hj). lia. }
  assert (NN : 0 < lenN ids < 2 ^ 40) by (rewrite LI; change (2 ^ 40) with (2 ^ 31 * 512); lia).
  pose proof (lids_inc k ltac:(lia)) as INC. fold ids ptrs in INC.
  assert (SV : sortedN vs) by (apply (vsorted ids ptrs vs P INC VO)).
  destruct (N.le_gt_cases (lenN (G k)) (piece (k + 1))) as [SHORT|LONG].
  1: destruct (L2 SHORT) as (L3 & L4); assert (ZC : Forall (fun x => x = 0) ids \/ (lenN (G k) = 1 \/ exists i x, 0 < i /\ nthN ids i = Some x /\ x <> 0)) by (destruct L4 as [L4|[L4|L4]]; auto); clear L4; destruct ZC as [Z|L4].
  1: { (* all ids are zero *)
    assert (VZ : forall j, va vs j = 0).
    { intros j. unfold va. destruct (nthN vs j) as [x|] eqn:Ex; [|reflexivity].
      assert (Z' : Forall (fun v => v <= 0) ids) by (eapply Forall_impl; [|exact Z]; cbv beta; intros; lia). pose proof (vals_bound vs ids ptrs 0 P VO Z' j x Ex) as B. lia. }
    destruct (build_u_get vs (k + 1) x0 x1) as (f & e & GG & E1 & E2 & E3 & _); auto; try lia.
    { unfold span_ok. rewrite !VZ. intros _. lia. }
    unfold pef_build. rewrite EV. cbn [bind]. rewrite sub64_small by lia. rewrite (proj2 (rd_nthN _ _ _) (va_nth vs (lenN vs - 1) ltac:(lia))). cbn [bind].
    unfold pef_build_u in E1. rewrite E1. cbn [bind]. rewrite E3. cbn [bind]. eexists. split; [reflexivity|]. exists (eq (SPEF f e)). split; [reflexivity|].
    intros g' <-. split.
    2:{ intros p id (M1 & (y & i & M2 & M3 & M4) & _). exfalso. destruct (level_range k i y p ltac:(lia) M2 M3) as (_ & _ & R3). fold ids in R3. pose proof (Forall_nthN _ _ _ _ Z R3) as ZX. cbv beta in ZX. lia. }
    intros i x p Hx Hp. destruct (level_range k i x p ltac:(lia) Hx Hp) as (R1 & R2 & R3). fold ids in R3. pose proof (Forall_nthN _ _ _ _ Z R3) as ZX. cbv beta in ZX. rewrite ZX.
    cbn [g_find fst snd]. unfold pef_find. destruct (N.eqb_spec (kids D k p) (kids D k (p + 1))); [lia|]. cbn [N.eqb bind]. cbv beta iota. eexists. split; [|reflexivity].
    do 2 f_equal. destruct (N.eq_dec i (kids D k p)) as [E|NE]; [symmetry; exact E|exfalso].
    destruct (nthN_Some ids (i - 1) ltac:(apply nthN_lt in R3; lia)) as (y & Hy). rewrite ZX in R3.
    assert (y < 0); [|lia]. apply (INC _ _ (i - 1) y 0 R1); try lia; [exact Hy|]. replace (i - 1 + 1) with i by lia. exact R3. }
  all: assert (SH : short_ok vs (k + 1)).
  1, 3: unfold short_ok; rewrite VL, LI; intros LE.
  2: lia.
  1: { destruct (nthN_Some vs 0 ltac:(lia)) as (a & Ha). destruct (nthN_Some vs (lenN (G k) - 1) ltac:(lia)) as (b & Hb). exists a, b. split; [exact Ha|]. split; [exact Hb|].
       split; [|pose proof (VM _ _ Hb); lia]. destruct L4 as [L4|(i & x & I1 & I2 & I3)]; [left; exact L4|right].
       pose proof (nthN_lt _ _ _ I2) as LJ. destruct (nthN_Some vs i ltac:(lia)) as (y & Hy). assert (YB : y <= b) by (apply (sortedN_le vs SV i (lenN (G k) - 1)); [lia|exact Hy|exact Hb]).
       destruct (in_some_range ptrs (lenN ids) P i LJ) as (b0 & e0 & R & B1 & B2). rewrite (VO2 b0 e0 i x R (conj B1 B2) I2) in Hy. injection Hy as <-.
       unfold pv in YB. destruct (N.eqb_spec b0 0) as [EB0|NB]; [subst b0|].
       - (* same range as the first id *)
         destruct (nthN_Some vs (i - 1) ltac:(lia)) as (z & Hz). destruct (nthN_Some ids (i - 1) ltac:(lia)) as (w & Hw).
         pose proof (VO2 0 e0 (i - 1) w R ltac:(lia) Hw) as Vz. rewrite Hz in Vz. injection Vz as ->. change (pv vs 0) with 0 in Hz.
         pose proof (sortedN_le vs SV 0 (i - 1) a _ ltac:(lia) Ha Hz). assert (w < x); [|lia]. apply (INC 0 e0 (i - 1) w x R); try lia; [exact Hw|]. replace (i - 1 + 1) with i by lia. exact I2.
       - destruct (nthN_Some vs (b0 - 1) ltac:(lia)) as (z & Hz). rewrite Hz in YB. pose proof (sortedN_le vs SV 0 (b0 - 1) a z ltac:(lia) Ha Hz). lia. }
  all: destruct (built ids ptrs vs (k + 1) x0 x1 P INC VO NN HF SH Hx0 Hx1) as (parts & f & Bo & e & i0 & PA & EB & HP & EI & PS & _ & _ & CL);
    rewrite EB; cbn [bind]; unfold pd in EI; rewrite EI; cbn [bind]; eexists; (split; [reflexivity|]);
    exists (fun g => exists e, g = SPEF f e /\ (exists p i, pst vs (lg (k + 1)) parts f Bo e p i) /\ clean vs (lg (k + 1)) parts f Bo e);
    (split; [exists e; split; [reflexivity|]; split; [exists 0, i0; exact PS|exact CL]|]);
    intros g' (e1 & -> & G1 & C1);
    (assert (SRCH : forall i x p id, nthN (G k) i = Some x -> nthN (G (k - 1)) p = Some (removelast x) -> id <= lid D remap k x ->
       call_ok ids ptrs (k + 1) (Find (kids D k p) (kids D k (p + 1)) id)); [
      intros i x p id Hx Hp Hid; destruct (level_range k i x p ltac:(lia) Hx Hp) as (R1 & R2 & R3); fold ids in R3; fold ptrs in R1;
      split; [exact R1|]; split; [pose proof (lid_bound D remap C k x (nthN_In _ _ _ Hx)); change (2 ^ 63) with (2 ^ 31 * 2 ^ 32); lia|];
      pose proof (range_bounds ptrs _ _ _ P R1) as RB; unfold searchable;
      (destruct (N.lt_ge_cases (kids D k (p + 1)) (lenN ids)) as [L|L]; [left; exact L|right; right]); destruct (nthN_Some ids (lenN ids - 1) ltac:(lia)) as (w & Hw); exists w; split; [exact Hw|];
      pose proof Hw as Hw'; apply nthN_lids in Hw'; destruct Hw' as (g & Hg & ->);
      pose proof (kid_parent D remap C k _ g p ltac:(lia) Hg ltac:(lia)) as HGP; apply N.le_trans with (1 := Hid);
      (destruct (N.eq_dec i (lenN ids - 1)) as [Ei|Ni]; [rewrite Ei in R3; rewrite R3 in Hw; injection Hw as ->; lia|]);
      apply N.lt_le_incl; apply (lid_increasing D remap C k i (lenN ids - 1) x g); [lia|exact Hx|exact Hg|congruence|lia] | ]).
  all: split; [intros i x p Hx Hp; destruct (level_range k i x p ltac:(lia) Hx Hp) as (R1 & R2 & R3); fold ids in R3; fold ptrs in R1;
    pose proof (SRCH i x p _ Hx Hp (N.le_refl _)) as CO;
    destruct (find_good ids ptrs vs (k + 1) x0 x1 P INC VO NN HF Hx0 Hx1 parts f Bo PA HP e1 _ _ _ G1 CO) as (res & e2 & E2 & G2 & C2 & _ & _ & CMP);
    cbn [g_find fst snd]; rewrite EPD; unfold pd in E2; rewrite E2; cbn [bind]; cbv beta iota; rewrite (CMP i R2 R3 (or_intror (or_intror C1)));
    eexists; (split; [reflexivity|]); exists e2; split; [reflexivity|]; split; [exact G2|apply C2; exact C1]|].
  all: intros p id (M1 & (y & i & M2 & M3 & M4) & M5); destruct (level_range k i y p ltac:(lia) M2 M3) as (R1 & R2 & R3); fold ids in R3; fold ptrs in R1;
    pose proof (SRCH i y p id M2 M3 ltac:(lia)) as CO;
    destruct (find_good ids ptrs vs (k + 1) x0 x1 P INC VO NN HF Hx0 Hx1 parts f Bo PA HP e1 _ _ _ G1 CO) as (res & e2 & E2 & G2 & C2 & _ & SND & _);
    cbn [g_find fst snd]; rewrite EPD; unfold pd in E2; rewrite E2; cbn [bind]; cbv beta iota;
    (assert (RN : res = not_found); [|rewrite RN; eexists; (split; [reflexivity|]); exists e2; split; [reflexivity|]; split; [exact G2|apply C2; exact C1]]);
    (destruct (SND M1) as [RN|RV]; [exact RN|exfalso]); apply (pef_missing k p id ids ptrs vs res i y); auto; lia.
Qed.

Lemma g_build_ok k : 0 < k < lenN D ->
  (if pe_pef env then pef_level k else long_starts 128 (child_ptrs (G (k - 1)) (G k)) = [] \/
     valid_order (hash_domain (lenN (long_starts 128 (child_ptrs (G (k - 1)) (G k))))) (te_hu (pe_t env) k) (long_starts 128 (child_ptrs (G (k - 1)) (G k))) (te_orders (pe_t env) k)) ->
  exists g, g_build env k (lids D remap k) (child_ptrs (G (k - 1)) (G k)) (k + 1) = Ok g /\ gs_good k g.
Proof.
  intros Hk HL. destruct (pe_pef env) eqn:EP; [apply g_build_pef; assumption|]. unfold g_build. rewrite EP.
  pose proof (lev_size D remap C k) as SZ. pose proof (lev_size D remap C 0) as SZ0. pose proof (lev_size D remap C (k - 1)) as SZ1.
  assert (LI : lenN (lids D remap k) = lenN (G k)) by apply lids_len.
  destruct (fef_build_ok (te_hu (pe_t env) k) (te_orders (pe_t env) k) (lids D remap k) (child_ptrs (G (k - 1)) (G k)) (lenN voc)) as (f & vs & EF & RF); auto.
  { apply level_ptrs. exact Hk. }
  { apply (lids_sorted D remap C). lia. }
  { intros Z. rewrite Z in LI. change (lenN (@nil N)) with 0 in LI. pose proof (lev_nonempty D remap C k ltac:(lia)) as X. destruct (G k); [congruence|rewrite lenN_cons in LI; lia]. }
  { change (2 ^ 56) with (2 ^ 31 * 2 ^ 25). lia. }
  { apply (lids_bound D remap C). }
  { rewrite lenN_child_ptrs. apply N.le_lt_trans with ((lenN (G (k - 1)) + 1) * 2 ^ 31); [apply N.mul_le_mono_l; lia|]. change (2 ^ 64) with (2 ^ 33 * 2 ^ 31). apply N.mul_lt_mono_pos_r; lia. }
  rewrite EF. cbn [bind]. eexists. split; [reflexivity|]. exists (eq (SEF f)). split; [reflexivity|]. intros g' <-. split.
  { intros i x p Hx Hp.
  destruct (level_range k i x p ltac:(lia) Hx Hp) as (R1 & R2 & R3).
  assert (LB : lid D remap k x < 2 ^ 64). { pose proof (lid_bound D remap C k x (nthN_In _ _ _ Hx)). lia. }
  destruct (fef_find_ok (te_hu (pe_t env) k) f _ _ vs _ _ (lid D remap k x) RF R1 ltac:(lia) LB) as (r & Er & SR).
  cbn [g_find]. rewrite Er. cbn [bind]. eexists. split; [|reflexivity]. do 2 f_equal. apply (search_present D remap C k i x p r); [lia|assumption|assumption|exact SR]. }
  intros p id (M1 & (y & i & M2 & M3 & M4) & M5). destruct (level_range k i y p ltac:(lia) M2 M3) as (R1 & R2 & R3).
  assert (LB : id < 2 ^ 64). { pose proof (lid_bound D remap C k y (nthN_In _ _ _ M2)). lia. }
  destruct (fef_find_ok (te_hu (pe_t env) k) f _ _ vs _ _ id RF R1 ltac:(lia) LB) as (r & Er & SR).
  cbn [g_find]. rewrite Er. cbn [bind]. eexists. split; [|reflexivity]. do 2 f_equal. destruct (N.eq_dec r not_found) as [Q|Q]; [exact Q|exfalso].
  destruct (search_sound D remap C k p id r ltac:(lia) SR Q) as (g & H1 & H2 & H3). apply (M5 g); [eapply nthN_In; exact H1|exact H2|exact H3].
Qed.
End Grams.
