(** * Statistics: the levels of a trie over uniform_pef or Elias-Fano sequences *)
From Coq Require Import String Floats.SpecFloat.
From Verif Require Import Prelude BitFacts M_Word P_Word M_Bits Spec P_Bits M_CompactVector P_CompactVector M_DArray M_EF P_EF P_EF2
  M_HashVec M_Mph P_Mph P_MphTables M_FastEF P_FastEF P_FastEF3 M_Text P_Text P_Text2 M_SeqColl P_SeqColl M_Pool P_Pool M_Pef P_Pef3 P_Pef4 P_Pef5 P_Pef6 Spec_Pef M_Trie M_TriePef Spec_Trie
  P_Trie1 P_Trie2 P_Trie3 P_Trie4 P_Trie5 P_TriePef1 P_TriePef2 P_TriePef3 P_TriePef4 M_Save Spec_Save P_Save P_Typed M_SavePef Spec_SavePef P_SavePef1 P_SavePef2 P_SavePef3
  M_Quant M_MphProb M_Stats Spec_Stats Spec_Report P_Stats1 P_Stats2 P_Stats3 P_Stats5 P_StatsPef1 M_StatsPef.
From Verif Require Import M_TriePef.
From Coq Require Import Permutation Sorting.Sorted.

Lemma view_pef_holds vals order pd f : one_pad pd -> 0 < lenN vals < 2 ^ 40 -> sortedN vals -> Forall (fun x => x < 2 ^ 56) vals -> span_ok vals order ->
  pef_write vals (va vals (lenN vals - 1)) order = Ok f -> view_holds (view_pef pd f) vals.
Proof.
  intros (x0 & x1 & EP & Hx0 & Hx1) Hn HS HF SP EF. destruct (pef_scan vals order x0 x1 f Hn HS HF SP Hx0 Hx1 EF) as (M1 & M2 & e & at_ & E & A & NX).
  unfold view_holds, view_pef. cbn [gv_size gv_univ gv_it gv_begin gv_next]. split; [exact M1|]. split; [apply Forall_forall; intros v Hv; rewrite Forall_forall in HF; specialize (HF v Hv); change (2 ^ 64) with (2 ^ 56 * 256); lia|].
  split; [f_equal; rewrite M2; symmetry; apply last_at; apply va_nth; lia|]. rewrite EP. exists at_, e. split; [exact E|]. split; [exact A|]. exact NX.
Qed.

Section Grams.
Variable D : list (list (gram * N)).
Variable remap : N.
Hypothesis C : collection D remap.
Variables env env' : penv.
Hypothesis LVE : levels_fit D remap env.
Hypothesis LVE' : levels_fit D remap env'.
Hypothesis EG : pe_pef env' = pe_pef env.
Notation G := (grams D).
Notation voc := (grams D 0).

Lemma pef_view k f : 0 < k < lenN D -> pe_pef env = true -> pef_build (lids D remap k) (child_ptrs (G (k - 1)) (G k)) (k + 1) = Ok f ->
  gram_lev D remap (view_pef (pe_gpad env' k) f) k.
Proof.
  intros Hk EP E. pose proof (LVE' k Hk) as LV. rewrite EG, EP in LV. destruct LV as (L1 & PD & L2).
  set (ids := lids D remap k) in *. set (ptrs := child_ptrs (G (k - 1)) (G k)) in *. assert (P : pointers_for ptrs (lenN ids)) by (apply level_ptrs; assumption).
  assert (LI : lenN ids = lenN (G k)) by apply lids_len. pose proof (lev_size D remap C k) as SZ. pose proof (lev_size D remap C 0) as SZ0.
  assert (NZ : 0 < lenN (G k)). { pose proof (lev_nonempty D remap C k ltac:(lia)) as X. destruct (G k); [congruence|rewrite lenN_cons; lia]. }
  assert (V0 : 0 < lenN voc). { pose proof (lev_nonempty D remap C 0 ltac:(lia)) as X. destruct voc; [congruence|rewrite lenN_cons; lia]. }
  assert (HM : Forall (fun v => v <= lenN voc - 1) ids).
  { apply Forall_forall. intros y Hy. unfold ids, lids in Hy. apply in_map_iff in Hy. destruct Hy as (g & <- & Hg). pose proof (lid_bound D remap C k g Hg). lia. }
  assert (LP : lenN ptrs < 2 ^ 32). { unfold ptrs. rewrite lenN_child_ptrs. pose proof (lev_size D remap C (k - 1)). lia. }
  destruct (fef_values_ok ids ptrs (lenN voc - 1) P ltac:(lia)) as (vs & EV & VO & _); [|exact HM|].
  { apply N.le_lt_trans with (2 ^ 32 * (lenN voc - 1)); [apply N.mul_le_mono_r; lia|]. change (2 ^ 64) with (2 ^ 32 * 2 ^ 32). apply N.mul_lt_mono_pos_l; lia. }
  pose proof (vals_bound vs ids ptrs (lenN voc - 1) P VO HM) as VB. pose proof VO as (VL & VO2).
  assert (VM : forall j y, nthN vs j = Some y -> y + lenN (G k) <= lenN (G k) * lenN voc).
  { intros j y Hy. pose proof (VB j y Hy) as B. pose proof (nthN_lt _ _ _ Hy) as LJ. assert ((j + 1) * (lenN voc - 1) <= lenN (G k) * (lenN voc - 1)) by (apply N.mul_le_mono_r; lia).
    assert (E0 : lenN (G k) * (lenN voc - 1) = lenN (G k) * lenN voc - lenN (G k)) by (rewrite N.mul_sub_distr_l; lia). rewrite E0 in H. clear E0.
    assert (lenN (G k) * 1 <= lenN (G k) * lenN voc) by (apply N.mul_le_mono_l; lia). clear - B H H0 NZ V0.
    generalize dependent ((j + 1) * (lenN voc - 1)). generalize dependent (lenN (G k) * lenN voc). intros. lia. }
  assert (HF : Forall (fun y => y < 2 ^ 56) vs).
  { apply Forall_forall. intros y Hy. destruct (In_nthN _ _ Hy) as (j & Hj). pose proof (VM j y Hj). lia. }
  pose proof (lids_inc D remap C k ltac:(lia)) as INC. fold ids ptrs in INC.
  assert (SV : sortedN vs) by (apply (vsorted ids ptrs vs P INC VO)).
  unfold pef_build in E. rewrite EV in E. cbn [bind] in E. rewrite sub64_small in E by lia.
  rewrite (proj2 (rd_nthN _ _ _) (va_nth vs (lenN vs - 1) ltac:(lia))) in E. cbn [bind] in E.
  exists vs. split; [|exact VO].
  apply (view_pef_holds vs (k + 1)); [exact PD| |exact SV|exact HF| |exact E]; [change (2 ^ 40) with (2 ^ 31 * 512); lia|].
  unfold span_ok. rewrite VL, LI. intros SHORT. destruct (L2 SHORT) as (L3 & _). pose proof (va_nth vs (lenN (G k) - 1) ltac:(lia)) as V. pose proof (VM _ _ V). lia.
Qed.
Lemma gram_view k g g' : pr_g D remap env k g -> same_gseq g g' -> gram_lev D remap (view_gseq env' k (Some g')) k.
Proof.
  intros (Hk & g0 & E0 & S0) S1. pose proof (same_gseq_trans _ _ _ S0 S1) as S2. clear S0 S1. pose proof (LVE k Hk) as LV. unfold g_build in E0. pose proof (pef_view k) as PV. destruct (pe_pef env) eqn:EP in PV, LV, E0.
  - apply bind_inv in E0. destruct E0 as (f & EF & E0). apply bind_inv in E0. destruct E0 as (e0 & _ & E0). injection E0 as <-. destruct g' as [|f' e']; [destruct S2|]. cbn [same_gseq] in S2. subst f'.
    cbn [view_gseq]. apply PV; auto.
  - apply bind_inv in E0. destruct E0 as (f & EF & E0). injection E0 as <-. destruct g' as [f'|]; [|destruct S2]. cbn [same_gseq] in S2. subst f'. cbn [view_gseq].
    pose proof (lev_size D remap C k) as SZ. pose proof (lev_size D remap C 0) as SZ0. pose proof (lev_size D remap C (k - 1)) as SZ1.
    assert (LI : lenN (lids D remap k) = lenN (G k)) by apply lids_len.
    assert (NE : lids D remap k <> []). { intros Z. rewrite Z in LI. change (lenN (@nil N)) with 0 in LI. pose proof (lev_nonempty D remap C k ltac:(lia)) as X. destruct (G k); [congruence|rewrite lenN_cons in LI; lia]. }
    destruct (fef_build_ok (te_hu (pe_t env) k) (te_orders (pe_t env) k) (lids D remap k) (child_ptrs (G (k - 1)) (G k)) (lenN voc)) as (f1 & vs & EF1 & RF).
    { apply level_ptrs; assumption. }
    { apply (lids_sorted D remap C). lia. }
    { exact NE. }
    { change (2 ^ 56) with (2 ^ 31 * 2 ^ 25). lia. }
    { apply (lids_bound D remap C). }
    { rewrite lenN_child_ptrs. apply N.le_lt_trans with ((lenN (G (k - 1)) + 1) * 2 ^ 31); [apply N.mul_le_mono_l; lia|]. change (2 ^ 64) with (2 ^ 33 * 2 ^ 31). apply N.mul_lt_mono_pos_r; lia. }
    { exact LV. }
    rewrite EF in EF1. injection EF1 as <-. destruct RF as (F1 & F2 & F3 & _). exists vs. split; [|exact F3]. pose proof F3 as (VL & _). apply view_fef_holds; [congruence|exact F2|].
    rewrite VL, LI. destruct (lids D remap k); [congruence|]. rewrite lenN_cons in LI. lia.
Qed.

Lemma nthN_plevels e l : forall k i, nthN (plevels e k l) i = option_map (fun a => mklevel (p_size a) (view_gseq e (k + i) (p_grams a)) (p_ptrs a)) (nthN l i).
Proof.
  clear. induction l as [|a l IH]; intros k i; [unfold nthN; destruct (N.to_nat i); reflexivity|]. cbn [plevels]. rewrite !nthN_cons. destruct (N.eqb_spec i 0) as [->|NZ]; [rewrite N.add_0_r; reflexivity|].
  rewrite IH. replace (k + 1 + (i - 1)) with (k + i) by lia. reflexivity.
Qed.
Lemma plevels_sizes e l : forall k, map l_size (plevels e k l) = map p_size l.
Proof. clear. induction l as [|a l IH]; intros k; [reflexivity|]. cbn [plevels map l_size]. rewrite IH. reflexivity. Qed.
Lemma same_sizes l l' : Forall2 same_parr l l' -> map p_size l' = map p_size l.
Proof. clear. induction 1 as [|a a' l l' (S1 & _) F IH]; [reflexivity|]. cbn [map]. congruence. Qed.

(** the arrays of the trie that is loaded, [arrays'], from those that were built *)
Lemma parrs_facts arrays arrays' : Forall2 same_parr arrays arrays' -> map p_size arrays = map (fun l => lenN l) D ->
  (forall k a, nthN arrays k = Some a -> opt_all (pr_g D remap env k) (p_grams a) /\ opt_all (pr_p D k) (p_ptrs a)) ->
  (forall k a, nthN arrays k = Some a -> 0 < k -> p_grams a <> None) ->
  (forall k a, nthN arrays k = Some a -> k + 1 < lenN D -> ptr_lev D (p_ptrs a) k) ->
  arrays_facts D remap (plevels env' 0 arrays').
Proof.
  intros SM SZ PV GS PS. assert (AT : forall k b, nthN (plevels env' 0 arrays') k = Some b -> exists a a', nthN arrays k = Some a /\ same_parr a a' /\
    b = mklevel (p_size a') (view_gseq env' k (p_grams a')) (p_ptrs a')).
  { intros k b H. rewrite nthN_plevels in H. destruct (nthN arrays' k) as [a'|] eqn:EA; [|discriminate]. injection H as <-.
    assert (L : lenN arrays' = lenN arrays) by (apply Forall2_len in SM; unfold lenN; congruence). destruct (nthN_Some arrays k) as (a & Ha); [rewrite <- L; exact (nthN_lt _ _ _ EA)|].
    exists a, a'. split; [exact Ha|]. split; [exact (Forall2_nthN _ _ _ k a a' SM Ha EA)|reflexivity]. }
  split; [split|split].
  - rewrite plevels_sizes, (same_sizes _ _ SM). exact SZ.
  - intros k b H. destruct (AT k b H) as (a & a' & Ha & (S1 & S2 & S3 & S4) & ->). cbn [l_grams l_ptrs]. destruct (PV k a Ha) as (P1 & P2). split.
    + intros ->. destruct (p_grams a) as [g|]; [destruct (P1 g eq_refl); lia|]. destruct (p_grams a') as [g'|]; [destruct S2|]. cbn [view_gseq]. destruct (pe_pef env'); reflexivity.
    + intros HK. rewrite <- S4. destruct (p_ptrs a) as [e|]; [destruct (P2 e eq_refl); lia|reflexivity].
  - intros k b H Hk. destruct (AT k b H) as (a & a' & Ha & (S1 & S2 & S3 & S4) & ->). cbn [l_grams]. destruct (PV k a Ha) as (P1 & P2). pose proof (GS k a Ha Hk) as GN.
    destruct (p_grams a) as [g|]; [|congruence]. destruct (p_grams a') as [g'|]; [|destruct S2]. apply (gram_view k g g'); [apply P1; reflexivity|exact S2].
  - intros k b H Hk. destruct (AT k b H) as (a & a' & Ha & (S1 & S2 & S3 & S4) & ->). cbn [l_ptrs]. rewrite <- S4. apply (PS k a Ha Hk).
Qed.
End Grams.
