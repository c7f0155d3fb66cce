(** * Count tries over uniform_pef: loading what was saved *)
From Verif Require Import Prelude BitFacts M_Word P_Word M_Bits Spec P_Bits M_CompactVector P_CompactVector M_DArray M_EF P_EF P_EF2
  M_HashVec M_Mph P_Mph P_MphTables M_FastEF P_FastEF P_FastEF3 M_Text P_Text P_Text2 M_SeqColl P_SeqColl M_Pool P_Pool M_Pef P_Pef3 P_Pef4 P_Pef5 P_Pef6 Spec_Pef M_Trie M_TriePef Spec_Trie
  P_Trie1 P_Trie2 P_Trie3 P_Trie4 P_Trie5 P_TriePef1 P_TriePef2 P_TriePef3 P_TriePef4 M_Save Spec_Save P_Save P_Typed M_SavePef Spec_SavePef P_SavePef1 P_SavePef2.
From Coq Require Import Permutation Sorting.Sorted.

Lemma pef_enum_ok pd f e tail : t_pef f -> pf_size f <> 0 -> pef_init pd f = Ok e -> load_pef_enum pd (save_pef f ++ tail) = Ok (Some (f, e), tail).
Proof.
  intros T NZ E. unfold load_pef_enum. rewrite pef_ok by exact T. cbn [bind]. cbv beta iota. destruct (N.eqb_spec (pf_size f) 0); [contradiction|]. rewrite E. reflexivity.
Qed.
Lemma pef_enum0_ok pd tail : load_pef_enum pd (save_pef pef0 ++ tail) = Ok (None, tail).
Proof. unfold load_pef_enum. rewrite pef_ok by apply t_pef0. reflexivity. Qed.

(** the levels the searches need: conditions on uniform_pef levels, peeling orders for the others *)
Definition levels_fit (D : list (list (gram * N))) (remap : N) (env : penv) : Prop := forall k, 0 < k < lenN D ->
  if pe_pef env then pef_level D remap env k else long_starts 128 (child_ptrs (grams D (k - 1)) (grams D k)) = [] \/
     valid_order (hash_domain (lenN (long_starts 128 (child_ptrs (grams D (k - 1)) (grams D k))))) (te_hu (pe_t env) k) (long_starts 128 (child_ptrs (grams D (k - 1)) (grams D k))) (te_orders (pe_t env) k).
Section Grams.
Variable x : ext.
Hypothesis XOK : ext_ok x.
Variable D : list (list (gram * N)).
Variable remap : N.
Hypothesis C : collection D remap.
Variables env env' : penv.
Hypothesis LVE : levels_fit D remap env.
Hypothesis LVE' : levels_fit D remap env'.
Hypothesis ET : pe_t env' = pe_t env.
Hypothesis EG : pe_pef env' = pe_pef env.
Notation G := (grams D).
Notation voc := (grams D 0).

(** ** a gram sequence *)
Lemma level_pef_typed k f : 0 < k < lenN D -> pe_pef env = true -> pef_build (lids D remap k) (child_ptrs (G (k - 1)) (G k)) (k + 1) = Ok f -> t_pef f /\ pf_size f <> 0.
Proof.
  intros Hk EP E. pose proof (LVE k Hk) as LV. rewrite EP in LV. destruct LV as (L1 & _ & L2).
  set (ids := lids D remap k) in *. set (ptrs := child_ptrs (G (k - 1)) (G k)) in *. assert (P : pointers_for ptrs (lenN ids)) by (apply level_ptrs; assumption).
  assert (LI : lenN ids = lenN (G k)) by apply lids_len. pose proof (lev_size D remap C k) as SZ. pose proof (lev_size D remap C 0) as SZ0.
  assert (NZ : 0 < lenN (G k)). { pose proof (lev_nonempty D remap C k ltac:(lia)) as X. destruct (G k); [congruence|rewrite lenN_cons; lia]. }
  assert (V0 : 0 < lenN voc). { pose proof (lev_nonempty D remap C 0 ltac:(lia)) as X. destruct voc; [congruence|rewrite lenN_cons; lia]. }
  assert (HM : Forall (fun v => v <= lenN voc - 1) ids).
  { apply Forall_forall. intros y Hy. unfold ids, lids in Hy. apply in_map_iff in Hy. destruct Hy as (g & <- & Hg). pose proof (lid_bound D remap C k g Hg). lia. }
  assert (LP : lenN ptrs < 2 ^ 32). { unfold ptrs. rewrite lenN_child_ptrs. pose proof (lev_size D remap C (k - 1)). lia. }
  destruct (fef_values_ok ids ptrs (lenN voc - 1) P ltac:(lia)) as (vs & EV & VO & _); [|exact HM|].
  { apply N.le_lt_trans with (2 ^ 32 * (lenN voc - 1)); [apply N.mul_le_mono_r; lia|]. change (2 ^ 64) with (2 ^ 32 * 2 ^ 32). apply N.mul_lt_mono_pos_l; lia. }
  pose proof (vals_bound vs ids ptrs (lenN voc - 1) P VO HM) as VB. pose proof VO as (VL & VO2).
  assert (VM : forall j y, nthN vs j = Some y -> y + lenN (G k) <= lenN (G k) * lenN voc).
  { intros j y Hy. pose proof (VB j y Hy) as B. pose proof (nthN_lt _ _ _ Hy) as LJ. assert ((j + 1) * (lenN voc - 1) <= lenN (G k) * (lenN voc - 1)) by (apply N.mul_le_mono_r; lia).
    assert (E0 : lenN (G k) * (lenN voc - 1) = lenN (G k) * lenN voc - lenN (G k)) by (rewrite N.mul_sub_distr_l; lia). rewrite E0 in H. clear E0.
    assert (lenN (G k) * 1 <= lenN (G k) * lenN voc) by (apply N.mul_le_mono_l; lia). clear - B H H0 NZ V0.
    generalize dependent ((j + 1) * (lenN voc - 1)). generalize dependent (lenN (G k) * lenN voc). intros. lia. }
  assert (HF : Forall (fun y => y < 2 ^ 56) vs).
  { apply Forall_forall. intros y Hy. destruct (In_nthN _ _ Hy) as (j & Hj). pose proof (VM j y Hj). lia. }
  pose proof (lids_inc D remap C k ltac:(lia)) as INC. fold ids ptrs in INC.
  assert (SV : sortedN vs) by (apply (vsorted ids ptrs vs P INC VO)).
  unfold pef_build in E. rewrite EV in E. cbn [bind] in E. rewrite sub64_small in E by lia.
  rewrite (proj2 (rd_nthN _ _ _) (va_nth vs (lenN vs - 1) ltac:(lia))) in E. cbn [bind] in E.
  refine (pef_typed vs (k + 1) f _ SV HF _ E); [change (2 ^ 40) with (2 ^ 31 * 512); lia|].
  unfold span_ok. rewrite VL, LI. intros SHORT. destruct (L2 SHORT) as (L3 & _). pose proof (va_nth vs (lenN (G k) - 1) ltac:(lia)) as V. pose proof (VM _ _ V). lia.
Qed.
Lemma gseq_restored k g : pr_g D remap env k g -> forall tail,
  exists g', load_gseq x env' k (save_gseq x (pe_pef env) (Some g) ++ tail) = Ok (Some g', tail) /\ same_gseq g g' /\ gs_good D remap env' k g'.
Proof.
  intros (Hk & g0 & E0 & S0) tail. pose proof LVE' as LV.
  destruct (g_build_ok D remap C env' k Hk (LV k Hk)) as (g1 & E1 & GG). specialize (LV k Hk).
  unfold g_build in E0, E1. rewrite EG, ET in E1. unfold load_gseq. rewrite EG. rewrite EG, ET in LV. destruct (pe_pef env) eqn:EP.
  - apply bind_inv in E0. destruct E0 as (f & EF & E0). apply bind_inv in E0. destruct E0 as (e0 & EI & E0). injection E0 as <-.
    rewrite EF in E1. cbn [bind] in E1. apply bind_inv in E1. destruct E1 as (e1 & EI1 & E1). injection E1 as <-.
    destruct g as [|f' e]; [destruct S0|]. cbn [same_gseq] in S0. subst f'. cbn [save_gseq].
    destruct (level_pef_typed k f Hk EP EF) as (T & NZ). rewrite (pef_enum_ok _ f e1 tail T NZ EI1). cbn [bind option_map fst snd]. exists (SPEF f e1). split; [reflexivity|]. split; [reflexivity|exact GG].
  - apply bind_inv in E0. destruct E0 as (f & EF & E0). injection E0 as <-. rewrite EF in E1. cbn [bind] in E1. injection E1 as <-.
    destruct g as [f'|]; [|destruct S0]. cbn [same_gseq] in S0. subst f'. cbn [save_gseq].
    pose proof (lev_size D remap C k) as SZ. pose proof (lev_size D remap C 0) as SZ0. pose proof (lev_size D remap C (k - 1)) as SZ1.
    assert (LI : lenN (lids D remap k) = lenN (G k)) by apply lids_len.
    assert (TF : t_fef f /\ f_size f <> 0).
    { eapply (fef_build_typed (te_hu (pe_t env) k) (te_orders (pe_t env) k) (lids D remap k) (child_ptrs (G (k - 1)) (G k)) (lenN voc)); [| | | | | | | |exact EF].
      { apply level_ptrs; assumption. }
      { apply (lids_sorted D remap C). lia. }
      { intros Z. rewrite Z in LI. change (lenN (@nil N)) with 0 in LI. pose proof (lev_nonempty D remap C k ltac:(lia)) as X. destruct (G k); [congruence|rewrite lenN_cons in LI; lia]. }
      { change (2 ^ 56) with (2 ^ 31 * 2 ^ 25). lia. }
      { apply (lids_bound D remap C). }
      { rewrite lenN_child_ptrs. apply N.le_lt_trans with ((lenN (G (k - 1)) + 1) * 2 ^ 31); [apply N.mul_le_mono_l; lia|]. change (2 ^ 64) with (2 ^ 33 * 2 ^ 31). apply N.mul_lt_mono_pos_r; lia. }
      { rewrite lenN_child_ptrs. lia. }
      exact LV. }
    pose proof (grams_ok x XOK (Some f) TF tail) as R. unfold save_opt in R. rewrite R. cbn [bind option_map]. exists (SEF f). split; [reflexivity|]. split; [reflexivity|exact GG].
Qed.
Lemma gseq0_restored k tail : load_gseq x env' k (save_gseq x (pe_pef env) None ++ tail) = Ok (None, tail).
Proof.
  unfold load_gseq. rewrite EG. cbn [save_gseq]. destruct (pe_pef env); [rewrite pef_enum0_ok; reflexivity|].
  pose proof (grams_ok x XOK None I tail) as R. unfold save_opt in R. rewrite R. reflexivity.
Qed.

Lemma ptrs_restored k o tail : opt_all (pr_p D k) o -> load_opt load_ef (fun e => ef_size e =? 0) (save_opt save_ef ef0 o ++ tail) = Ok (o, tail).
Proof using C env env'.
  intros Q4. assert (TP : t_opt t_ef (fun e => ef_size e <> 0) o).
  { destruct o as [e|]; [|exact I]. destruct (Q4 e eq_refl) as (Hk & EP). cbn [t_opt].
    pose proof (lev_size D remap C (k + 1)) as SZ1. pose proof (lev_size D remap C k) as SZ0.
    eapply (ptr_typed (child_ptrs (G k) (G (k + 1)))); [exact EP| | | |].
    - pose proof (lev_PRE D remap C (k + 1) ltac:(lia)) as A1. pose proof (lev_MON D remap C (k + 1) ltac:(lia)) as A2. replace (k + 1 - 1) with k in A1, A2 by lia.
      apply child_sortedN; [apply (lev_NoDup D remap C)|exact A1|exact A2].
    - intros Z. pose proof (lenN_child_ptrs (G k) (G (k + 1))) as L. rewrite Z in L. change (lenN (@nil N)) with 0 in L. lia.
    - apply Forall_forall. intros p Hp. apply In_nthN in Hp. destruct Hp as (j & Hj). apply nthN_child_ptrs_inv in Hj. destruct Hj as [_ ->].
      pose proof (children_le_all (G k) (G (k + 1)) j). lia.
    - rewrite lenN_child_ptrs. lia. }
  apply opt_ok; [apply ef_ok, t_ef0|reflexivity|]. destruct o as [d|]; [|exact I]. destruct TP as (T & B). split; [apply ef_ok; assumption|apply N.eqb_neq; assumption].
Qed.
End Grams.

Section Load.
Variable x : ext.
Hypothesis XOK : ext_ok x.
Variable D : list (list (gram * N)).
Variable remap : N.
Hypothesis C : collection D remap.
Variables env env' : penv.
Hypothesis EO : penv_ok D remap env.
Hypothesis EO' : penv_ok D remap env'.
Hypothesis ET : pe_t env' = pe_t env.
Hypothesis EG : pe_pef env' = pe_pef env.
Hypothesis ER : pe_pspef env' = pe_pspef env.
Notation G := (grams D).
Notation voc := (grams D 0).
Lemma fit_of e : penv_ok D remap e -> levels_fit D remap e. Proof. intros (_ & _ & H & _). exact H. Qed.
Notation gseq_restored_ := (gseq_restored x XOK D remap C env env' (fit_of env EO) (fit_of env' EO') ET EG).
Notation gseq0_restored_ := (gseq0_restored x XOK env env' EG).
Notation level_pef_typed_ := (level_pef_typed D remap C env (fit_of env EO)).

(** ** a rank sequence *)
Lemma rseq_restored seqs k r : pr_r D env seqs k r -> forall tail,
  exists r' vs, load_rseq env' k (save_rseq (te_kind (pe_t env)) (pe_pspef env) (Some r) ++ tail) = Ok (Some r', tail) /\ same_rseq r r' /\ rseq_good env' k vs r' /\
    forall l i e, nthN D k = Some l -> nthN l i = Some e -> exists y, nthN vs i = Some y /\ sc_access seqs k y = Ok (snd e).
Proof.
  intros (l & n & rs & r0 & Hl & NE & LR & FR & NL & ND & AC & E0 & S0) tail. destruct (col_size _ _ C _ _ Hl) as [Z1 Z2].
  pose proof EO as (_ & _ & _ & PP & _). pose proof EO' as (_ & _ & _ & PP' & _). rewrite ER in PP'.
  destruct (rk_build_ok env' k rs (k + 1) n NE ltac:(lia) FR ltac:(lia)) as (r1 & E1 & GG).
  { rewrite ER. intros PS. destruct (PP' PS k l Hl) as [P1 P2]. split; [|exact P2]. rewrite LR. eapply N.le_lt_trans; [|exact P1]. apply N.mul_le_mono_l. exact ND. }
  assert (AC2 : forall l0 i e, nthN D k = Some l0 -> nthN l0 i = Some e -> exists y, nthN rs i = Some y /\ sc_access seqs k y = Ok (snd e)).
  { intros l0 i e H0 He. rewrite Hl in H0. injection H0 as <-. exact (AC i e He). }
  unfold rk_build in E0, E1. rewrite ER, ET in E1. unfold load_rseq. rewrite ER, ET. destruct (pe_pspef env) eqn:EP.
  - destruct (PP eq_refl k l Hl) as [P1 _]. cbv zeta in E0, E1. apply bind_inv in E0. destruct E0 as (u & EU & E0). rewrite EU in E1. cbn [bind] in E1.
    apply bind_inv in E0. destruct E0 as (f & EF & E0). rewrite EF in E1. cbn [bind] in E1. apply bind_inv in E0. destruct E0 as (e0 & _ & E0). injection E0 as <-.
    apply bind_inv in E1. destruct E1 as (e1 & EI & E1). injection E1 as <-. destruct r as [|f' e]; [destruct S0|]. cbn [same_rseq] in S0. subst f'. cbn [save_rseq].
    assert (L0 : 0 < lenN rs) by (destruct rs; [congruence|rewrite lenN_cons; lia]).
    assert (HM : lenN rs * n < 2 ^ 56) by (rewrite LR; eapply N.le_lt_trans; [|exact P1]; apply N.mul_le_mono_l; exact ND).
    assert (SB : sumN rs <= lenN rs * n).
    { clear - FR. induction rs as [|v vs IH]; [apply N.le_0_l|]. pose proof (Forall_inv FR) as F1. cbv beta in F1. rewrite sumN_cons, lenN_cons. specialize (IH (Forall_inv_tail FR)). lia. }
    destruct (prefix_sums_facts rs ltac:(lia)) as (SS & SF & NP). set (ps := prefix_sums 0 rs) in *. assert (LP : lenN ps = lenN rs) by apply lenN_prefix_sums.
    rewrite sub64_small in EU by lia. apply rd_inv in EU. rewrite (va_nth ps) in EU by lia. injection EU as <-.
    destruct (pef_typed ps (k + 1) f) as (T & NZ); [change (2 ^ 40) with (2 ^ 31 * 512); lia|exact SS|exact SF| |exact EF|].
    { unfold span_ok. rewrite LP. intros LE. pose proof (va_nth ps (lenN rs - 1) ltac:(lia)) as V. rewrite NP in V by lia. injection V as <-.
      pose proof (sumN_firstn_le (N.to_nat (lenN rs - 1 + 1)) rs) as X. assert (lenN rs * n <= 128 * 128). { assert (lenN rs <= 128) by (unfold piece in LE; destruct (2 <? k + 1); lia). apply N.mul_le_mono; lia. } lia. }
    destruct T as (T1 & T2). rewrite <- app_assoc, pod8_ok by exact T1. cbn [bind]. cbv beta iota. rewrite (pef_enum_ok _ f e1 tail (conj T1 T2) NZ EI). cbn [bind option_map fst snd].
    exists (RPEF f e1), rs. split; [reflexivity|]. split; [reflexivity|]. split; [exact GG|exact AC2].
  - apply bind_inv in E0. destruct E0 as (r2 & EF & E0). injection E0 as <-. rewrite EF in E1. cbn [bind] in E1. injection E1 as <-.
    destruct r as [r3|]; [|destruct S0]. cbn [same_rseq] in S0. subst r3. cbn [save_rseq].
    assert (F31 : Forall (fun v => v < 2 ^ 31) rs) by (eapply Forall_impl; [|exact FR]; cbv beta; intros; lia).
    destruct (ranks_typed _ _ _ _ NE ltac:(lia) F31 EF) as (T & B).
    assert (R : load_opt (load_ranks (te_kind (pe_t env))) ranks_dflt (save_ranks r2 ++ tail) = Ok (Some r2, tail)).
    { unfold load_opt. rewrite (ranks_ok_ (te_kind (pe_t env)) r2 T). cbn [bind]. unfold ranks_dflt. destruct r2 as [c|p]; apply N.eqb_neq in B; rewrite B; reflexivity. }
    rewrite R. cbn [bind option_map]. exists (RR r2), rs. split; [reflexivity|]. split; [reflexivity|]. split; [exact GG|exact AC2].
Qed.
Lemma rseq0_restored k tail : load_rseq env' k (save_rseq (te_kind (pe_t env)) (pe_pspef env) None ++ tail) = Ok (None, tail).
Proof.
  unfold load_rseq. rewrite ER, ET. cbn [save_rseq]. destruct (pe_pspef env).
  - rewrite <- app_assoc, pod8_ok by apply u64_0. cbn [bind]. cbv beta iota. rewrite pef_enum0_ok. reflexivity.
  - unfold load_opt. rewrite (ranks_ok_ _ _ (t_ranks0 _)). cbn [bind]. destruct (te_kind (pe_t env)); reflexivity.
Qed.

(** ** an array *)
Definition loaded (seqs : list cv) (k : N) (a a' : parr) : Prop :=
  same_parr a a' /\ opt_all (gs_good D remap env' k) (p_grams a') /\
  opt_all (fun r => exists vs, rseq_good env' k vs r /\ forall l i e, nthN D k = Some l -> nthN l i = Some e -> exists y, nthN vs i = Some y /\ sc_access seqs k y = Ok (snd e)) (p_ranks a').
Lemma array_restored seqs k a : pr_a D remap env seqs k a -> forall tail, exists a', load_pea x env' k (save_pea x env k a ++ tail) = Ok (a', tail) /\ loaded seqs k a a'.
Proof.
  intros (Q1 & Q2 & Q3 & Q4) tail. unfold save_pea, load_pea. rewrite <- ?app_assoc. rewrite pod8_ok by exact Q1. cbn [bind]. cbv beta iota.
  set (tl1 := save_opt save_ef ef0 (p_ptrs a) ++ tail). set (tl2 := save_rseq (te_kind (pe_t env)) (pe_pspef env) (p_ranks a) ++ tl1).
  assert (EGR : exists o', (if k + 1 =? 1 then Ok (None, (if k + 1 =? 1 then [] else save_gseq x (pe_pef env) (p_grams a)) ++ tl2) else
       load_gseq x env' k ((if k + 1 =? 1 then [] else save_gseq x (pe_pef env) (p_grams a)) ++ tl2)) = Ok (o', tl2) /\ same_opt same_gseq (p_grams a) o' /\ opt_all (gs_good D remap env' k) o').
  { destruct (p_grams a) as [g|] eqn:E1.
    - pose proof (Q2 g eq_refl) as PG. destruct (N.eqb_spec (k + 1) 1) as [Z|_]; [destruct PG; lia|]. destruct (gseq_restored_ k g PG tl2) as (g' & L1 & L2 & L3).
      exists (Some g'). split; [exact L1|]. split; [exact L2|]. intros y Hy. injection Hy as <-. exact L3.
    - exists None. split; [|split; [exact I|intros y Hy; discriminate]]. destruct (k + 1 =? 1); [reflexivity|]. apply gseq0_restored_. }
  destruct EGR as (g' & L1 & L2 & L3). rewrite L1. cbn [bind]. cbv beta iota. unfold tl2.
  assert (ERR : exists o', load_rseq env' k (save_rseq (te_kind (pe_t env)) (pe_pspef env) (p_ranks a) ++ tl1) = Ok (o', tl1) /\ same_opt same_rseq (p_ranks a) o' /\
     opt_all (fun r => exists vs, rseq_good env' k vs r /\ forall l i e, nthN D k = Some l -> nthN l i = Some e -> exists y, nthN vs i = Some y /\ sc_access seqs k y = Ok (snd e)) o').
  { destruct (p_ranks a) as [r|] eqn:E1.
    - destruct (rseq_restored seqs k r (Q3 r eq_refl) tl1) as (r' & vs & M1 & M2 & M3 & M4). exists (Some r'). split; [exact M1|]. split; [exact M2|]. intros y Hy. injection Hy as <-. exists vs. auto.
    - exists None. split; [apply rseq0_restored|]. split; [exact I|intros y Hy; discriminate]. }
  destruct ERR as (r' & M1 & M2 & M3). rewrite M1. cbn [bind]. cbv beta iota. unfold tl1.
  pose proof (ptrs_restored D remap C env env k (p_ptrs a) tail Q4) as PR.
  rewrite PR. cbn [bind]. eexists. split; [reflexivity|]. split; [|split; assumption]. split; [reflexivity|]. cbn [p_grams p_ranks p_ptrs]. auto.
Qed.
Lemma arrays_restored seqs : forall l k, (forall i a, nthN l i = Some a -> pr_a D remap env seqs (i + k) a) -> forall tail,
  exists l', load_peas x env' k (length l) (save_peas x env k l ++ tail) = Ok (l', tail) /\ lenN l' = lenN l /\
    forall i a', nthN l' i = Some a' -> exists a, nthN l i = Some a /\ loaded seqs (i + k) a a'.
Proof.
  assert (NS : forall A (b : A) m i, nthN (b :: m) (i + 1) = nthN m i) by (intros A b m i; unfold nthN; replace (N.to_nat (i + 1)) with (S (N.to_nat i)) by lia; reflexivity).
  induction l as [|a l IH]; intros k H tail.
  - exists []. split; [reflexivity|]. split; [reflexivity|]. intros i a' Ha. unfold nthN in Ha. destruct (N.to_nat i); discriminate.
  - cbn [save_peas load_peas length]. rewrite <- app_assoc. destruct (array_restored seqs k a (H 0 a eq_refl) (save_peas x env (k + 1) l ++ tail)) as (a' & E & LA). rewrite E. cbn [bind]. cbv beta iota.
    destruct (IH (k + 1)) with (tail := tail) as (l' & E' & LL & LA').
    { intros i b Hb. replace (i + (k + 1)) with (i + 1 + k) by lia. apply H. rewrite NS. exact Hb. }
    rewrite E'. cbn [bind]. cbv beta iota. exists (a' :: l'). split; [reflexivity|]. split; [rewrite !lenN_cons; lia|]. intros i b Hb.
    destruct (N.eq_dec i 0) as [->|NZ]; [injection Hb as <-; exists a; split; [reflexivity|exact LA]|].
    replace i with (i - 1 + 1) in Hb by lia. rewrite NS in Hb. destruct (LA' _ _ Hb) as (c & Hc & LC). exists c. replace i with (i - 1 + 1) by lia. rewrite NS. split; [exact Hc|].
    replace (i - 1 + 1 + k) with (i - 1 + (k + 1)) by lia. exact LC.
Qed.

Theorem ptrie_restored t : ptrie_prov D remap env t -> ptrie_rep D remap env t -> forall tail,
  exists t', load_ptrie x env' (save_ptrie x env t ++ tail) = Ok (t', tail) /\ same_members t t' /\ ptrie_rep D remap env' t'.
Proof.
  intros (P1 & P2 & P3 & P4 & P5 & (P6 & P7)) (_ & _ & RV & (AL & AR & AP & AT)) tail. pose proof (col_order _ _ C) as CO. pose proof (col_remap _ _ C) as CR.
  unfold save_ptrie, load_ptrie. rewrite <- ?app_assoc. rewrite pod1_ok by (unfold is_u8; rewrite P1; lia). cbn [bind]. cbv beta iota.
  rewrite pod1_ok by (unfold is_u8; rewrite P2; lia). cbn [bind]. cbv beta iota. rewrite sc_ok by (congruence || assumption). cbn [bind]. cbv beta iota.
  rewrite (svt_ok x XOK 64) by (auto; exact P5). cbn [bind]. cbv beta iota.
  destruct (arrays_restored (pt_counts t) (pt_arrays t) 0) with (tail := tail) as (l' & E & LL & LA). { intros i a Ha. rewrite N.add_0_r. auto. }
  replace (N.to_nat (pt_order t)) with (length (pt_arrays t)) by (rewrite P1; unfold lenN in *; lia). rewrite E. cbn [bind]. cbv beta iota.
  eexists. split; [reflexivity|]. split.
  - split; [reflexivity|]. split; [reflexivity|]. split; [reflexivity|]. split; [reflexivity|]. cbn [pt_arrays]. apply same_Forall2. split; [exact LL|].
    intros i a' Ha. destruct (LA i a' Ha) as (a & Ha0 & (S0 & _)). exists a. auto.
  - split; [exact P1|]. split; [exact P2|]. rewrite ET. split; [exact RV|]. cbn [pt_counts pt_arrays]. split; [congruence|].
    assert (GET : forall k, k < lenN D -> exists a a', nthN (pt_arrays t) k = Some a /\ nthN l' k = Some a' /\ loaded (pt_counts t) k a a').
    { intros k Hk. destruct (nthN_Some l' k ltac:(lia)) as (a' & Ha'). destruct (LA k a' Ha') as (a & Ha & LO). rewrite N.add_0_r in LO. exists a, a'. auto. }
    split; [|split].
    + intros k Hk. destruct (GET k Hk) as (a & a' & Ha & Ha' & ((_ & _ & S3 & _) & _ & LR)). destruct (AR k Hk) as (b & r & vs & B1 & B2 & _). rewrite Ha in B1. injection B1 as <-.
      rewrite B2 in S3. destruct (p_ranks a') as [r'|] eqn:ER'; [|destruct S3]. destruct (LR r' eq_refl) as (vs' & V1 & V2). exists a', r', vs'. auto.
    + intros k Hk. destruct (GET k ltac:(lia)) as (a & a' & Ha & Ha' & ((_ & S2 & _) & LG & _)). destruct (AP k Hk) as (b & g & B1 & B2 & _). rewrite Ha in B1. injection B1 as <-.
      rewrite B2 in S2. destruct (p_grams a') as [g'|] eqn:EG'; [|destruct S2]. exists a', g'. auto.
    + intros k Hk. destruct (GET k ltac:(lia)) as (a & a' & Ha & Ha' & ((_ & _ & _ & S4) & _)). destruct (AT k Hk) as (b & e & B1 & B2 & B3). rewrite Ha in B1. injection B1 as <-.
      exists a', e. split; [exact Ha'|]. split; [congruence|exact B3].
Qed.
End Load.
