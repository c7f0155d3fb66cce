(** * Built count tries over uniform_pef are typed *)
From Verif Require Import Prelude BitFacts M_Word P_Word M_Bits Spec P_Bits M_CompactVector P_CompactVector M_DArray M_EF P_EF P_EF2
  M_HashVec M_Mph P_Mph P_MphTables M_FastEF P_FastEF P_FastEF3 M_Text P_Text P_Text2 M_SeqColl P_SeqColl M_Pool P_Pool M_Pef P_Pef3 P_Pef4 P_Pef5 P_Pef6 Spec_Pef M_Trie M_TriePef Spec_Trie
  P_Trie1 P_Trie2 P_Trie3 P_Trie4 P_Trie5 P_TriePef1 P_TriePef2 P_TriePef3 P_TriePef4 M_Save Spec_Save P_Save P_Typed M_SavePef Spec_SavePef P_SavePef1 P_SavePef2 P_SavePef3.
From Coq Require Import Permutation Sorting.Sorted.

Section Built.
Variable D : list (list (gram * N)).
Variable remap : N.
Hypothesis C : collection D remap.
Variables env env' : penv.
Hypothesis EO : penv_ok D remap env.
Hypothesis EO' : penv_ok D remap env'.
Hypothesis ET : pe_t env' = pe_t env.
Hypothesis EG : pe_pef env' = pe_pef env.
Hypothesis ER : pe_pspef env' = pe_pspef env.
Notation G := (grams D).
Notation voc := (grams D 0).

Lemma gseq_typed k g : pr_g D remap env k g -> t_gseq env' k g.
Proof.
  intros (Hk & g0 & E0 & S0). pose proof EO' as (_ & _ & LV & _).
  destruct (g_build_ok D remap C env' k Hk (LV k Hk)) as (g1 & E1 & GG). specialize (LV k Hk).
  unfold g_build in E0, E1. rewrite EG, ET in E1. unfold t_gseq. rewrite EG. rewrite EG, ET in LV. destruct (pe_pef env) eqn:EP.
  - apply bind_inv in E0. destruct E0 as (f & EF & E0). apply bind_inv in E0. destruct E0 as (e0 & EI & E0). injection E0 as <-.
    rewrite EF in E1. cbn [bind] in E1. apply bind_inv in E1. destruct E1 as (e1 & EI1 & E1). injection E1 as <-.
    destruct g as [|f' e]; [destruct S0|]. cbn [same_gseq] in S0. subst f'. 
    destruct (level_pef_typed D remap C env env (fit_of D remap env EO) k f Hk EP EF) as (T & NZ). split; [exact T|]. split; [exact NZ|]. exists e1. exact EI1.
  - apply bind_inv in E0. destruct E0 as (f & EF & E0). injection E0 as <-. rewrite EF in E1. cbn [bind] in E1. injection E1 as <-.
    destruct g as [f'|]; [|destruct S0]. cbn [same_gseq] in S0. subst f'. cbn [save_gseq].
    pose proof (lev_size D remap C k) as SZ. pose proof (lev_size D remap C 0) as SZ0. pose proof (lev_size D remap C (k - 1)) as SZ1.
    assert (LI : lenN (lids D remap k) = lenN (G k)) by apply lids_len.
    assert (TF : t_fef f /\ f_size f <> 0).
    { eapply (fef_build_typed (te_hu (pe_t env) k) (te_orders (pe_t env) k) (lids D remap k) (child_ptrs (G (k - 1)) (G k)) (lenN voc)); [| | | | | | | |exact EF].
      { apply level_ptrs; assumption. }
      { apply (lids_sorted D remap C). lia. }
      { intros Z. rewrite Z in LI. change (lenN (@nil N)) with 0 in LI. pose proof (lev_nonempty D remap C k ltac:(lia)) as X. destruct (G k); [congruence|rewrite lenN_cons in LI; lia]. }
      { change (2 ^ 56) with (2 ^ 31 * 2 ^ 25). lia. }
      { apply (lids_bound D remap C). }
      { rewrite lenN_child_ptrs. apply N.le_lt_trans with ((lenN (G (k - 1)) + 1) * 2 ^ 31); [apply N.mul_le_mono_l; lia|]. change (2 ^ 64) with (2 ^ 33 * 2 ^ 31). apply N.mul_lt_mono_pos_r; lia. }
      { rewrite lenN_child_ptrs. lia. }
      exact LV. }
    exact TF.
Qed.
Lemma rseq_typed seqs k r : pr_r D env seqs k r -> t_rseq env' k r.
Proof.
  intros (l & n & rs & r0 & Hl & NE & LR & FR & NL & ND & AC & E0 & S0). destruct (col_size _ _ C _ _ Hl) as [Z1 Z2].
  pose proof EO as (_ & _ & _ & PP & _). pose proof EO' as (_ & _ & _ & PP' & _). rewrite ER in PP'.
  destruct (rk_build_ok env' k rs (k + 1) n NE ltac:(lia) FR ltac:(lia)) as (r1 & E1 & GG).
  { rewrite ER. intros PS. destruct (PP' PS k l Hl) as [P1 P2]. split; [|exact P2]. rewrite LR. eapply N.le_lt_trans; [|exact P1]. apply N.mul_le_mono_l. exact ND. }
  assert (AC2 : forall l0 i e, nthN D k = Some l0 -> nthN l0 i = Some e -> exists y, nthN rs i = Some y /\ sc_access seqs k y = Ok (snd e)).
  { intros l0 i e H0 He. rewrite Hl in H0. injection H0 as <-. exact (AC i e He). }
  unfold rk_build in E0, E1. rewrite ER, ET in E1. unfold t_rseq. rewrite ER, ET. destruct (pe_pspef env) eqn:EP.
  - destruct (PP eq_refl k l Hl) as [P1 _]. cbv zeta in E0, E1. apply bind_inv in E0. destruct E0 as (u & EU & E0). rewrite EU in E1. cbn [bind] in E1.
    apply bind_inv in E0. destruct E0 as (f & EF & E0). rewrite EF in E1. cbn [bind] in E1. apply bind_inv in E0. destruct E0 as (e0 & _ & E0). injection E0 as <-.
    apply bind_inv in E1. destruct E1 as (e1 & EI & E1). injection E1 as <-. destruct r as [|f' e]; [destruct S0|]. cbn [same_rseq] in S0. subst f'. cbn [save_rseq].
    assert (L0 : 0 < lenN rs) by (destruct rs; [congruence|rewrite lenN_cons; lia]).
    assert (HM : lenN rs * n < 2 ^ 56) by (rewrite LR; eapply N.le_lt_trans; [|exact P1]; apply N.mul_le_mono_l; exact ND).
    assert (SB : sumN rs <= lenN rs * n).
    { clear - FR. induction rs as [|v vs IH]; [apply N.le_0_l|]. pose proof (Forall_inv FR) as F1. cbv beta in F1. rewrite sumN_cons, lenN_cons. specialize (IH (Forall_inv_tail FR)). lia. }
    destruct (prefix_sums_facts rs ltac:(lia)) as (SS & SF & NP). set (ps := prefix_sums 0 rs) in *. assert (LP : lenN ps = lenN rs) by apply lenN_prefix_sums.
    rewrite sub64_small in EU by lia. apply rd_inv in EU. rewrite (va_nth ps) in EU by lia. injection EU as <-.
    destruct (pef_typed ps (k + 1) f) as (T & NZ); [change (2 ^ 40) with (2 ^ 31 * 512); lia|exact SS|exact SF| |exact EF|].
    { unfold span_ok. rewrite LP. intros LE. pose proof (va_nth ps (lenN rs - 1) ltac:(lia)) as V. rewrite NP in V by lia. injection V as <-.
      pose proof (sumN_firstn_le (N.to_nat (lenN rs - 1 + 1)) rs) as X. assert (lenN rs * n <= 128 * 128). { assert (lenN rs <= 128) by (unfold piece in LE; destruct (2 <? k + 1); lia). apply N.mul_le_mono; lia. } lia. }
    split; [exact T|]. split; [exact NZ|]. exists e1. exact EI.
  - apply bind_inv in E0. destruct E0 as (r2 & EF & E0). injection E0 as <-. rewrite EF in E1. cbn [bind] in E1. injection E1 as <-.
    destruct r as [r3|]; [|destruct S0]. cbn [same_rseq] in S0. subst r3. cbn [save_rseq].
    assert (F31 : Forall (fun v => v < 2 ^ 31) rs) by (eapply Forall_impl; [|exact FR]; cbv beta; intros; lia).
    destruct (ranks_typed _ _ _ _ NE ltac:(lia) F31 EF) as (T & B).
    split; [exact T|exact B].
Qed.
Lemma array_typed seqs k a : pr_a D remap env seqs k a -> t_parr env' k a.
Proof.
  intros (Q1 & Q2 & Q3 & Q4). split; [exact Q1|]. split; [|split].
  - destruct (p_grams a) as [g|] eqn:E; [|exact I]. pose proof (Q2 g eq_refl) as P. split; [destruct P; lia|apply gseq_typed; exact P].
  - destruct (p_ranks a) as [r|] eqn:E; [|exact I]. exact (rseq_typed _ _ _ (Q3 r eq_refl)).
  - destruct (p_ptrs a) as [e|] eqn:E1; [|exact I]. destruct (Q4 e eq_refl) as (Hk & EP). cbn [t_opt].
    pose proof (lev_size D remap C (k + 1)) as SZ1. pose proof (lev_size D remap C k) as SZ0.
    eapply (ptr_typed (child_ptrs (G k) (G (k + 1)))); [exact EP| | | |].
    + pose proof (lev_PRE D remap C (k + 1) ltac:(lia)) as A1. pose proof (lev_MON D remap C (k + 1) ltac:(lia)) as A2. replace (k + 1 - 1) with k in A1, A2 by lia.
      apply child_sortedN; [apply (lev_NoDup D remap C)|exact A1|exact A2].
    + intros Z. pose proof (lenN_child_ptrs (G k) (G (k + 1))) as L. rewrite Z in L. change (lenN (@nil N)) with 0 in L. lia.
    + apply Forall_forall. intros p Hp. apply In_nthN in Hp. destruct Hp as (j & Hj). apply nthN_child_ptrs_inv in Hj. destruct Hj as [_ ->].
      pose proof (children_le_all (G k) (G (k + 1)) j). lia.
    + rewrite lenN_child_ptrs. lia. 
Qed.
Lemma ptrie_typed t : ptrie_prov D remap env t -> t_ptrie env' t.
Proof.
  intros (P1 & P2 & P3 & P4 & P5 & (P6 & P7)). pose proof (col_order _ _ C) as CO. pose proof (col_remap _ _ C) as CR.
  split; [unfold is_u8; lia|]. split; [unfold is_u8; lia|]. split; [congruence|]. split; [assumption|]. split; [assumption|]. split; [congruence|].
  intros k a Ha. eapply array_typed. apply P7. exact Ha.
Qed.
End Built.
