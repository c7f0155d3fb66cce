(** * save / load of any count trie over uniform_pef whose members are typed *)
From Verif Require Import Prelude BitFacts M_Word M_Bits M_CompactVector M_DArray M_EF M_HashVec M_Mph M_FastEF M_SeqColl M_Pef M_Trie M_TriePef
  M_Save Spec_Save P_Save M_SavePef Spec_SavePef P_SavePef1 P_SavePef2 P_SavePef3.

Section Load.
Variable x : ext.
Hypothesis XOK : ext_ok x.
Variables env env' : penv.
Hypothesis ET : te_kind (pe_t env') = te_kind (pe_t env).
Hypothesis EG : pe_pef env' = pe_pef env.
Hypothesis ER : pe_pspef env' = pe_pspef env.

Lemma any_gseq k o tail : match o with Some g => t_gseq env' k g | None => True end ->
  exists o', load_gseq x env' k (save_gseq x (pe_pef env) o ++ tail) = Ok (o', tail) /\ same_opt same_gseq o o'.
Proof.
  intros T. unfold t_gseq in T. unfold load_gseq. rewrite <- EG. destruct o as [g|].
  - destruct (pe_pef env'), g as [f|f e]; try contradiction; cbn [save_gseq].
    + destruct T as (T & NZ & e' & E). rewrite (pef_enum_ok _ f e' tail T NZ E). cbn [bind option_map fst snd]. exists (Some (SPEF f e')). split; reflexivity.
    + pose proof (grams_ok x XOK (Some f) T tail) as R. unfold save_opt in R. rewrite R. cbn [bind option_map]. exists (Some (SEF f)). split; reflexivity.
  - exists None. split; [|exact I]. cbn [save_gseq]. destruct (pe_pef env'); [rewrite pef_enum0_ok; reflexivity|].
    pose proof (grams_ok x XOK None I tail) as R. unfold save_opt in R. rewrite R. reflexivity.
Qed.
Lemma any_rseq k o tail : match o with Some r => t_rseq env' k r | None => True end ->
  exists o', load_rseq env' k (save_rseq (te_kind (pe_t env)) (pe_pspef env) o ++ tail) = Ok (o', tail) /\ same_opt same_rseq o o'.
Proof.
  intros T. unfold t_rseq in T. unfold load_rseq. rewrite <- ET, <- ER. destruct o as [r|].
  - destruct (pe_pspef env'), r as [r|f e]; try contradiction; cbn [save_rseq].
    + destruct T as (T & NZ & e' & E). pose proof T as (T1 & _). rewrite <- app_assoc, pod8_ok by exact T1. cbn [bind]. cbv beta iota. rewrite (pef_enum_ok _ f e' tail T NZ E). cbn [bind option_map fst snd].
      exists (Some (RPEF f e')). split; reflexivity.
    + destruct T as (T & B). unfold load_opt. rewrite (ranks_ok_ _ r T). cbn [bind]. exists (Some (RR r)). split; [|reflexivity]. unfold ranks_dflt. destruct r as [c|p]; apply N.eqb_neq in B; rewrite B; reflexivity.
  - exists None. split; [|exact I]. cbn [save_rseq]. destruct (pe_pspef env').
    + rewrite <- app_assoc, pod8_ok by (unfold is_u64; lia). cbn [bind]. cbv beta iota. rewrite pef_enum0_ok. reflexivity.
    + unfold load_opt. rewrite (ranks_ok_ _ _ (t_ranks0 _)). cbn [bind]. destruct (te_kind (pe_t env')); reflexivity.
Qed.
Lemma any_array k a tail : t_parr env' k a -> exists a', load_pea x env' k (save_pea x env k a ++ tail) = Ok (a', tail) /\ same_parr a a'.
Proof.
  intros (T1 & T2 & T3 & T4). unfold save_pea, load_pea. rewrite <- ?app_assoc. rewrite pod8_ok by exact T1. cbn [bind]. cbv beta iota.
  set (tl1 := save_opt save_ef ef0 (p_ptrs a) ++ tail). set (tl2 := save_rseq (te_kind (pe_t env)) (pe_pspef env) (p_ranks a) ++ tl1).
  assert (EGR : exists o', (if k + 1 =? 1 then Ok (None, (if k + 1 =? 1 then [] else save_gseq x (pe_pef env) (p_grams a)) ++ tl2) else
       load_gseq x env' k ((if k + 1 =? 1 then [] else save_gseq x (pe_pef env) (p_grams a)) ++ tl2)) = Ok (o', tl2) /\ same_opt same_gseq (p_grams a) o').
  { destruct (N.eqb_spec (k + 1) 1) as [Z|_].
    - destruct (p_grams a); [destruct T2; lia|]. exists None. split; reflexivity.
    - apply any_gseq. destruct (p_grams a); [apply T2|exact I]. }
  destruct EGR as (g' & L1 & L2). rewrite L1. cbn [bind]. cbv beta iota. unfold tl2. destruct (any_rseq k (p_ranks a) tl1 T3) as (r' & M1 & M2). rewrite M1. cbn [bind]. cbv beta iota. unfold tl1.
  assert (PR : load_opt load_ef (fun e => ef_size e =? 0) (save_opt save_ef ef0 (p_ptrs a) ++ tail) = Ok (p_ptrs a, tail)).
  { apply opt_ok; [apply ef_ok, t_ef0|reflexivity|]. destruct (p_ptrs a) as [d|]; [|exact I]. destruct T4 as (T & B). split; [apply ef_ok; assumption|apply N.eqb_neq; assumption]. }
  rewrite PR. cbn [bind]. eexists. split; [reflexivity|]. split; [reflexivity|]. cbn [p_grams p_ranks p_ptrs]. auto.
Qed.
Lemma any_arrays : forall l k tail, (forall i a, nthN l i = Some a -> t_parr env' (i + k) a) ->
  exists l', load_peas x env' k (length l) (save_peas x env k l ++ tail) = Ok (l', tail) /\ Forall2 same_parr l l'.
Proof.
  induction l as [|a l IH]; intros k tail T; [exists []; split; [reflexivity|constructor]|]. cbn [save_peas load_peas length]. rewrite <- app_assoc.
  destruct (any_array k a (save_peas x env (k + 1) l ++ tail) (T 0 a eq_refl)) as (a' & E & SA). rewrite E. cbn [bind]. cbv beta iota.
  destruct (IH (k + 1) tail) as (l' & E' & SL).
  { intros i b Hb. replace (i + (k + 1)) with (i + 1 + k) by lia. apply T. unfold nthN in *. replace (N.to_nat (i + 1)) with (S (N.to_nat i)) by lia. exact Hb. }
  rewrite E'. cbn [bind]. cbv beta iota. exists (a' :: l'). split; [reflexivity|constructor; assumption].
Qed.
Lemma any_ptrie t tail : t_ptrie env' t -> exists t', load_ptrie x env' (save_ptrie x env t ++ tail) = Ok (t', tail) /\ same_members t t'.
Proof.
  intros (T1 & T2 & T3 & T4 & T5 & T6 & T7). unfold save_ptrie, load_ptrie. rewrite <- ?app_assoc. rewrite pod1_ok by exact T1. cbn [bind]. cbv beta iota.
  rewrite pod1_ok by exact T2. cbn [bind]. cbv beta iota. rewrite sc_ok by assumption. cbn [bind]. cbv beta iota.
  rewrite (svt_ok x XOK 64) by auto. cbn [bind]. cbv beta iota. destruct (any_arrays (pt_arrays t) 0 tail) as (l' & E & SL). { intros i a Ha. rewrite N.add_0_r. auto. }
  replace (N.to_nat (pt_order t)) with (length (pt_arrays t)) by (unfold lenN in *; lia). rewrite E. cbn [bind]. cbv beta iota.
  eexists. split; [reflexivity|]. repeat (split; [reflexivity|]). exact SL.
Qed.
End Load.
