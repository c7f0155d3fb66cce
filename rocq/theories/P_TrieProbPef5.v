(** * Probability tries over either gram sequence: saving and loading *)
From Coq Require Import Floats.SpecFloat.
From Verif Require Import Prelude BitFacts M_Word P_Word M_Bits Spec P_Bits P_Builder M_CompactVector P_CompactVector M_DArray M_EF P_EF P_EF2
  M_HashVec M_Mph P_Mph P_MphTables M_FastEF P_FastEF P_FastEF3 M_Text P_Text P_Text2 M_SeqColl P_SeqColl M_Pool P_Pool M_Pef Spec_Pef M_Trie Spec_Trie P_Trie1 P_Trie2 P_Trie3 P_Trie4 P_Trie5 P_Trie6 P_Trie7
  Props_MphCount M_Score Spec_Katz P_Score1 P_Score2 P_Score3 M_Quant P_Quant M_MphProb Spec_Arpa P_Sentence P_Values P_MphProb M_TrieProb P_TrieProb1 P_TrieProb2 P_TrieProb3
  M_ArpaFile Spec_ArpaFile P_ArpaFile M_MphCount M_Save Spec_Save P_Save P_Typed P_Typed3 M_Save2 Spec_Save2 P_Save2 M_SavePef Spec_SavePef P_SavePef1 P_SavePef2 P_SavePef3.
From Verif Require Import M_TriePef P_TriePef1 P_TriePef2 M_TrieProbPef P_TrieProbPef1 P_TrieProbPef2.
From Coq Require Import Permutation Sorting.Sorted.

(** the two models are the same but for the positions of the enumerators *)
Definition same_qpl (m m' : qpl) : Prop :=
  qp_order m' = qp_order m /\ qp_remap m' = qp_remap m /\ qp_unk m' = qp_unk m /\ qp_probs m' = qp_probs m /\ qp_backoffs m' = qp_backoffs m /\
  qp_vocab m' = qp_vocab m /\ qp_ranks m' = qp_ranks m /\ Forall2 same_parr (qp_arrays m) (qp_arrays m').

Section Made.
Variable D : entries.
Variable secs : list (list (list N)).
Variable env : qenv.
Variables remap pq bq : N.
Notation tv := (qe_t env).
Hypothesis AF : arpa_file D.
Hypothesis CO : collection (reversed D) remap.
Hypothesis TI : trie_base_ok D secs tv remap pq bq.
Notation R := (revD D).
Notation G := (grams (revD D)).
Notation voc := (grams (revD D) 0).
Notation CRR := (CR D remap CO).
Notation VI := (VIN D secs tv remap pq bq TI).
Notation ge := (genv env).
Hypothesis LVL : levels_fit R remap ge.
Lemma LVL' : forall k, 0 < k < lenN D ->
  if pe_pef ge then pef_level R remap ge k else long_starts 128 (child_ptrs (G (k - 1)) (G k)) = [] \/
    valid_order (hash_domain (lenN (long_starts 128 (child_ptrs (G (k - 1)) (G k))))) (te_hu (pe_t ge) k) (long_starts 128 (child_ptrs (G (k - 1)) (G k))) (te_orders (pe_t ge) k).
Proof. intros k Hk. apply LVL. rewrite lenN_revD. exact Hk. Qed.

Record qp_made (m : qpl) : Prop := mkqmade {
  qm_prov : qprov D env remap (qp_arrays m) (qp_ranks m);
  qm_unk : is_float (qp_unk m);
  qm_probs : t_qsc (lenN D - 1) (qp_probs m);
  qm_backoffs : t_qsc (lenN D - 2) (qp_backoffs m);
  qm_vocab : t_dvt (qp_vocab m) }.
Theorem qp_build_made data unk m : arpa_text data secs -> is_float unk -> qp_build_file env data (lenN D) remap unk pq bq = Ok m -> qp_made m.
Proof.
  intros AT FU E. pose proof (af_order _ AF) as HO. pose proof (col_remap _ _ CRR) as HR. unfold qp_build_file in E.
  assert (U : forall x, x <= 8 -> u8 x = x). { intros x Hx. unfold u8. change 255 with (N.ones 8). rewrite N.land_ones. apply N.mod_small. lia. }
  unfold check_order, check_remapping_order in E. rewrite !U in E by lia.
  destruct (N.ltb_spec (lenN D) 2); [lia|]. destruct (N.ltb_spec 8 (lenN D)); [lia|]. destruct (N.ltb_spec 2 remap); [lia|]. cbn [bind] in E.
  rewrite (load_ok (tp_penv tv) data secs (lenN D) pq bq AT ltac:(lia)) in E.
  rewrite (lenN_secs D secs (tp_penv tv) pq bq VI), N.ltb_irrefl in E.
  destruct (values_ok D secs (tp_penv tv) pq bq AF VI) as ([pb bb] & EV & VV). rewrite EV in E. cbn [bind] in E. cbv beta iota in E.
  destruct (nthN_Some D 0 ltac:(lia)) as (l & Hl). destruct (lines_of D secs tv remap pq bq TI 0 l Hl) as (ls & Hs & F2 & FL).
  rewrite (proj2 (rd_nthN _ _ _) Hs) in E. cbn [bind] in E.
  rewrite (set_unk_ok D (tp_penv tv) AF l ls unk Hl F2) in E. cbn [bind] in E.
  destruct (vocabulary_ok D secs tv remap pq bq AF TI l ls Hl F2) as (v & EVO & RV & MN & c1 & c2 & HC1 & HC2 & EDV). rewrite EVO in E. cbn [bind] in E.
  set (arr := map (fun l0 : list (list N) => parr_new (lenN l0)) secs) in E. set (rk := map (fun _ : list (list N) => @None cv) secs) in E.
  assert (AU : gup D env remap arr 1).
  { split; [unfold arr; rewrite lenN_map; apply (lenN_secs D secs (tp_penv tv) pq bq VI)|]. split; intros; lia. }
  assert (RU : rup D pq bq pb bb rk 1).
  { split; [unfold rk; rewrite lenN_map; apply (lenN_secs D secs (tp_penv tv) pq bq VI)|]. intros; lia. }
  destruct (qp_build_orders_ok D secs env remap pq bq AF CO TI LVL' v pb bb RV MN VV (N.to_nat (lenN D - 1)) 1 arr rk ltac:(lia) ltac:(lia) AU RU) as (arr' & rk' & E' & AU' & RU' & QP).
  change (1 + 1) with 2 in E'. rewrite E' in E. cbn [bind] in E. cbv beta iota in E. injection E as <-.
  destruct (af_size _ AF _ _ Hl) as [S1 S2].
  constructor; cbn [qp_order qp_remap qp_unk qp_probs qp_backoffs qp_vocab qp_arrays qp_ranks].
  - apply QP. split.
    + intros k a Ha. unfold arr in Ha. rewrite nthN_map in Ha. destruct (nthN secs k) as [ls0|] eqn:Es; [|discriminate]. cbn in Ha. injection Ha as <-.
      destruct (nthN_Some D k) as (li & Hli). { rewrite <- (lenN_secs D secs (tp_penv tv) pq bq VI). eapply nthN_lt; eauto. }
      destruct (lines_of D secs tv remap pq bq TI k li Hli) as (lsi & Hsi & Fi & _). rewrite Es in Hsi. injection Hsi as <-.
      destruct (af_size _ AF _ _ Hli) as [_ S3]. apply Forall2_len in Fi. split; [unfold parr_new; cbn [p_size]; unfold lenN in *; lia|]. split; [reflexivity|].
      split; intros y Hy; discriminate.
    + intros k o Ho. unfold rk in Ho. rewrite nthN_map in Ho. destruct (nthN secs k) as [ls0|]; [|discriminate]. cbn in Ho. injection Ho as <-. destruct (k =? 0); [reflexivity|exact I].
  - unfold unk_prob. destruct (SFeqb _ _); [|exact FU].
    unfold entry. set (g := [[60; 117; 110; 107; 62]]). replace (lenN g - 1) with 0 by reflexivity. rewrite Hl.
    destruct (find _ l) as [e|] eqn:FE; [|exact FU]. cbn [option_map]. destruct (find_some _ _ FE) as [He _]. pose proof (proj1 (af_floats _ AF 0 l e Hl He)) as V.
    destruct (snd e) as [p0 b0]. exact V.
  - exact (proj1 (mp_values_typed (tp_penv tv) secs (lenN D) pq bq pb bb ltac:(lia) EV)).
  - exact (proj2 (mp_values_typed (tp_penv tv) secs (lenN D) pq bq pb bb ltac:(lia) EV)).
  - refine (dvt_build_typed 64 (tp_h tv) _ _ _ c1 c2 (range (lenN l)) (map uni_value l) v _ HC1 HC2 _ _ _ _ EDV).
    + lia.
    + rewrite map_length. unfold range. rewrite length_seqN. unfold lenN. lia.
    + rewrite !map_length. reflexivity.
    + rewrite lenN_map. lia.
    + apply hash_domain_lt. lia.
Qed.
End Made.

(** ** what is written is read back *)
Section Load.
Variable x : ext.
Hypothesis XOK : ext_ok x.
Variable D : entries.
Variables remap pq bq : N.
Hypothesis CO : collection (reversed D) remap.
Variables env env' : qenv.
Hypothesis LVE : levels_fit (revD D) remap (genv env).
Hypothesis LVE' : levels_fit (revD D) remap (genv env').
Hypothesis ET : qe_t env' = qe_t env.
Hypothesis EG : qe_pef env' = qe_pef env.
Notation R := (revD D).
Notation CRR := (CR D remap CO).
Notation ge := (genv env).
Notation ge' := (genv env').
Lemma ETg : pe_t ge' = pe_t ge. Proof. unfold genv. cbn [pe_t]. rewrite ET. reflexivity. Qed.
Lemma EGg : pe_pef ge' = pe_pef ge. Proof. exact EG. Qed.
Definition qloaded (k : N) (a a' : parr) : Prop := same_parr a a' /\ opt_all (gs_good R remap ge' k) (p_grams a').
Lemma qarr_restored k a o tail : qpr_a D env remap k a -> (if k =? 0 then o = None else t_opt t_cv (fun c => c_size c <> 0) o) ->
  exists a', load_qarr x env' k (save_qarr x env k a o ++ tail) = Ok (a', o, tail) /\ qloaded k a a'.
Proof.
  intros (Q1 & Q2 & Q3 & Q4) TO. unfold save_qarr, load_qarr. rewrite <- ?app_assoc. rewrite pod8_ok by exact Q1. cbn [bind]. cbv beta iota.
  pose proof (ptrs_restored R remap CRR ge ge k (p_ptrs a) tail Q4) as PR. destruct (N.eqb_spec k 0) as [Z|Z].
  - subst k o. destruct (p_grams a) as [g|] eqn:Eg; [destruct (Q3 g eq_refl) as (B & _); lia|]. change (0 + 1 =? 1) with true. cbv iota. cbn [bind app]. cbv beta iota. rewrite PR. cbn [bind]. cbv beta iota.
    eexists. split; [reflexivity|]. split; [|intros y Hy; discriminate]. split; [reflexivity|]. cbn [p_grams p_ranks p_ptrs]. rewrite Eg, Q2. split; [exact I|]. split; [exact I|reflexivity].
  - destruct (N.eqb_spec (k + 1) 1) as [Z2|_]; [lia|]. rewrite <- ?app_assoc. change (qe_pef env) with (pe_pef ge).
    assert (GR : forall tl, exists o', load_gseq x ge' k (save_gseq x (pe_pef ge) (p_grams a) ++ tl) = Ok (o', tl) /\ same_opt same_gseq (p_grams a) o' /\ opt_all (gs_good R remap ge' k) o').
    { intros tl. destruct (p_grams a) as [g|] eqn:E1.
      - destruct (gseq_restored x XOK R remap CRR ge ge' LVE LVE' ETg EGg k g (Q3 g eq_refl) tl) as (g' & L1 & L2 & L3).
        exists (Some g'). split; [exact L1|]. split; [exact L2|]. intros y Hy. injection Hy as <-. exact L3.
      - exists None. split; [apply (gseq0_restored x XOK ge ge' EGg)|]. split; [exact I|intros y Hy; discriminate]. }
    destruct (GR (save_opt save_cv cv0 o ++ save_opt save_ef ef0 (p_ptrs a) ++ tail)) as (g' & L1 & L2 & L3). rewrite L1. cbn [bind]. cbv beta iota.
    rewrite (pb_ok o TO). cbn [bind]. cbv beta iota. rewrite PR. cbn [bind]. cbv beta iota. eexists. split; [reflexivity|]. split; [|exact L3].
    split; [reflexivity|]. cbn [p_grams p_ranks p_ptrs]. rewrite Q2. split; [exact L2|]. split; [exact I|reflexivity].
Qed.
Lemma qarrs_restored : forall l os k tail, length os = length l -> (forall i a, nthN l i = Some a -> qpr_a D env remap (i + k) a) ->
  (forall i o, nthN os i = Some o -> if i + k =? 0 then o = None else t_opt t_cv (fun c => c_size c <> 0) o) ->
  exists l', load_qarrs x env' k (length l) (save_qarrs x env k l os ++ tail) = Ok (l', os, tail) /\ lenN l' = lenN l /\
    forall i a', nthN l' i = Some a' -> exists a, nthN l i = Some a /\ qloaded (i + k) a a'.
Proof.
  assert (NS : forall A (b : A) m i, nthN (b :: m) (i + 1) = nthN m i) by (intros A b m i; unfold nthN; replace (N.to_nat (i + 1)) with (S (N.to_nat i)) by lia; reflexivity).
  induction l as [|a l IH]; intros os k tail LO H HO; destruct os as [|o os]; try discriminate LO.
  - exists []. split; [reflexivity|]. split; [reflexivity|]. intros i a' Ha. unfold nthN in Ha. destruct (N.to_nat i); discriminate.
  - cbn [save_qarrs load_qarrs length]. rewrite <- app_assoc. destruct (qarr_restored k a o (save_qarrs x env (k + 1) l os ++ tail) (H 0 a eq_refl) (HO 0 o eq_refl)) as (a' & E & LA). rewrite E. cbn [bind]. cbv beta iota.
    destruct (IH os (k + 1) tail) as (l' & E' & LL & LA').
    { cbn [length] in LO. lia. }
    { intros i b Hb. replace (i + (k + 1)) with (i + 1 + k) by lia. apply H. rewrite NS. exact Hb. }
    { intros i b Hb. replace (i + (k + 1)) with (i + 1 + k) by lia. apply HO. rewrite NS. exact Hb. }
    rewrite E'. cbn [bind]. cbv beta iota. exists (a' :: l'). split; [reflexivity|]. split; [rewrite !lenN_cons; lia|]. intros i b Hb.
    destruct (N.eq_dec i 0) as [->|NZ]; [injection Hb as <-; exists a; split; [reflexivity|exact LA]|].
    replace i with (i - 1 + 1) in Hb by lia. rewrite NS in Hb. destruct (LA' _ _ Hb) as (c & Hc & LC). exists c. replace i with (i - 1 + 1) by lia. rewrite NS. split; [exact Hc|].
    replace (i - 1 + 1 + k) with (i - 1 + (k + 1)) by lia. exact LC.
Qed.
Theorem qpl_restored unk m : 2 <= lenN D <= 8 -> remap <= 2 -> qp_made D env remap m -> qp_rep D env remap pq bq unk m -> forall tail,
  exists m', load_qpl x env' (save_qpl x env m ++ tail) = Ok (m', tail) /\ same_qpl m m' /\ qp_rep D env' remap pq bq unk m'.
Proof.
  intros HO HR [(P1 & P2) P3 P4 P5 P6] [R1 R2 R3 R4 R5 R6 R7] tail. destruct R6 as (AL & AP & AT). destruct R7 as (RL & RV).
  unfold save_qpl, load_qpl. rewrite <- ?app_assoc. rewrite pod1_ok by (unfold is_u8; rewrite R1; lia). cbn [bind]. cbv beta iota.
  rewrite pod1_ok by (unfold is_u8; rewrite R2; lia). cbn [bind]. cbv beta iota.
  pose proof (f_bits_lt _ P3) as FL. rewrite (pod_ok 4) by (change (8 * N.of_nat 4) with 32; lia). cbn [bind]. cbv beta iota.
  rewrite R1. rewrite !sub64_small by lia. rewrite qsc_ok by (exact P4 || lia). cbn [bind]. cbv beta iota. rewrite qsc_ok by (exact P5 || lia). cbn [bind]. cbv beta iota.
  rewrite (dvt_ok x XOK) by exact P6. cbn [bind]. cbv beta iota. destruct (N.eqb_spec (lenN D) 0); [lia|].
  destruct (qarrs_restored (qp_arrays m) (qp_ranks m) 0 tail) as (l' & E & LL & LA).
  { unfold lenN in *. lia. }
  { intros i a Ha. rewrite N.add_0_r. auto. }
  { intros i o Ho. rewrite N.add_0_r. exact (P2 i o Ho). }
  replace (N.to_nat (lenN D)) with (length (qp_arrays m)) by (unfold lenN in *; lia). rewrite E. cbn [bind]. cbv beta iota. rewrite f_of_bits_f_bits by exact P3.
  eexists. split; [reflexivity|]. split.
  - unfold same_qpl. cbn [qp_order qp_remap qp_unk qp_probs qp_backoffs qp_vocab qp_arrays qp_ranks].
    repeat match goal with |- _ /\ _ => split; [first [reflexivity|congruence]|] end. apply same_Forall2. split; [exact LL|].
    intros i a' Ha. destruct (LA i a' Ha) as (a & Ha0 & (S0 & _)). exists a. auto.
  - assert (GET : forall k, k < lenN D -> exists a a', nthN (qp_arrays m) k = Some a /\ nthN l' k = Some a' /\ qloaded k a a').
    { intros k Hk. destruct (nthN_Some l' k ltac:(lia)) as (a' & Ha'). destruct (LA k a' Ha') as (a & Ha & LO). rewrite N.add_0_r in LO. exists a, a'. auto. }
    constructor; cbn [qp_order qp_remap qp_unk qp_probs qp_backoffs qp_vocab qp_arrays qp_ranks]; auto.
    + rewrite ET. exact R5.
    + split; [congruence|]. split.
      * intros k Hk. destruct (GET k ltac:(lia)) as (a & a' & Ha & Ha' & ((_ & S2 & _) & LG)). destruct (AP k Hk) as (b & g & B1 & B2 & _). rewrite Ha in B1. injection B1 as <-.
        rewrite B2 in S2. destruct (p_grams a') as [g'|] eqn:EG'; [|destruct S2]. exists a', g'. auto.
      * intros k Hk. destruct (GET k ltac:(lia)) as (a & a' & Ha & Ha' & ((_ & _ & _ & S4) & _)). destruct (AT k Hk) as (b & e & B1 & B2 & B3). rewrite Ha in B1. injection B1 as <-.
        exists a', e. split; [exact Ha'|]. split; [congruence|exact B3].
    + split; assumption.
Qed.
End Load.
