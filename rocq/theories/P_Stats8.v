(** * Statistics: reports of built models *)
From Coq Require Import Floats.SpecFloat.
From Verif Require Import Prelude BitFacts M_Word P_Word M_Bits Spec P_Bits M_CompactVector P_CompactVector M_DArray M_EF P_EF P_EF2 M_HashVec M_Mph P_Mph P_MphTables
  M_FastEF P_FastEF P_FastEF3 M_Text M_SeqColl P_SeqColl M_Pool M_Trie Spec_Trie P_Trie1 P_Trie2 P_Trie3 P_Trie4 P_Trie5 P_Trie6 Props_Trie M_MphCount Props_MphCount
  M_Score Spec_Katz M_Quant M_MphProb Spec_Arpa P_Values P_MphProb M_TrieProb P_TrieProb1 P_TrieProb2 P_TrieProb3
  M_Save M_Save2 Spec_Save Spec_Save2 P_Save P_Save2 P_Typed P_Typed3 M_Stats Spec_Stats Spec_Report P_Stats1 P_Stats2 P_Stats3 P_Stats4 P_Stats5 P_Stats6 P_Stats7.
From Coq Require Import Permutation Sorting.Sorted.

(** ** count trie *)
Section CountTrie.
Variable D : list (list (gram * N)).
Variable remap : N.
Hypothesis C : collection D remap.
Variable env : tenv.
Hypothesis EO : env_ok D remap env.
Lemma trie_values : mapM (fun lines => mapM (fun l => ' (_, c) <- parse_count_line l ;; Ok c) lines) (map (map line) D) = Ok (map (map snd) D).
Proof.
  assert (H2 : forall l, In l D -> mapM (fun l => ' (_, c) <- parse_count_line l ;; Ok c) (map line l) = Ok (map snd l)).
  { intros l Hl. apply In_nthN in Hl. destruct Hl as (k & Hk).
    assert (H3 : forall l0, incl l0 l -> mapM (fun l => ' (_, c) <- parse_count_line l ;; Ok c) (map line l0) = Ok (map snd l0)).
    { induction l0 as [|e l0 IH]; intros I; [reflexivity|]. cbn [map mapM]. rewrite (parse_line D remap C env EO k l e Hk) by (apply I; left; reflexivity).
      cbn [bind]. rewrite IH by (intros x Hx; apply I; right; assumption). reflexivity. }
    apply H3. apply incl_refl. }
  revert H2. generalize D as D1. clear. induction D1 as [|l D1 IH]; intros H2; [reflexivity|]. cbn [map mapM]. rewrite (H2 l (or_introl eq_refl)). cbn [bind].
  rewrite IH by (intros; apply H2; right; assumption). reflexivity.
Qed.
Lemma trie_facts t : trie_build env (map (map line) D) (lenN D) remap = Ok t ->
  (shape (map (fun l => lenN l) D) (lenN D - 1) (t_arrays t) /\ arrays_facts D remap (map level_of (t_arrays t))) /\ map c_size (t_counts t) = map (fun l => distinct (map snd l)) D /\ t_order t = lenN D.
Proof.
  intros E. pose proof (col_order _ _ C) as CO. split; [|split].
  - destruct (trie_build_ok D remap C env EO) as (t' & E' & _ & _ & _ & AU). rewrite E in E'. injection E' as <-. destruct AU as (_ & _ & AP & APtr).
    assert (SHP : shape (map (fun l => lenN l) D) (lenN D - 1) (t_arrays t)).
    { pose proof (trie_build_shape env _ _ _ _ (proj1 CO) (lenN_map _ _) E) as SH. replace (map (fun l => lenN l) D) with (map lenN (map (map line) D)); [exact SH|].
      rewrite map_map. apply map_ext. intros l. apply lenN_map. }
    split; [exact SHP|]. apply (sarr_facts D remap (te_hu env)); [exact C|exact SHP| |].
    + intros k a Ha Hk. destruct (AP k) as (a' & f & vs & Ha' & Hf & RF). { split; [exact Hk|]. apply nthN_lt in Ha. pose proof (trie_build_ok D remap C env EO) as (t' & E' & _ & _ & _ & AL & _). rewrite E in E'. injection E' as <-. lia. }
      rewrite Ha in Ha'. injection Ha' as <-. exists f, vs. auto.
    + intros k a Ha Hk. destruct (APtr k Hk) as (a' & e & Ha' & He & RE). rewrite Ha in Ha'. injection Ha' as <-. exists e. auto.
  - unfold trie_build in E. apply bind_inv in E. destruct E as (_ & _ & E). apply bind_inv in E. destruct E as (_ & _ & E).
    apply bind_inv in E. destruct E as (fs & EFS & E). apply bind_inv in E. destruct E as (values & EV & E). apply bind_inv in E. destruct E as (cb & EC & E).
    apply bind_inv in E. destruct E as (l1 & _ & E). apply bind_inv in E. destruct E as ([v arrays] & _ & E). apply bind_inv in E. destruct E as (arr & _ & E). injection E as <-. cbn [t_counts].
    assert (FS : fs = map (map line) D).
    { replace (lenN D) with (lenN (map (map line) D)) in EFS by apply lenN_map.
      rewrite (mapM_range (rd (map (map line) D)) (fun x => x) (map (map line) D)) in EFS by (intros i a H2; apply rd_nthN; assumption). rewrite map_id in EFS. congruence. }
    subst fs. rewrite trie_values in EV. injection EV as <-. pose proof EO as (_ & _ & _ & F2 & _ & _).
    rewrite (dict_sizes (map (map snd) D) (te_sorts env) cb); [rewrite map_map; reflexivity| | |exact EC].
    + apply Forall_forall. intros vs Hvs. apply in_map_iff in Hvs. destruct Hvs as (l & <- & Hl). apply In_nthN in Hl. destruct Hl as (k & Hk).
      destruct (col_size _ _ C k l Hk) as [S1 S2]. split; [destruct l; [congruence|discriminate]|]. rewrite lenN_map. split; [lia|].
      apply Forall_forall. intros v' Hv. apply in_map_iff in Hv. destruct Hv as (e & <- & He). eapply count_lt; eauto.
    + clear - F2. induction F2 as [|l s D0 S0 H F IH]; cbn [map]; constructor; assumption.
  - destruct (trie_build_ok D remap C env EO) as (t' & E' & TO & _). rewrite E in E'. injection E' as <-. exact TO.
Qed.
Lemma trie_stats_ok x header ho cap vo t : heap_functions (ho_push ho) (ho_pop ho) -> 0 < cap < 2 ^ 64 -> vo <= 8 ->
  trie_build env (map (map line) D) (lenN D) remap = Ok t -> let f := save_file header (save_trie x (te_kind env)) t in
  exists r, trie_stats ho cap vo (te_kind env) t (lenN f) = Ok r /\
    tr_order r = lenN D /\ tr_grams r = lenN (concat D) /\ tr_bytes r = lenN f /\
    tr_vocab r + tr_values r + tr_grams_bytes r + tr_ranks_bytes r + tr_ptrs_bytes r <= tr_bytes r /\
    tr_unique r = map (fun l => distinct (map snd l)) D /\
    lenN (tr_levels r) = lenN D /\ forall k lr, nthN (tr_levels r) k = Some lr -> level_right D remap cap k lr.
Proof.
  intros HF HK HV E f. destruct (trie_facts t E) as ((SHP & AF) & UN & TO). pose proof (col_order _ _ C) as CO.
  destruct (levels_ok D remap C ho cap HF HK _ AF) as (rs & EL & LL & RL).
  assert (LC : lenN (t_counts t) = lenN D) by (rewrite <- (lenN_map c_size), UN, lenN_map; reflexivity).
  unfold trie_stats. rewrite (mapM_rd_size (t_counts t)) by (rewrite TO; symmetry; exact LC). cbn [bind]. rewrite EL. cbn [bind]. eexists. split; [reflexivity|].
  cbn [tr_order tr_grams tr_bytes tr_vocab tr_values tr_grams_bytes tr_ranks_bytes tr_ptrs_bytes tr_unique tr_levels].
  split; [exact TO|]. split; [apply (sizes_ok D remap C cap HK); exact AF|]. split; [reflexivity|]. split; [|split; [exact UN|split; [exact LL|exact RL]]].
  rewrite !fold_proj, !N.add_0_l, !map_map. cbn [fst snd].
  assert (S3 : sumN (map (fun x0 => a_grams_bytes vo x0) (t_arrays t)) + sumN (map (fun x0 => a_ranks_bytes vo (te_kind env) x0) (t_arrays t)) + sumN (map (fun x0 => a_ptrs_bytes vo x0) (t_arrays t)) =
    sumN (map (abytes vo (te_kind env)) (t_arrays t))) by exact (sum_three (a_grams_bytes vo) (a_ranks_bytes vo (te_kind env)) (a_ptrs_bytes vo) (t_arrays t)).
  destruct SHP as (S1 & S2). assert (LA : lenN (t_arrays t) = lenN D) by (rewrite <- (lenN_map s_size), S1, lenN_map; reflexivity).
  pose proof (trie_bytes_ok vo HV x header (te_kind env) t ltac:(lia) ltac:(lia) (fun a Ha => proj1 (S2 0 a Ha) eq_refl)) as B. fold f in B.
  clear - S3 B. lia.
Qed.
End CountTrie.

(** ** probability trie *)
Lemma level_right_ext {A B} (D : list (list (gram * A))) (D' : list (list (gram * B))) remap cap k r :
  (forall i, grams D i = grams D' i) -> lenN D = lenN D' -> level_right D remap cap k r -> level_right D' remap cap k r.
Proof.
  intros HG HL [H1 H2 H3 H4 H5 H6 H7].
  assert (HE : forall i g, extensions D i g = extensions D' i g) by (intros; unfold extensions; rewrite HG; reflexivity).
  assert (HFn : forall i, fanouts D i = fanouts D' i). { intros i. unfold fanouts. rewrite HG. f_equal. apply map_ext. intros g. apply HE. }
  assert (HEn : forall w, endings D w = endings D' w) by (intros; unfold endings; rewrite HG; reflexivity).
  constructor.
  - rewrite <- HG. exact H1.
  - exact H2.
  - intros A1 A2. destruct (H3 A1 A2) as (us & F & E). exists us. split; [|exact E]. rewrite <- HG. clear - F HG.
    induction F as [|g u l l' P F IH]; constructor; [|exact IH]. unfold furthest in *. rewrite <- !HG. exact P.
  - rewrite <- HL. destruct (k + 1 <? lenN D); [|exact H4]. destruct H4 as (p & -> & [P1 P2 P3 P4 P5 P6]). exists p. split; [reflexivity|].
    constructor; rewrite <- ?HG, <- ?HFn; assumption.
  - rewrite <- HFn. exact H5.
  - exact H6.
  - intros A1. destruct (H7 A1) as (o & E & ND & I). exists o. split; [exact E|]. split; [exact ND|]. intros i c. rewrite I. split; intros (w & W1 & W2 & W3); exists w; rewrite <- ?HG, <- ?HEn, ?HG, ?HEn in *; auto.
Qed.
Lemma lenN_concat_map {A B} (f : A -> B) (D : list (list A)) : lenN (concat (map (map f) D)) = lenN (concat D).
Proof. induction D as [|l D IH]; [reflexivity|]. cbn [map concat]. rewrite !lenN_app, lenN_map, IH. reflexivity. Qed.
Section ProbTrie.
Variables (D : entries) (secs : list (list (list N))) (env : tpenv) (remap pq bq : N).
Hypothesis AF : arpa_file D.
Hypothesis CO : collection (reversed D) remap.
Hypothesis TI : trie_inputs_ok D secs env remap pq bq.
Lemma sec_lens : map lenN secs = map lenN D.
Proof.
  pose proof (base_of _ _ _ _ _ _ TI) as B. pose proof (VIN D secs env remap pq bq B) as V.
  assert (F : Forall2 (Forall2 (arpa_line (tp_sd env))) D secs) by apply V. clear - F. induction F as [|l s D secs H F IH]; [reflexivity|]. cbn [map]. rewrite IH. f_equal.
  apply Forall2_len in H. unfold lenN. congruence.
Qed.
Lemma tprob_stats_ok x header ho cap vo unk m : heap_functions (ho_push ho) (ho_pop ho) -> 0 < cap < 2 ^ 64 -> vo <= 8 -> is_float unk ->
  tp_build env secs (lenN D) remap unk pq bq = Ok m -> let f := save_file header (save_tpl x) m in
  exists r, tprob_stats ho cap vo m (lenN f) = Ok r /\
    qr_order r = lenN D /\ qr_grams r = lenN (concat D) /\ qr_bytes r = lenN f /\
    qr_vocab r + qr_probs r + qr_backoffs r + qr_grams_bytes r + qr_ranks_bytes r + qr_ptrs_bytes r <= qr_bytes r /\
    lenN (qr_levels r) = lenN D /\ forall k lr, nthN (qr_levels r) k = Some lr -> level_right (reversed D) remap cap k lr.
Proof.
  intros HF HK HV FU E f. pose proof (af_order _ AF) as HO. pose proof (collection_revD D remap CO) as CRR.
  destruct (tp_build_ok D secs env remap pq bq AF CO TI unk) as (m' & E' & [TO TR TU TV TVo AU]). rewrite E in E'. injection E' as <-. destruct AU as (AL & AP & APtr & _).
  assert (FA : arrays_facts (revD D) remap (map (fun a => level_of (a_sa a)) (tp_arrays m))).
  { rewrite <- (map_map a_sa level_of). apply (sarr_facts (revD D) remap (tp_hu env)); [exact CRR| | |].
    - pose proof (tp_build_shape env secs _ _ _ _ _ _ (proj1 HO) E) as SH. rewrite lenN_revD. replace (map (fun l => lenN l) (revD D)) with (map lenN secs); [exact SH|].
      rewrite sec_lens. unfold revD. rewrite map_map. apply map_ext. intros l. rewrite lenN_map. reflexivity.
    - intros k a Ha Hk. destruct (AP k) as (a' & g & vs & Ha' & Hf & RF). { split; [exact Hk|]. apply nthN_lt in Ha. rewrite lenN_map in Ha. lia. }
      rewrite Ha in Ha'. injection Ha' as <-. exists g, vs. auto.
    - intros k a Ha Hk. rewrite lenN_revD in Hk. destruct (APtr k Hk) as (a' & e & Ha' & He & RE). rewrite Ha in Ha'. injection Ha' as <-. exists e. auto. }
  destruct (levels_ok (revD D) remap CRR ho cap HF HK _ FA) as (rs & EL & LL & RL).
  unfold tprob_stats. rewrite EL. cbn [bind]. eexists. split; [reflexivity|].
  cbn [qr_order qr_grams qr_bytes qr_vocab qr_probs qr_backoffs qr_grams_bytes qr_ranks_bytes qr_ptrs_bytes qr_levels].
  split; [exact TO|]. split; [rewrite (sizes_ok (revD D) remap CRR cap HK _ FA); apply lenN_concat_map|]. split; [reflexivity|].
  split; [|split; [rewrite LL; apply lenN_revD|]].
  - rewrite !fold_proj, !N.add_0_l, !map_map. cbn [fst snd].
    assert (S3 : sumN (map (fun x0 => a_grams_bytes vo (a_sa x0)) (tp_arrays m)) + sumN (map (fun x0 => a_pb_bytes x0) (tp_arrays m)) + sumN (map (fun x0 => a_ptrs_bytes vo (a_sa x0)) (tp_arrays m)) =
      sumN (map (pbytes vo) (tp_arrays m))) by exact (sum_three (fun a => a_grams_bytes vo (a_sa a)) a_pb_bytes (fun a => a_ptrs_bytes vo (a_sa a)) (tp_arrays m)).
    destruct (tp_build_typed D secs env remap pq bq AF CO TI unk m FU E) as (_ & _ & _ & _ & _ & _ & _ & _ & TP).
    pose proof (tprob_bytes_ok vo HV x header m ltac:(lia)) as B. fold f in B.
    assert (G0 : forall a, nthN (tp_arrays m) 0 = Some a -> s_grams (a_sa a) = None /\ a_pb a = None).
    { intros a Ha. destruct (TP 0 a Ha) as (_ & _ & Q & _). exact Q. }
    specialize (B G0). clear - S3 B. lia.
  - intros k lr Hk. apply (level_right_ext (revD D)); [apply grams_reversed|rewrite lenN_revD; unfold reversed; rewrite lenN_map; reflexivity|apply RL; exact Hk].
Qed.
End ProbTrie.
