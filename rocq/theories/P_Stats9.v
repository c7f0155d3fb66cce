(** * Statistics: reports of built hash models *)
From Coq Require Import Floats.SpecFloat.
From Verif Require Import Prelude BitFacts M_Word P_Word M_Bits Spec P_Bits M_CompactVector P_CompactVector M_DArray M_EF P_EF2 M_HashVec M_Mph P_Mph P_MphTables M_FastEF
  M_Text P_Text P_Text2 P_Trie1 P_Trie3 M_SeqColl P_SeqColl M_Pool P_Pool M_Trie Spec_Trie P_Trie4 P_Trie5 M_MphCount Props_MphCount M_Score Spec_Katz M_Quant M_MphProb Spec_Arpa P_Values P_MphProb
  M_TrieProb M_Save M_Save2 Spec_Save P_Save P_Typed P_Typed3 M_Stats Spec_Stats P_Stats6 P_Stats7.
From Coq Require Import Permutation.

Lemma mapM_F2 {A B} (f : A -> res B) l : forall l', mapM f l = Ok l' -> Forall2 (fun a b => f a = Ok b) l l'.
Proof.
  induction l as [|a l IH]; intros l' E; cbn [mapM] in E; [injection E as <-; constructor|].
  apply bind_inv in E. destruct E as (b & E1 & E). apply bind_inv in E. destruct E as (r & E2 & E). injection E as <-. constructor; auto.
Qed.
Lemma foldM_size {A} (f : cvb -> A -> res cvb) l c c' : (forall c a c', f c a = Ok c' -> cb_size c' = cb_size c) -> foldM f l c = Ok c' -> cb_size c' = cb_size c.
Proof.
  intros H E. refine (foldM_inv (fun x => cb_size x = cb_size c) f l _ c c' eq_refl E). intros s a s' _ HS ES. rewrite (H _ _ _ ES). exact HS.
Qed.
Lemma svt_build_n {K} hb (h : K -> triple) dom order keys vals t : svt_build hb h dom order keys vals = Ok t -> m_n (sv_h t) = lenN keys.
Proof.
  intros E. unfold svt_build in E. apply bind_inv in E. destruct E as (data & E1 & E). apply bind_inv in E. destruct E as (m & E2 & E).
  apply bind_inv in E. destruct E as (vs & _ & E). apply bind_inv in E. destruct E as (data' & E3 & E). injection E as <-. cbn [sv_h].
  unfold mph_build in E2. repeat (apply bind_inv in E2; destruct E2 as (? & _ & E2)). injection E2 as <-. reflexivity.
Qed.
Lemma Forall2_at {A B} (P : A -> B -> Prop) l : forall l', lenN l = lenN l' -> (forall k a b, nthN l k = Some a -> nthN l' k = Some b -> P a b) -> Forall2 P l l'.
Proof.
  induction l as [|a l IH]; intros [|b l'] HL H; rewrite ?lenN_cons in HL; try (change (lenN (@nil A)) with 0 in HL; lia); try (change (lenN (@nil B)) with 0 in HL; lia); [constructor|].
  constructor; [apply (H 0); reflexivity|]. apply IH; [lia|]. intros k x y Hx Hy. apply (H (k + 1)); rewrite nthN_cons; (destruct (N.eqb_spec (k + 1) 0); [lia|]); replace (k + 1 - 1) with k by lia; assumption.
Qed.
(** what the report needs of a table *)
Definition table_fits (n : N) (t : svt) : Prop := m_n (sv_h t) = n /\ n <= lenN (h_bits (sv_data t)).
Lemma tables_sum {A} (D : list (list A)) ts : Forall2 (fun l t => table_fits (lenN l) t) D ts -> sumN (map (fun t => m_n (sv_h t)) ts) = lenN (concat D) /\
  Forall (fun t => m_n (sv_h t) <= lenN (h_bits (sv_data t))) ts.
Proof.
  induction 1 as [|l t D ts (H1 & H2) F (IH1 & IH2)]; [split; [reflexivity|constructor]|]. split; [|constructor; [lia|assumption]].
  cbn [map concat]. rewrite sumN_cons, lenN_app, IH1, H1. reflexivity.
Qed.
Lemma tables_total {A} (D : list (list A)) ts : lenN D <= 8 -> (forall l, In l D -> lenN l < 2 ^ 31) -> Forall2 (fun l t => table_fits (lenN l) t) D ts -> tables_size ts = lenN (concat D).
Proof.
  intros HL HS F. destruct (tables_sum D ts F) as (T1 & _). assert (LT : lenN ts = lenN D) by (apply Forall2_len in F; unfold lenN; lia).
  rewrite tables_size_ok; [exact T1|lia|]. clear - F HS. induction F as [|l t D ts (H1 & H2) F IH]; constructor.
  - rewrite H1. apply HS. left. reflexivity.
  - apply IH. intros x Hx. apply HS. right. exact Hx.
Qed.
(** what is the same in both reports *)
Lemma report_ok {A} (D : list (list A)) ts hb bytes values keys ranks functions : lenN D <= 8 -> (forall l, In l D -> lenN l < 2 ^ 31) ->
  Forall2 (fun l t => table_fits (lenN l) t) D ts -> bytes < 2 ^ 64 ->
  values + sumN (map (fun t => bytes_hcv hb (sv_data t)) ts) <= bytes ->
  mph_shares hb bytes (tables_size ts) values (map (fun t => bytes_hcv hb (sv_data t)) ts) = (keys, ranks, functions) ->
  tables_size ts = lenN (concat D) /\ keys = hb / 8 * lenN (concat D) /\
  keys + ranks = values + sumN (map (fun t => bytes_hcv hb (sv_data t)) ts) /\ keys + ranks + functions = bytes.
Proof.
  intros HL HS F HB HV E. destruct (tables_sum D ts F) as (T1 & T2).
  assert (LT : lenN ts = lenN D) by (apply Forall2_len in F; unfold lenN; lia).
  assert (TS : tables_size ts = lenN (concat D)).
  { rewrite tables_size_ok; [exact T1|lia|]. clear - F HS. induction F as [|l t D ts (H1 & H2) F IH]; constructor.
    - rewrite H1. apply HS. left. reflexivity.
    - apply IH. intros x Hx. apply HS. right. exact Hx. }
  split; [exact TS|]. rewrite TS in E. apply shares_ok in E; [exact E|exact HB|exact HV|]. rewrite <- T1. apply keys_le. exact T2.
Qed.

(** ** counts *)
Section Counts.
Variable D : list (list (gram * N)).
Variable env : menv.
Hypothesis GF : gram_files D.
Hypothesis MI : mph_inputs_ok D env.
Lemma bits_32_64 : me_hb env = 32 \/ me_hb env = 64. Proof. destruct (mi_bits _ _ MI) as [H|[H _]]; auto. Qed.
Lemma mcl_values : mapM (fun lines => mapM (fun l => ' (_, c) <- parse_count_line l ;; Ok c) lines) (map (map line) D) = Ok (map (map snd) D).
Proof.
  assert (H2 : forall l, In l D -> mapM (fun l => ' (_, c) <- parse_count_line l ;; Ok c) (map line l) = Ok (map snd l)).
  { intros l Hl. apply In_nthN in Hl. destruct Hl as (k & Hk).
    assert (H3 : forall l0, incl l0 l -> mapM (fun l => ' (_, c) <- parse_count_line l ;; Ok c) (map line l0) = Ok (map snd l0)).
    { induction l0 as [|[g c] l0 IH]; intros I; [reflexivity|]. cbn [map mapM]. destruct (gf_words _ GF k l g c Hk) as (LG & FW & HC); [apply I; left; reflexivity|].
      unfold line at 1. cbn [fst snd]. rewrite parse_format; [|apply join_no_tab; eapply Forall_impl; [|exact FW]; intros ? [_ ?]; assumption|lia].
      cbn [bind]. rewrite IH by (intros x Hx; apply I; right; assumption). reflexivity. }
    apply H3. apply incl_refl. }
  revert H2. generalize D as D1. clear. induction D1 as [|l D1 IH]; intros H2; [reflexivity|]. cbn [map mapM]. rewrite (H2 l (or_introl eq_refl)). cbn [bind].
  rewrite IH by (intros; apply H2; right; assumption). reflexivity.
Qed.
Lemma mcl_facts m : mc_build env (map (map line) D) (lenN D) = Ok m ->
  mc_order m = lenN D /\ map c_size (mc_counts m) = map (fun l => distinct (map snd l)) D /\ Forall2 (fun l t => table_fits (lenN l) t) D (mc_tables m).
Proof.
  intros E. destruct (mc_build_ok D env GF MI) as (m' & E' & LT & cb' & _ & _ & TR). rewrite E in E'. injection E' as <-.
  unfold mc_build in E. apply bind_inv in E. destruct E as (_ & _ & E). apply bind_inv in E. destruct E as (fs & EFS & E).
  apply bind_inv in E. destruct E as (values & EV & E). apply bind_inv in E. destruct E as (cb & EC & E). apply bind_inv in E. destruct E as (ts & ET & E). injection E as <-.
  cbn [mc_order mc_counts mc_tables] in *.
  assert (FS : fs = map (map line) D).
  { replace (lenN D) with (lenN (map (map line) D)) in EFS by apply lenN_map.
    rewrite (mapM_range (rd (map (map line) D)) (fun x => x) (map (map line) D)) in EFS by (intros i a H2; apply rd_nthN; assumption). rewrite map_id in EFS. congruence. }
  subst fs. rewrite mcl_values in EV. injection EV as <-. split; [reflexivity|]. split.
  - rewrite (dict_sizes (map (map snd) D) (me_sorts env) cb); [rewrite map_map; reflexivity| | |exact EC].
    + apply Forall_forall. intros vs Hvs. apply in_map_iff in Hvs. destruct Hvs as (l & <- & Hl). apply In_nthN in Hl. destruct Hl as (k & Hk).
      destruct (gf_size _ GF k l Hk) as [S1 S2]. split; [destruct l; [congruence|discriminate]|]. rewrite lenN_map. split; [lia|].
      apply Forall_forall. intros v Hv. apply in_map_iff in Hv. destruct Hv as ([g c] & <- & He). apply (gf_words _ GF k l g c Hk He).
    + pose proof (mi_sorts _ _ MI) as F2. clear - F2. induction F2 as [|l s D0 S0 H F IH]; cbn [map]; constructor; assumption.
  - apply mapM_F2 in ET. apply Forall2_at; [lia|]. intros k l t Hl Ht. pose proof (nthN_lt _ _ _ Hl) as LK.
    assert (Hr : nthN (range (lenN D)) k = Some k) by (apply nthN_range; assumption). pose proof (Forall2_nthN _ _ _ _ _ _ ET Hr Ht) as EK. cbv beta in EK.
    destruct (TR k l Hl) as (t' & Ht' & n & rs & _ & SR & _). rewrite Ht in Ht'. injection Ht' as <-. destruct SR as (_ & MN & _). rewrite lenN_map in MN.
    split; [exact MN|]. destruct (gf_size _ GF k l Hl) as [_ S2].
    unfold mc_table in EK. apply bind_inv in EK. destruct EK as (lines & _ & EK). apply bind_inv in EK. destruct EK as (p & _ & EK). apply bind_inv in EK. destruct EK as (size & _ & EK).
    apply bind_inv in EK. destruct EK as (c & E1 & EK). apply bind_inv in EK. destruct EK as (recs & E2 & EK). apply bind_inv in EK. destruct EK as (c' & E3 & EK).
    apply cvb_new_size in E1. apply foldM_size in E3.
    2:{ intros b a b' H. apply bind_inv in H. destruct H as (r & _ & H). apply push_size in H. exact H. }
    apply mapM_len in E2. assert (LRn : lenN recs = lenN (p_index p)). { unfold lenN at 1. rewrite E2. fold (lenN (range (lenN (p_index p)))). apply lenN_range. }
    pose proof (svt_build_n _ _ _ _ _ _ _ EK) as MN'. rewrite lenN_map, LRn, MN in MN'.
    assert (CS : c_size (cv_of_builder c') = lenN l) by (unfold cv_of_builder; cbn [c_size]; congruence). rewrite <- CS. eapply svt_build_bits; [exact bits_32_64|rewrite CS; clear - S2; lia|exact EK].
Qed.
Lemma mcl_stats_ok x header m : mc_build env (map (map line) D) (lenN D) = Ok m -> let f := save_file header (save_mcl x (me_hb env)) m in lenN f < 2 ^ 64 ->
  exists r, mcl_stats (me_hb env) m (lenN f) = Ok r /\
    mr_order r = lenN D /\ mr_grams r = lenN (concat D) /\ mr_bytes r = lenN f /\ mr_unique r = map (fun l => distinct (map snd l)) D /\
    mr_keys r = me_hb env / 8 * lenN (concat D) /\ mr_keys r + mr_counts r = fst (mr_values r) + sumN (mr_tables r) /\
    mr_keys r + mr_counts r + mr_functions r = mr_bytes r.
Proof.
  intros E f HB. destruct (mcl_facts m E) as (MO & UN & FT). pose proof (gf_order _ GF) as CO.
  assert (LC : lenN (mc_counts m) = lenN D) by (rewrite <- (lenN_map c_size), UN, lenN_map; reflexivity).
  assert (LT : lenN (mc_tables m) = lenN D) by (apply Forall2_len in FT; unfold lenN; lia).
  unfold mcl_stats. rewrite (mapM_rd_size (mc_counts m)) by lia. cbn [bind].
  destruct (mph_shares _ _ _ _ _) as [[keys ranks] functions] eqn:ES.
  eapply (report_ok D (mc_tables m)) in ES; [|lia| |exact FT|exact HB|].
  - destruct ES as (S1 & S2 & S3 & S4). eexists. split; [reflexivity|]. cbn [mr_order mr_grams mr_bytes mr_unique mr_keys mr_counts mr_values mr_tables mr_functions fst].
    split; [exact MO|]. split; [exact S1|]. split; [reflexivity|]. split; [exact UN|]. split; [exact S2|]. split; [exact S3|exact S4].
  - intros l Hl. apply In_nthN in Hl. destruct Hl as (k & Hk). apply (gf_size _ GF k l Hk).
  - unfold f, save_file, save_mcl. rewrite !lenN_app, len_sc. pose proof (len_tables x (me_hb env) (mc_tables m)). clear - H. lia.
Qed.
End Counts.

Lemma nthN_seqN n : forall s i, i < N.of_nat n -> nthN (seqN s n) i = Some (s + i).
Proof.
  induction n as [|n IH]; intros s i Hi; [lia|]. cbn [seqN]. rewrite nthN_cons. destruct (N.eqb_spec i 0) as [Z|Z]; [f_equal; lia|]. rewrite IH by lia. f_equal. lia.
Qed.
(** ** probabilities *)
Section Probs.
Variables (D : entries) (secs : list (list (list N))) (env : penv) (pq bq : N).
Hypothesis AF : arpa_file D.
Hypothesis PI : prob_inputs_ok D secs env pq bq.
Lemma pbits_32_64 : pe_hb env = 32 \/ pe_hb env = 64. Proof. destruct (pi_bits _ _ _ _ _ PI) as [H|[H _]]; auto. Qed.
Lemma fits_of k l t hb h dom order keys c : nthN D k = Some l -> m_n (sv_h t) = lenN l -> hb = 32 \/ hb = 64 -> c_size c = lenN l ->
  svt_build (K := list N) hb h dom order keys c = Ok t -> table_fits (lenN l) t.
Proof.
  intros Hl MN HB CS E. split; [exact MN|]. destruct (af_size _ AF k l Hl) as [_ S2]. rewrite <- CS. eapply svt_build_bits; [exact HB| |exact E]. rewrite CS. clear - S2. lia.
Qed.
Lemma mpl_facts unk m : mp_build env secs (lenN D) unk pq bq = Ok m -> mp_order m = lenN D /\ Forall2 (fun l t => table_fits (lenN l) t) D (mp_tables m).
Proof.
  intros E. destruct (build_ok D secs env pq bq AF PI unk) as (m' & E' & [MO _ _ ML MU MT]). rewrite E in E'. injection E' as <-. split; [exact MO|].
  pose proof (af_order _ AF) as HO. pose proof (pi_lines _ _ _ _ _ PI) as PL.
  apply Forall2_at; [lia|]. intros k l t Hl Ht. pose proof (nthN_lt _ _ _ Hl) as LK.
  assert (LS : lenN secs = lenN D) by (apply Forall2_len in PL; unfold lenN; lia).
  destruct (nthN_Some secs k ltac:(lia)) as (ls & Hs). pose proof (Forall2_nthN _ _ _ _ _ _ PL Hl Hs) as FL. apply Forall2_len in FL. assert (LL : lenN ls = lenN l) by (unfold lenN; lia).
  assert (MN : m_n (sv_h t) = lenN l).
  { destruct (N.eq_dec k 0) as [->|NK].
    - destruct (MU l Hl) as (t' & Ht' & SR). rewrite Ht in Ht'. injection Ht' as <-. destruct SR as (_ & Q & _). rewrite Q. apply lenN_map.
    - destruct (MT k l ltac:(lia) Hl) as (t' & vs & Ht' & _ & SR). rewrite Ht in Ht'. injection Ht' as <-. destruct SR as (_ & Q & _). rewrite Q. apply lenN_map. }
  unfold mp_build in E. apply bind_inv in E. destruct E as (_ & _ & E). destruct (lenN secs <? lenN D); [discriminate|]. apply bind_inv in E. destruct E as ([pb bb] & _ & E).
  destruct (lenN D <? lenN secs); [discriminate|]. apply bind_inv in E. destruct E as (uni & EU & E). apply bind_inv in E. destruct E as (un & _ & E).
  apply bind_inv in E. destruct E as (t0 & ET0 & E). apply bind_inv in E. destruct E as (ts & ETS & E). injection E as <-. cbn [mp_tables] in *.
  apply rd_inv in EU. rewrite nthN_cons in Ht. destruct (N.eqb_spec k 0) as [Z|Z].
  - injection Ht as <-. subst k. rewrite Hs in EU. injection EU as <-. unfold mp_vocabulary in ET0.
    apply bind_inv in ET0. destruct ET0 as (p & _ & EK). cbv zeta in EK. apply bind_inv in EK. destruct EK as (c & E1 & EK). apply bind_inv in EK. destruct EK as (recs & E2 & EK). apply bind_inv in EK. destruct EK as (c' & E3 & EK).
    apply cvb_new_size in E1. apply foldM_size in E3.
    2:{ intros b a b' H. apply push_size in H. exact H. }
    eapply fits_of; [exact Hl|exact MN|exact pbits_32_64| |exact EK]. unfold cv_of_builder. cbn [c_size]. congruence.
  - apply mapM_F2 in ETS.
    assert (Hr : nthN (seqN 1 (N.to_nat (lenN D - 1))) (k - 1) = Some k). { rewrite nthN_seqN by lia. f_equal. lia. }
    pose proof (Forall2_nthN _ _ _ _ _ _ ETS Hr Ht) as EK. cbv beta in EK. unfold mp_table in EK.
    apply bind_inv in EK. destruct EK as (lines & EL & EK). apply rd_inv in EL. rewrite Hs in EL. injection EL as <-.
    apply bind_inv in EK. destruct EK as (p & _ & EK). cbv zeta in EK. apply bind_inv in EK. destruct EK as (recs & E2 & EK). apply bind_inv in EK. destruct EK as (c & E1 & EK). apply bind_inv in EK. destruct EK as (c' & E3 & EK).
    apply cvb_new_size in E1. apply foldM_size in E3.
    2:{ intros b a b' H. apply bind_inv in H. destruct H as (r & _ & H). apply bind_inv in H. destruct H as (r' & _ & H). apply push_size in H. exact H. }
    eapply fits_of; [exact Hl|exact MN|exact pbits_32_64| |exact EK]. unfold cv_of_builder. cbn [c_size]. congruence.
Qed.
Lemma mpl_stats_ok x header unk m : mp_build env secs (lenN D) unk pq bq = Ok m -> let f := save_file header (save_mpl x (pe_hb env)) m in lenN f < 2 ^ 64 ->
  let r := mpl_stats (pe_hb env) m (lenN f) in
    mr_order r = lenN D /\ mr_grams r = lenN (concat D) /\ mr_bytes r = lenN f /\
    mr_keys r = pe_hb env / 8 * lenN (concat D) /\ mr_keys r + mr_counts r = fst (mr_values r) + snd (mr_values r) + sumN (mr_tables r) /\
    mr_keys r + mr_counts r + mr_functions r = mr_bytes r.
Proof.
  intros E f HB. destruct (mpl_facts unk m E) as (MO & FT). pose proof (af_order _ AF) as CO. cbv zeta. unfold mpl_stats.
  destruct (mph_shares _ _ _ _ _) as [[keys ranks] functions] eqn:ES.
  eapply (report_ok D (mp_tables m)) in ES; [|lia| |exact FT|exact HB|].
  - destruct ES as (S1 & S2 & S3 & S4). cbn [mr_order mr_grams mr_bytes mr_unique mr_keys mr_counts mr_values mr_tables mr_functions fst snd].
    split; [exact MO|]. split; [exact S1|]. split; [reflexivity|]. split; [exact S2|]. split; [exact S3|exact S4].
  - intros l Hl. apply In_nthN in Hl. destruct Hl as (k & Hk). apply (af_size _ AF k l Hk).
  - unfold f, save_file, save_mpl. rewrite !lenN_app. pose proof (len_tables x (pe_hb env) (mp_tables m)). pose proof (len_qsc (mp_probs m)). pose proof (len_qsc (mp_backoffs m)). clear - H H0 H1. lia.
Qed.
End Probs.
