(** * Built models hold values of their C++ types: the hash models, for any input *)
From Flocq Require Import Core BinarySingleNaN.
From Coq Require Import Floats.SpecFloat.
From Verif Require Import Prelude BitFacts M_Word P_Word M_Bits Spec P_Bits M_CompactVector P_CompactVector
  M_HashVec M_Mph P_Mph P_MphTables M_Text M_SeqColl M_Pool M_Trie
  M_MphCount M_Score M_Quant P_Quant P_Float M_MphProb M_Save Spec_Save P_Typed.
#[local] Open Scope N_scope.

Lemma cvb_push_typed n b v b' : v < 2 ^ 64 -> t_cvb n b -> cvb_push_back b v = Ok b' -> t_cvb n b'.
Proof.
  intros HV (H1 & H2 & H3 & H4) E. unfold cvb_push_back in E. cbv zeta in E.
  assert (A1 : forall x w, w < 2 ^ 64 -> N.land w (not64 x) < 2 ^ 64) by (intros; apply land_lt64; assumption).
  apply bind_inv in E. destruct E as (m1 & _ & E). apply bind_inv in E. destruct E as (v1 & E1 & E).
  apply bind_inv in E. destruct E as (w1 & E2 & E). apply bind_inv in E. destruct E as (w2 & E3 & E).
  unfold shlU in E1. destruct (_ <? 64); [|discriminate]. injection E1 as <-.
  assert (S : wsame (cb_bits b) w2).
  { eapply wsame_trans; (eapply upd_typed; [|eassumption]); cbv beta; auto. intros w Hw. apply lor_lt; [assumption|apply w64_lt]. }
  apply bind_inv in E. destruct E as ([[ws bl] sh] & E4 & E).
  assert (S2 : wsame (cb_bits b) ws).
  { destruct (_ <? cb_width b); [|injection E4 as <- <- <-; assumption].
    apply bind_inv in E4. destruct E4 as (m2 & _ & E4). apply bind_inv in E4. destruct E4 as (v2 & E5 & E4).
    unfold shrU in E5. destruct (_ <? 64); [|discriminate]. injection E5 as <-.
    apply bind_inv in E4. destruct E4 as (w3 & E5 & E4). apply bind_inv in E4. destruct E4 as (w4 & E6 & E4). injection E4 as <- <- <-.
    eapply wsame_trans; [exact S|]. eapply wsame_trans; (eapply upd_typed; [|eassumption]); cbv beta; auto. intros w Hw. apply lor_lt; [assumption|apply shr_lt64; assumption]. }
  destruct (S2 H3) as (F & L). destruct (_ =? 64); injection E as <-; unfold t_cvb; cbn [cb_size cb_width cb_bits];
    (split; [assumption|]; split; [assumption|]; split; [assumption|]; congruence).
Qed.
Lemma pushes_typed n vs b b' : Forall (fun v => v < 2 ^ 64) vs -> t_cvb n b -> foldM cvb_push_back vs b = Ok b' -> t_cvb n b'.
Proof.
  intros F T E. refine (foldM_inv (t_cvb n) _ _ _ _ _ T E). intros s a s' Ha Ts Es. eapply cvb_push_typed; [|exact Ts|exact Es].
  rewrite Forall_forall in F. apply F. assumption.
Qed.
Lemma push_size b v b' : cvb_push_back b v = Ok b' -> cb_size b' = cb_size b.
Proof.
  intros E. unfold cvb_push_back in E. cbv zeta in E.
  apply bind_inv in E. destruct E as (m1 & _ & E). apply bind_inv in E. destruct E as (v1 & E1 & E).
  apply bind_inv in E. destruct E as (w1 & E2 & E). apply bind_inv in E. destruct E as (w2 & E3 & E).
  apply bind_inv in E. destruct E as ([[ws bl] sh] & E4 & E). destruct (_ =? 64); injection E as <-; reflexivity.
Qed.
Lemma new_size n w b : cvb_new n w = Ok b -> cb_size b = n.
Proof. unfold cvb_new. destruct (_ <? _); [discriminate|]. intros E. injection E as <-. reflexivity. Qed.

(** ** the count dictionaries *)
Lemma sc_add_all_typed vss : forall sorts b b', lenN vss = lenN sorts -> Forall (fun vs => lenN vs < 2 ^ 63) vss -> Forall (Forall (fun p : N * N => fst p < 2 ^ 64)) sorts ->
  Forall t_cv (sb_seqs b) -> sc_add_all b vss sorts = Ok b' -> Forall t_cv (sb_seqs b') /\ lenN (sb_seqs b') = lenN (sb_seqs b) + lenN vss.
Proof.
  induction vss as [|vs vss IH]; intros sorts b b' LS FV FS FB E; destruct sorts as [|s sorts]; rewrite ?lenN_cons in LS; try (change (lenN (@nil (list (N * N)))) with 0 in LS; lia); try (change (lenN (@nil (list N))) with 0 in LS; lia); cbn [sc_add_all] in E.
  - injection E as <-. split; [assumption|]. change (lenN (@nil (list N))) with 0. lia.
  - apply bind_inv in E. destruct E as (b1 & E1 & E). inversion FV as [|? ? V1 V2]; subst. inversion FS as [|? ? S1 S2]; subst.
    assert (G : Forall t_cv (sb_seqs b1) /\ lenN (sb_seqs b1) = lenN (sb_seqs b) + 1).
    { unfold sc_add, sc_build_sequence in E1. assert (LM : lenN (fold_left eat_value vs []) <= lenN vs).
      { assert (Q : forall vs m, lenN (fold_left eat_value vs m) <= lenN m + lenN vs).
        { clear. induction vs as [|v vs IH]; intros m; cbn [fold_left]; [change (lenN (@nil N)) with 0; lia|]. specialize (IH (eat_value m v)). rewrite lenN_cons.
          assert (lenN (eat_value m v) <= lenN m + 1); [|lia]. unfold eat_value. destruct (existsb _ m); [rewrite lenN_map; lia|rewrite lenN_app; change (lenN [(v, 1)]) with 1; lia]. }
        specialize (Q vs []). change (lenN (@nil (N * N))) with 0 in Q. lia. }
      destruct (fold_left eat_value vs []) as [|p m].
      - injection E1 as <-. cbn [sb_seqs]. split; [apply Forall_app; split; [assumption|]; constructor; [|constructor]|rewrite lenN_app; reflexivity].
        split; [reflexivity|]. split; [reflexivity|]. split; [reflexivity|]. split; [constructor|reflexivity].
      - cbv zeta in E1. apply bind_inv in E1. destruct E1 as (c & Ec & E1). apply bind_inv in E1. destruct E1 as (c' & Ec' & E1). injection E1 as <-. cbn [sb_seqs].
        split; [|rewrite lenN_app; reflexivity]. apply Forall_app. split; [assumption|]. constructor; [|constructor].
        eapply (cv_of_builder_typed (lenN (p :: m))); [lia|]. refine (pushes_typed _ _ _ _ _ (cvb_new_typed _ _ _ Ec) Ec'). apply Forall_map. assumption. }
    destruct G as (G1 & G2). destruct (IH sorts b1 b' ltac:(lia) V2 S2 G1 E) as (R1 & R2). split; [assumption|]. rewrite lenN_cons. lia.
Qed.

Lemma mapM_len {A B} (f : A -> res B) l l' : mapM f l = Ok l' -> length l' = length l.
Proof. intros E. apply (mapM_Forall f (fun _ => True) l (fun _ _ _ _ => I) l' E). Qed.

(** ** the pools *)
Lemma append_index {A} (p : pool A) g a : lenN (p_index (snd (pool_append p g a))) <= lenN (p_index p) + 1.
Proof.
  unfold pool_append. destruct (_ =? 0); [cbn; lia|]. destruct (_ <? _); [cbn; lia|]. cbn [snd p_index]. rewrite lenN_app. change (lenN [(lenN (p_data p), lenN (p_data p ++ g), a)]) with 1. lia.
Qed.
Lemma load_index lines : forall p p', pool_load_lines p lines = Ok p' -> lenN (p_index p') <= lenN (p_index p) + lenN lines.
Proof.
  induction lines as [|l lines IH]; intros p p' E; cbn [pool_load_lines] in E; [injection E as <-; change (lenN (@nil (list N))) with 0; lia|].
  apply bind_inv in E. destruct E as ([br count] & _ & E). cbv zeta in E.
  pose proof (append_index p (firstn (N.to_nat (snd br - fst br)) (skipn (N.to_nat (fst br)) (c_str l))) count) as A.
  destruct (pool_append p _ count) as [ok p1]. cbn [snd] in A. destruct ok; [|discriminate]. apply IH in E. rewrite lenN_cons. lia.
Qed.

(** ** mph_count_lm *)
Lemma mc_table_typed env cb files k t : me_hb env = 32 \/ me_hb env = 64 -> Forall (fun f => lenN f < 2 ^ 63) files ->
  mc_table env cb files k = Ok t -> t_svt (me_hb env) t.
Proof.
  intros HB FL E. unfold mc_table in E. apply bind_inv in E. destruct E as (lines & El & E). apply rd_inv in El.
  pose proof (Forall_nthN _ _ _ _ FL El) as LL. cbv beta in LL.
  apply bind_inv in E. destruct E as (p & Ep & E). cbv zeta in E. unfold pool_load in Ep. apply load_index in Ep. change (lenN (p_index (pool_clear (pool_new (A := N) (me_ram env))))) with 0 in Ep.
  set (n := lenN (p_index p)) in *. apply bind_inv in E. destruct E as (size & _ & E). apply bind_inv in E. destruct E as (c & Ec & E).
  apply bind_inv in E. destruct E as (recs & Er & E). apply bind_inv in E. destruct E as (c' & Ec' & E).
  assert (LR : lenN recs = n). { pose proof (mapM_len _ _ _ Er) as L. unfold lenN. rewrite L. exact (lenN_range n). }
  assert (SC : cb_size c' = n).
  { refine (foldM_inv (fun c => cb_size c = n) _ _ _ _ _ (new_size _ _ _ Ec) Ec'). intros s a s' _ Hs Es. apply bind_inv in Es. destruct Es as (r & _ & Es). apply push_size in Es. congruence. }
  refine (svt_build_typed _ _ _ _ _ _ _ HB _ _ _ E).
  - cbn [cv_of_builder c_size]. rewrite SC. lia.
  - rewrite lenN_map, LR. lia.
  - apply hash_domain_lt. lia.
Qed.
Theorem mc_build_typed env files order m : order < 2 ^ 8 -> me_hb env = 32 \/ me_hb env = 64 -> Forall (fun f => lenN f < 2 ^ 63) files ->
  lenN (me_sorts env) = order -> Forall (Forall (fun p : N * N => fst p < 2 ^ 64)) (me_sorts env) ->
  mc_build env files order = Ok m -> t_mcl (me_hb env) m.
Proof.
  intros HO HB FL LS FS E. unfold mc_build in E. apply bind_inv in E. destruct E as (u & _ & E). apply bind_inv in E. destruct E as (fs & Efs & E).
  apply bind_inv in E. destruct E as (vss & Ev & E). apply bind_inv in E. destruct E as (cb & Ec & E). apply bind_inv in E. destruct E as (ts & Et & E). injection E as <-.
  destruct (mapM_Forall (rd files) (fun f => lenN f < 2 ^ 63) (range order)) with (l' := fs) as (Ff & Lf).
  { intros k f _ Hf. apply rd_inv in Hf. exact (Forall_nthN _ _ _ _ FL Hf). }
  { exact Efs. }
  assert (LF : lenN fs = order) by (unfold lenN; rewrite Lf; exact (lenN_range order)).
  destruct (mapM_Forall (fun lines => mapM (fun l => ' (_, c) <- parse_count_line l ;; Ok c) lines) (fun vs => lenN vs < 2 ^ 63) fs) with (l' := vss) as (Fv & Lv).
  { intros f vs Hf Hv. pose proof (mapM_len _ _ _ Hv) as L.
    unfold lenN. rewrite L. rewrite Forall_forall in Ff. exact (Ff f Hf). }
  { exact Ev. }
  assert (LV : lenN vss = order) by (unfold lenN in *; congruence).
  destruct (sc_add_all_typed vss (me_sorts env) scb_empty cb ltac:(congruence) Fv FS ltac:(constructor) Ec) as (TC & LC).
  destruct (mapM_Forall (mc_table env cb files) (t_svt (me_hb env)) (range order)) with (l' := ts) as (TT & LT).
  { intros k t _ Hk. exact (mc_table_typed env cb files k t HB FL Hk). }
  { exact Et. }
  unfold t_mcl. cbn [mc_order mc_counts mc_tables]. split; [exact HO|]. split; [rewrite LC, LV; reflexivity|]. split; [exact TC|]. split; [|exact TT].
  unfold lenN at 1. rewrite LT. exact (lenN_range order).
Qed.

(** ** mph_prob_lm *)
Lemma d2f_valid x : is_float (d2f x).
Proof.
  unfold is_float, d2f. destruct x as [s|s| |s m e]; try reflexivity.
  assert (P : Prec_gt_0 24) by reflexivity. assert (Q : Prec_lt_emax 24 128) by reflexivity.
  rewrite (normalize_equiv 24 128 P Q). apply valid_binary_B2SF.
Qed.
Lemma bins_typed : forall k seq nb i start av av', Forall is_float av -> make_bins_loop k seq nb i start av = Ok av' -> Forall is_float av' /\ lenN av' = lenN av + N.of_nat k.
Proof.
  induction k as [|k IH]; intros seq nb i start av av' F E; cbn [make_bins_loop] in E; [injection E as <-; split; [assumption|lia]|].
  cbv zeta in E. apply bind_inv in E. destruct E as (c & Ec & E).
  assert (FC : is_float c).
  { destruct (_ =? start); [|injection Ec as <-; apply d2f_valid]. destruct (i =? 0); [injection Ec as <-; reflexivity|]. apply rd_inv in Ec. exact (Forall_nthN _ _ _ _ F Ec). }
  apply IH in E; [|apply Forall_app; split; [assumption|constructor; [assumption|constructor]]]. destruct E as (E1 & E2). split; [assumption|]. rewrite E2, lenN_app. change (lenN [c]) with 1. lia.
Qed.
Lemma make_bins_typed seq av nb av' : is_vec is_float av -> lenN av <= 1 -> make_bins seq av nb = Ok av' -> is_vec is_float av'.
Proof.
  intros (F & _) L E. unfold make_bins in E. destruct (N.ltb_spec nb (2 ^ 32)); [|discriminate]. apply bins_typed in E; [|assumption]. destruct E as (E1 & E2).
  split; [assumption|]. unfold is_u64. lia.
Qed.
Lemma qbits_lt q n u : check_qbits q n = Ok u -> is_u8 q.
Proof. unfold check_qbits. destruct (N.ltb_spec q 2); [discriminate|]. destruct (N.ltb_spec 32 q); [discriminate|]. unfold is_u8. lia. Qed.
Lemma t_qsc_snoc n q b s : t_qsc n q -> is_u8 b -> is_vec is_float s -> t_qsc (n + 1) (mkqsc (q_bits q ++ [b]) (q_seqs q ++ [s])).
Proof.
  intros (L1 & L2 & F1 & F2) Hb Hs. unfold t_qsc. cbn [q_bits q_seqs]. rewrite !lenN_app. change (lenN [b]) with 1. change (lenN [s]) with 1.
  split; [lia|]. split; [lia|]. split; apply Forall_app; (split; [assumption|constructor; [assumption|constructor]]).
Qed.
Lemma build_probs_typed n b sorted q b' : t_qsc n b -> build_probs b sorted q = Ok b' -> t_qsc (n + 1) b'.
Proof.
  intros T E. unfold build_probs in E. apply bind_inv in E. destruct E as (u & Eu & E). apply bind_inv in E. destruct E as (av & Ea & E). injection E as <-.
  apply t_qsc_snoc; [assumption|eapply qbits_lt; eauto|]. eapply make_bins_typed; [| |exact Ea]; [split; [constructor|reflexivity]|]. change (lenN (@nil F)) with 0. lia.
Qed.
Lemma build_backoffs_typed n b sorted q b' : t_qsc n b -> build_backoffs b sorted q = Ok b' -> t_qsc (n + 1) b'.
Proof.
  intros T E. unfold build_backoffs in E. apply bind_inv in E. destruct E as (u & Eu & E). cbv zeta in E. apply bind_inv in E. destruct E as (av & Ea & E). injection E as <-.
  apply t_qsc_snoc; [assumption|eapply qbits_lt; eauto|]. eapply make_bins_typed; [| |exact Ea]; [split; [constructor; [reflexivity|constructor]|reflexivity]|]. change (lenN [fzero]) with 1. lia.
Qed.
Lemma mp_pool_index env lines p : mp_pool env lines = Ok p -> lenN (p_index p) <= lenN lines.
Proof.
  unfold mp_pool. assert (G : forall lines p0 p, foldM (fun p l => r <- parse_arpa_line (pe_sd env) l ;; Ok (snd (pool_append p (prec_bytes l r) (r_prob r, r_backoff r)))) lines p0 = Ok p ->
    lenN (p_index p) <= lenN (p_index p0) + lenN lines).
  { clear. induction lines as [|l lines IH]; intros p0 p E; cbn [foldM] in E; [injection E as <-; change (lenN (@nil (list N))) with 0; lia|].
    apply bind_inv in E. destruct E as (p1 & E1 & E). apply bind_inv in E1. destruct E1 as (r & _ & E1). injection E1 as <-. apply IH in E.
    pose proof (append_index p0 (prec_bytes l r) (r_prob r, r_backoff r)) as A. rewrite lenN_cons. lia. }
  intros E. apply G in E. change (lenN (p_index (pool_new (A := F * F) (pe_ram env)))) with 0 in E. lia.
Qed.
Lemma mp_table_typed_ env n (p : pool (F * F)) recs w c c' (f : cvb -> list N * (F * F) -> res cvb) k t :
  pe_hb env = 32 \/ pe_hb env = 64 -> n < 2 ^ 63 -> lenN (p_index p) <= n -> mapM (pool_record p) (range (lenN (p_index p))) = Ok recs ->
  cvb_new n w = Ok c -> foldM f recs c = Ok c' -> (forall s a s', f s a = Ok s' -> cb_size s' = cb_size s) ->
  svt_build (pe_hb env) (pe_h env k) (hash_domain (lenN recs)) (pe_orders env k) (map fst recs) (cv_of_builder c') = Ok t -> t_svt (pe_hb env) t.
Proof.
  intros HB Hn Hp Er Ec Ef HF E.
  assert (LR : lenN recs = lenN (p_index p)). { pose proof (mapM_len _ _ _ Er) as L. unfold lenN at 1. rewrite L. exact (lenN_range _). }
  assert (SC : cb_size c' = n).
  { refine (foldM_inv (fun c => cb_size c = n) _ _ _ _ _ (new_size _ _ _ Ec) Ef). intros s a s' _ Hs Es. apply HF in Es. congruence. }
  refine (svt_build_typed _ _ _ _ _ _ _ HB _ _ _ E).
  - cbn [cv_of_builder c_size]. rewrite SC. lia.
  - rewrite lenN_map, LR. lia.
  - apply hash_domain_lt. lia.
Qed.
Lemma set_unk_typed env uni unk unk' : Forall (fun l => is_float (fst (pe_sd env (c_str l) 0))) uni -> is_float unk -> set_unk env uni unk = Ok unk' -> is_float unk'.
Proof.
  intros SD FU Ek.
  assert (RP : forall l r, In l uni -> parse_arpa_line (pe_sd env) l = Ok r -> is_float (r_prob r)).
  { intros l r Hl El. unfold parse_arpa_line in El. cbv zeta in El. rewrite Forall_forall in SD; pose proof (SD l Hl) as V; cbv beta in V. destruct (pe_sd env (c_str l) 0) as [pr e]. cbn [fst] in V.
    destruct (_ <? _); [discriminate|]. apply bind_inv in El. destruct El as (pos & _ & El). injection El as <-. cbn [r_prob]. destruct (flt fzero pr); [reflexivity|exact V]. }
  unfold set_unk in Ek. refine (foldM_inv is_float _ _ _ _ _ FU Ek). intros s a s' Ha Fs Es. apply bind_inv in Es. destruct Es as (r & Er & Es). injection Es as <-.
  destruct (_ && _); [exact (RP a r Ha Er)|exact Fs].
Qed.
Lemma mp_values_typed env secs order pq bq pb bb : 2 <= order -> mp_values env secs order pq bq = Ok (pb, bb) -> t_qsc (order - 1) pb /\ t_qsc (order - 2) bb.
Proof.
  intros H2 Ev. unfold mp_values in Ev.
    assert (G : forall k ord bs bs', ord + N.of_nat k = order -> t_qsc (ord - 1) (fst bs) -> t_qsc (N.min ord (order - 1) - 1) (snd bs) ->
      foldM (fun (bs : qsc * qsc) ord =>
           lines <- rd secs (ord - 1) ;;
           ' (probs, backoffs) <- read_values (pe_sd env) ord lines ;;
           if ord =? 1 then Ok bs else
           pb <- build_probs (fst bs) (pe_sort env probs) pq ;;
           bb <- (if ord =? order then Ok (snd bs) else build_backoffs (snd bs) (pe_sort env backoffs) bq) ;;
           Ok (pb, bb)) (seqN (ord + 1) k) bs = Ok bs' -> t_qsc (order - 1) (fst bs') /\ t_qsc (order - 2) (snd bs')).
    { induction k as [|k IH]; intros ord bs bs' Hk T1 T2 E; cbn [seqN foldM] in E.
      - injection E as <-. replace order with ord by lia. replace (N.min ord (order - 1) - 1) with (ord - 2) in T2 by lia. split; assumption.
      - apply bind_inv in E. destruct E as (bs1 & E1 & E). apply bind_inv in E1. destruct E1 as (lines & _ & E1). apply bind_inv in E1. destruct E1 as ([probs backoffs] & _ & E1).
        replace (N.succ (ord + 1)) with (ord + 1 + 1) in E by lia. refine (IH (ord + 1) bs1 bs' ltac:(lia) _ _ E); clear IH E.
        + destruct (N.eqb_spec (ord + 1) 1) as [Z|Z].
          * injection E1 as <-. replace (ord + 1 - 1) with (ord - 1) by lia. exact T1.
          * apply bind_inv in E1. destruct E1 as (pb1 & Ep & E1). apply bind_inv in E1. destruct E1 as (bb1 & _ & E1). injection E1 as <-. cbn [fst].
            apply (build_probs_typed (ord - 1)) in Ep; [|exact T1]. replace (ord + 1 - 1) with (ord - 1 + 1) by lia. exact Ep.
        + destruct (N.eqb_spec (ord + 1) 1) as [Z|Z].
          * injection E1 as <-. replace (N.min (ord + 1) (order - 1) - 1) with (N.min ord (order - 1) - 1) by lia. exact T2.
          * apply bind_inv in E1. destruct E1 as (pb1 & _ & E1). apply bind_inv in E1. destruct E1 as (bb1 & Eb & E1). injection E1 as <-. cbn [snd].
            destruct (N.eqb_spec (ord + 1) order) as [Y|Y].
            { injection Eb as <-. replace (N.min (ord + 1) (order - 1) - 1) with (N.min ord (order - 1) - 1) by lia. exact T2. }
            apply (build_backoffs_typed (N.min ord (order - 1) - 1)) in Eb; [|exact T2]. replace (N.min (ord + 1) (order - 1) - 1) with (N.min ord (order - 1) - 1 + 1) by lia. exact Eb. }
    apply (G (N.to_nat order) 0 _ _ ltac:(lia)) in Ev; [exact Ev| |].
    - split; [reflexivity|]. split; [reflexivity|]. split; constructor.
    - replace (N.min 0 (order - 1) - 1) with 0 by lia. split; [reflexivity|]. split; [reflexivity|]. split; constructor.
Qed.
Theorem mp_build_typed env secs order unk pq bq m : order < 2 ^ 8 -> pe_hb env = 32 \/ pe_hb env = 64 -> Forall (fun f => lenN f < 2 ^ 63) secs ->
  Forall (Forall (fun l => is_float (fst (pe_sd env (c_str l) 0)))) secs -> is_float unk ->
  mp_build env secs order unk pq bq = Ok m -> t_mpl (pe_hb env) m.
Proof.
  intros HO HB FL SD FU E. unfold mp_build in E. apply bind_inv in E. destruct E as (u & EO & E).
  assert (H2 : 2 <= order <= 8).
  { unfold check_order in EO. cbv zeta in EO. unfold u8 in EO. change 255 with (N.ones 8) in EO. rewrite N.land_ones, N.mod_small in EO by assumption.
    destruct (N.ltb_spec order 2); [discriminate|]. destruct (N.ltb_spec 8 order); [discriminate|]. lia. }
  destruct (_ <? order); [discriminate|]. apply bind_inv in E. destruct E as ([pb bb] & Ev & E). destruct (order <? _); [discriminate|].
  apply bind_inv in E. destruct E as (uni & Eu & E). apply bind_inv in E. destruct E as (unk' & Ek & E). apply bind_inv in E. destruct E as (t0 & E0 & E).
  apply bind_inv in E. destruct E as (ts & Et & E). injection E as <-. unfold t_mpl. cbn [mp_order mp_unk mp_probs mp_backoffs mp_tables].
  split; [exact HO|]. split; [lia|]. split; [exact (set_unk_typed env uni unk unk' (Forall_nthN _ _ _ _ SD (rd_inv _ _ _ Eu)) FU Ek)|].
  pose proof (mp_values_typed env secs order pq bq pb bb ltac:(lia) Ev) as TV.
  destruct TV as (TP & TB). split; [exact TP|]. split; [exact TB|].
  assert (T0 : t_svt (pe_hb env) t0).
  { unfold mp_vocabulary in E0. apply bind_inv in E0. destruct E0 as (p & Ep & E0). cbv zeta in E0. apply bind_inv in E0. destruct E0 as (c & Ec & E0).
    apply bind_inv in E0. destruct E0 as (recs & Er & E0). apply bind_inv in E0. destruct E0 as (c' & Ef & E0). apply rd_inv in Eu.
    refine (mp_table_typed_ env (lenN uni) p recs _ c c' _ _ _ HB (Forall_nthN _ _ _ _ FL Eu) (mp_pool_index _ _ _ Ep) Er Ec Ef _ E0).
    intros s a s' Es. eapply push_size; eauto. }
  destruct (mapM_Forall (mp_table env pb bb secs order pq bq) (t_svt (pe_hb env)) (seqN 1 (N.to_nat (order - 1)))) with (l' := ts) as (TT & LT).
  { intros k t _ Hk. unfold mp_table in Hk. apply bind_inv in Hk. destruct Hk as (lines & El & Hk). apply bind_inv in Hk. destruct Hk as (p & Ep & Hk). cbv zeta in Hk.
    apply bind_inv in Hk. destruct Hk as (recs & Er & Hk). apply bind_inv in Hk. destruct Hk as (c & Ec & Hk). apply bind_inv in Hk. destruct Hk as (c' & Ef & Hk). apply rd_inv in El.
    refine (mp_table_typed_ env (lenN lines) p recs _ c c' _ _ _ HB (Forall_nthN _ _ _ _ FL El) (mp_pool_index _ _ _ Ep) Er Ec Ef _ Hk).
    intros s a s' Es. apply bind_inv in Es. destruct Es as (pr & _ & Es). apply bind_inv in Es. destruct Es as (pk & _ & Es). eapply push_size; eauto. }
  { exact Et. }
  split; [|constructor; assumption]. rewrite lenN_cons. unfold lenN. rewrite LT, length_seqN. lia.
Qed.
