(** * Properties C25, C26: scoring with the trie probability model *)
From Coq Require Import Floats.SpecFloat.
From Verif Require Import Prelude BitFacts M_Word P_Word M_Bits Spec P_Bits P_Builder M_CompactVector P_CompactVector M_DArray M_EF P_EF P_EF2
  M_HashVec M_Mph P_Mph P_MphTables M_FastEF P_FastEF3 M_Text P_Text P_Text2 M_SeqColl P_SeqColl M_Pool P_Pool M_Trie Spec_Trie P_Trie1 P_Trie2 P_Trie3 P_Trie4 P_Trie5 P_Trie7
  M_Score Spec_Katz P_Score1 P_Score2 P_Score3 Props_Score M_Quant P_Quant M_MphProb Spec_Arpa P_Sentence P_Values P_MphProb Props_MphProb M_TrieProb P_TrieProb1 P_TrieProb2 P_TrieProb3 P_TrieProb4 Spec_Supported P_Supported.
From Coq Require Import Permutation Sorting.Sorted.

(** ** the state *)
(** a history of calls on a state: [Some (buf, w)] = score(state, w), w being a word of [buf]; [None] = state.init() *)
Definition tp_op (env : tpenv) (m : tpl) (st : pstate N) (op : option (list N * byte_range)) : res (pstate N) :=
  match op with
  | Some (buf, w) => ' (_, st', _) <- tp_score env m buf st w ;; Ok st'
  | None => ps_init st
  end.

Lemma tp_probe_backoff env m k w r p b r' : 2 <= tp_order m <= 8 -> tp_probe env m k w r = Ok (Some (p, b, r')) -> (b = None <-> k = tp_order m - 1).
Proof.
  intros HO. unfold tp_probe. destruct r as [[r prev] pprev]. destruct (_ =? 0); [discriminate|]. intro H.
  do 3 (apply bind_ok in H; destruct H as (? & _ & H)). destruct (_ =? not_found); [discriminate|].
  do 2 (apply bind_ok in H; destruct H as (? & _ & H)). destruct (rank_unpack _ _). apply bind_ok in H; destruct H as (? & _ & H).
  rewrite sub64_small in H by lia. destruct (N.eqb_spec k (tp_order m - 1)) as [E|E]; cbn [negb] in H;
    repeat (apply bind_ok in H; destruct H as (? & _ & H)); injection H as _ <- _; split; intro; (congruence || discriminate || assumption).
Qed.
Lemma tp_score_inv env m buf s w x : tp_score env m buf s w = Ok x -> exists found id, score_with (tp_unk m) found (tp_probe env m) s id = Ok x.
Proof.
  unfold tp_score. intro H. apply bind_ok in H. destruct H as ([id v] & _ & H). apply bind_ok in H. destruct H as (f & _ & H). exists f, id. exact H.
Qed.
Section STATE.
Variables (env : tpenv) (m : tpl).
Hypothesis HO : 2 <= tp_order m <= 8.
Notation n := (tp_order m).
Lemma tp_score_wf buf s w x s' o : wf n s -> tp_score env m buf s w = Ok (x, s', o) -> wf n s'.
Proof.
  intros Hw H. destruct (tp_score_inv _ _ _ _ _ _ H) as (f & id & H'). eapply (score_wf n HO); [|exact Hw|exact H']. intros. eapply tp_probe_backoff; eauto.
Qed.
Lemma tp_ops_wf hist : forall s s', wf n s -> foldM (tp_op env m) hist s = Ok s' -> wf n s'.
Proof.
  induction hist as [|[[buf w]|] hist IH]; intros s s' Hw H; cbn [foldM tp_op] in H.
  - injection H as <-. exact Hw.
  - apply bind_ok in H. destruct H as (s1 & H1 & H). apply bind_ok in H1. destruct H1 as ([[x s2] o] & H1 & H2). injection H2 as <-.
    eapply IH; [|exact H]. eapply tp_score_wf; eauto.
  - apply bind_ok in H. destruct H as (s1 & H1 & H). destruct (init_wf n HO s Hw) as (s2 & E & W2 & _). rewrite E in H1. injection H1 as <-. eauto.
Qed.
Lemma tp_sentence_sim buf ws : forall j s t, sim n j s t -> outcome (tp_sentence env m buf s ws) = outcome (tp_sentence env m buf t ws).
Proof.
  induction ws as [|w ws IH]; intros j s t S; [reflexivity|]. cbn [tp_sentence]. unfold tp_score.
  destruct (plook_pair _ _ buf w) as [[id v]| |]; [|reflexivity|reflexivity]. cbn [bind].
  destruct (if id =? not_found then Ok None else _) as [found| |]; [|reflexivity|reflexivity]. cbn [bind].
  assert (HP : forall k x r p b r', tp_probe env m k x r = Ok (Some (p, b, r')) -> b = None <-> k = n - 1) by (intros; eapply tp_probe_backoff; eauto).
  pose proof (score_sim n HO (tp_probe env m) HP (tp_unk m) found j s t id S) as R.
  unfold tp_loop in *. destruct (score_with _ found _ s id) as [[[x s1] o]| |], (score_with _ found _ t id) as [[[y t1] o']| |]; cbn [rrel] in R; try contradiction; try reflexivity.
  cbn [fst snd] in R. destruct R as (-> & -> & S1). cbn [bind]. specialize (IH (j + 1) s1 t1 S1).
  destruct (tp_sentence env m buf s1 ws) as [[xs s2]| |], (tp_sentence env m buf t1 ws) as [[ys t2]| |]; cbn [outcome bind] in *; congruence.
Qed.
End STATE.

(** C26, trie: whatever was scored before, after init the same sentence gets the same scores as with a new state
    (for any memory contents, any model of order 2 to 8, built or not) *)
Theorem C26_trie_reinit_independent : forall env m s0 hist s, 2 <= tp_order m <= 8 ->
  tp_state m = Ok s0 -> foldM (tp_op env m) hist s0 = Ok s ->
  exists s1, ps_init s = Ok s1 /\
    forall buf ws, outcome (tp_sentence env m buf s1 ws) = outcome (tp_sentence env m buf s0 ws).
Proof.
  intros env m s0 hist s HO H0 H. destruct (new_ok (tp_order m) HO 0) as (s0' & E0 & W0 & L0 & O0). unfold tp_state in H0. rewrite H0 in E0. injection E0 as <-.
  pose proof (tp_ops_wf env m HO hist s0 s W0 H) as Ws. destruct (init_sim (tp_order m) HO s s0 Ws W0) as (s1 & t1 & E1 & E2 & S).
  exists s1. split; [exact E1|]. rewrite (new_init _ _ _ H0) in E2. injection E2 as <-. intros buf ws. eapply tp_sentence_sim; eauto.
Qed.
(** C26, trie: the window holds the ids answered by the vocabulary for the words scored since the last init, the most
    recent first, and the context length never exceeds order - 1 *)
Definition vocab_id (env : tpenv) (m : tpl) (op : list N * byte_range) : N :=
  match plook_pair (tp_h env) (tp_vocab m) (fst op) (snd op) with Ok (id, _) => id | _ => 0 end.
Theorem C26_trie_window : forall env m s0 hist s, 2 <= tp_order m <= 8 ->
  tp_state m = Ok s0 -> foldM (tp_op env m) hist s0 = Ok s ->
  ps_length s <= tp_order m - 1 /\
  forall i w, i < tp_order m -> nthN (recent (map (option_map (vocab_id env m)) hist)) i = Some w ->
    nth_back (ps_words s) i = Ok w.
Proof.
  intros env m s0 hist s HO H0 H. destruct (new_ok (tp_order m) HO 0) as (s0' & E0 & W0 & L0 & O0). pose proof H0 as H0'. unfold tp_state in H0'. rewrite H0' in E0. injection E0 as <-.
  split; [apply (sm_len _ _ _ _ (tp_ops_wf env m HO hist s0 s W0 H))|].
  assert (C0 : cb_holds (ps_words s0) [] /\ cb_capacity (ps_words s0) = tp_order m).
  { pose proof (wf_rep (fun _ : list N => None) (tp_order m) s0 HO W0 L0) as [A B]. auto. }
  assert (G : forall hist xs s0 s, cb_holds (ps_words s0) xs /\ cb_capacity (ps_words s0) = tp_order m -> foldM (tp_op env m) hist s0 = Ok s ->
    cb_holds (ps_words s) (fold_left (fun r op => match op with Some x => x :: r | None => [] end) (map (option_map (vocab_id env m)) hist) xs) /\ cb_capacity (ps_words s) = tp_order m).
  { clear. induction hist as [|[[buf w]|] hist IH]; intros xs s0 s C H; cbn [foldM tp_op map option_map fold_left fst snd] in *.
    - injection H as <-. exact C.
    - apply bind_ok in H. destruct H as (s1 & H1 & H). apply bind_ok in H1. destruct H1 as ([[x s2] o] & H1 & H2). injection H2 as <-. apply (IH _ s2); [|exact H].
      unfold tp_score in H1. apply bind_ok in H1. destruct H1 as ([id v] & EV & H1). apply bind_ok in H1. destruct H1 as (f & _ & H1). apply score_words in H1.
      assert (EI : vocab_id env m (buf, w) = id) by (unfold vocab_id; cbn [fst snd]; rewrite EV; reflexivity). rewrite EI.
      destruct C as [C1 C2]. destruct (cb_push_holds _ _ id C1) as (c & E & C3 & C4). rewrite E in H1. injection H1 as <-. split; [exact C3|congruence].
    - apply bind_ok in H. destruct H as (s1 & H1 & H). apply (IH _ s1); [|exact H]. unfold ps_init in H1. apply bind_ok in H1. destruct H1 as (p & _ & H1). injection H1 as <-.
      cbn [ps_words]. destruct C as [C1 C2]. split; [eapply cb_init_holds; eauto|exact C2]. }
  destruct (G hist [] s0 s C0 H) as [C1 C2]. intros i w Hi Hx. eapply nth_back_ok; [exact C1| |exact Hx]. rewrite C2. exact Hi.
Qed.

(** ** C25 *)
(** Scores of the trie built from an ARPA file, as computed after any history and for every table: Katz back-off over
    the quantized values of the supported n-grams (every n-gram if the table is closed, C25_supported_all; Spec_Supported.v) and over
    the kept context, the longest part of the context that is listed with a non-zero back-off
    ([kept] in Spec_Katz.v).  Equality of floats, not up to the sign of zero.  Partial for the same reasons as the next theorem except the
    non-zero back-offs. *)
Theorem C25_trie_kept_partial : forall D secs env remap pq bq unk, arpa_file D -> collection (reversed D) remap -> trie_inputs_ok D secs env remap pq bq ->
  exists m qp qb, tp_build env secs (lenN D) remap unk pq bq = Ok m /\
    (* the quantizer: the centre of the rank chosen for the value *)
    (forall ord x, 2 <= ord <= lenN D -> exists r, q_rank (tp_probs m) (ord - 2) x 0 = Ok r /\ r < 2 ^ pq /\ q_access (tp_probs m) (ord - 2) r = Ok (qp ord x)) /\
    (forall ord x, 2 <= ord < lenN D -> exists r, q_rank (tp_backoffs m) (ord - 2) x 1 = Ok r /\ r < 2 ^ bq /\ q_access (tp_backoffs m) (ord - 2) r = Ok (qb ord x)) /\
    (forall buf p ws s0 hist s s1, holds_text buf (p, p + lenN (join ws)) (join ws) -> lenN ws < 2 ^ 62 ->
     (forall w, In w ws -> entry D [w] = None -> word_distinguished D env m w) ->
     tp_state m = Ok s0 -> foldM (tp_op env m) hist s0 = Ok s -> ps_init s = Ok s1 ->
     exists out s2, tp_sentence env m buf s1 (word_ranges p ws) = Ok (out, s2) /\
       map fst out = kept_scores (supported (quantized D qp qb)) (unk_prob D unk) (N.to_nat (lenN D)) ws /\
       map snd out = map (fun w => match entry D [w] with Some _ => false | None => true end) ws /\
       ps_oovs s2 = lenN (filter (fun w => match entry D [w] with Some _ => false | None => true end) ws) /\
       (* the state keeps the context that the next score will use *)
       N.to_nat (ps_length s2) = kept (supported (quantized D qp qb)) (N.to_nat (lenN D)) (rev ws)).
Proof.
  intros D secs env remap pq bq unk AF CO TI. destruct (tp_build_ok D secs env remap pq bq AF CO TI unk) as (m & EB & MR).
  pose proof (af_order _ AF) as HO. pose proof (tab_width D secs (tp_penv env) pq bq (VIN D secs env remap pq bq (base_of _ _ _ _ _ _ TI))) as [TP TB].
  exists m, (qfun (tp_probs m) 0), (qfun (tp_backoffs m) 1). split; [exact EB|].
  pose proof (tr_vinv _ _ _ _ _ _ _ MR) as (V1 & V2 & V3 & V4 & V5). cbn [fst snd] in V1, V2, V3, V4, V5.
  assert (P4 : 4 <= 2 ^ pq) by (change 4 with (2 ^ 2); apply N.pow_le_mono_r; lia).
  assert (B4 : 4 <= 2 ^ bq) by (change 4 with (2 ^ 2); apply N.pow_le_mono_r; lia).
  split; [|split].
  - intros ord x Ho. destruct (nthN_Some (q_seqs (tp_probs m)) (ord - 2) ltac:(lia)) as (d & Hd).
    assert (LD : lenN d = 2 ^ pq) by (rewrite Forall_forall in V3; apply V3; eapply nthN_In; exact Hd).
    destruct (q_rank_ok (tp_probs m) (ord - 2) x 0 d Hd ltac:(lia) ltac:(lia)) as (r & E & L & _). exists r. split; [exact E|]. split; [lia|].
    destruct (nthN_Some d r L) as (y & Hy). pose proof (q_access_ok _ _ _ _ _ Hd Hy) as A. unfold qfun. rewrite E, A. reflexivity.
  - intros ord x Ho. destruct (nthN_Some (q_seqs (tp_backoffs m)) (ord - 2) ltac:(lia)) as (d & Hd).
    assert (LD : lenN d = 2 ^ bq) by (rewrite Forall_forall in V5; apply V5; eapply nthN_In; exact Hd).
    destruct (q_rank_ok (tp_backoffs m) (ord - 2) x 1 d Hd ltac:(lia) ltac:(lia)) as (r & E & L & _). exists r. split; [exact E|]. split; [lia|].
    destruct (nthN_Some d r L) as (y & Hy). pose proof (q_access_ok _ _ _ _ _ Hd Hy) as A. unfold qfun. rewrite E, A. reflexivity.
  - intros buf p ws s0 hist s s1 HT Hb HD H0 HH HI. pose proof (tr_order _ _ _ _ _ _ _ MR) as MO. pose proof HO as HOm. rewrite <- MO in HOm.
    destruct (new_ok (tp_order m) HOm 0) as (s0' & E0 & W0 & _). unfold tp_state in H0. rewrite H0 in E0. injection E0 as <-.
    pose proof (tp_ops_wf env m HOm hist s0 s W0 HH) as Ws. destruct (init_wf (tp_order m) HOm s Ws) as (s1' & E1 & W1 & L1 & O1). rewrite HI in E1. injection E1 as <-.
    pose proof (wf_rep (supported (quantized D (qfun (tp_probs m) 0) (qfun (tp_backoffs m) 1))) (tp_order m) s1 HOm W1 L1) as R1. rewrite MO in R1.
    destruct (tp_sentence_ok D secs env remap pq bq AF CO TI unk m MR buf p ws Hb HT HD ws [] s1 eq_refl R1) as (out & s2 & A1 & A2 & A3 & A4 & A5).
    exists out, s2. cbn [start] in A1. split; [exact A1|]. split; [exact A2|]. split; [exact A3|].
    split; [|exact (sr_kept _ _ _ _ _ A4)]. rewrite A5, O1.
    assert (G : forall l a, a + lenN l < 2 ^ 63 -> fold_left (fun n w => if oov_of D w then add64 n 1 else n) l a = a + lenN (filter (oov_of D) l)).
    { clear. induction l as [|w l IH]; intros a Ha; cbn [fold_left filter]; [rewrite lenN_nil; lia|]. rewrite lenN_cons in Ha. destruct (oov_of D w).
      - rewrite add64_small by lia. rewrite IH by lia. rewrite lenN_cons. lia.
      - apply IH. lia. }
    rewrite G by lia. reflexivity.
Qed.
(** Scores of the trie built from an ARPA file whose reversed n-grams are sorted, as computed after any history: Katz
    back-off over the table whose values of order 2 and more are replaced by the quantizer's.  Partial: a listed context that
    is extended must have a back-off weight that is not zero (C25_zero_backoff_refuted), the hash function must tell the
    unknown words of the sentence from the listed ones, ranks have at most 57 bits and the word after a rank vector is readable
    (see C25_trie_overread_refuted). *)
Theorem C25_trie_katz_partial : forall D secs env remap pq bq unk, arpa_file D -> collection (reversed D) remap -> trie_inputs_ok D secs env remap pq bq ->
  exists m qp qb, tp_build env secs (lenN D) remap unk pq bq = Ok m /\
    (* the quantizer: the centre of the rank chosen for the value *)
    (forall ord x, 2 <= ord <= lenN D -> exists r, q_rank (tp_probs m) (ord - 2) x 0 = Ok r /\ r < 2 ^ pq /\ q_access (tp_probs m) (ord - 2) r = Ok (qp ord x)) /\
    (forall ord x, 2 <= ord < lenN D -> exists r, q_rank (tp_backoffs m) (ord - 2) x 1 = Ok r /\ r < 2 ^ bq /\ q_access (tp_backoffs m) (ord - 2) r = Ok (qb ord x)) /\
    (closed (entry D) -> extended_nonzero (quantized D qp qb) ->
     forall buf p ws s0 hist s s1, holds_text buf (p, p + lenN (join ws)) (join ws) -> lenN ws < 2 ^ 62 ->
     (forall w, In w ws -> entry D [w] = None -> word_distinguished D env m w) ->
     tp_state m = Ok s0 -> foldM (tp_op env m) hist s0 = Ok s -> ps_init s = Ok s1 ->
     exists out s2, tp_sentence env m buf s1 (word_ranges p ws) = Ok (out, s2) /\
       Forall2 feq (map fst out) (katz_scores (quantized D qp qb) (unk_prob D unk) (N.to_nat (lenN D)) ws) /\
       map snd out = map (fun w => match entry D [w] with Some _ => false | None => true end) ws /\
       ps_oovs s2 = lenN (filter (fun w => match entry D [w] with Some _ => false | None => true end) ws) /\
       (* the state keeps the longest listed context with a non-zero back-off *)
       ps_length s2 <= lenN D - 1 /\
       (forall j p b, ps_length s2 < j -> (N.to_nat j <= N.to_nat (lenN D) - 1)%nat -> j <= lenN ws -> quantized D qp qb (lastn (N.to_nat j) ws) = Some (p, b) -> is_zero b = true) /\
       (0 < ps_length s2 -> exists p b, quantized D qp qb (lastn (N.to_nat (ps_length s2)) ws) = Some (p, b) /\ is_zero b = false)).
Proof.
  intros D secs env remap pq bq unk AF CO TI. pose proof (af_order _ AF) as HO. destruct (C25_trie_kept_partial D secs env remap pq bq unk AF CO TI) as (m & qp & qb & E1 & E2 & E3 & E4).
  exists m, qp, qb. split; [exact E1|]. split; [exact E2|]. split; [exact E3|]. intros HC HX buf p ws s0 hist s s1 HT Hb HD H0 HH HI.
  pose proof (supported_same _ (closed_quantized D qp qb HC)) as SS. destruct (E4 buf p ws s0 hist s s1 HT Hb HD H0 HH HI) as (out & s2 & A1 & A2 & A3 & A4 & A5). exists out, s2. split; [exact A1|].
  rewrite (kept_scores_ext _ _ SS) in A2. rewrite (kept_ext _ _ SS) in A5. split; [rewrite A2; apply kept_scores_katz; [exact HO|exact HX]|]. split; [exact A3|]. split; [exact A4|].
  destruct (kept_longest (quantized D qp qb) (lenN D) ws) as (K1 & K2 & K3 & K4). cbv zeta in *. rewrite <- A5 in K1, K2, K3, K4.
  split; [lia|]. split; [|intro Hp; apply K4; lia]. intros j pp bb Hj1 Hj2 Hj3. apply (K3 HX); unfold lenN in *; lia.
Qed.

(** ** an instance: the table of Props_MphProb with each section sorted by the reversed n-grams *)
Definition txE : list (list (gram * (N * N))) := [
  [([[97]], (1, 2)); ([[98]], (2, 3)); ([[99]], (3, 1))];
  [([[97]; [97]], (4, 1)); ([[99]; [97]], (3, 4)); ([[97]; [98]], (1, 2)); ([[98]; [99]], (2, 3))];
  [([[99]; [97]; [97]], (4, 0)); ([[98]; [99]; [97]], (2, 0)); ([[99]; [97]; [98]], (3, 0)); ([[97]; [98]; [99]], (1, 0))]].
Definition txD : entries := map (map exent) txE.
Definition txsecs : list (list (list N)) := map (map exline) txE.
(** [pad]: what can be read after a rank vector *)
Definition txenv (remap : N) (pad : list N) : tpenv :=
  mktpenv (exh 0) [(0, 2, 4); (1, 2, 4); (3, 0, 4)] (fun _ _ => (0, 0, 0)) (fun _ => []) (negb (remap =? 0)) (fun l => l) exsd pad.
Lemma txks k l : nthN txD k = Some l -> k = 0 \/ k = 1 \/ k = 2.
Proof. intro H. apply nthN_lt in H. change (lenN txD) with 3 in H. lia. Qed.
Lemma tx_arpa : arpa_file txD.
Proof.
  split.
  - vm_compute. split; discriminate.
  - intros k l H. destruct (txks k l H) as [->|[->| ->]]; injection H as <-; (split; [discriminate|reflexivity]).
  - intros k l e H I. destruct (txks k l H) as [->|[->| ->]]; injection H as <-; cbn [map txD txE exent In fst snd] in I;
        repeat (destruct I as [I|I]; [subst e; split; [reflexivity|]; cbn [fst]; repeat (constructor; [split; [split; [discriminate|cbn; intuition discriminate]|cbn; intuition discriminate]|]); constructor|]); destruct I.
  - intro k. unfold grams, level. destruct (nthN txD k) as [l|] eqn:H; [|constructor]. destruct (txks k l H) as [->|[->| ->]]; injection H as <-; cbn [map txD txE exent fst];
        repeat (constructor; [cbn; intuition discriminate|]); constructor.
  - intros k l e H I. destruct (txks k l H) as [->|[->| ->]]; injection H as <-; cbn [map txD txE exent In fst snd] in I;
        repeat (destruct I as [I|I]; [subst e; split; vm_compute; reflexivity|]); destruct I.
Qed.
Lemma txg k : k = 0 \/ k = 1 \/ k = 2 \/ grams (reversed txD) k = [].
Proof.
  destruct (N.lt_ge_cases k 3) as [H|H]; [lia|]. right. right. right. unfold grams. replace (nthN (reversed txD) k) with (@None (list (gram * (spec_float * spec_float)))); [reflexivity|].
  symmetry. destruct (nthN (reversed txD) k) eqn:E; [|reflexivity]. apply nthN_lt in E. change (lenN (reversed txD)) with 3 in E. lia.
Qed.
Lemma tx_sorted remap : remap <= 1 -> collection (reversed txD) remap.
Proof.
  intro HR. assert (A0 : nthN (grams (reversed txD) 0) 0 = Some [[97]]) by reflexivity. assert (A1 : nthN (grams (reversed txD) 0) 1 = Some [[98]]) by reflexivity.
  assert (A2 : nthN (grams (reversed txD) 0) 2 = Some [[99]]) by reflexivity.
  assert (AB : word_lt (grams (reversed txD) 0) [97] [98]) by (exists 0, 1; split; [lia|auto]).
  assert (BC : word_lt (grams (reversed txD) 0) [98] [99]) by (exists 1, 2; split; [lia|auto]).
  assert (AC : word_lt (grams (reversed txD) 0) [97] [99]) by (exists 0, 2; split; [lia|auto]).
  split.
  - vm_compute. split; discriminate.
  - intros k l H. assert (k < 3) by (apply nthN_lt in H; exact H). assert (K : k = 0 \/ k = 1 \/ k = 2) by lia. destruct K as [->|[->| ->]]; injection H as <-; (split; [discriminate|reflexivity]).
  - intros k g I. destruct (txg k) as [->|[->|[->|E]]]; [| | |rewrite E in I; destruct I]; vm_compute in I;
      repeat (destruct I as [<-|I]; [split; [reflexivity|]; repeat (constructor; [split; [split; [discriminate|cbn; intuition discriminate]|split; [cbn; intuition discriminate|vm_compute; tauto]]|]); constructor|]); destruct I.
  - intros k g I. destruct (txg k) as [->|[->|[->|E]]]; [| | |rewrite E in I; destruct I]; vm_compute in I;
      repeat (destruct I as [<-|I]; [reflexivity|]); destruct I.
  - vm_compute. repeat (constructor; [cbn; intuition discriminate|]); constructor.
  - intros k Hk. destruct (txg k) as [->|[->|[->|E]]]; [lia| | |rewrite E; constructor].
    + change (grams (reversed txD) 1) with [[[97]; [97]]; [[97]; [99]]; [[98]; [97]]; [[99]; [98]]].
      repeat (constructor; [|repeat (constructor; [solve [repeat first [apply gram_lt_here; [reflexivity|assumption]|apply gram_lt_next]]|]); constructor]). constructor.
    + change (grams (reversed txD) 2) with [[[97]; [97]; [99]]; [[97]; [99]; [98]]; [[98]; [97]; [99]]; [[99]; [98]; [97]]].
      repeat (constructor; [|repeat (constructor; [solve [repeat first [apply gram_lt_here; [reflexivity|assumption]|apply gram_lt_next]]|]); constructor]). constructor.
  - intros k g Hk I. destruct (txg k) as [->|[->|[->|E]]]; [lia| | |rewrite E in I; destruct I]; vm_compute in I; repeat (destruct I as [<-|I]; [vm_compute; tauto|]); destruct I.
  - lia.
  - intros k g H1 H2 I. assert (remap = 1) by lia. subst remap. destruct (txg k) as [->|[->|[->|E]]]; [lia|lia| |rewrite E in I; destruct I];
      vm_compute in I; repeat (destruct I as [<-|I]; [vm_compute; tauto|]); destruct I.
Qed.
Lemma tx_values remap pad : value_inputs_ok txD txsecs (tp_penv (txenv remap pad)) 2 2.
Proof.
  split.
  - assert (L : Forall (Forall (fun e => arpa_line exsd (exent e) (exline e))) txE).
    { repeat constructor; unfold arpa_line; cbn [exent exline fst snd].
      all: match goal with |- context [exline (_, (?a, ?b))] => exists [48 + a], (if b =? 0 then [] else [9; 48 + b]), (exf a); split; [reflexivity|]; split; [vm_compute; reflexivity|]; split; [vm_compute; reflexivity|] end.
      all: first [left; split; vm_compute; reflexivity | right; eexists; split; [reflexivity|vm_compute; reflexivity]]. }
    unfold txD, txsecs. clear - L. induction L as [|l E HL L IH]; constructor; [|exact IH]. clear - HL. induction HL; constructor; assumption.
  - intro l. apply Permutation_refl.
  - split; [lia|]. intros k l Hk H. destruct (txks k l H) as [->|[->| ->]]; [lia| |]; injection H as <-; vm_compute; discriminate.
  - split; [lia|]. intros k l Hk Hk2 H. destruct (txks k l H) as [->|[->| ->]]; [lia| |]; injection H as <-; [right; vm_compute; discriminate|exfalso; vm_compute in Hk2; discriminate].
Qed.
Lemma tx_inputs remap pad : remap <= 1 -> (exists x, pad = [x] /\ x < 2 ^ 64) -> trie_inputs_ok txD txsecs (txenv remap pad) remap 2 2.
Proof.
  intros HR HP. split.
  - apply tx_values.
  - lia.
  - unfold txsecs. repeat constructor.
  - reflexivity.
  - intros l H. injection H as <-.
    assert (V3 : forall h ks, map (h : list N -> triple) ks = [(0, 0, 0); (1, 0, 0); (0, 1, 0)] -> valid_order 2 h ks [(0, 2, 4); (1, 2, 4); (3, 0, 4)]).
    { intros h ks Em. destruct ks as [|a [|b [|c [|? ?]]]]; try discriminate Em. cbn [map] in Em. injection Em as E1 E2 E3. split.
      - exists [a; b; c]. split; [apply Permutation_refl|]. constructor; [|constructor; [|constructor; [|constructor]]]; unfold edge_of; rewrite ?E1, ?E2, ?E3; cbn.
        + apply Permutation_refl.
        + apply Permutation_refl.
        + apply perm_swap.
      - repeat constructor; cbn; intros I; repeat (destruct I as [I|I]; [discriminate|]); destruct I. }
    apply V3. vm_compute. reflexivity.
  - intros k Hk. change (lenN txD) with 3 in Hk. left. assert (K : k = 1 \/ k = 2) by lia. destruct K as [->| ->]; vm_compute; reflexivity.
  - exact HP.
Qed.
Example C25_trie_example_hyps : forall remap, remap <= 1 -> arpa_file txD /\ collection (reversed txD) remap /\ trie_inputs_ok txD txsecs (txenv remap [77]) remap 2 2 /\ closed (entry txD).
Proof.
  intros remap HR. split; [apply tx_arpa|]. split; [apply tx_sorted; exact HR|]. split; [apply tx_inputs; [exact HR|exists 77; split; [reflexivity|vm_compute; reflexivity]]|].
  apply closedb_ok. vm_compute. reflexivity.
Qed.
Definition tx_build (remap : N) (pad : list N) : res tpl := tp_build (txenv remap pad) txsecs 3 remap default_unk 2 2.
Definition txq (remap : N) : qsc * qsc := match tx_build remap [77] with Ok m => (tp_probs m, tp_backoffs m) | _ => (qsc_empty, qsc_empty) end.
Definition txM (remap : N) := quantized txD (qfun (fst (txq remap)) 0) (qfun (snd (txq remap)) 1).
Example C25_trie_example_nonzero : forall remap, remap = 0 \/ remap = 1 -> extended_nonzero (txM remap).
Proof. intros remap [->| ->]; apply nonzerob_ok; vm_compute; reflexivity. Qed.
Example C25_trie_example_unknown : forall remap m, remap = 0 \/ remap = 1 -> tx_build remap [77] = Ok m -> word_distinguished txD (txenv remap [77]) m [100].
Proof.
  intros remap m HR E l Hl. injection Hl as <-. destruct HR as [->| ->]; vm_compute in E; injection E as <-;
    (split; [vm_compute; discriminate|intros e I; cbn [In map] in I; repeat (destruct I as [<-|I]; [vm_compute; discriminate|]); destruct I]).
Qed.
(** the scores of "a b c a a b d" *)
Example C25_trie_example_scores : forall remap, remap = 0 \/ remap = 1 ->
  (m <- tx_build remap [77] ;; s0 <- tp_state m ;; outcome (tp_sentence (txenv remap [77]) m (join exws) s0 (word_ranges 0 exws)))
  = Ok (combine (katz_scores (txM remap) default_unk 3 exws) [false; false; false; false; false; false; true]).
Proof. intros remap [->| ->]; vm_compute; reflexivity. Qed.

(** Without the readable word after the rank vectors, scoring a listed n-gram can read past the end of the allocated memory:
    score() reads ranks with compact_vector::access, an 8-byte load at the byte of the first bit.  Here "a b" is listed. *)
Theorem C25_trie_overread_refuted : exists D secs env remap pq bq unk m s0 buf p ws, arpa_file D /\ collection (reversed D) remap /\
  value_inputs_ok D secs (tp_penv env) pq bq /\ closed (entry D) /\ tp_pad env = [] /\
  tp_build env secs (lenN D) remap unk pq bq = Ok m /\ tp_state m = Ok s0 /\
  entry D ws <> None /\ holds_text buf (p, p + lenN (join ws)) (join ws) /\
  tp_sentence env m buf s0 (word_ranges p ws) = UB.
Proof.
  destruct (tx_build 1 []) as [m| |] eqn:EB; [|vm_compute in EB; discriminate|vm_compute in EB; discriminate].
  destruct (tp_state m) as [s0| |] eqn:E0; [|vm_compute in EB; injection EB as <-; vm_compute in E0; discriminate|vm_compute in EB; injection EB as <-; vm_compute in E0; discriminate].
  exists txD, txsecs, (txenv 1 []), 1, 2, 2, default_unk, m, s0, (join [[97]; [98]]), 0, [[97]; [98]].
  split; [apply tx_arpa|]. split; [apply tx_sorted; lia|]. split; [apply tx_values|]. split; [apply closedb_ok; vm_compute; reflexivity|]. split; [reflexivity|].
  split; [exact EB|]. split; [exact E0|]. split; [vm_compute; discriminate|]. split; [split; vm_compute; [split; discriminate|reflexivity]|].
  vm_compute in EB. injection EB as <-. vm_compute in E0. injection E0 as <-. vm_compute. reflexivity.
Qed.

Print Assumptions C26_trie_reinit_independent.
Print Assumptions C26_trie_window.
Print Assumptions C25_trie_kept_partial.
Print Assumptions C25_trie_katz_partial.
Print Assumptions C25_trie_overread_refuted.
