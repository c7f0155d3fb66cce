(** * Properties C25, C26: scoring with the hash probability model *)
From Coq Require Import Floats.SpecFloat.
From Verif Require Import Prelude BitFacts M_Word P_Word M_Bits Spec P_Bits P_Builder M_CompactVector P_CompactVector
  M_HashVec M_Mph P_Mph P_MphTables M_Text P_Text P_Text2 M_Pool P_Pool M_Trie Spec_Trie P_Trie1 P_Trie3 P_Trie4 P_Trie5 M_SeqColl P_SeqColl
  M_Score Spec_Katz P_Score1 P_Score2 P_Score3 Props_Score M_Quant P_Quant M_MphProb Spec_Arpa P_Sentence P_Values P_MphProb Spec_Supported P_Supported.
From Coq Require Import Permutation.

(** ** the state *)
Lemma add_backoff_words {W} (s s' : pstate W) b : ps_add_backoff s b = Ok s' -> ps_words s' = ps_words s.
Proof. unfold ps_add_backoff. intro H. apply bind_ok in H. destruct H as (c & _ & H). injection H as <-. reflexivity. Qed.
Lemma round_words {W R} probe (l : sl W R) x : score_round probe l = Ok x ->
  match x with inl l' | inr l' => ps_words (sl_st l') = ps_words (sl_st l) end.
Proof.
  unfold score_round. destruct (negb _). { intro H. injection H as <-. reflexivity. }
  intro H. apply bind_ok in H. destruct H as (w & _ & H). apply bind_ok in H. destruct H as (o & _ & H).
  destruct o as [[[p b] r]|]; [|injection H as <-; reflexivity].
  apply bind_ok in H. destruct H as ([st lml] & H1 & H). injection H as <-. cbn [sl_st].
  destruct b as [b|]; [|injection H1 as <- <-; reflexivity]. apply bind_ok in H1. destruct H1 as (st1 & H1 & H2). injection H2 as <- <-.
  apply add_backoff_words in H1. exact H1.
Qed.
Lemma loop_words {W R} probe : forall fuel (l l' : sl W R), loop fuel (score_round probe) l = Ok l' -> ps_words (sl_st l') = ps_words (sl_st l).
Proof.
  induction fuel as [|fuel IH]; intros l l' H; [discriminate|]. cbn [loop] in H. apply bind_ok in H. destruct H as (x & H1 & H).
  apply round_words in H1. destruct x as [l1|l1]; [rewrite (IH _ _ H); exact H1|injection H as <-; exact H1].
Qed.
Lemma score_words {W R} unk found probe (st st' : pstate W) w x o : @score_with W R unk found probe st w = Ok (x, st', o) -> cb_push (ps_words st) w = Ok (ps_words st').
Proof.
  unfold score_with. intro H. apply bind_ok in H. destruct H as (s1 & H1 & H). unfold ps_add_word in H1. apply bind_ok in H1. destruct H1 as (c & EC & H1). injection H1 as <-.
  apply bind_ok in H. destruct H as ([[[[m1 prob] lml] s2] oov] & H2 & H). apply bind_ok in H. destruct H as (y & _ & H). injection H as _ <- _.
  cbn [ps_finalize ps_words]. rewrite EC. f_equal. destruct found as [[[p b] r]|].
  - apply bind_ok in H2. destruct H2 as (s3 & H3 & H2). apply bind_ok in H2. destruct H2 as (l & HL & H2). injection H2 as _ _ _ <- _.
    apply loop_words in HL. rewrite HL. cbn [sl_st]. rewrite (add_backoff_words _ _ _ H3). reflexivity.
  - apply bind_ok in H2. destruct H2 as (s3 & H3 & H2). injection H2 as _ _ _ <- _. rewrite (add_backoff_words _ _ _ H3). reflexivity.
Qed.

(** a history of calls on a state: [Some (buf, w)] = score(state, w), w being a word of [buf]; [None] = state.init() *)
Definition mp_op (env : penv) (m : mpl) (st : pstate N) (op : option (list N * byte_range)) : res (pstate N) :=
  match op with
  | Some (buf, w) => ' (_, st', _) <- mp_score env m buf st w ;; Ok st'
  | None => ps_init st
  end.
(** the scores and OOV flags, without the final state *)
Definition outcome {A B} (r : res (A * B)) : res A := match r with Ok (x, _) => Ok x | UB => UB | Throw => Throw end.

Lemma mp_probe_backoff env m buf e k w r p b r' : 2 <= mp_order m <= 8 -> mp_probe env m buf e k w r = Ok (Some (p, b, r')) -> (b = None <-> k = mp_order m - 1).
Proof.
  intros HO. unfold mp_probe. intro H. repeat (apply bind_ok in H; destruct H as (? & _ & H)). destruct (_ =? not_found); [discriminate|].
  rewrite sub64_small in H by lia. destruct (N.eqb_spec k (mp_order m - 1)) as [E|E]; cbn [negb] in H;
    repeat (apply bind_ok in H; destruct H as (? & _ & H)); injection H as _ <- _; split; intro; (congruence || discriminate || assumption).
Qed.
Section STATE.
Variables (env : penv) (m : mpl).
Hypothesis HO : 2 <= mp_order m <= 8.
Notation n := (mp_order m).
Lemma mp_score_wf buf s w x s' o : wf n s -> mp_score env m buf s w = Ok (x, s', o) -> wf n s'.
Proof.
  intros Hw H. unfold mp_score in H. do 3 (apply bind_ok in H; destruct H as (? & _ & H)).
  eapply (score_wf n HO); [|exact Hw|exact H]. intros. eapply mp_probe_backoff; eauto.
Qed.
Lemma mp_ops_wf hist : forall s s', wf n s -> foldM (mp_op env m) hist s = Ok s' -> wf n s'.
Proof.
  induction hist as [|[[buf w]|] hist IH]; intros s s' Hw H; cbn [foldM mp_op] in H.
  - injection H as <-. exact Hw.
  - apply bind_ok in H. destruct H as (s1 & H1 & H). apply bind_ok in H1. destruct H1 as ([[x s2] o] & H1 & H2). injection H2 as <-.
    eapply IH; [|exact H]. eapply mp_score_wf; eauto.
  - apply bind_ok in H. destruct H as (s1 & H1 & H). destruct (init_wf n HO s Hw) as (s2 & E & W2 & _). rewrite E in H1. injection H1 as <-. eauto.
Qed.
Lemma mp_sentence_sim buf ws : forall j s t, sim n j s t -> outcome (mp_sentence env m buf s ws) = outcome (mp_sentence env m buf t ws).
Proof.
  induction ws as [|w ws IH]; intros j s t S; [reflexivity|]. cbn [mp_sentence]. unfold mp_score.
  destruct (bytes_at buf w) as [g| |]; [|reflexivity|reflexivity]. cbn [bind]. destruct (rd (mp_tables m) 0) as [tb| |]; [|reflexivity|reflexivity]. cbn [bind].
  destruct (svt_lookup _ _ tb g) as [v| |]; [|reflexivity|reflexivity]. cbn [bind].
  set (found := if v =? not_found then None else _).
  assert (HP : forall k x r p b r', mp_probe env m buf (snd w) k x r = Ok (Some (p, b, r')) -> b = None <-> k = n - 1) by (intros; eapply mp_probe_backoff; eauto).
  pose proof (score_sim n HO (mp_probe env m buf (snd w)) HP (mp_unk m) found j s t (fst w) S) as R.
  destruct (score_with _ found _ s (fst w)) as [[[x s1] o]| |], (score_with _ found _ t (fst w)) as [[[y t1] o']| |]; cbn [rrel] in R; try contradiction; try reflexivity.
  cbn [fst snd] in R. destruct R as (-> & -> & S1). cbn [bind]. specialize (IH (j + 1) s1 t1 S1).
  destruct (mp_sentence env m buf s1 ws) as [[xs s2]| |], (mp_sentence env m buf t1 ws) as [[ys t2]| |]; cbn [outcome bind] in *; congruence.
Qed.
End STATE.
Lemma new_init {W} (w0 : W) n s : ps_new w0 n = Ok s -> ps_init s = Ok s.
Proof.
  unfold ps_new. intro H. apply bind_ok in H. destruct H as (a & E & H). apply bind_ok in H. destruct H as (b & E' & H). injection H as <-. reflexivity.
Qed.

(** C26: whatever was scored before, after init the same sentence gets the same scores as with a new state
    (for any memory contents, any model of order 2 to 8, built or not) *)
Theorem C26_reinit_independent : forall env m s0 hist s, 2 <= mp_order m <= 8 ->
  mp_state m = Ok s0 -> foldM (mp_op env m) hist s0 = Ok s ->
  exists s1, ps_init s = Ok s1 /\
    forall buf ws, outcome (mp_sentence env m buf s1 ws) = outcome (mp_sentence env m buf s0 ws).
Proof.
  intros env m s0 hist s HO H0 H. destruct (new_ok (mp_order m) HO 0) as (s0' & E0 & W0 & L0 & O0). unfold mp_state in H0. rewrite H0 in E0. injection E0 as <-.
  pose proof (mp_ops_wf env m HO hist s0 s W0 H) as Ws. destruct (init_sim (mp_order m) HO s s0 Ws W0) as (s1 & t1 & E1 & E2 & S).
  exists s1. split; [exact E1|]. rewrite (new_init _ _ _ H0) in E2. injection E2 as <-. intros buf ws. eapply mp_sentence_sim; eauto.
Qed.
(** C26: the window holds the words scored since the last init, the most recent first, and the context length
    never exceeds order - 1 *)
Theorem C26_window : forall env m s0 hist s, 2 <= mp_order m <= 8 ->
  mp_state m = Ok s0 -> foldM (mp_op env m) hist s0 = Ok s ->
  ps_length s <= mp_order m - 1 /\
  forall i w, i < mp_order m -> nthN (recent (map (option_map (fun op : list N * byte_range => fst (snd op))) hist)) i = Some w ->
    nth_back (ps_words s) i = Ok w.
Proof.
  intros env m s0 hist s HO H0 H. destruct (new_ok (mp_order m) HO 0) as (s0' & E0 & W0 & L0 & O0). pose proof H0 as H0'. unfold mp_state in H0'. rewrite H0' in E0. injection E0 as <-.
  split; [apply (sm_len _ _ _ _ (mp_ops_wf env m HO hist s0 s W0 H))|].
  assert (C0 : cb_holds (ps_words s0) [] /\ cb_capacity (ps_words s0) = mp_order m).
  { pose proof (wf_rep (fun _ : list N => None) (mp_order m) s0 HO W0 L0) as [A B]. auto. }
  assert (G : forall hist xs s0 s, cb_holds (ps_words s0) xs /\ cb_capacity (ps_words s0) = mp_order m -> foldM (mp_op env m) hist s0 = Ok s ->
    cb_holds (ps_words s) (fold_left (fun r op => match op with Some x => x :: r | None => [] end) (map (option_map (fun op : list N * byte_range => fst (snd op))) hist) xs) /\ cb_capacity (ps_words s) = mp_order m).
  { clear. induction hist as [|[[buf w]|] hist IH]; intros xs s0 s C H; cbn [foldM mp_op map option_map fold_left fst snd] in *.
    - injection H as <-. exact C.
    - apply bind_ok in H. destruct H as (s1 & H1 & H). apply bind_ok in H1. destruct H1 as ([[x s2] o] & H1 & H2). injection H2 as <-. apply (IH _ s2); [|exact H].
      unfold mp_score in H1. do 3 (apply bind_ok in H1; destruct H1 as (? & _ & H1)). apply score_words in H1.
      destruct C as [C1 C2]. destruct (cb_push_holds _ _ (fst w) C1) as (c & E & C3 & C4). rewrite E in H1. injection H1 as <-. split; [exact C3|congruence].
    - apply bind_ok in H. destruct H as (s1 & H1 & H). apply (IH _ s1); [|exact H]. unfold ps_init in H1. apply bind_ok in H1. destruct H1 as (p & _ & H1). injection H1 as <-.
      cbn [ps_words]. destruct C as [C1 C2]. split; [eapply cb_init_holds; eauto|exact C2]. }
  destruct (G hist [] s0 s C0 H) as [C1 C2]. intros i w Hi Hx. eapply nth_back_ok; [exact C1| |exact Hx]. rewrite C2. exact Hi.
Qed.

(** ** C25 *)
(** in a table that lists the parts of its n-grams every n-gram is supported; in general the supported n-grams are those
    all of whose parts are listed *)
Theorem C25_supported_all : forall {V} (M : list V -> option (spec_float * spec_float)),
  closed (supported M) /\
  (forall g, supported M g = if existsb (fun h => match M h with Some _ => false | None => true end) (infixes g) then None else M g) /\
  (forall g h : list V, In h (infixes g) <-> h <> [] /\ exists a b, g = a ++ h ++ b) /\
  (closed M -> forall g, supported M g = M g).
Proof.
  intros V M. split; [apply supported_closed|]. split; [|split; [intros g h; apply In_infixes|apply supported_same]].
  intro g. unfold supported. rewrite <- (negb_involutive (existsb _ _)). replace (negb (existsb (fun h => match M h with Some _ => false | None => true end) (infixes g))) with (forallb (fun h => match M h with Some _ => true | None => false end) (infixes g)).
  - destruct (forallb _ _); reflexivity.
  - induction (infixes g) as [|h l IH]; [reflexivity|]. cbn [forallb existsb]. rewrite IH. destruct (M h); reflexivity.
Qed.
(** Scores of the model built from an ARPA file, as computed after any history and for every table: Katz back-off over
    the quantized values of the supported n-grams (every n-gram if the table is closed, C25_supported_all; Spec_Supported.v) and over
    the kept context, the longest part of the context that is listed with a non-zero back-off
    ([kept] in Spec_Katz.v).  Equality of floats, not up to the sign of zero.  Partial for the same reasons as the next theorem except the
    non-zero back-offs. *)
Theorem C25_mph_kept_partial : forall D secs env pq bq unk, arpa_file D -> prob_inputs_ok D secs env pq bq ->
  exists m qp qb, mp_build env secs (lenN D) unk pq bq = Ok m /\
    (* the quantizer: the centre of the rank chosen for the value *)
    (forall ord x, 2 <= ord <= lenN D -> exists r, q_rank (mp_probs m) (ord - 2) x 0 = Ok r /\ r < 2 ^ pq /\ q_access (mp_probs m) (ord - 2) r = Ok (qp ord x)) /\
    (forall ord x, 2 <= ord < lenN D -> exists r, q_rank (mp_backoffs m) (ord - 2) x 1 = Ok r /\ r < 2 ^ bq /\ q_access (mp_backoffs m) (ord - 2) r = Ok (qb ord x)) /\
    (forall buf p ws s0 hist s s1, holds_text buf (p, p + lenN (join ws)) (join ws) -> lenN ws < 2 ^ 62 ->
     (forall a g c, ws = a ++ g ++ c -> 1 <= lenN g <= lenN D -> entry D g = None -> distinguished D env m g) ->
     mp_state m = Ok s0 -> foldM (mp_op env m) hist s0 = Ok s -> ps_init s = Ok s1 ->
     exists out s2, mp_sentence env m buf s1 (word_ranges p ws) = Ok (out, s2) /\
       map fst out = kept_scores (supported (quantized D qp qb)) (unk_prob D unk) (N.to_nat (lenN D)) ws /\
       map snd out = map (fun w => match entry D [w] with Some _ => false | None => true end) ws /\
       ps_oovs s2 = lenN (filter (fun w => match entry D [w] with Some _ => false | None => true end) ws) /\
       (* the state keeps the context that the next score will use *)
       N.to_nat (ps_length s2) = kept (supported (quantized D qp qb)) (N.to_nat (lenN D)) (rev ws)).
Proof.
  intros D secs env pq bq unk AF PI. destruct (build_ok D secs env pq bq AF PI unk) as (m & EB & MR).
  pose proof (af_order _ AF) as HO. pose proof (tab_width D secs env pq bq (PV D secs env pq bq PI)) as [TP TB].
  exists m, (qfun (mp_probs m) 0), (qfun (mp_backoffs m) 1). split; [exact EB|].
  pose proof (mr_vinv _ _ _ _ _ _ MR) as (V1 & V2 & V3 & V4 & V5). cbn [fst snd] in V1, V2, V3, V4, V5.
  assert (P4 : 4 <= 2 ^ pq) by (change 4 with (2 ^ 2); apply N.pow_le_mono_r; lia).
  assert (B4 : 4 <= 2 ^ bq) by (change 4 with (2 ^ 2); apply N.pow_le_mono_r; lia).
  split; [|split].
  - intros ord x Ho. destruct (nthN_Some (q_seqs (mp_probs m)) (ord - 2) ltac:(lia)) as (d & Hd).
    assert (LD : lenN d = 2 ^ pq) by (rewrite Forall_forall in V3; apply V3; eapply nthN_In; exact Hd).
    destruct (q_rank_ok (mp_probs m) (ord - 2) x 0 d Hd ltac:(lia) ltac:(lia)) as (r & E & L & _). exists r. split; [exact E|]. split; [lia|].
    destruct (nthN_Some d r L) as (y & Hy). pose proof (q_access_ok _ _ _ _ _ Hd Hy) as A. unfold qfun. rewrite E, A. reflexivity.
  - intros ord x Ho. destruct (nthN_Some (q_seqs (mp_backoffs m)) (ord - 2) ltac:(lia)) as (d & Hd).
    assert (LD : lenN d = 2 ^ bq) by (rewrite Forall_forall in V5; apply V5; eapply nthN_In; exact Hd).
    destruct (q_rank_ok (mp_backoffs m) (ord - 2) x 1 d Hd ltac:(lia) ltac:(lia)) as (r & E & L & _). exists r. split; [exact E|]. split; [lia|].
    destruct (nthN_Some d r L) as (y & Hy). pose proof (q_access_ok _ _ _ _ _ Hd Hy) as A. unfold qfun. rewrite E, A. reflexivity.
  - intros buf p ws s0 hist s s1 HT Hb HD H0 HH HI. pose proof (mr_order _ _ _ _ _ _ MR) as MO. pose proof HO as HOm. rewrite <- MO in HOm.
    destruct (new_ok (mp_order m) HOm 0) as (s0' & E0 & W0 & _). unfold mp_state in H0. rewrite H0 in E0. injection E0 as <-.
    pose proof (mp_ops_wf env m HOm hist s0 s W0 HH) as Ws. destruct (init_wf (mp_order m) HOm s Ws) as (s1' & E1 & W1 & L1 & O1). rewrite HI in E1. injection E1 as <-.
    pose proof (wf_rep (supported (quantized D (qfun (mp_probs m) 0) (qfun (mp_backoffs m) 1))) (mp_order m) s1 HOm W1 L1) as R1. rewrite MO in R1.
    destruct (sentence_ok D secs env pq bq AF PI m unk MR buf p ws Hb HT HD ws [] s1 eq_refl R1) as (out & s2 & A1 & A2 & A3 & A4 & A5).
    exists out, s2. cbn [start] in A1. split; [exact A1|]. split; [exact A2|]. split; [exact A3|].
    split; [|exact (sr_kept _ _ _ _ _ A4)]. rewrite A5, O1.
    assert (G : forall l a, a + lenN l < 2 ^ 63 -> fold_left (fun n w => if oov_of D w then add64 n 1 else n) l a = a + lenN (filter (oov_of D) l)).
    { clear. induction l as [|w l IH]; intros a Ha; cbn [fold_left filter]; [rewrite lenN_nil; lia|]. rewrite lenN_cons in Ha. destruct (oov_of D w).
      - rewrite add64_small by lia. rewrite IH by lia. rewrite lenN_cons. lia.
      - apply IH. lia. }
    rewrite G by lia. reflexivity.
Qed.
(** Scores of the model built from an ARPA file, as computed after any history: Katz back-off over the table whose
    values of order 2 and more are replaced by the quantizer's.  Partial: a listed context that is extended must have a
    back-off weight that is not zero (see below), and the hash functions must tell the unlisted n-grams of the sentence
    from the listed ones. *)
Theorem C25_mph_katz_partial : forall D secs env pq bq unk, arpa_file D -> prob_inputs_ok D secs env pq bq ->
  exists m qp qb, mp_build env secs (lenN D) unk pq bq = Ok m /\
    (* the quantizer: the centre of the rank chosen for the value *)
    (forall ord x, 2 <= ord <= lenN D -> exists r, q_rank (mp_probs m) (ord - 2) x 0 = Ok r /\ r < 2 ^ pq /\ q_access (mp_probs m) (ord - 2) r = Ok (qp ord x)) /\
    (forall ord x, 2 <= ord < lenN D -> exists r, q_rank (mp_backoffs m) (ord - 2) x 1 = Ok r /\ r < 2 ^ bq /\ q_access (mp_backoffs m) (ord - 2) r = Ok (qb ord x)) /\
    (closed (entry D) -> extended_nonzero (quantized D qp qb) ->
     forall buf p ws s0 hist s s1, holds_text buf (p, p + lenN (join ws)) (join ws) -> lenN ws < 2 ^ 62 ->
     (forall a g c, ws = a ++ g ++ c -> 1 <= lenN g <= lenN D -> entry D g = None -> distinguished D env m g) ->
     mp_state m = Ok s0 -> foldM (mp_op env m) hist s0 = Ok s -> ps_init s = Ok s1 ->
     exists out s2, mp_sentence env m buf s1 (word_ranges p ws) = Ok (out, s2) /\
       Forall2 feq (map fst out) (katz_scores (quantized D qp qb) (unk_prob D unk) (N.to_nat (lenN D)) ws) /\
       map snd out = map (fun w => match entry D [w] with Some _ => false | None => true end) ws /\
       ps_oovs s2 = lenN (filter (fun w => match entry D [w] with Some _ => false | None => true end) ws) /\
       (* the state keeps the longest listed context with a non-zero back-off *)
       ps_length s2 <= lenN D - 1 /\
       (forall j p b, ps_length s2 < j -> (N.to_nat j <= N.to_nat (lenN D) - 1)%nat -> j <= lenN ws -> quantized D qp qb (lastn (N.to_nat j) ws) = Some (p, b) -> is_zero b = true) /\
       (0 < ps_length s2 -> exists p b, quantized D qp qb (lastn (N.to_nat (ps_length s2)) ws) = Some (p, b) /\ is_zero b = false)).
Proof.
  intros D secs env pq bq unk AF PI. pose proof (af_order _ AF) as HO. destruct (C25_mph_kept_partial D secs env pq bq unk AF PI) as (m & qp & qb & E1 & E2 & E3 & E4).
  exists m, qp, qb. split; [exact E1|]. split; [exact E2|]. split; [exact E3|]. intros HC HX buf p ws s0 hist s s1 HT Hb HD H0 HH HI.
  pose proof (supported_same _ (closed_quantized D qp qb HC)) as SS. destruct (E4 buf p ws s0 hist s s1 HT Hb HD H0 HH HI) as (out & s2 & A1 & A2 & A3 & A4 & A5). exists out, s2. split; [exact A1|].
  rewrite (kept_scores_ext _ _ SS) in A2. rewrite (kept_ext _ _ SS) in A5. split; [rewrite A2; apply kept_scores_katz; [exact HO|exact HX]|]. split; [exact A3|]. split; [exact A4|].
  destruct (kept_longest (quantized D qp qb) (lenN D) ws) as (K1 & K2 & K3 & K4). cbv zeta in *. rewrite <- A5 in K1, K2, K3, K4.
  split; [lia|]. split; [|intro Hp; apply K4; lia]. intros j pp bb Hj1 Hj2 Hj3. apply (K3 HX); unfold lenN in *; lia.
Qed.

(** ** deciding the hypotheses on a concrete table *)
Definition closedb (D : entries) : bool :=
  forallb (forallb (fun e : gram * (spec_float * spec_float) =>
    match fst e with
    | [] | [_] => true
    | _ :: t => match entry D t, entry D (removelast (fst e)) with Some _, Some _ => true | _, _ => false end
    end)) D.
Lemma entry_level D g v : entry D g = Some v -> exists l, In l D /\ In (g, v) l.
Proof. intro H. destruct (entry_In D g v H) as (l & H1 & H2). exists l. split; [eapply nthN_In; eauto|exact H2]. Qed.
Lemma closedb_ok D : closedb D = true -> closed (entry D).
Proof.
  intros H g x y HM. destruct (entry D (x :: g ++ [y])) as [v|] eqn:E; [|congruence]. destruct (entry_level _ _ _ E) as (l & H1 & H2).
  unfold closedb in H. rewrite forallb_forall in H. specialize (H l H1). rewrite forallb_forall in H. specialize (H _ H2). cbn [fst] in H.
  destruct (g ++ [y]) as [|z t] eqn:EG; [destruct g; discriminate|]. cbv iota in H.
  replace (removelast (x :: z :: t)) with (x :: g) in H; [|rewrite <- EG; change (x :: g ++ [y]) with ((x :: g) ++ [y]); rewrite removelast_last; reflexivity].
  destruct (entry D (z :: t)); [|discriminate]. destruct (entry D (x :: g)); [|discriminate]. split; discriminate.
Qed.
Definition nonzerob (D : entries) (qp qb : N -> spec_float -> spec_float) : bool :=
  forallb (forallb (fun e : gram * (spec_float * spec_float) =>
    match fst e with
    | [] | [_] => true
    | _ => match quantized D qp qb (removelast (fst e)) with Some (_, b) => negb (is_zero b) | None => false end
    end)) D.
Lemma Mq_none' D qp qb g : quantized D qp qb g = None <-> entry D g = None.
Proof. unfold quantized. destruct (entry D g) as [[p b]|]; [|tauto]. destruct (lenN g =? 1); split; discriminate. Qed.
Lemma nonzerob_ok D qp qb : nonzerob D qp qb = true -> extended_nonzero (quantized D qp qb).
Proof.
  intros H h w NE HM. rewrite Mq_none' in HM. destruct (entry D (h ++ [w])) as [v|] eqn:E; [|congruence]. destruct (entry_level _ _ _ E) as (l & H1 & H2).
  unfold nonzerob in H. rewrite forallb_forall in H. specialize (H l H1). rewrite forallb_forall in H. specialize (H _ H2). cbn [fst] in H.
  rewrite removelast_last in H. destruct h as [|a h]; [congruence|]. cbn [app] in H. destruct (h ++ [w]) as [|z t] eqn:EG; [destruct h; discriminate|]. cbv iota in H.
  destruct (quantized D qp qb (a :: h)) as [[p b]|]; [|discriminate]. exists p, b. split; [reflexivity|]. destruct (is_zero b); [discriminate|reflexivity].
Qed.

(** ** an instance: three words, four bigrams, four trigrams *)
(** 0 for 0, otherwise - (1 + k/8) *)
Definition exf (k : N) : spec_float := if k =? 0 then S754_zero false else S754_finite true (8388608 + N.succ_pos (k * 1048576 - 1)) (-23).
(** reads one digit, skipping a tab *)
Definition exsd (s : list N) (pos : N) : spec_float * N :=
  match nthN s pos with
  | Some 9 => match nthN s (pos + 1) with Some d => (exf (d - 48), pos + 2) | None => (exf 0, pos) end
  | Some d => (exf (d - 48), pos + 1)
  | None => (exf 0, pos)
  end.
Definition exline (e : gram * (N * N)) : list N := (48 + fst (snd e)) :: 9 :: join (fst e) ++ (if snd (snd e) =? 0 then [] else [9; 48 + snd (snd e)]).
Definition exent (e : gram * (N * N)) : gram * (spec_float * spec_float) := (fst e, (exf (fst (snd e)), exf (snd (snd e)))).
Definition exE (z : N) : list (list (gram * (N * N))) := [
  [([[97]], (1, 2)); ([[98]], (2, z)); ([[99]], (3, 1))];
  [([[97]; [98]], (1, 2)); ([[98]; [99]], (2, 3)); ([[99]; [97]], (3, 4)); ([[97]; [97]], (4, 1))];
  [([[97]; [98]; [99]], (1, 0)); ([[98]; [99]; [97]], (2, 0)); ([[99]; [97]; [98]], (3, 0)); ([[99]; [97]; [97]], (4, 0))]].
Definition exD (z : N) : entries := map (map exent) (exE z).
Definition exsecs (z : N) : list (list (list N)) := map (map exline) (exE z).
Definition exh (k : N) (s : list N) : triple :=
  let i := fix go (l : list (gram * (N * N))) (i : N) := match l with [] => 9 | e :: l => if list_eq_dec N.eq_dec (join (fst e)) s then i else go l (i + 1) end in
  match i (nth (N.to_nat k) (exE 0) []) 0 with
  | 0 => (0, 0, 0)
  | 1 => (1, 0, 0)
  | 2 => (0, 1, 0)
  | 3 => (0, 0, 1)
  | _ => (1, 1, 1)
  end.
Definition exenv (hb : N) : penv := mkpenv hb exh
  (fun k => if k =? 0 then [(0, 2, 4); (1, 2, 4); (3, 0, 4)] else [(0, 2, 4); (1, 2, 4); (3, 0, 4); (5, 0, 2)]) (fun l => l) exsd 100.
Lemma exks z k l : nthN (exD z) k = Some l -> k = 0 \/ k = 1 \/ k = 2.
Proof. intro H. apply nthN_lt in H. change (lenN (exD z)) with 3 in H. lia. Qed.
Ltac exin I := repeat (destruct I as [I|I]; [subst|]); [..|destruct I].
Example C25_example_hyps : forall z hb, z = 0 \/ z = 3 -> hb = 32 \/ hb = 64 -> arpa_file (exD z) /\ prob_inputs_ok (exD z) (exsecs z) (exenv hb) 2 2 /\ closed (entry (exD z)).
Proof.
  intros z hb HZ HB. split; [|split; [|apply closedb_ok; destruct HZ as [-> | ->]; vm_compute; reflexivity]].
  - split.
    + vm_compute. split; discriminate.
    + intros k l H. destruct (exks z k l H) as [->|[->| ->]]; injection H as <-; (split; [discriminate|reflexivity]).
    + intros k l e H I. destruct (exks z k l H) as [->|[->| ->]]; injection H as <-; cbn [map exD exE exent In fst snd] in I;
        repeat (destruct I as [I|I]; [subst e; split; [reflexivity|]; cbn [fst]; repeat (constructor; [split; [split; [discriminate|cbn; intuition discriminate]|cbn; intuition discriminate]|]); constructor|]); destruct I.
    + intro k. unfold grams, level. destruct (nthN (exD z) k) as [l|] eqn:H; [|constructor]. destruct (exks z k l H) as [->|[->| ->]]; injection H as <-; cbn [map exD exE exent fst];
        repeat (constructor; [cbn; intuition discriminate|]); constructor.
    + intros k l e H I. destruct (exks z k l H) as [->|[->| ->]]; injection H as <-; cbn [map exD exE exent In fst snd] in I;
        repeat (destruct I as [I|I]; [subst e; split; destruct HZ as [-> | ->]; vm_compute; reflexivity|]); destruct I.
  - split.
    + unfold exD, exsecs. generalize (fun (x : gram * (N * N)) => x). intros _.
      assert (L : Forall (Forall (fun e => arpa_line exsd (exent e) (exline e))) (exE z)).
      { destruct HZ as [-> | ->]; repeat constructor; unfold arpa_line; cbn [exent exline fst snd].
        all: match goal with |- context [exline (_, (?a, ?b))] => exists [48 + a], (if b =? 0 then [] else [9; 48 + b]), (exf a); split; [reflexivity|]; split; [vm_compute; reflexivity|]; split; [vm_compute; reflexivity|] end.
        all: first [left; split; vm_compute; reflexivity | right; eexists; split; [reflexivity|vm_compute; reflexivity]]. }
      clear - L. induction L as [|l E HL L IH]; constructor; [|exact IH]. clear - HL. induction HL; constructor; assumption.
    + destruct HB as [-> | ->]; [right|left; reflexivity]. split; [reflexivity|]. split; [vm_compute; discriminate|].
      intros k l H. destruct (exks z k l H) as [->|[->| ->]]; injection H as <-; vm_compute; discriminate.
    + intros k l H.
      assert (V4 : forall h ks, map (h : list N -> triple) ks = [(0, 0, 0); (1, 0, 0); (0, 1, 0); (0, 0, 1)] -> valid_order 2 h ks [(0, 2, 4); (1, 2, 4); (3, 0, 4); (5, 0, 2)]).
      { intros h ks Em. destruct ks as [|a [|b [|c [|d [|? ?]]]]]; try discriminate Em. cbn [map] in Em. injection Em as E1 E2 E3 E4. split.
        - exists [a; b; c; d]. split; [apply Permutation_refl|]. constructor; [|constructor; [|constructor; [|constructor; [|constructor]]]]; unfold edge_of; rewrite ?E1, ?E2, ?E3, ?E4; cbn.
          + apply Permutation_refl.
          + apply Permutation_refl.
          + apply perm_swap.
          + apply (Permutation_cons_append [0; 2] 5).
        - repeat constructor; cbn; intros I; repeat (destruct I as [I|I]; [discriminate|]); destruct I. }
      assert (V3 : forall h ks, map (h : list N -> triple) ks = [(0, 0, 0); (1, 0, 0); (0, 1, 0)] -> valid_order 2 h ks [(0, 2, 4); (1, 2, 4); (3, 0, 4)]).
      { intros h ks Em. destruct ks as [|a [|b [|c [|? ?]]]]; try discriminate Em. cbn [map] in Em. injection Em as E1 E2 E3. split.
        - exists [a; b; c]. split; [apply Permutation_refl|]. constructor; [|constructor; [|constructor; [|constructor]]]; unfold edge_of; rewrite ?E1, ?E2, ?E3; cbn.
          + apply Permutation_refl.
          + apply Permutation_refl.
          + apply perm_swap.
        - repeat constructor; cbn; intros I; repeat (destruct I as [I|I]; [discriminate|]); destruct I. }
      destruct (exks z k l H) as [->|[->| ->]]; injection H as <-; [apply V3|apply V4|apply V4]; vm_compute; reflexivity.
    + intro l. apply Permutation_refl.
    + intros k l H. destruct (exks z k l H) as [->|[->| ->]]; injection H as <-; vm_compute; discriminate.
    + split; [lia|]. intros k l Hk H. destruct (exks z k l H) as [->|[->| ->]]; [lia| |]; injection H as <-; vm_compute; discriminate.
    + split; [lia|]. intros k l Hk Hk2 H. destruct (exks z k l H) as [->|[->| ->]]; [lia| |]; injection H as <-; [right; vm_compute; discriminate|exfalso; vm_compute in Hk2; discriminate].
Qed.
(** the remaining hypotheses, and the scores of "a b c a a b d" *)
Definition exws : list (list N) := [[97]; [98]; [99]; [97]; [97]; [98]; [100]].
Definition exm (z hb : N) : mpl := match mp_build (exenv hb) (exsecs z) 3 default_unk 2 2 with Ok m => m | _ => mkmpl 0 fzero qsc_empty qsc_empty [] end.
Example C25_example_nonzero : extended_nonzero (quantized (exD 3) (qfun (mp_probs (exm 3 64)) 0) (qfun (mp_backoffs (exm 3 64)) 1)).
Proof. apply nonzerob_ok. vm_compute. reflexivity. Qed.
Example C25_example_scores :
  (s0 <- mp_state (exm 3 64) ;; outcome (mp_sentence (exenv 64) (exm 3 64) (join exws) s0 (word_ranges 0 exws)))
  = Ok (combine (katz_scores (quantized (exD 3) (qfun (mp_probs (exm 3 64)) 0) (qfun (mp_backoffs (exm 3 64)) 1)) default_unk 3 exws)
                [false; false; false; false; false; false; true]).
Proof. vm_compute. reflexivity. Qed.

(** the same where "b" has back-off 0: the kept contexts *)
Example C25_example_kept :
  (s0 <- mp_state (exm 0 64) ;; outcome (mp_sentence (exenv 64) (exm 0 64) (join exws) s0 (word_ranges 0 exws)))
  = Ok (combine (kept_scores (quantized (exD 0) (qfun (mp_probs (exm 0 64)) 0) (qfun (mp_backoffs (exm 0 64)) 1)) default_unk 3 exws)
                [false; false; false; false; false; false; true]).
Proof. vm_compute. reflexivity. Qed.

(** Without that hypothesis on back-offs the claim is false: a word whose back-off weight is 0 is not kept as a context,
    so that the bigrams it begins are not looked up.  Here "b" has back-off 0 and "b c" is listed; all the n-grams of the sentence are listed. *)
Theorem C25_zero_backoff_refuted : exists D secs env pq bq unk m s0 buf p ws out s2, arpa_file D /\ prob_inputs_ok D secs env pq bq /\
  closed (entry D) /\ mp_build env secs (lenN D) unk pq bq = Ok m /\ mp_state m = Ok s0 /\
  (forall a g c, ws = a ++ g ++ c -> 1 <= lenN g -> entry D g <> None) /\ holds_text buf (p, p + lenN (join ws)) (join ws) /\
  mp_sentence env m buf s0 (word_ranges p ws) = Ok (out, s2) /\
  ~ Forall2 feq (map fst out) (katz_scores (quantized D (qfun (mp_probs m) 0) (qfun (mp_backoffs m) 1)) (unk_prob D unk) (N.to_nat (lenN D)) ws).
Proof.
  destruct (mp_state (exm 0 64)) as [s0| |] eqn:E0; [|vm_compute in E0; discriminate|vm_compute in E0; discriminate].
  destruct (mp_sentence (exenv 64) (exm 0 64) (join [[98]; [99]]) s0 (word_ranges 0 [[98]; [99]])) as [[out s2]| |] eqn:ES;
    [|vm_compute in E0; injection E0 as <-; vm_compute in ES; discriminate|vm_compute in E0; injection E0 as <-; vm_compute in ES; discriminate].
  destruct (C25_example_hyps 0 64 (or_introl eq_refl) (or_intror eq_refl)) as (H1 & H2 & H3).
  exists (exD 0), (exsecs 0), (exenv 64), 2, 2, default_unk, (exm 0 64), s0, (join [[98]; [99]]), 0, [[98]; [99]], out, s2.
  split; [exact H1|]. split; [exact H2|]. split; [exact H3|]. split; [vm_compute; reflexivity|]. split; [exact E0|]. split.
  { intros a g c E L. assert (G : g = [[98]; [99]] \/ g = [[98]] \/ g = [[99]]).
    { destruct g as [|x [|y [|z g]]].
      - change (lenN (@nil (list N))) with 0 in L. lia.
      - destruct a as [|a1 [|a2 [|a3 a]]]; cbn [app] in E; [injection E as E1 E2|injection E as E1 E2 E3|discriminate E|discriminate E]; subst; auto.
      - destruct a as [|a1 [|a2 [|a3 a]]]; cbn [app] in E; [injection E as E1 E2 E3|discriminate E|discriminate E|discriminate E]; subst; auto.
      - apply (f_equal (@length _)) in E. rewrite !app_length in E. cbn in E. lia. }
    destruct G as [->|[->| ->]]; vm_compute; discriminate. }
  split; [split; vm_compute; [split; discriminate|reflexivity]|]. split; [exact ES|].
  vm_compute in E0. injection E0 as <-. vm_compute in ES. injection ES as <- <-. vm_compute. intro F.
  inversion F as [|? ? ? ? _ F2 Q1 Q2]; subst. inversion F2 as [|? ? ? ? [Q|[Q _]] _ Q1 Q2]; discriminate.
Qed.

Print Assumptions C26_reinit_independent.
Print Assumptions C26_window.
Print Assumptions C25_supported_all.
Print Assumptions C25_mph_kept_partial.
Print Assumptions C25_mph_katz_partial.
Print Assumptions C25_zero_backoff_refuted.
