(** * Property C47: probability tries over uniform_pef *)
From Coq Require Import Floats.SpecFloat.
From Verif Require Import Prelude BitFacts M_Word Spec P_Bits M_Text P_Text M_Pef M_Trie Spec_Trie M_Score Spec_Katz Props_Score M_Quant M_MphProb Spec_Arpa Props_MphProb
  M_TrieProb P_TrieProb1 P_TrieProb2 P_TrieProb3 P_TrieProb4 Props_TrieProb M_ArpaFile Spec_ArpaFile Props_ArpaFile
  M_ScoreCorpus Spec_Corpus Props_ScoreCorpus M_TrieProbPef P_TrieProbBridge
  BitFacts P_Quant P_MphProb P_Values Spec_Pef Spec_TriePef Props_TriePef P_ScoreCorpus Spec_TrieProbPef P_TrieProbPef1 P_TrieProbPef2 P_TrieProbPef3 P_TrieProbPef4 Spec_Supported P_Supported.

(** With Elias-Fano gram sequences the generic trie_prob_lm scores as C25 and C41 say: from the bytes of the ARPA file to the
    totals of a text.  Partial: the restrictions of C25 and C41. *)
Theorem C47_ef_partial : forall data D secs env remap pq bq unk, qe_pef env = false ->
  arpa_text data secs -> arpa_file D -> collection (reversed D) remap -> trie_inputs_ok D secs (qe_t env) remap pq bq ->
  exists m qp qb, qp_build_file env data (lenN D) remap unk pq bq = Ok m /\
    (forall ord x, 2 <= ord <= lenN D -> exists r, q_rank (qp_probs m) (ord - 2) x 0 = Ok r /\ r < 2 ^ pq /\ q_access (qp_probs m) (ord - 2) r = Ok (qp ord x)) /\
    (forall ord x, 2 <= ord < lenN D -> exists r, q_rank (qp_backoffs m) (ord - 2) x 1 = Ok r /\ r < 2 ^ bq /\ q_access (qp_backoffs m) (ord - 2) r = Ok (qb ord x)) /\
    (closed (entry D) -> extended_nonzero (quantized D qp qb) ->
     forall lines, corpus_ok lines -> lenN (corpus_bytes lines) < 2 ^ 62 ->
     (forall m0 w, tp_build_file (qe_t env) data (lenN D) remap unk pq bq = Ok m0 -> In w (concat lines) -> entry D [w] = None -> word_distinguished D (qe_t env) m0 w) ->
     reports (qp_corpus env m (corpus_bytes lines)) (quantized D qp qb) (unk_prob D unk) (N.to_nat (lenN D)) lines).
Proof.
  intros data D secs env remap pq bq unk E1 AT AF CO TI. destruct (C41_trie_partial data D secs (qe_t env) remap pq bq unk AT AF CO TI) as (m & qp & qb & EB & Q1 & Q2 & K).
  exists (embq m), qp, qb. split; [rewrite (qp_build_emb env E1), EB; reflexivity|]. split; [exact Q1|]. split; [exact Q2|].
  intros HC HX lines HL HB HD. rewrite (qp_corpus_emb env). apply K; auto.
Qed.
Print Assumptions C47_ef_partial.

(** ** uniform_pef gram sequences, texts that stay clear of the wrong answers

    What the build gets from outside the code, as [trie_inputs_ok] without the peeling orders that only fast_ef needs,
    and the restrictions of [pef_inputs_ok] (C42) on the levels. *)
Record trie_pef_inputs_ok (D : entries) (secs : list (list (list N))) (env : qenv) (remap pq bq : N) : Prop := {
  qi_base : trie_base_ok D secs (qe_t env) remap pq bq;
  qi_levels : forall k, 0 < k < lenN D ->
    lenN (grams (reversed D) k) * lenN (grams (reversed D) 0) < 2 ^ 56 /\ one_word_after (qe_gpad env k) /\
    (lenN (grams (reversed D) k) <= piece (k + 1) -> lenN (grams (reversed D) k) * lenN (grams (reversed D) 0) < 2 ^ 31) /\
    level_searchable (reversed D) remap k }.

Lemma qp_scores_ok : forall D secs env remap pq bq, arpa_file D -> collection (reversed D) remap -> trie_base_ok D secs (qe_t env) remap pq bq ->
  forall unk m, qp_rep D env remap pq bq unk m ->
  let qp := qfun (qp_probs m) 0 in let qb := qfun (qp_backoffs m) 1 in
    (forall ord x, 2 <= ord <= lenN D -> exists r, q_rank (qp_probs m) (ord - 2) x 0 = Ok r /\ r < 2 ^ pq /\ q_access (qp_probs m) (ord - 2) r = Ok (qp ord x)) /\
    (forall ord x, 2 <= ord < lenN D -> exists r, q_rank (qp_backoffs m) (ord - 2) x 1 = Ok r /\ r < 2 ^ bq /\ q_access (qp_backoffs m) (ord - 2) r = Ok (qb ord x)) /\
    (forall lines, corpus_ok lines -> lenN (corpus_bytes lines) < 2 ^ 62 -> Forall (pef_safe D remap) lines ->
     (forall w, In w (concat lines) -> entry D [w] = None -> qword_distinguished D (qe_t env) (qp_vocab m) w) ->
     kept_reports (qp_corpus env m (corpus_bytes lines)) (supported (quantized D qp qb)) (unk_prob D unk) (N.to_nat (lenN D)) lines).
Proof.
  intros D secs env remap pq bq AF CO TI unk m QR qp qb. subst qp qb.
  pose proof (af_order _ AF) as HO. pose proof (tab_width D secs (tp_penv (qe_t env)) pq bq (VIN D secs (qe_t env) remap pq bq TI)) as [TP TB].
  pose proof (qr_vinv _ _ _ _ _ _ _ QR) as (V1 & V2 & V3 & V4 & V5). cbn [fst snd] in V1, V2, V3, V4, V5.
  assert (P4 : 4 <= 2 ^ pq) by (change 4 with (2 ^ 2); apply N.pow_le_mono_r; lia).
  assert (B4 : 4 <= 2 ^ bq) by (change 4 with (2 ^ 2); apply N.pow_le_mono_r; lia).
  split; [|split].
  - intros ord x Ho. destruct (nthN_Some (q_seqs (qp_probs m)) (ord - 2) ltac:(lia)) as (d & Hd).
    assert (LD : lenN d = 2 ^ pq) by (rewrite Forall_forall in V3; apply V3; eapply nthN_In; exact Hd).
    destruct (q_rank_ok (qp_probs m) (ord - 2) x 0 d Hd ltac:(lia) ltac:(lia)) as (r & E & L & _). exists r. split; [exact E|]. split; [lia|].
    destruct (nthN_Some d r L) as (y & Hy). pose proof (q_access_ok _ _ _ _ _ Hd Hy) as A. unfold qfun. rewrite E, A. reflexivity.
  - intros ord x Ho. destruct (nthN_Some (q_seqs (qp_backoffs m)) (ord - 2) ltac:(lia)) as (d & Hd).
    assert (LD : lenN d = 2 ^ bq) by (rewrite Forall_forall in V5; apply V5; eapply nthN_In; exact Hd).
    destruct (q_rank_ok (qp_backoffs m) (ord - 2) x 1 d Hd ltac:(lia) ltac:(lia)) as (r & E & L & _). exists r. split; [exact E|]. split; [lia|].
    destruct (nthN_Some d r L) as (y & Hy). pose proof (q_access_ok _ _ _ _ _ Hd Hy) as A. unfold qfun. rewrite E, A. reflexivity.
  - intros lines HL HB HS HD. destruct (qp_text D secs env remap pq bq AF CO TI unk m QR lines HL HB HS HD) as (tot & E & O1 & O2 & P1 & P2).
    assert (OQ : forall w, oov (supported (quantized D (qfun (qp_probs m) 0) (qfun (qp_backoffs m) 1))) w = oov_of D w) by (intro w; apply oov_supported).
    exists tot. split; [exact E|]. split; [exact O2|].
    assert (O1' : tt_oovs tot = corpus_oovs (supported (quantized D (qfun (qp_probs m) 0) (qfun (qp_backoffs m) 1))) lines).
    { rewrite O1. unfold corpus_oovs. f_equal. apply filter_ext. intro w. symmetry. apply OQ. }
    split; [exact O1'|]. split; [exact P1|]. split.
    { unfold kept_corpus_oov_prob. rewrite (map_ext _ (fun ws => select (kept_scores (supported (quantized D (qfun (qp_probs m) 0) (qfun (qp_backoffs m) 1))) (unk_prob D unk) (N.to_nat (lenN D)) ws) (map (oov_of D) ws))); [exact P2|].
      intro ws. f_equal. apply map_ext. exact OQ. }
    unfold known_tokens. rewrite O1'. unfold corpus_oovs. pose proof (filter_split (oov (supported (quantized D (qfun (qp_probs m) 0) (qfun (qp_backoffs m) 1)))) (concat lines)) as FS.
    destruct (corpus_len lines HL) as [_ B]. rewrite sub64_small; [lia|lia|]. apply N.le_lt_trans with (1 := B). apply N.lt_trans with (1 := HB). reflexivity.
Qed.
(** For every table the build succeeds and a text is scored as C41 says of the supported n-grams, provided that wherever the sentence goes
    from listed n-grams to one that is not listed, that one is told apart (Spec_TrieProbPef).  Partial: other texts can be
    scored wrongly ([C47_unlisted_refuted]); the levels must be searchable (C42); the restrictions of C25 and C41. *)
Theorem C47_pef_partial : forall data D secs env remap pq bq unk, qe_pef env = true ->
  arpa_text data secs -> arpa_file D -> collection (reversed D) remap -> trie_pef_inputs_ok D secs env remap pq bq ->
  exists m qp qb, qp_build_file env data (lenN D) remap unk pq bq = Ok m /\
    (forall ord x, 2 <= ord <= lenN D -> exists r, q_rank (qp_probs m) (ord - 2) x 0 = Ok r /\ r < 2 ^ pq /\ q_access (qp_probs m) (ord - 2) r = Ok (qp ord x)) /\
    (forall ord x, 2 <= ord < lenN D -> exists r, q_rank (qp_backoffs m) (ord - 2) x 1 = Ok r /\ r < 2 ^ bq /\ q_access (qp_backoffs m) (ord - 2) r = Ok (qb ord x)) /\
    (forall lines, corpus_ok lines -> lenN (corpus_bytes lines) < 2 ^ 62 -> Forall (pef_safe D remap) lines ->
     (forall w, In w (concat lines) -> entry D [w] = None -> qword_distinguished D (qe_t env) (qp_vocab m) w) ->
     kept_reports (qp_corpus env m (corpus_bytes lines)) (supported (quantized D qp qb)) (unk_prob D unk) (N.to_nat (lenN D)) lines).
Proof.
  intros data D secs env remap pq bq unk HP AT AF CO [TI LV].
  destruct (qp_build_ok D secs env remap pq bq AF CO TI) with (data := data) (unk := unk) as (m & EB & QR); [|exact AT|].
  { intros k Hk. change (M_TriePef.pe_pef (genv env)) with (qe_pef env). rewrite HP. destruct (LV k Hk) as (A1 & A2 & A3 & A4). apply level_ok; auto. }
  destruct (qp_scores_ok D secs env remap pq bq AF CO TI unk m QR) as (Q1 & Q2 & Q3).
  exists m, (qfun (qp_probs m) 0), (qfun (qp_backoffs m) 1). auto.
Qed.
Print Assumptions C47_pef_partial.

(** With uniform_pef gram sequences this is false, whatever the quantizer: an n-gram that is not listed can be taken for
    listed.  The table, the file and the inputs are those for which C25 holds with Elias-Fano sequences; the sentence is
    "b b", whose words are listed and whose bigram is not. *)
Definition qx (remap : N) : qenv := mkqenv (txenv remap [77]) true (fun _ => mkpads [0] [0]).
Theorem C47_unlisted_refuted : forall remap, remap = 0 \/ remap = 1 -> exists data D secs env pq bq unk m s0 ws out s1 m1,
  qe_pef env = true /\ arpa_text data secs /\ arpa_file D /\ collection (reversed D) remap /\ trie_inputs_ok D secs (qe_t env) remap pq bq /\
  closed (entry D) /\ (forall w, In w ws -> entry D [w] <> None) /\ entry D ws = None /\
  qp_build_file env data (lenN D) remap unk pq bq = Ok m /\ qp_state m = Ok s0 /\
  qp_sentence env m (join ws) s0 (word_ranges 0 ws) = Ok (out, s1, m1) /\
  forall qp qb, ~ Forall2 feq (map fst out) (katz_scores (quantized D qp qb) (unk_prob D unk) (N.to_nat (lenN D)) ws).
Proof.
  intros remap HR. assert (R1 : remap <= 1) by (destruct HR; lia). destruct (C25_trie_example_hyps remap R1) as (H1 & H2 & H3 & H4).
  assert (G : exists m s0 out s1 m1, qp_build_file (qx remap) txfile 3 remap default_unk 2 2 = Ok m /\ qp_state m = Ok s0 /\
    qp_sentence (qx remap) m (join [[98]; [98]]) s0 (word_ranges 0 [[98]; [98]]) = Ok (out, s1, m1) /\
    map fst out = [S754_finite true 10485760 (-23); S754_finite true 9437184 (-23)]).
  { destruct HR as [->| ->]; (eexists; eexists; eexists; eexists; eexists; split; [vm_compute; reflexivity|]; split; [vm_compute; reflexivity|]; split; [vm_compute; reflexivity|]; reflexivity). }
  destruct G as (m & s0 & out & s1 & m1 & G1 & G2 & G3 & G4).
  exists txfile, txD, txsecs, (qx remap), 2, 2, default_unk, m, s0, [[98]; [98]], out, s1, m1.
  split; [reflexivity|]. split; [exact C41_ex_text|]. split; [exact H1|]. split; [exact H2|]. split; [exact H3|]. split; [exact H4|].
  split; [intros w [<-|[<-|[]]]; vm_compute; discriminate|]. split; [reflexivity|]. split; [exact G1|]. split; [exact G2|]. split; [exact G3|].
  intros qp qb F. rewrite G4 in F.
  assert (KE : katz_scores (quantized txD qp qb) (unk_prob txD default_unk) (N.to_nat (lenN txD)) [[98]; [98]] = [S754_finite true 10485760 (-23); S754_finite true 11010048 (-22)]) by (vm_compute; reflexivity).
  rewrite KE in F. inversion F as [|? ? ? ? _ F2]; subst. inversion F2 as [|? ? ? ? F3 _]; subst. destruct F3 as [F3|[F3 _]]; discriminate F3.
Qed.
Print Assumptions C47_unlisted_refuted.

(** ** an instance of [C47_pef_partial]: the same table; the first line has the bigram "b a", which is not listed and is
    told apart, the second the unknown word "d" and listed n-grams of all orders *)
Definition qxlines : list (list (list N)) := [[[98]; [97]; [98]]; [[100]; [99]; [97]; [97]]].
Example C47_ex_inputs : forall remap, remap = 0 \/ remap = 1 -> trie_pef_inputs_ok txD txsecs (qx remap) remap 2 2.
Proof.
  intros remap HR. assert (R1 : remap <= 1) by (destruct HR; lia). destruct (C25_trie_example_hyps remap R1) as (H1 & H2 & H3 & H4).
  split; [apply base_of; exact H3|]. intros k Hk. change (lenN txD) with 3 in Hk.
  assert (K : k = 1 \/ k = 2) by lia. split; [destruct K as [->| ->]; reflexivity|].
  split; [exists 0, 0; split; [reflexivity|split; reflexivity]|]. split; [intros _; destruct K as [->| ->]; reflexivity|].
  intros _. right; right.
  destruct HR as [->| ->], K as [->| ->].
  - exists 1, [[97]; [99]]. split; [reflexivity|]. split; [reflexivity|]. vm_compute. discriminate.
  - exists 1, [[97]; [99]; [98]]. split; [reflexivity|]. split; [reflexivity|]. vm_compute. discriminate.
  - exists 1, [[97]; [99]]. split; [reflexivity|]. split; [reflexivity|]. vm_compute. discriminate.
  - exists 2, [[98]; [97]; [99]]. split; [reflexivity|]. split; [reflexivity|].
    unfold first_choice. change ((1 =? 0) || (2 <=? 1)) with false. cbv iota zeta. change (skipn (N.to_nat (2 - 1)) [[98]; [97]; [99]]) with [[97]; [99]].
    intro F. specialize (F 1 0 [[97]; [97]] eq_refl eq_refl eq_refl). lia.
Qed.
Example C47_ex_safe : forall remap, remap = 0 \/ remap = 1 -> Forall (pef_safe txD remap) qxlines /\ entry txD [[98]; [97]] = None.
Proof.
  intros remap HR. split; [|reflexivity].
  assert (TA : told_apart (reversed txD) remap 1 [[97]; [98]]).
  { split.
    - unfold first_choice. destruct HR as [->| ->]; vm_compute; discriminate.
    - exists [99]. split; [exists 1, 2; split; [reflexivity|split; reflexivity]|]. vm_compute. auto. }
  constructor; [|constructor; [|constructor]]; intros pre c h v post E L H1 H2 _.
  - destruct pre as [|x0 [|x1 pre]]; cbn [app] in E.
    + injection E as <- E. destruct h as [|y0 [|y1 h]]; cbn [app] in E.
      * injection E as <- <-. right. exact TA.
      * injection E as <- <- <-. exfalso. apply H1. reflexivity.
      * injection E as <- <- E. destruct h; discriminate E.
    + injection E as <- <- E. destruct h as [|y0 h]; cbn [app] in E; [|injection E as <- E; destruct h; discriminate E].
      injection E as <- <-. left. vm_compute. discriminate.
    + injection E as <- <- E. destruct pre as [|x2 pre]; cbn [app] in E; [injection E as <- E; destruct h; discriminate E|injection E as _ E; destruct pre; discriminate E].
  - destruct pre as [|x0 [|x1 [|x2 pre]]]; cbn [app] in E.
    + injection E as <- E. destruct h as [|y0 h]; exfalso; apply H1; [reflexivity|]. destruct h as [|y1 [|y2 h]]; cbn [app] in E.
      * injection E as <- _ _. reflexivity.
      * injection E as <- <- _ _. reflexivity.
      * injection E as <- <- <- E. destruct h; discriminate E.
    + injection E as <- <- E. destruct h as [|y0 [|y1 h]]; cbn [app] in E.
      * injection E as <- <-. left. vm_compute. discriminate.
      * injection E as <- <- <-. left. vm_compute. discriminate.
      * injection E as <- <- E. destruct h; discriminate E.
    + injection E as <- <- <- E. destruct h as [|y0 h]; cbn [app] in E; [|injection E as <- E; destruct h; discriminate E].
      injection E as <- <-. left. vm_compute. discriminate.
    + injection E as <- <- <- E. destruct pre as [|x3 pre]; cbn [app] in E; [injection E as <- E; destruct h; discriminate E|injection E as _ E; destruct pre; discriminate E].
Qed.
Example C47_ex_corpus : forall remap m w, remap = 0 \/ remap = 1 -> qp_build_file (qx remap) txfile 3 remap default_unk 2 2 = Ok m ->
  corpus_ok qxlines /\ lenN (corpus_bytes qxlines) < 2 ^ 62 /\ (In w (concat qxlines) -> entry txD [w] = None -> qword_distinguished txD (qe_t (qx remap)) (qp_vocab m) w).
Proof.
  intros remap m w HR E. split; [|split].
  - unfold corpus_ok, qxlines. repeat (constructor; [split; [discriminate|]; repeat (constructor; [split; cbn; intuition discriminate|]); constructor|]). constructor.
  - vm_compute. reflexivity.
  - intros HI HE. assert (w = [100]).
    { cbn in HI. repeat (destruct HI as [HI|HI]; [subst w; try reflexivity; vm_compute in HE; discriminate|]). destruct HI. }
    subst w. intros l Hl. injection Hl as <-. destruct HR as [->| ->]; vm_compute in E; injection E as <-;
      (split; [vm_compute; discriminate|intros e I; cbn [In map] in I; repeat (destruct I as [<-|I]; [vm_compute; discriminate|]); destruct I]).
Qed.
