(** * Property C56: indexes of different types over the same data give the same answers *)
From Coq Require Import Floats.SpecFloat.
From Verif Require Import Prelude BitFacts M_Word Spec P_Bits M_Text P_Text P_Text2 M_Pef M_Mph M_Trie Spec_Trie P_Trie3 P_Trie6 Props_Trie M_MphCount Props_MphCount
  M_Score Spec_Katz Props_Score M_Quant M_MphProb Spec_Arpa P_Values P_MphProb Props_MphProb
  M_TrieProb P_TrieProb1 P_TrieProb2 P_TrieProb3 P_TrieProb4 Props_TrieProb M_ArpaFile Spec_ArpaFile P_ArpaFile Props_ArpaFile
  M_ScoreCorpus Spec_Corpus Props_ScoreCorpus M_TrieProbPef Spec_Pef Spec_TriePef Spec_TrieProbPef
  P_TrieProbPef1 P_TrieProbPef2 P_TrieProbPef3 P_TrieProbPef4 Props_TrieProbPef Spec_Agree Spec_Supported P_Supported.
From Verif Require Import M_TriePef Props_TriePef.
From Coq Require Import Permutation.

(** ** Counts
    The answers to a history of queries (each the bytes of a range of a buffer) by an index of the counts [D]: a trie, of
    any remapping order, gram sequences (Elias-Fano or uniform_pef) and rank encoding (IC, PSEF, PSPEF); or a hash model,
    with keys of 32 or 64 bits. *)
Inductive count_answers (D : list (list (gram * N))) (queries : list (list N * byte_range)) : res (list N) -> Prop :=
| ans_trie : forall env remap t st, collection D remap -> pef_inputs_ok D remap env -> statics_ok st ->
    ptrie_build env (map (map line) D) (lenN D) remap = Ok t ->
    count_answers D queries (ask_all env t st queries)
| ans_hash : forall env m, gram_files D -> mph_inputs_ok D env ->
    mc_build env (map (map line) D) (lenN D) = Ok m ->
    count_answers D queries (mapM (fun q : list N * byte_range => mc_lookup env m (fst q) (snd q)) queries).

Lemma count_answers_are D queries counts r :
  Forall2 (fun (query : list N * byte_range) c => exists q, indexed D q c /\ holds_text (fst query) (snd query) (join q)) queries counts ->
  count_answers D queries r -> r = Ok counts.
Proof.
  intros F2 [env remap t st C PI SO EB|env m GF MI EB].
  - destruct (C42_pef_lookup_partial D remap env C PI) as (t' & EB' & K). rewrite EB in EB'. injection EB' as <-. apply K; assumption.
  - destruct (C24_lookup_indexed D env GF MI) as (m' & EB' & K). rewrite EB in EB'. injection EB' as <-.
    induction F2 as [|q c qs cs (g & (k & l & Hl & Hg) & HT) F2 IH]; [reflexivity|]. cbn [mapM].
    rewrite (K k l g c Hl Hg _ _ HT). cbn [bind]. rewrite IH. reflexivity.
Qed.
(** Two indexes of the same counts, whatever their types, answer every history of queries for indexed n-grams with the same
    counts. *)
Theorem C56_counts_partial : forall D queries counts r1 r2,
  Forall2 (fun (query : list N * byte_range) c => exists q, indexed D q c /\ holds_text (fst query) (snd query) (join q)) queries counts ->
  count_answers D queries r1 -> count_answers D queries r2 -> r1 = r2 /\ r1 = Ok counts.
Proof.
  intros D queries counts r1 r2 F2 H1 H2. rewrite (count_answers_are D queries counts r1 F2 H1), (count_answers_are D queries counts r2 F2 H2). auto.
Qed.
Print Assumptions C56_counts_partial.

(** ** Probabilities *)
Lemma oov_ext M M' w : (forall g, M g = M' g) -> oov M w = oov M' w.
Proof. intro E. unfold oov. rewrite E. reflexivity. Qed.
Lemma corpus_ext M M' u n lines : (forall g, M g = M' g) ->
  kept_corpus_prob M u n lines = kept_corpus_prob M' u n lines /\ kept_corpus_oov_prob M u n lines = kept_corpus_oov_prob M' u n lines /\ corpus_oovs M lines = corpus_oovs M' lines.
Proof.
  intro E. split; [|split].
  - unfold kept_corpus_prob. f_equal. apply map_ext. intro ws. rewrite (kept_scores_ext M M' E). reflexivity.
  - unfold kept_corpus_oov_prob. f_equal. f_equal. apply map_ext. intro ws. rewrite (kept_scores_ext M M' E). f_equal. apply map_ext. intro w. apply oov_ext. exact E.
  - unfold corpus_oovs. f_equal. apply filter_ext. intro w. apply oov_ext. exact E.
Qed.

(** the quantizers read off the same tables *)
Lemma quantized_same D (pb bb : qsc) pq bq qp qb qp' qb' : arpa_file D ->
  (forall ord x, 2 <= ord <= lenN D -> exists r, q_rank pb (ord - 2) x 0 = Ok r /\ r < 2 ^ pq /\ q_access pb (ord - 2) r = Ok (qp ord x)) ->
  (forall ord x, 2 <= ord < lenN D -> exists r, q_rank bb (ord - 2) x 1 = Ok r /\ r < 2 ^ bq /\ q_access bb (ord - 2) r = Ok (qb ord x)) ->
  (forall ord x, 2 <= ord <= lenN D -> exists r, q_rank pb (ord - 2) x 0 = Ok r /\ r < 2 ^ pq /\ q_access pb (ord - 2) r = Ok (qp' ord x)) ->
  (forall ord x, 2 <= ord < lenN D -> exists r, q_rank bb (ord - 2) x 1 = Ok r /\ r < 2 ^ bq /\ q_access bb (ord - 2) r = Ok (qb' ord x)) ->
  forall g, quantized D qp qb g = quantized D qp' qb' g.
Proof.
  intros AF P1 B1 P2 B2 g. unfold quantized. destruct (entry D g) as [[p b]|] eqn:EG; [|reflexivity].
  destruct (N.eqb_spec (lenN g) 1) as [|N1]; [reflexivity|]. pose proof (entry_len D AF g _ EG) as L1.
  destruct (entry_In D g _ EG) as (l & Hl & _). apply nthN_lt in Hl.
  assert (L2 : 2 <= lenN g <= lenN D) by lia. destruct (P1 (lenN g) p L2) as (r & R1 & _ & A1). destruct (P2 (lenN g) p L2) as (r' & R1' & _ & A1').
  rewrite R1 in R1'. injection R1' as <-. rewrite A1 in A1'. injection A1' as ->. f_equal. f_equal.
  destruct (N.eqb_spec (lenN g) (lenN D)) as [|N2]; [reflexivity|]. assert (L3 : 2 <= lenN g < lenN D) by lia.
  destruct (B1 (lenN g) b L3) as (s & S1 & _ & C1). destruct (B2 (lenN g) b L3) as (s' & S1' & _ & C1').
  rewrite S1 in S1'. injection S1' as <-. rewrite C1 in C1'. injection C1' as ->. reflexivity.
Qed.
(** the values read from the file depend on strtod and std::sort only *)
Lemma values_same env env' secs order pq bq : pe_sd env = pe_sd env' -> pe_sort env = pe_sort env' -> mp_values env secs order pq bq = mp_values env' secs order pq bq.
Proof. intros E1 E2. unfold mp_values. rewrite E1, E2. reflexivity. Qed.
Lemma tp_build_values env secs order remap unk pq bq m : tp_build env secs order remap unk pq bq = Ok m -> mp_values (tp_penv env) secs order pq bq = Ok (tp_probs m, tp_backoffs m).
Proof.
  intro EB. unfold tp_build in EB. do 2 (apply bind_ok in EB; destruct EB as (? & _ & EB)). destruct (lenN secs <? order); [discriminate|].
  apply bind_ok in EB; destruct EB as ([pb bb] & EV & EB). destruct (order <? lenN secs); [discriminate|].
  repeat (apply bind_ok in EB; destruct EB as (? & _ & EB)). injection EB as <-. exact EV.
Qed.
Lemma mp_build_values env secs order unk pq bq m : mp_build env secs order unk pq bq = Ok m -> mp_values env secs order pq bq = Ok (mp_probs m, mp_backoffs m).
Proof.
  intro EB. unfold mp_build in EB. do 1 (apply bind_ok in EB; destruct EB as (? & _ & EB)). destruct (lenN secs <? order); [discriminate|].
  apply bind_ok in EB; destruct EB as ([pb bb] & EV & EB). destruct (order <? lenN secs); [discriminate|].
  repeat (apply bind_ok in EB; destruct EB as (? & _ & EB)). injection EB as <-. exact EV.
Qed.
Lemma qp_build_values env data secs order remap unk pq bq m : arpa_text data secs -> 1 <= order ->
  qp_build_file env data order remap unk pq bq = Ok m -> mp_values (tp_penv (qe_t env)) secs order pq bq = Ok (qp_probs m, qp_backoffs m).
Proof.
  intros AT Ho EB. unfold qp_build_file in EB. do 2 (apply bind_ok in EB; destruct EB as (? & _ & EB)). rewrite (load_ok _ _ _ _ _ _ AT Ho) in EB.
  destruct (lenN secs <? order); [discriminate|]. destruct (mp_values (tp_penv (qe_t env)) secs order pq bq) as [[pb bb]| |]; cbn [bind] in EB; try discriminate.
  destruct (order <? lenN secs); [discriminate|]. cbn [bind] in EB. do 3 (apply bind_ok in EB; destruct EB as (? & _ & EB)).
  apply bind_ok in EB. destruct EB as ([arrays ranks] & _ & EB). injection EB as <-. reflexivity.
Qed.

(** *** Sentences: bit for bit
    The scores and the unknown word flags of the words [ws], written somewhere in a buffer, by a model of the table [D] built
    from the sections [secs] with given quantization bits and unknown probability, after any history of calls and init: a trie
    of any remapping order, or a hash model with keys of 32 or 64 bits.  All are built with the same strtod and std::sort.
    The words and n-grams of the sentence that are not listed have fingerprints different from those that are (C21, C25). *)
Inductive sentence_scores (D : entries) (secs : list (list (list N))) (pq bq : N) (unk : spec_float)
    (sd : list N -> N -> F * N) (sort : list F -> list F) (ws : gram) : res (list (F * bool)) -> Prop :=
| sco_trie : forall env remap m buf p s0 hist s s1,
    collection (reversed D) remap -> trie_inputs_ok D secs env remap pq bq -> tp_sd env = sd -> tp_sort env = sort ->
    tp_build env secs (lenN D) remap unk pq bq = Ok m ->
    (forall w, In w ws -> entry D [w] = None -> word_distinguished D env m w) ->
    holds_text buf (p, p + lenN (join ws)) (join ws) ->
    tp_state m = Ok s0 -> foldM (tp_op env m) hist s0 = Ok s -> ps_init s = Ok s1 ->
    sentence_scores D secs pq bq unk sd sort ws (' (out, _) <- tp_sentence env m buf s1 (word_ranges p ws) ;; Ok out)
| sco_hash : forall env m buf p s0 hist s s1,
    prob_inputs_ok D secs env pq bq -> pe_sd env = sd -> pe_sort env = sort ->
    mp_build env secs (lenN D) unk pq bq = Ok m ->
    (forall a g c, ws = a ++ g ++ c -> 1 <= lenN g <= lenN D -> entry D g = None -> distinguished D env m g) ->
    holds_text buf (p, p + lenN (join ws)) (join ws) ->
    mp_state m = Ok s0 -> foldM (mp_op env m) hist s0 = Ok s -> ps_init s = Ok s1 ->
    sentence_scores D secs pq bq unk sd sort ws (' (out, _) <- mp_sentence env m buf s1 (word_ranges p ws) ;; Ok out).

Lemma split_combine_eq {A B} (l l' : list (A * B)) : map fst l = map fst l' -> map snd l = map snd l' -> l = l'.
Proof.
  revert l'. induction l as [|[a b] l IH]; intros [|[a' b'] l'] H1 H2; try discriminate; [reflexivity|]. injection H1 as -> H1. injection H2 as -> H2. f_equal. auto.
Qed.
(** the scores, in terms of the values stored by the model *)
Lemma scores_are D secs pq bq unk sd sort ws r : arpa_file D -> lenN ws < 2 ^ 62 ->
  sentence_scores D secs pq bq unk sd sort ws r ->
  exists out pb bb qp qb, r = Ok out /\ mp_values (M_MphProb.mkpenv 64 (fun _ _ => (0, 0, 0)) (fun _ => []) sort sd 0) secs (lenN D) pq bq = Ok (pb, bb) /\
    (forall ord x, 2 <= ord <= lenN D -> exists r, q_rank pb (ord - 2) x 0 = Ok r /\ r < 2 ^ pq /\ q_access pb (ord - 2) r = Ok (qp ord x)) /\
    (forall ord x, 2 <= ord < lenN D -> exists r, q_rank bb (ord - 2) x 1 = Ok r /\ r < 2 ^ bq /\ q_access bb (ord - 2) r = Ok (qb ord x)) /\
    map fst out = kept_scores (supported (quantized D qp qb)) (unk_prob D unk) (N.to_nat (lenN D)) ws /\
    map snd out = map (fun w => match entry D [w] with Some _ => false | None => true end) ws.
Proof.
  intros AF HL [env remap m buf p s0 hist s s1 CO TI ES EO EB HD HT H0 HH HI|env m buf p s0 hist s s1 PI ES EO EB HD HT H0 HH HI].
  - destruct (C25_trie_kept_partial D secs env remap pq bq unk AF CO TI) as (m' & qp & qb & EB' & Q1 & Q2 & K). rewrite EB in EB'. injection EB' as <-.
    destruct (K buf p ws s0 hist s s1 HT HL HD H0 HH HI) as (out & s2 & E & E1 & E2 & _). rewrite E. cbn [bind]. cbv beta iota.
    exists out, (tp_probs m), (tp_backoffs m), qp, qb. split; [reflexivity|]. split; [|auto].
    rewrite <- (tp_build_values _ _ _ _ _ _ _ _ EB). apply values_same; cbn; congruence.
  - destruct (C25_mph_kept_partial D secs env pq bq unk AF PI) as (m' & qp & qb & EB' & Q1 & Q2 & K). rewrite EB in EB'. injection EB' as <-.
    destruct (K buf p ws s0 hist s s1 HT HL HD H0 HH HI) as (out & s2 & E & E1 & E2 & _). rewrite E. cbn [bind]. cbv beta iota.
    exists out, (mp_probs m), (mp_backoffs m), qp, qb. split; [reflexivity|]. split; [|auto].
    rewrite <- (mp_build_values _ _ _ _ _ _ _ EB). apply values_same; cbn; congruence.
Qed.
(** Two models of the same ARPA file give every word of a sentence the same score, bit for bit. *)
Theorem C56_scores_partial : forall D secs pq bq unk sd sort ws r1 r2, arpa_file D -> lenN ws < 2 ^ 62 ->
  sentence_scores D secs pq bq unk sd sort ws r1 -> sentence_scores D secs pq bq unk sd sort ws r2 ->
  r1 = r2 /\ exists out, r1 = Ok out /\ lenN out = lenN ws.
Proof.
  intros D secs pq bq unk sd sort ws r1 r2 AF HL H1 H2.
  destruct (scores_are _ _ _ _ _ _ _ _ _ AF HL H1) as (o1 & pb & bb & qp & qb & -> & V1 & P1 & B1 & F1 & S1).
  destruct (scores_are _ _ _ _ _ _ _ _ _ AF HL H2) as (o2 & pb' & bb' & qp' & qb' & -> & V2 & P2 & B2 & F2 & S2).
  rewrite V1 in V2. injection V2 as <- <-. pose proof (quantized_same D pb bb pq bq qp qb qp' qb' AF P1 B1 P2 B2) as Q0. pose proof (supported_cong _ _ Q0) as Q.
  split.
  - f_equal. apply split_combine_eq; [|congruence]. rewrite F1, F2. apply kept_scores_ext. exact Q.
  - exists o1. split; [reflexivity|]. rewrite <- (lenN_map snd o1), S1, lenN_map. reflexivity.
Qed.
Print Assumptions C56_scores_partial.

(** *** Texts
    The report of the score program on a text, by a model of the table [D] built from the bytes [data] of its ARPA file: a trie
    over Elias-Fano, a trie over uniform_pef (for texts that stay clear of its wrong answers, C47), or a hash model. *)
Inductive text_report (data : list N) (D : entries) (secs : list (list (list N))) (pq bq : N) (unk : spec_float)
    (sd : list N -> N -> F * N) (sort : list F -> list F) (lines : list gram) : res (totals * N) -> Prop :=
| rep_trie : forall env remap m,
    collection (reversed D) remap -> trie_inputs_ok D secs env remap pq bq -> tp_sd env = sd -> tp_sort env = sort ->
    tp_build_file env data (lenN D) remap unk pq bq = Ok m ->
    (forall w, In w (concat lines) -> entry D [w] = None -> word_distinguished D env m w) ->
    text_report data D secs pq bq unk sd sort lines (tp_corpus env m (corpus_bytes lines))
| rep_pef : forall env remap m, qe_pef env = true ->
    collection (reversed D) remap -> trie_pef_inputs_ok D secs env remap pq bq -> tp_sd (qe_t env) = sd -> tp_sort (qe_t env) = sort ->
    qp_build_file env data (lenN D) remap unk pq bq = Ok m ->
    Forall (pef_safe D remap) lines ->
    (forall w, In w (concat lines) -> entry D [w] = None -> qword_distinguished D (qe_t env) (qp_vocab m) w) ->
    text_report data D secs pq bq unk sd sort lines (qp_corpus env m (corpus_bytes lines))
| rep_hash : forall env m,
    prob_inputs_ok D secs env pq bq -> pe_sd env = sd -> pe_sort env = sort ->
    mp_build_file env data (lenN D) unk pq bq = Ok m ->
    (forall ws a g c, In ws lines -> ws = a ++ g ++ c -> 1 <= lenN g <= lenN D -> entry D g = None -> distinguished D env m g) ->
    text_report data D secs pq bq unk sd sort lines (mp_corpus env m (corpus_bytes lines)).
Lemma report_is data D secs pq bq unk sd sort lines r : arpa_text data secs -> arpa_file D ->
  corpus_ok lines -> lenN (corpus_bytes lines) < 2 ^ 62 -> text_report data D secs pq bq unk sd sort lines r ->
  exists pb bb qp qb, mp_values (M_MphProb.mkpenv 64 (fun _ _ => (0, 0, 0)) (fun _ => []) sort sd 0) secs (lenN D) pq bq = Ok (pb, bb) /\
    (forall ord x, 2 <= ord <= lenN D -> exists r, q_rank pb (ord - 2) x 0 = Ok r /\ r < 2 ^ pq /\ q_access pb (ord - 2) r = Ok (qp ord x)) /\
    (forall ord x, 2 <= ord < lenN D -> exists r, q_rank bb (ord - 2) x 1 = Ok r /\ r < 2 ^ bq /\ q_access bb (ord - 2) r = Ok (qb ord x)) /\
    kept_reports r (supported (quantized D qp qb)) (unk_prob D unk) (N.to_nat (lenN D)) lines.
Proof.
  intros AT AF HL HB [env remap m CO TI ES EO EB HD|env remap m HP CO TI ES EO EB HS HD|env m PI ES EO EB HD].
  - destruct (C41_trie_kept_partial data D secs env remap pq bq unk AT AF CO TI) as (m' & qp & qb & EB' & Q1 & Q2 & K). rewrite EB in EB'. injection EB' as <-.
    exists (tp_probs m), (tp_backoffs m), qp, qb. split; [|auto]. rewrite (C40_trie_from_file data secs env (lenN D) remap unk pq bq AT) in EB.
    rewrite <- (tp_build_values _ _ _ _ _ _ _ _ EB). apply values_same; cbn; congruence.
  - destruct (C47_pef_partial data D secs env remap pq bq unk HP AT AF CO TI) as (m' & qp & qb & EB' & Q1 & Q2 & K). rewrite EB in EB'. injection EB' as <-.
    exists (qp_probs m), (qp_backoffs m), qp, qb. split; [|auto]. pose proof (af_order _ AF) as HO.
    assert (H1 : 1 <= lenN D) by lia. rewrite <- (qp_build_values _ _ _ _ _ _ _ _ _ AT H1 EB). apply values_same; cbn; congruence.
  - destruct (C41_mph_kept_partial data D secs env pq bq unk AT AF PI) as (m' & qp & qb & EB' & Q1 & Q2 & K). rewrite EB in EB'. injection EB' as <-.
    exists (mp_probs m), (mp_backoffs m), qp, qb. split; [|auto]. rewrite (C40_mph_from_file data secs env (lenN D) unk pq bq AT) in EB.
    rewrite <- (mp_build_values _ _ _ _ _ _ _ EB). apply values_same; cbn; congruence.
Qed.
Lemma feq_sym x y : feq x y -> feq y x.
Proof. intros [->|[A B]]; [left; reflexivity|right; auto]. Qed.
Lemma feq_trans x y z : feq x y -> feq y z -> feq x z.
Proof. intros [->|[A B]] [->|[C D]]; unfold feq; auto. Qed.
(** Two models of the same ARPA file report the same of every text. *)
Theorem C56_texts_partial : forall data D secs pq bq unk sd sort lines r1 r2, arpa_text data secs -> arpa_file D ->
  corpus_ok lines -> lenN (corpus_bytes lines) < 2 ^ 62 ->
  text_report data D secs pq bq unk sd sort lines r1 -> text_report data D secs pq bq unk sd sort lines r2 -> same_report r1 r2.
Proof.
  intros data D secs pq bq unk sd sort lines r1 r2 AT AF HL HB H1 H2.
  destruct (report_is _ _ _ _ _ _ _ _ _ _ AT AF HL HB H1) as (pb & bb & qp & qb & V1 & P1 & B1 & t1 & E1 & A1 & A2 & A3 & A4 & _).
  destruct (report_is _ _ _ _ _ _ _ _ _ _ AT AF HL HB H2) as (pb' & bb' & qp' & qb' & V2 & P2 & B2 & t2 & E2 & C1 & C2 & C3 & C4 & _).
  rewrite V1 in V2. injection V2 as <- <-. pose proof (quantized_same D pb bb pq bq qp qb qp' qb' AF P1 B1 P2 B2) as Q0. pose proof (supported_cong _ _ Q0) as Q.
  destruct (corpus_ext _ _ (unk_prob D unk) (N.to_nat (lenN D)) lines Q) as (X1 & X2 & X3).
  exists t1, t2, (lenN (concat lines)). split; [exact E1|]. split; [exact E2|]. split; [congruence|]. split; [congruence|].
  rewrite X1 in A3. rewrite X2 in A4. split; eapply feq_trans; eauto using feq_sym.
Qed.
Print Assumptions C56_texts_partial.

(** ** instances *)
Lemma valid_order_perm {K} dom (h : K -> triple) ks ks' order : Permutation ks ks' -> valid_order dom h ks order -> valid_order dom h ks' order.
Proof. intros P [(k0 & P0 & F2) HP]. split; [|exact HP]. exists k0. split; [|exact F2]. eauto using Permutation_trans, Permutation_sym. Qed.

(** counts: the three words and bigrams of the example of C24; an Elias-Fano trie, a uniform_pef trie with PSPEF ranks and two hash models *)
Definition agx_env (pef psp : bool) : M_TriePef.penv :=
  mkpenv (mktenv (exm_h 0) [(3, 0, 4); (1, 3, 4); (2, 1, 4)] (fun _ _ => (0, 0, 0)) (fun _ => []) (map (fun l => P_SeqColl.with_freq (map snd l)) exm_D) IC false 10)
    pef psp (fun _ => mkpads [0] [0]) (fun _ => mkpads [7] [3]) false.
Example C56_counts_collection : collection exm_D 0.
Proof.
  assert (KS : forall k l, nthN exm_D k = Some l -> k = 0 \/ k = 1). { intros k l H. apply nthN_lt in H. change (lenN exm_D) with 2 in H. lia. }
  assert (KG : forall k g, In g (grams exm_D k) -> k = 0 \/ k = 1).
  { intros k g H. unfold grams in H. destruct (nthN exm_D k) eqn:E; [eapply KS; eauto|destruct H]. }
  assert (WL : forall i j x y, nthN (grams exm_D 0) i = Some [x] -> nthN (grams exm_D 0) j = Some [y] -> i < j -> word_lt (grams exm_D 0) x y) by (intros; eexists _, _; eauto).
  assert (W01 : word_lt (grams exm_D 0) [97] [98]) by (apply (WL 0 1); reflexivity).
  assert (W12 : word_lt (grams exm_D 0) [98] [99]) by (apply (WL 1 2); reflexivity).
  assert (W02 : word_lt (grams exm_D 0) [97] [99]) by (apply (WL 0 2); reflexivity).
  split.
  - change (lenN exm_D) with 2. lia.
  - intros k l H. destruct (KS k l H) as [->| ->]; injection H as <-; (split; [discriminate|reflexivity]).
  - assert (WW : forall w, In w [[97]; [98]; [99]] -> word w /\ ~ In 9 w /\ In [w] (grams exm_D 0)).
    { intros w H. cbn [In] in H. destruct H as [<-|[<-|[<-|[]]]]; (split; [split; [discriminate|cbn; intuition discriminate]|split; [cbn; intuition discriminate|inl]]). }
    intros k g H. destruct (KG k g H) as [->| ->]; cbn in H; repeat (destruct H as [H|H]; [subst g; split; [reflexivity|repeat constructor; apply WW; inl]|]); destruct H.
  - intros k g H. destruct (KG k g H) as [->| ->]; cbn in H; repeat (destruct H as [H|H]; [subst g; reflexivity|]); destruct H.
  - cbn. repeat constructor; cbn; intuition discriminate.
  - intros k Hk. destruct (N.lt_ge_cases k 2) as [L|L].
    + assert (k = 1) as -> by lia; cbn [grams]; repeat (constructor; try (apply gram_lt_here; [reflexivity|assumption])).
    + unfold grams. destruct (nthN exm_D k) eqn:E; [apply nthN_lt in E; change (lenN exm_D) with 2 in E; lia|constructor].
  - intros k g Hk H. destruct (KG k g H) as [->| ->]; [lia|]; cbn in H; repeat (destruct H as [H|H]; [subst g; inl|]); destruct H.
  - lia.
  - intros k g R0. lia.
Qed.
Example C56_counts_inputs : forall pef psp, pef_inputs_ok exm_D 0 (agx_env pef psp).
Proof.
  intros pef psp. split.
  - reflexivity.
  - destruct (C24_example_hyps 64 (or_intror eq_refl)) as [_ MI]. exact (mi_orders _ _ MI 0 _ eq_refl).
  - intros _ k Hk. left. change (lenN exm_D) with 2 in Hk. assert (k = 1) as -> by lia. reflexivity.
  - intros _ k Hk. change (lenN exm_D) with 2 in Hk. assert (k = 1) as -> by lia. split; [reflexivity|]. split; [exists 0, 0; split; [reflexivity|split; reflexivity]|]. split; [intros _; reflexivity|].
    intros _. right. right. exists 1, [[98]; [99]]. split; [lia|]. split; [reflexivity|]. cbn. discriminate.
  - intros _ k l Hl. split; [|exists 7, 3; split; [reflexivity|split; reflexivity]].
    pose proof (nthN_lt _ _ _ Hl) as L. change (lenN exm_D) with 2 in L. assert (k = 0 \/ k = 1) as [->| ->] by lia; injection Hl as <-; reflexivity.
  - cbn [te_sorts pe_t agx_env]. generalize exm_D. intro E. induction E as [|l D IH]; constructor; [apply Permutation_refl|exact IH].
  - vm_compute. discriminate.
  - repeat constructor.
Qed.
Definition agx_queries : list (list N * byte_range) := map (fun q => (join q, (0, lenN (join q)))) (map fst (concat exm_D)).
Example C56_counts_example : forall pef psp hb, hb = 32 \/ hb = 64 ->
  count_answers exm_D agx_queries (t <- ptrie_build (agx_env pef psp) (map (map line) exm_D) 2 0 ;; ask_all (agx_env pef psp) t ex_statics agx_queries) /\
  count_answers exm_D agx_queries (m <- mc_build (exm_env hb) (map (map line) exm_D) 2 ;; mapM (fun q : list N * byte_range => mc_lookup (exm_env hb) m (fst q) (snd q)) agx_queries) /\
  Forall2 (fun (query : list N * byte_range) c => exists q, indexed exm_D q c /\ holds_text (fst query) (snd query) (join q)) agx_queries (map snd (concat exm_D)) /\
  (t <- ptrie_build (agx_env pef psp) (map (map line) exm_D) 2 0 ;; ask_all (agx_env pef psp) t ex_statics agx_queries) = Ok [5; 3; 2; 3; 2; 3].
Proof.
  intros pef psp hb HB. destruct (C24_example_hyps hb HB) as [GF MI].
  assert (F2 : Forall2 (fun (query : list N * byte_range) c => exists q, indexed exm_D q c /\ holds_text (fst query) (snd query) (join q)) agx_queries (map snd (concat exm_D))).
  { unfold agx_queries. rewrite map_map. assert (A : forall e, In e (concat exm_D) -> indexed exm_D (fst e) (snd e)).
    { intros [g c] I. apply in_concat in I. destruct I as (l & Hl & I). destruct (P_Trie1.In_nthN _ _ Hl) as (k & Hk). exists k, l. split; [exact Hk|exact I]. }
    clear - A. induction (concat exm_D) as [|e l IH]; [constructor|]. cbn [map]. constructor; [|apply IH; intros; apply A; right; assumption].
    exists (fst e). split; [apply A; left; reflexivity|]. cbn [fst snd]. split; cbn [fst snd]; [lia|]. unfold text, slice. cbn [fst snd]. rewrite N.sub_0_r. change (N.to_nat 0) with 0%nat. unfold lenN. rewrite Nat2N.id. apply firstn_all. }
  destruct (C42_pef_lookup_partial exm_D 0 (agx_env pef psp) C56_counts_collection (C56_counts_inputs pef psp)) as (t & EB & K). change (lenN exm_D) with 2 in EB.
  destruct (C24_lookup_indexed exm_D (exm_env hb) GF MI) as (m & EM & _). change (lenN exm_D) with 2 in EM. rewrite EB, EM. cbn [bind].
  assert (SO : statics_ok ex_statics) by (split; reflexivity).
  split; [eapply ans_trie; eauto using C56_counts_collection, C56_counts_inputs|]. split; [eapply ans_hash; eauto|]. split; [exact F2|]. exact (K _ _ _ SO F2).
Qed.

(** probabilities: the file of the example of C41; Elias-Fano and uniform_pef tries with remapping order 0 or 1, hash models; the words "c a a" *)
Example C56_hash_inputs : forall hb, hb = 32 \/ hb = 64 -> prob_inputs_ok txD txsecs (exenv hb) 2 2.
Proof.
  intros hb HB. destruct (C25_example_hyps 3 hb (or_intror eq_refl) HB) as (_ & PI & _). pose proof (tx_values 0 []) as VI. split.
  - exact (vi_lines _ _ _ _ _ VI).
  - destruct HB as [-> | ->]; [right|left; reflexivity]. split; [reflexivity|]. split; [vm_compute; discriminate|].
    intros k l H. destruct (txks k l H) as [->|[->| ->]]; injection H as <-; vm_compute; discriminate.
  - intros k l H. destruct (txks k l H) as [->|[->| ->]]; injection H as <-.
    + exact (pi_orders _ _ _ _ _ PI 0 _ eq_refl).
    + eapply valid_order_perm; [|exact (pi_orders _ _ _ _ _ PI 1 _ eq_refl)]. cbn [map fst exent].
      apply (NoDup_Permutation (l := [join [[97]; [98]]; join [[98]; [99]]; join [[99]; [97]]; join [[97]; [97]]])); [| |intro x; cbn [In]; tauto];
        repeat (constructor; [cbn; intuition discriminate|]); constructor.
    + eapply valid_order_perm; [|exact (pi_orders _ _ _ _ _ PI 2 _ eq_refl)]. cbn [map fst exent].
      apply (NoDup_Permutation (l := [join [[97]; [98]; [99]]; join [[98]; [99]; [97]]; join [[99]; [97]; [98]]; join [[99]; [97]; [97]]])); [| |intro x; cbn [In]; tauto];
        repeat (constructor; [cbn; intuition discriminate|]); constructor.
  - intro l. apply Permutation_refl.
  - intros k l H. destruct (txks k l H) as [->|[->| ->]]; injection H as <-; vm_compute; discriminate.
  - exact (vi_pq _ _ _ _ _ VI).
  - exact (vi_bq _ _ _ _ _ VI).
Qed.

Definition agx_ws : gram := [[97]; [98]; [100]].
Definition agx_hash (hb : N) : res mpl := mp_build (exenv hb) txsecs 3 default_unk 2 2.
Example C56_hash_distinguished : forall hb m a g c, hb = 32 \/ hb = 64 -> agx_hash hb = Ok m -> agx_ws = a ++ g ++ c -> 1 <= lenN g <= lenN txD -> entry txD g = None -> distinguished txD (exenv hb) m g.
Proof.
  intros hb m a g c HB EM E L HN.
  assert (G : g = [[100]] \/ g = [[98]; [100]] \/ g = [[97]; [98]; [100]]).
  { destruct a as [|a1 [|a2 [|a3 [|a4 a]]]]; cbn [app agx_ws] in E; try discriminate E;
      (destruct g as [|g1 [|g2 [|g3 [|g4 g]]]]; cbn [app] in E; try discriminate E; [change (lenN (@nil (list N))) with 0 in L; lia|..]);
      injection E; intros; subst; first [now auto|vm_compute in HN; discriminate HN]. }
  intros l t Hl Ht. destruct HB as [-> | ->]; vm_compute in EM; injection EM as <-; destruct G as [->|[->| ->]]; vm_compute in Hl, Ht; injection Hl as <-; injection Ht as <-;
    (split; [vm_compute; discriminate|intros e I; cbn [In map] in I; repeat (destruct I as [<-|I]; [vm_compute; discriminate|]); destruct I]).
Qed.
Definition agx_trie_scores (remap : N) : res (list (F * bool)) :=
  m <- tx_build remap [77] ;; s0 <- tp_state m ;; s1 <- ps_init s0 ;; ' (out, _) <- tp_sentence (txenv remap [77]) m (join agx_ws) s1 (word_ranges 0 agx_ws) ;; Ok out.
Definition agx_hash_scores (hb : N) : res (list (F * bool)) :=
  m <- agx_hash hb ;; s0 <- mp_state m ;; s1 <- ps_init s0 ;; ' (out, _) <- mp_sentence (exenv hb) m (join agx_ws) s1 (word_ranges 0 agx_ws) ;; Ok out.
(** the hypotheses of [C56_scores_partial], with an unknown word and n-grams that are not listed *)
Example C56_scores_example : forall remap hb, remap = 0 \/ remap = 1 -> hb = 32 \/ hb = 64 ->
  arpa_file txD /\ closed (entry txD) /\
  sentence_scores txD txsecs 2 2 default_unk exsd (fun l => l) agx_ws (agx_trie_scores remap) /\
  sentence_scores txD txsecs 2 2 default_unk exsd (fun l => l) agx_ws (agx_hash_scores hb) /\
  entry txD [[97]; [98]] <> None /\ entry txD [[98]; [100]] = None /\ entry txD [[100]] = None.
Proof.
  intros remap hb HR HB. assert (R1 : remap <= 1) by (destruct HR; lia). destruct (C25_trie_example_hyps remap R1) as (AF & CO & TI & HC).
  split; [exact AF|]. split; [exact HC|].
  assert (HT : holds_text (join agx_ws) (0, 0 + lenN (join agx_ws)) (join agx_ws)) by (split; [vm_compute; split; discriminate|vm_compute; reflexivity]).
  split; [|split; [|split; [vm_compute; discriminate|split; vm_compute; reflexivity]]].
  - unfold agx_trie_scores. destruct (tx_build remap [77]) as [m| |] eqn:EM; [|destruct HR as [->| ->]; vm_compute in EM; discriminate|destruct HR as [->| ->]; vm_compute in EM; discriminate].
    cbn [bind]. assert (MO : tp_order m = 3) by (destruct HR as [->| ->]; vm_compute in EM; injection EM as <-; reflexivity).
    destruct (tp_state m) as [s0| |] eqn:E0; [|unfold tp_state in E0; rewrite MO in E0; vm_compute in E0; discriminate|unfold tp_state in E0; rewrite MO in E0; vm_compute in E0; discriminate].
    cbn [bind]. destruct (ps_init s0) as [s1| |] eqn:E1; [|unfold tp_state in E0; rewrite MO in E0; vm_compute in E0; injection E0 as <-; vm_compute in E1; discriminate|unfold tp_state in E0; rewrite MO in E0; vm_compute in E0; injection E0 as <-; vm_compute in E1; discriminate].
    cbn [bind]. apply (sco_trie txD txsecs 2 2 default_unk exsd (fun l => l) agx_ws (txenv remap [77]) remap m (join agx_ws) 0 s0 [] s0 s1 CO TI eq_refl eq_refl EM); [|exact HT|exact E0|reflexivity|exact E1].
    intros w I HN. assert (w = [100]) as ->. { cbn in I. repeat (destruct I as [<-|I]; [try reflexivity; vm_compute in HN; discriminate|]); destruct I. }
    apply C25_trie_example_unknown; assumption.
  - unfold agx_hash_scores. destruct (agx_hash hb) as [m| |] eqn:EM; [|destruct HB as [->| ->]; vm_compute in EM; discriminate|destruct HB as [->| ->]; vm_compute in EM; discriminate].
    cbn [bind]. assert (MO : mp_order m = 3) by (destruct HB as [->| ->]; vm_compute in EM; injection EM as <-; reflexivity).
    destruct (mp_state m) as [s0| |] eqn:E0; [|unfold mp_state in E0; rewrite MO in E0; vm_compute in E0; discriminate|unfold mp_state in E0; rewrite MO in E0; vm_compute in E0; discriminate].
    cbn [bind]. destruct (ps_init s0) as [s1| |] eqn:E1; [|unfold mp_state in E0; rewrite MO in E0; vm_compute in E0; injection E0 as <-; vm_compute in E1; discriminate|unfold mp_state in E0; rewrite MO in E0; vm_compute in E0; injection E0 as <-; vm_compute in E1; discriminate].
    cbn [bind]. apply (sco_hash txD txsecs 2 2 default_unk exsd (fun l => l) agx_ws (exenv hb) m (join agx_ws) 0 s0 [] s0 s1 (C56_hash_inputs hb HB) eq_refl eq_refl EM); [|exact HT|exact E0|reflexivity|exact E1].
    intros a g c E L HN. eapply C56_hash_distinguished; eauto.
Qed.
(** and of [C56_texts_partial]: a text of the same words, "a b" twice and "d" *)
Definition agx_lines : list gram := [[[97]; [98]; [100]]; [[97]; [98]]].
Example C56_texts_example : forall remap hb m mh mq, remap = 0 \/ remap = 1 -> hb = 32 \/ hb = 64 ->
  tp_build_file (txenv remap [77]) txfile 3 remap default_unk 2 2 = Ok m -> mp_build_file (exenv hb) txfile 3 default_unk 2 2 = Ok mh ->
  qp_build_file (qx remap) txfile 3 remap default_unk 2 2 = Ok mq ->
  arpa_text txfile txsecs /\ arpa_file txD /\ closed (entry txD) /\ corpus_ok agx_lines /\ lenN (corpus_bytes agx_lines) < 2 ^ 62 /\
  text_report txfile txD txsecs 2 2 default_unk exsd (fun l => l) agx_lines (tp_corpus (txenv remap [77]) m (corpus_bytes agx_lines)) /\
  text_report txfile txD txsecs 2 2 default_unk exsd (fun l => l) agx_lines (qp_corpus (qx remap) mq (corpus_bytes agx_lines)) /\
  text_report txfile txD txsecs 2 2 default_unk exsd (fun l => l) agx_lines (mp_corpus (exenv hb) mh (corpus_bytes agx_lines)).
Proof.
  intros remap hb m mh mq HR HB EM EH EQ. assert (R1 : remap <= 1) by (destruct HR; lia). destruct (C25_trie_example_hyps remap R1) as (AF & CO & TI & HC).
  assert (UW : forall w, In w (concat agx_lines) -> entry txD [w] = None -> w = [100]).
  { intros w I HN. cbn in I. repeat (destruct I as [<-|I]; [try reflexivity; vm_compute in HN; discriminate|]); destruct I. }
  split; [exact C41_ex_text|]. split; [exact AF|]. split; [exact HC|].
  split; [unfold corpus_ok, agx_lines; repeat (constructor; [split; [discriminate|]; repeat (constructor; [split; cbn; intuition discriminate|]); constructor|]); constructor|].
  split; [vm_compute; reflexivity|]. split; [|split].
  - apply (rep_trie txfile txD txsecs 2 2 default_unk exsd (fun l => l) agx_lines (txenv remap [77]) remap m CO TI eq_refl eq_refl EM).
    intros w I HN. rewrite (UW w I HN). apply C25_trie_example_unknown; [exact HR|]. rewrite <- EM. symmetry. apply C40_trie_from_file. exact C41_ex_text.
  - apply (rep_pef txfile txD txsecs 2 2 default_unk exsd (fun l => l) agx_lines (qx remap) remap mq eq_refl CO (C47_ex_inputs remap HR) eq_refl eq_refl EQ).
    + constructor; [|constructor; [|constructor]]; intros pre c h v post E L H1 H2 _; left.
      * destruct pre as [|x0 [|x1 [|x2 [|x3 pre]]]]; cbn [app] in E; try discriminate E;
          (destruct h as [|y0 [|y1 [|y2 h]]]; cbn [app] in E; try discriminate E; injection E; intros; subst; vm_compute in H1, H2; vm_compute; congruence).
      * destruct pre as [|x0 [|x1 [|x2 [|x3 pre]]]]; cbn [app] in E; try discriminate E;
          (destruct h as [|y0 [|y1 [|y2 h]]]; cbn [app] in E; try discriminate E; injection E; intros; subst; vm_compute in H1, H2; vm_compute; congruence).
    + intros w I HN. rewrite (UW w I HN). intros l Hl. injection Hl as <-. destruct HR as [->| ->]; vm_compute in EQ; injection EQ as <-;
        (split; [vm_compute; discriminate|intros e J; cbn [In map] in J; repeat (destruct J as [<-|J]; [vm_compute; discriminate|]); destruct J]).
  - apply (rep_hash txfile txD txsecs 2 2 default_unk exsd (fun l => l) agx_lines (exenv hb) mh (C56_hash_inputs hb HB) eq_refl eq_refl EH).
    intros ws a g c I E L HN. rewrite (C40_mph_from_file txfile txsecs (exenv hb) 3 default_unk 2 2 C41_ex_text) in EH.
    cbn [In agx_lines] in I. destruct I as [<-|[<-|[]]].
    + eapply C56_hash_distinguished; eauto.
    + apply (C56_hash_distinguished hb mh a g (c ++ [[100]]) HB EH); [|exact L|exact HN]. rewrite !app_assoc in *. rewrite <- E. reflexivity.
Qed.

(** For n-grams that are not indexed the types do not agree: the trie answers not_found, the hash model reads past its dictionary of
    counts (C24_absent_refuted).  Here "a a". *)
Theorem C56_absent_refuted : exists D q remap env menv t m, collection D remap /\ pef_inputs_ok D remap env /\ gram_files D /\ mph_inputs_ok D menv /\
  (forall c, ~ indexed D q c) /\ lenN q <= lenN D /\
  ptrie_build env (map (map line) D) (lenN D) remap = Ok t /\ mc_build menv (map (map line) D) (lenN D) = Ok m /\
  ask_all env t ex_statics [(join q, (0, lenN (join q)))] = Ok [not_found] /\ mc_lookup menv m (join q) (0, lenN (join q)) = UB.
Proof.
  destruct (C24_example_hyps 64 (or_intror eq_refl)) as [GF MI].
  destruct (ptrie_build (agx_env false false) (map (map line) exm_D) (lenN exm_D) 0) as [t| |] eqn:ET; [|vm_compute in ET; discriminate|vm_compute in ET; discriminate].
  destruct (mc_build (exm_env 64) (map (map line) exm_D) (lenN exm_D)) as [m| |] eqn:EM; [|vm_compute in EM; discriminate|vm_compute in EM; discriminate].
  exists exm_D, [[97]; [97]], 0, (agx_env false false), (exm_env 64), t, m.
  split; [exact C56_counts_collection|]. split; [exact (C56_counts_inputs false false)|]. split; [exact GF|]. split; [exact MI|]. split.
  { intros c (k & l & Hl & I). pose proof (nthN_lt _ _ _ Hl) as L. change (lenN exm_D) with 2 in L. assert (k = 0 \/ k = 1) as [->| ->] by lia; injection Hl as <-; cbn in I; repeat (destruct I as [I|I]; [discriminate|]); destruct I. }
  split; [vm_compute; discriminate|]. split; [exact ET|]. split; [exact EM|].
  vm_compute in ET. injection ET as <-. vm_compute in EM. injection EM as <-. split; vm_compute; reflexivity.
Qed.
Print Assumptions C56_absent_refuted.
