(** * Property C46: the Python bindings *)
From Coq Require Import String Floats.SpecFloat ZArith.
From Verif Require Import Prelude BitFacts M_Word Spec P_Bits M_HashVec M_Mph M_Text P_Text P_Text2 M_Pef M_Trie M_TriePef Spec_Trie P_Trie3 M_Score Spec_Katz P_Score1 P_Score2 P_Score3 Props_Score M_Quant P_Quant
  M_Save P_Save Spec_Save M_SavePef M_GramFile Spec_GramFile M_Header M_Programs Spec_Programs P_Programs Props_Trie Props_TriePef Props_Save Props_Programs.
From Verif Require Import M_MphProb Spec_Arpa P_Values P_MphProb Props_MphProb M_TrieProb P_TrieProb1 P_TrieProb2 P_TrieProb3 P_TrieProb4 Props_TrieProb M_ArpaFile Spec_ArpaFile Props_ArpaFile
  M_Save2 Spec_Save2 Props_Save2 M_ScoreCorpus Spec_Corpus P_ScoreCorpus Props_ScoreCorpus M_TrieProbPef P_TrieProbBridge M_ProbPrograms Spec_ProbPrograms Props_ProbPrograms M_Python Spec_Python P_Python Spec_Supported P_Supported.
Local Open Scope N_scope.

(** ** CountModel *)
(** build_trie ef_trie (IC ranks, no remapping) writes a file; CountModel(file) loads it, and lookup of the words of an indexed
    n-gram joined by spaces returns its count, after any history (the static arrays of lookup have any contents) *)
Theorem C46_lookup : forall x env D a d, ext_ok x -> collection D 0 -> no_newlines D -> holds_counts d D ->
  asks a false (lenN D) 0 R_IC -> inputs_ok D 0 (py_tenv (pe_t env)) ->
  exists file t, build_trie_count x env a d = Ok (Wrote (out_name (ta_out a) "ef_trie_IC_ranks_count_lm") file) /\
    py_count_model x file = Ok t /\
    forall ws c st, Forall py_word ws -> indexed D (map encode ws) c -> statics_ok st ->
      exists st', py_lookup (pe_t env) t st (join ws) = Ok (c, st') /\ statics_ok st'.
Proof.
  intros x env D a d X C NN HD AS IO. destruct (C22_lookup_indexed D 0 (py_tenv (pe_t env)) C IO) as (t & ET & L).
  destruct (built_file x env D 0 a d C NN HD AS IO t ET) as (h & H1 & H2 & H3).
  exists (save_file h (save_trie x IC) t), t. split; [exact H3|]. split.
  - destruct (C30_built_trie_restored x h D 0 (py_tenv (pe_t env)) t X H1 C IO ET) as [F1 F2]. exact (py_load_ok _ h _ _ _ F1 F2).
  - intros ws c st W IX SO. unfold py_lookup. rewrite (arg_s_join ws W). cbn [bind].
    assert (CN : c <> not_found). { destruct IX as (k & l & Hl & He). pose proof (Forall_nthN _ _ _ _ (io_counts _ _ _ IO) Hl) as F. rewrite Forall_forall in F. specialize (F _ He). cbn [snd] in F. unfold not_found. lia. }
    destruct (L (map encode ws) c IX st (c_str (join (map encode ws))) (0, lenN (join (map encode ws))) SO) as (st' & E & SO').
    { unfold c_str. apply (holds_mid [] (join (map encode ws)) [0]); reflexivity. }
    exists st'. rewrite E. cbn [bind]. cbv beta iota. destruct (N.eqb_spec c not_found); [contradiction|]. split; [reflexivity|exact SO'].
Qed.
Print Assumptions C46_lookup.
(** an n-gram that is not indexed has count 0, under the conditions of C23 *)
Theorem C46_absent_partial : forall x env D a d, ext_ok x -> collection D 0 -> no_newlines D -> holds_counts d D ->
  asks a false (lenN D) 0 R_IC -> inputs_ok D 0 (py_tenv (pe_t env)) ->
  exists file t, build_trie_count x env a d = Ok (Wrote (out_name (ta_out a) "ef_trie_IC_ranks_count_lm") file) /\
    py_count_model x file = Ok t /\
    forall ws st, let q := map encode ws in ws <> [] -> Forall py_word ws -> (forall c, ~ indexed D q c) -> lenN q <= 8 -> lenN q <> lenN D + 1 ->
      (forall w, In w q -> In [w] (grams D 0) \/ svt_lookup 64 (te_h (pe_t env)) (t_vocab t) w = Ok not_found) ->
      (forall j, 0 < j < lenN q -> In (firstn (N.to_nat j) q) (grams D (j - 1)) -> exists g, In g (grams D j) /\ removelast g = firstn (N.to_nat j) q) ->
      statics_ok st -> exists st', py_lookup (pe_t env) t st (join ws) = Ok (0, st') /\ statics_ok st'.
Proof.
  intros x env D a d X C NN HD AS IO. destruct (C23_absent_partial D 0 (py_tenv (pe_t env)) C IO) as (t & ET & L).
  destruct (built_file x env D 0 a d C NN HD AS IO t ET) as (h & H1 & H2 & H3).
  exists (save_file h (save_trie x IC) t), t. split; [exact H3|]. split.
  - destruct (C30_built_trie_restored x h D 0 (py_tenv (pe_t env)) t X H1 C IO ET) as [F1 F2]. exact (py_load_ok _ h _ _ _ F1 F2).
  - intros ws st q NE W NI Q8 QE HV CH SO. unfold py_lookup. rewrite (arg_s_join ws W). cbn [bind]. fold q. pose proof (col_order _ _ C) as CO.
    destruct (L q) with (st := st) (buf := c_str (join q)) (r := (0, lenN (join q))) as (st' & E & SO'); auto.
    + unfold q. destruct ws; [congruence|discriminate].
    + unfold q. apply Forall_map. eapply Forall_impl; [|exact W]. intros w Hw. apply py_word_bytes. exact Hw.
    + intros _. lia.
    + lia.
    + unfold c_str. apply (holds_mid [] (join q) [0]); reflexivity.
    + exists st'. rewrite E. cbn [bind]. cbv beta iota. rewrite N.eqb_refl. split; [reflexivity|exact SO'].
Qed.
Print Assumptions C46_absent_partial.

(** ** ProbModel *)
Lemma built_prob_file x env data D secs a p b unk : ext_ok x -> arpa_text data secs -> arpa_file D -> collection (reversed D) 0 ->
  asks_prob a false (lenN D) 0 p b unk -> trie_inputs_ok D secs (py_tpenv (qe_t env)) 0 p b -> forall m, tp_build_file (py_tpenv (qe_t env)) data (lenN D) 0 unk p b = Ok m ->
  exists file, build_trie_prob x env a (Some (Some data)) = Ok (Wrote (out_name (ra_out a) "ef_trie_prob_lm") file) /\ py_prob_model x file = Ok m.
Proof.
  intros X AT AF CO (A1 & A2 & A3 & A4 & A5 & A6) TI m EB. set (e := prob_instance env (false, false)). change (py_tpenv (qe_t env)) with (qe_t e) in *. pose proof (af_order _ AF) as HO.
  pose proof (vi_pq _ _ _ _ _ (ti_values _ _ _ _ _ _ TI)) as [P1 _]. pose proof (vi_bq _ _ _ _ _ (ti_values _ _ _ _ _ _ TI)) as [P2 _].
  destruct (unk_arg_is _ _ A6) as [U1 U2]. destruct (prob_header false 0 ltac:(lia)) as (h & H1 & H2 & H3 & H4). assert (PF : qe_pef e = false) by reflexivity.
  exists (save_file h (save_tpl x) m). split.
  - unfold build_trie_prob, accepted_order, check_order. rewrite A1, A2, (u8_small (lenN D)) by lia.
    destruct (N.ltb_spec (lenN D) 2); [lia|]. destruct (N.ltb_spec 8 (lenN D)); [lia|]. cbn [bind].
    change (structure_name false) with "ef_trie"%string. change (String.eqb "ef_trie" "ef_trie") with true. cbv iota. rewrite U1. cbn [bind].
    assert (RM : match ra_remap a with Some r => _ <- check_remapping_order r ;; Ok r | None => Ok 0 end = Ok 0) by (destruct A3 as [->|(-> & _)]; reflexivity).
    rewrite RM. cbn [bind]. rewrite H1. cbn [bind]. rewrite H3, H4. cbn [open_arpa bind]. change (negb (0 =? 0)) with false. fold e.
    rewrite U2, (bits_arg_is _ _ A4), (bits_arg_is _ _ A5) by lia. change (u8 0) with 0. rewrite (qp_build_emb e PF), EB. cbn [bind]. unfold save_file. rewrite (save_embq e PF). reflexivity.
  - pose proof EB as EB2. rewrite (C40_trie_from_file data secs) in EB2 by exact AT.
    destruct (C30_built_trie_prob_restored x h D secs (qe_t e) 0 p b unk m X H2 AF CO TI (proj1 A6) EB2) as [F1 F2]. exact (py_load_ok _ h _ _ _ F1 F2).
Qed.
(** number of bytes of a Python string in UTF-8 *)
Definition utf8_len (s : list N) : Z := Z.of_N (lenN (encode s)).
Lemma words_short (ws : list (list N)) size : Forall py_word ws -> size = utf8_len (join ws) \/ Forall ascii ws /\ size = py_len (join ws) -> (size < 2 ^ 62)%Z -> lenN (map encode ws) < 2 ^ 62.
Proof.
  intros W SZ SL. assert (SZ' : size = Z.of_N (lenN (join (map encode ws)))).
  { rewrite <- encode_join. destruct SZ as [->|[A ->]]; [reflexivity|]. unfold py_len. rewrite (encode_ascii (join ws)); [reflexivity|]. apply ascii_join. exact A. }
  clear SZ. subst size. set (q := map encode ws) in *.
  assert (QW : Forall (fun w => word w /\ ~ In 10 w) q) by (unfold q; apply Forall_map; eapply Forall_impl; [|exact W]; intros w Hw; apply py_word_bytes; exact Hw).
  assert (JL : lenN q <= lenN (join q)).
  { clear - QW. induction QW as [|w q [[W1 _] _] QW IH]; [apply N.le_refl|]. assert (L : 1 <= lenN w) by (destruct w; [congruence|rewrite lenN_cons; lia]).
    destruct q as [|w2 q]; [cbn [join]; rewrite lenN_cons, lenN_nil; lia|]. rewrite join_cons by discriminate. rewrite lenN_app, !lenN_cons in *. lia. }
  lia.
Qed.
(** score_sentence reads the words of the string and adds up what the model scores *)
Lemma py_sentence_run env m ws size out s0 s1 s2 : Forall py_word ws -> size = utf8_len (join ws) \/ Forall ascii ws /\ size = py_len (join ws) -> (size < 2 ^ 62)%Z ->
  tp_state m = Ok s0 -> ps_init s0 = Ok s1 ->
  tp_sentence (py_tpenv env) m (c_str (join (map encode ws))) s1 (word_ranges 0 (map encode ws)) = Ok (out, s2) ->
  py_score_sentence env m (join ws) size = Ok (fold_left fadd (map fst out) fzero, lenN ws).
Proof.
  intros W SZ SL E0 E1 A1. pose proof (words_short ws size W SZ SL) as WS.
  assert (SZ' : size = Z.of_N (lenN (join (map encode ws)))).
  { rewrite <- encode_join. destruct SZ as [->|[A ->]]; [reflexivity|]. unfold py_len. rewrite (encode_ascii (join ws)); [reflexivity|]. apply ascii_join. exact A. }
  clear SZ. subst size. set (q := map encode ws) in *.
  assert (QW : Forall (fun w => word w /\ ~ In 10 w) q) by (unfold q; apply Forall_map; eapply Forall_impl; [|exact W]; intros w Hw; apply py_word_bytes; exact Hw).
  assert (QL : lenN ws = lenN q) by (unfold q; rewrite lenN_map; reflexivity).
  rewrite QL. unfold py_score_sentence. rewrite (arg_s_join ws W). cbn [bind]. fold q.
  assert (AK : arg_k (Z.of_N (lenN (join q))) = lenN (join q)). { unfold arg_k. rewrite Z.mod_small by lia. apply N2Z.id. }
  rewrite AK. unfold c_str in *. rewrite lenN_app, lenN_cons, lenN_nil. destruct (N.ltb_spec (lenN (join q) + (1 + 0)) (lenN (join q))); [lia|].
  rewrite E0. cbn [bind]. rewrite E1. cbn [bind].
  rewrite tp_sentence_gen in A1.
  rewrite (words_ok env m q) with (pre := []) (post := [0]) (out := out) (st' := s2); [reflexivity| | | | |exact A1].
  * eapply Forall_impl; [|exact QW]. intros w [[_ N1] N2]. split; assumption.
  * destruct q as [|w q'] eqn:EQ; [left; reflexivity|right]. rewrite Forall_forall in QW. assert (IL : In (last (w :: q') []) (w :: q')).
    { clear. revert w. induction q' as [|y q' IH]; intros w; [left; reflexivity|right; exact (IH y)]. }
    destruct (QW _ IL) as [[G _] _]. exact G.
  * rewrite app_length. cbn [length]. lia.
  * lia.
Qed.
Lemma sum_feq l1 l2 : Forall2 feq l1 l2 -> feq (fold_left fadd l1 fzero) (fsum l2).
Proof.
  assert (G : forall l1 l2 u v, Forall2 feq l1 l2 -> feq u v -> feq (fold_left fadd l1 u) (fold_left fplus l2 v)).
  { clear. induction l1 as [|y l1 IH]; intros l2 u v F2 FE; inversion F2 as [|? z ? l2' FX F2']; subst; [exact FE|]. cbn [fold_left]. apply IH; [assumption|]. apply fadd_feq; assumption. }
  intros F2. apply G; [exact F2|apply feq_refl].
Qed.
Lemma built_order data (D : list (list (list (list N) * (spec_float * spec_float)))) secs env p b unk m : arpa_text data secs -> tp_build_file env data (lenN D) 0 unk p b = Ok m -> tp_order m = lenN D.
Proof.
  intros AT EB. rewrite (C40_trie_from_file data secs env (lenN D) 0 unk p b AT) in EB. unfold tp_build in EB. repeat (apply bind_ok in EB; destruct EB as (? & _ & EB)).
  destruct (lenN secs <? lenN D); [discriminate|]. apply bind_ok in EB; destruct EB as ([pb bb] & _ & EB). destruct (lenN D <? lenN secs); [discriminate|].
  repeat (apply bind_ok in EB; destruct EB as (? & _ & EB)). injection EB as <-. reflexivity.
Qed.
(** score_sentence(s, size) with the size in bytes, in particular score_sentence(s, len(s)) for ASCII text, returns the
    log probability of Katz back-off and the number of words.  Partial: the conditions of C25. *)
Theorem C46_sentence_partial : forall x env data D secs a p b unk, ext_ok x -> arpa_text data secs -> arpa_file D -> collection (reversed D) 0 ->
  asks_prob a false (lenN D) 0 p b unk -> trie_inputs_ok D secs (py_tpenv (qe_t env)) 0 p b ->
  exists file m qp qb, build_trie_prob x env a (Some (Some data)) = Ok (Wrote (out_name (ra_out a) "ef_trie_prob_lm") file) /\ py_prob_model x file = Ok m /\
    (forall ord v, 2 <= ord <= lenN D -> exists r, q_rank (tp_probs m) (ord - 2) v 0 = Ok r /\ r < 2 ^ p /\ q_access (tp_probs m) (ord - 2) r = Ok (qp ord v)) /\
    (forall ord v, 2 <= ord < lenN D -> exists r, q_rank (tp_backoffs m) (ord - 2) v 1 = Ok r /\ r < 2 ^ b /\ q_access (tp_backoffs m) (ord - 2) r = Ok (qb ord v)) /\
    (closed (entry D) -> extended_nonzero (quantized D qp qb) ->
     forall ws size, Forall py_word ws -> size = utf8_len (join ws) \/ Forall ascii ws /\ size = py_len (join ws) -> (size < 2 ^ 62)%Z ->
     (forall w, In w (map encode ws) -> entry D [w] = None -> word_distinguished D (py_tpenv (qe_t env)) m w) ->
     exists v, py_score_sentence (qe_t env) m (join ws) size = Ok (v, lenN ws) /\ feq v (sentence_prob (quantized D qp qb) (unk_prob D unk) (N.to_nat (lenN D)) (map encode ws))).
Proof.
  intros x env data D secs a p b unk X AT AF CO AS TI. destruct (C25_trie_file_partial data D secs (py_tpenv (qe_t env)) 0 p b unk AT AF CO TI) as (m & qp & qb & EB & Q1 & Q2 & K).
  destruct (built_prob_file x env data D secs a p b unk X AT AF CO AS TI m EB) as (file & F1 & F2).
  exists file, m, qp, qb. split; [exact F1|]. split; [exact F2|]. split; [exact Q1|]. split; [exact Q2|].
  intros HC HX ws size W SZ SL HD. pose proof (built_order data D secs _ p b unk m AT EB) as MO.
  pose proof (af_order _ AF) as HO. rewrite <- MO in HO. destruct (new_ok (tp_order m) HO 0) as (s0 & E0 & W0 & L0 & O0). destruct (init_wf (tp_order m) HO s0 W0) as (s1 & E1 & _).
  destruct (K HC HX (c_str (join (map encode ws))) 0 (map encode ws) s0 [] s0 s1) as (out & s2 & A1 & A2 & _).
  - unfold c_str. apply (holds_mid [] (join (map encode ws)) [0]); reflexivity.
  - exact (words_short ws size W SZ SL).
  - exact HD.
  - exact E0.
  - reflexivity.
  - exact E1.
  - exists (fold_left fadd (map fst out) fzero). split; [exact (py_sentence_run (qe_t env) m ws size out s0 s1 s2 W SZ SL E0 E1 A1)|].
    apply sum_feq. exact A2.
Qed.
Print Assumptions C46_sentence_partial.
(** ... for every table, over its supported n-grams, with the contexts the library keeps (back-off weights of 0 allowed) *)
Theorem C46_sentence_kept_partial : forall x env data D secs a p b unk, ext_ok x -> arpa_text data secs -> arpa_file D -> collection (reversed D) 0 ->
  asks_prob a false (lenN D) 0 p b unk -> trie_inputs_ok D secs (py_tpenv (qe_t env)) 0 p b ->
  exists file m qp qb, build_trie_prob x env a (Some (Some data)) = Ok (Wrote (out_name (ra_out a) "ef_trie_prob_lm") file) /\ py_prob_model x file = Ok m /\
    (forall ord v, 2 <= ord <= lenN D -> exists r, q_rank (tp_probs m) (ord - 2) v 0 = Ok r /\ r < 2 ^ p /\ q_access (tp_probs m) (ord - 2) r = Ok (qp ord v)) /\
    (forall ord v, 2 <= ord < lenN D -> exists r, q_rank (tp_backoffs m) (ord - 2) v 1 = Ok r /\ r < 2 ^ b /\ q_access (tp_backoffs m) (ord - 2) r = Ok (qb ord v)) /\
    (forall ws size, Forall py_word ws -> size = utf8_len (join ws) \/ Forall ascii ws /\ size = py_len (join ws) -> (size < 2 ^ 62)%Z ->
     (forall w, In w (map encode ws) -> entry D [w] = None -> word_distinguished D (py_tpenv (qe_t env)) m w) ->
     exists v, py_score_sentence (qe_t env) m (join ws) size = Ok (v, lenN ws) /\ feq v (fsum (kept_scores (supported (quantized D qp qb)) (unk_prob D unk) (N.to_nat (lenN D)) (map encode ws)))).
Proof.
  intros x env data D secs a p b unk X AT AF CO AS TI. destruct (C25_trie_kept_partial D secs (py_tpenv (qe_t env)) 0 p b unk AF CO TI) as (m & qp & qb & EB & Q1 & Q2 & K).
  rewrite <- (C40_trie_from_file data secs (py_tpenv (qe_t env)) (lenN D) 0 unk p b AT) in EB.
  destruct (built_prob_file x env data D secs a p b unk X AT AF CO AS TI m EB) as (file & F1 & F2).
  exists file, m, qp, qb. split; [exact F1|]. split; [exact F2|]. split; [exact Q1|]. split; [exact Q2|].
  intros ws size W SZ SL HD. pose proof (built_order data D secs _ p b unk m AT EB) as MO.
  pose proof (af_order _ AF) as HO. rewrite <- MO in HO. destruct (new_ok (tp_order m) HO 0) as (s0 & E0 & W0 & L0 & O0). destruct (init_wf (tp_order m) HO s0 W0) as (s1 & E1 & _).
  destruct (K (c_str (join (map encode ws))) 0 (map encode ws) s0 [] s0 s1) as (out & s2 & A1 & A2 & _).
  - unfold c_str. apply (holds_mid [] (join (map encode ws)) [0]); reflexivity.
  - exact (words_short ws size W SZ SL).
  - exact HD.
  - exact E0.
  - reflexivity.
  - exact E1.
  - exists (fold_left fadd (map fst out) fzero). split; [exact (py_sentence_run (qe_t env) m ws size out s0 s1 s2 W SZ SL E0 E1 A1)|].
    rewrite A2. apply feq_refl.
Qed.
Print Assumptions C46_sentence_kept_partial.
(** score_corpus(file) returns the total of the program score and the number of words.  Partial: the conditions of C41. *)
Theorem C46_corpus_partial : forall x env data D secs a p b unk, ext_ok x -> arpa_text data secs -> arpa_file D -> collection (reversed D) 0 ->
  asks_prob a false (lenN D) 0 p b unk -> trie_inputs_ok D secs (py_tpenv (qe_t env)) 0 p b ->
  exists file m qp qb, build_trie_prob x env a (Some (Some data)) = Ok (Wrote (out_name (ra_out a) "ef_trie_prob_lm") file) /\ py_prob_model x file = Ok m /\
    (forall ord v, 2 <= ord <= lenN D -> exists r, q_rank (tp_probs m) (ord - 2) v 0 = Ok r /\ r < 2 ^ p /\ q_access (tp_probs m) (ord - 2) r = Ok (qp ord v)) /\
    (forall ord v, 2 <= ord < lenN D -> exists r, q_rank (tp_backoffs m) (ord - 2) v 1 = Ok r /\ r < 2 ^ b /\ q_access (tp_backoffs m) (ord - 2) r = Ok (qb ord v)) /\
    (closed (entry D) -> extended_nonzero (quantized D qp qb) ->
     forall lines, corpus_ok lines -> lenN (corpus_bytes lines) < 2 ^ 62 ->
     (forall w, In w (concat lines) -> entry D [w] = None -> word_distinguished D (py_tpenv (qe_t env)) m w) ->
     exists v, py_score_corpus (qe_t env) m (corpus_bytes lines) = Ok (v, lenN (concat lines)) /\ feq v (corpus_prob (quantized D qp qb) (unk_prob D unk) (N.to_nat (lenN D)) lines)).
Proof.
  intros x env data D secs a p b unk X AT AF CO AS TI. destruct (C41_trie_partial data D secs (py_tpenv (qe_t env)) 0 p b unk AT AF CO TI) as (m & qp & qb & EB & Q1 & Q2 & K).
  destruct (built_prob_file x env data D secs a p b unk X AT AF CO AS TI m EB) as (file & F1 & F2).
  exists file, m, qp, qb. split; [exact F1|]. split; [exact F2|]. split; [exact Q1|]. split; [exact Q2|].
  intros HC HX lines HL HB HD. destruct (K HC HX lines HL HB HD) as (tot & E & _ & _ & FP & _). exists (tt_prob tot). rewrite py_corpus_ok, E. split; [reflexivity|exact FP].
Qed.
Print Assumptions C46_corpus_partial.
(** ... for every table, over its supported n-grams, with the contexts the library keeps (back-off weights of 0 allowed) *)
Theorem C46_corpus_kept_partial : forall x env data D secs a p b unk, ext_ok x -> arpa_text data secs -> arpa_file D -> collection (reversed D) 0 ->
  asks_prob a false (lenN D) 0 p b unk -> trie_inputs_ok D secs (py_tpenv (qe_t env)) 0 p b ->
  exists file m qp qb, build_trie_prob x env a (Some (Some data)) = Ok (Wrote (out_name (ra_out a) "ef_trie_prob_lm") file) /\ py_prob_model x file = Ok m /\
    (forall ord v, 2 <= ord <= lenN D -> exists r, q_rank (tp_probs m) (ord - 2) v 0 = Ok r /\ r < 2 ^ p /\ q_access (tp_probs m) (ord - 2) r = Ok (qp ord v)) /\
    (forall ord v, 2 <= ord < lenN D -> exists r, q_rank (tp_backoffs m) (ord - 2) v 1 = Ok r /\ r < 2 ^ b /\ q_access (tp_backoffs m) (ord - 2) r = Ok (qb ord v)) /\
    (forall lines, corpus_ok lines -> lenN (corpus_bytes lines) < 2 ^ 62 ->
     (forall w, In w (concat lines) -> entry D [w] = None -> word_distinguished D (py_tpenv (qe_t env)) m w) ->
     exists v, py_score_corpus (qe_t env) m (corpus_bytes lines) = Ok (v, lenN (concat lines)) /\ feq v (kept_corpus_prob (supported (quantized D qp qb)) (unk_prob D unk) (N.to_nat (lenN D)) lines)).
Proof.
  intros x env data D secs a p b unk X AT AF CO AS TI. destruct (C41_trie_kept_partial data D secs (py_tpenv (qe_t env)) 0 p b unk AT AF CO TI) as (m & qp & qb & EB & Q1 & Q2 & K).
  destruct (built_prob_file x env data D secs a p b unk X AT AF CO AS TI m EB) as (file & F1 & F2).
  exists file, m, qp, qb. split; [exact F1|]. split; [exact F2|]. split; [exact Q1|]. split; [exact Q2|].
  intros lines HL HB HD. destruct (K lines HL HB HD) as (tot & E & _ & _ & FP & _). exists (tt_prob tot). rewrite py_corpus_ok, E. split; [reflexivity|exact FP].
Qed.
Print Assumptions C46_corpus_kept_partial.

(** ** what fails *)
(** the documented call score_sentence(s, len(s)) (python/example.py 27): len() counts code points, the bindings bytes.  For
    "é é", two words, whatever they score, one word is scored. *)
Theorem C46_sentence_length_refuted : exists env m ws v, tp_build_file (py_tpenv env) txfile 3 0 default_unk 2 2 = Ok m /\ Forall py_word ws /\
  py_score_sentence env m (join ws) (py_len (join ws)) = Ok (v, 1) /\ lenN ws = 2.
Proof.
  destruct (tp_build_file (py_tpenv (txenv 0 [77])) txfile 3 0 default_unk 2 2) as [m| |] eqn:E; [|vm_compute in E; discriminate|vm_compute in E; discriminate].
  assert (G : exists v, py_score_sentence (txenv 0 [77]) m (join [[233]; [233]]) (py_len (join [[233]; [233]])) = Ok (v, 1)).
  { vm_compute in E. injection E as <-. eexists. vm_compute. reflexivity. }
  destruct G as (v & G). exists (txenv 0 [77]), m, [[233]; [233]], v. split; [exact E|]. split; [|split; [exact G|reflexivity]].
  repeat (constructor; [split; [discriminate|repeat (constructor; [lia|]); constructor]|]). constructor.
Qed.
Print Assumptions C46_sentence_length_refuted.
(** a size larger than the text: the words are read past the end of the buffer *)
Theorem C46_sentence_size_refuted : forall env m s size, arg_s s = Ok (encode s) -> (utf8_len s + 1 < size < 2 ^ 64)%Z -> py_score_sentence env m s size = UB.
Proof.
  intros env m s size A L. unfold py_score_sentence. rewrite A. cbn [bind]. unfold utf8_len in L. assert (AK : arg_k size = Z.to_N size) by (unfold arg_k; rewrite Z.mod_small by lia; reflexivity).
  rewrite AK. unfold c_str. rewrite lenN_app, lenN_cons, lenN_nil. destruct (N.ltb_spec (lenN (encode s) + (1 + 0)) (Z.to_N size)); [reflexivity|lia].
Qed.
(** the type of the file is printed, not checked: CountModel on the file of an ef_rtrie answers wrongly, for an indexed trigram
    with the count of another one, for another indexed trigram with 0 *)
Theorem C46_other_type_refuted : exists x env D a d file h t st, ext_ok x /\ collection D 1 /\ no_newlines D /\ holds_counts d D /\ statics_ok st /\
  asks a false (lenN D) 1 R_IC /\ inputs_ok D 1 (pe_t (instance env (false, true, R_IC))) /\
  build_trie_count x env a d = Ok (Wrote (out_name (ta_out a) "ef_rtrie_IC_ranks_count_lm") file) /\
  file_header file = Ok h /\ bh_parse h = "ef_rtrie_IC_ranks_count_lm"%string /\
  py_count_model x file = Ok t /\
  exists g1 c1 v1 st1 g2 c2 st2, indexed D g1 c1 /\ indexed D g2 c2 /\ Forall ascii g1 /\ Forall ascii g2 /\
    py_lookup (pe_t env) t st (join g1) = Ok (v1, st1) /\ v1 <> c1 /\ v1 <> 0 /\
    py_lookup (pe_t env) t st (join g2) = Ok (0, st2) /\ 0 < c2.
Proof.
  assert (R1 : 1 <= 2) by lia.
  destruct (build_trie_count ex_x (pex 0 IC false false false) (ex_args false 4 1 R_IC) (ex_dir ex_D)) as [[n file|]| |] eqn:EB; [|vm_compute in EB; discriminate|vm_compute in EB; discriminate|vm_compute in EB; discriminate].
  assert (G : exists h t, file_header file = Ok h /\ bh_parse h = "ef_rtrie_IC_ranks_count_lm"%string /\ py_count_model ex_x file = Ok t /\ n = "ef_rtrie_IC_ranks_count_lm.out"%string /\
    exists st1 st2, py_lookup (pe_t (pex 0 IC false false false)) t ex_statics (join [wa; wc; wb]) = Ok (2, st1) /\ py_lookup (pe_t (pex 0 IC false false false)) t ex_statics (join [wa; wc; wd]) = Ok (0, st2)).
  { vm_compute in EB. injection EB as <- <-. eexists. eexists. split; [vm_compute; reflexivity|]. split; [vm_compute; reflexivity|]. split; [vm_compute; reflexivity|]. split; [reflexivity|]. eexists. eexists.
    split; [vm_compute; reflexivity|]. vm_compute. reflexivity. }
  destruct G as (h & t & G1 & G2 & G3 & -> & st1 & st2 & G4 & G5).
  exists ex_x, (pex 0 IC false false false), ex_D, (ex_args false 4 1 R_IC), (ex_dir ex_D), file, h, t, ex_statics.
  split; [exact ex_x_ok|]. split; [apply ex_collection; exact R1|]. split; [exact ex_no_newlines|]. split; [apply ex_dir_ok|]. split; [split; reflexivity|]. split; [apply ex_asks|].
  split. { exact (ex_inputs 1 IC). }
  split; [exact EB|]. split; [exact G1|]. split; [exact G2|]. split; [exact G3|].
  exists [wa; wc; wb], 1, 2, st1, [wa; wc; wd], 2, st2.
  split; [exists 2; eexists; split; [reflexivity|inl]|]. split; [exists 2; eexists; split; [reflexivity|inl]|].
  split; [repeat constructor|]. split; [repeat constructor|]. split; [exact G4|]. split; [discriminate|]. split; [discriminate|]. split; [exact G5|reflexivity].
Qed.
Print Assumptions C46_other_type_refuted.

(** ** instances *)
Example C46_lookup_example : exists file t, build_trie_count ex_x (pex 0 IC false false false) (ex_args false 4 0 R_IC) (ex_dir ex_D) = Ok (Wrote "ef_trie_IC_ranks_count_lm.out" file) /\
  py_count_model ex_x file = Ok t /\ exists st', py_lookup (pe_t (pex 0 IC false false false)) t ex_statics (join [wd; wa; wc; wb]) = Ok (1, st').
Proof.
  destruct (C46_lookup ex_x (pex 0 IC false false false) ex_D (ex_args false 4 0 R_IC) (ex_dir ex_D) ex_x_ok (ex_collection 0 ltac:(lia)) ex_no_newlines (ex_dir_ok ex_D) (ex_asks false 4 0 R_IC) (ex_inputs 0 IC)) as (file & t & H1 & H2 & H3).
  exists file, t. split; [exact H1|]. split; [exact H2|]. destruct (H3 [wd; wa; wc; wb] 1 ex_statics) as (st' & E & _).
  - repeat (constructor; [split; [discriminate|repeat (constructor; [lia|]); constructor]|]). constructor.
  - exists 3. eexists. split; [reflexivity|inl].
  - split; reflexivity.
  - exists st'. exact E.
Qed.
Example C46_prob_example_hyps : ext_ok ex_x /\ arpa_text txfile txsecs /\ arpa_file txD /\ collection (reversed txD) 0 /\
  asks_prob (px_args false 0) false (lenN txD) 0 2 2 default_unk /\ trie_inputs_ok txD txsecs (py_tpenv (qe_t (px_env 0))) 0 2 2 /\ closed (entry txD).
Proof. exact (C48_trie_example_hyps 0 ltac:(lia)). Qed.
Example C46_sentence_example : match tp_build_file (py_tpenv (txenv 0 [77])) txfile 3 0 default_unk 2 2 with
  | Ok m => py_score_sentence (txenv 0 [77]) m (join [[97]; [98]; [97]; [99]; [97]; [98]]) (py_len (join [[97]; [98]; [97]; [99]; [97]; [98]])) = Ok (sentence_prob (txM 0) default_unk 3 [[97]; [98]; [97]; [99]; [97]; [98]], 6)
  | _ => False end.
Proof. vm_compute. reflexivity. Qed.
