(** * Property C58, the programs for probabilities: what build_trie wrote scores every text with Katz back-off *)
From Coq Require Import String Floats.SpecFloat.
From Verif Require Import Prelude BitFacts M_Word Spec P_Bits M_Text P_Text P_Text2 P_Typed M_Trie Spec_Trie P_Trie3 M_Score Spec_Katz P_Score1 P_Score2 P_Score3 Props_Score M_Quant P_Quant M_MphProb Spec_Arpa P_Values P_MphProb Props_MphProb
  M_TrieProb P_TrieProb1 P_TrieProb2 P_TrieProb3 P_TrieProb4 Props_TrieProb M_Save P_Save Spec_Save M_Save2 Spec_Save2 P_Save2 Props_Save Props_Save2 M_ArpaFile Spec_ArpaFile Props_ArpaFile
  M_Header M_ScoreCorpus Spec_Corpus Props_ScoreCorpus M_TrieProbPef P_TrieProbBridge M_Programs Spec_Programs M_ProbPrograms Spec_ProbPrograms Spec_Supported P_Supported Props_ProbPrograms
  Spec_Complete P_Complete Props_Complete P_AcceptProb Props_AcceptedProb.

(** what the program wrote, it wrote after a build of the class that ended normally *)
Lemma trie_prob_built x env a data D secs p b unk out bytes : arpa_file D ->
  asks_prob a false (lenN D) 0 p b unk -> trie_inputs_ok D secs (qe_t (prob_instance env (pinst false 0))) 0 p b ->
  build_trie_prob x env a (Some (Some data)) = Ok (Wrote out bytes) ->
  exists m, tp_build_file (qe_t (prob_instance env (pinst false 0))) data (lenN D) 0 unk p b = Ok m.
Proof.
  intros AF (A1 & A2 & A3 & A4 & A5 & A6) TI E.
  set (e := prob_instance env (pinst false 0)) in *. pose proof (af_order _ AF) as HO.
  pose proof (vi_pq _ _ _ _ _ (ti_values _ _ _ _ _ _ TI)) as [P1 _]. pose proof (vi_bq _ _ _ _ _ (ti_values _ _ _ _ _ _ TI)) as [P2 _].
  destruct (unk_arg_is _ _ A6) as [U1 U2]. destruct (prob_header false 0 ltac:(lia)) as (h & H1 & H2 & H3 & H4).
  assert (PF : qe_pef e = false) by reflexivity.
  unfold build_trie_prob, accepted_order, check_order in E. rewrite A1, A2, (u8_small (lenN D)) in E by lia.
  destruct (N.ltb_spec (lenN D) 2) as [|_]; [lia|]. destruct (N.ltb_spec 8 (lenN D)) as [|_]; [lia|]. cbn [bind] in E.
  change (structure_name false) with "ef_trie"%string in E. change (String.eqb "ef_trie" "ef_trie") with true in E. cbv iota in E. rewrite U1 in E. cbn [bind] in E.
  assert (RM : match ra_remap a with Some r => _ <- check_remapping_order r ;; Ok r | None => Ok 0 end = Ok 0) by (destruct A3 as [->|(-> & _)]; reflexivity).
  rewrite RM in E. cbn [bind] in E. rewrite H1 in E. cbn [bind] in E. rewrite H3, H4 in E. cbn [open_arpa bind] in E. fold e in E.
  rewrite U2, (bits_arg_is _ _ A4), (bits_arg_is _ _ A5), (u8_small 0) in E by lia. rewrite (qp_build_emb e PF) in E.
  apply bind_inv in E. destruct E as (m' & E & _). apply bind_inv in E. destruct E as (m & E & _). exists m. exact E.
Qed.

(** The sections can be in any order and suffixes can be missing.  If build_trie writes an index then the sections are
    sorted and complete, and score prints the totals of Katz back-off.  Partial: the restrictions of C25 and C41. *)
Theorem C48_trie_accepted_partial : forall x env henv data D secs a p b unk out bytes,
  ext_ok x -> arpa_text data secs -> arpa_file D -> words_listed D ->
  asks_prob a false (lenN D) 0 p b unk -> trie_inputs_ok D secs (qe_t (prob_instance env (pinst false 0))) 0 p b ->
  build_trie_prob x env a (Some (Some data)) = Ok (Wrote out bytes) ->
  collection (reversed D) 0 /\
  exists m qp qb, tp_build_file (qe_t (prob_instance env (pinst false 0))) data (lenN D) 0 unk p b = Ok m /\
    (forall ord v, 2 <= ord <= lenN D -> exists r, q_rank (tp_probs m) (ord - 2) v 0 = Ok r /\ r < 2 ^ p /\ q_access (tp_probs m) (ord - 2) r = Ok (qp ord v)) /\
    (forall ord v, 2 <= ord < lenN D -> exists r, q_rank (tp_backoffs m) (ord - 2) v 1 = Ok r /\ r < 2 ^ b /\ q_access (tp_backoffs m) (ord - 2) r = Ok (qb ord v)) /\
    (closed (entry D) -> extended_nonzero (quantized D qp qb) ->
     forall lines, corpus_ok lines -> lenN (corpus_bytes lines) < 2 ^ 62 ->
     (forall w, In w (concat lines) -> entry D [w] = None -> word_distinguished D (qe_t (prob_instance env (pinst false 0))) m w) ->
     reports (printed (score_program x env henv bytes (corpus_bytes lines))) (quantized D qp qb) (unk_prob D unk) (N.to_nat (lenN D)) lines).
Proof.
  intros x env henv data D secs a p b unk out bytes X AT AF WL AS TI E.
  destruct (trie_prob_built x env a data D secs p b unk out bytes AF AS TI E) as (m0 & EB0).
  pose proof (C58_probs_file data D secs _ p b unk m0 AT AF WL (base_of _ _ _ _ _ _ TI) EB0) as CO. split; [exact CO|].
  destruct (C48_trie_partial x env henv data D secs a 0 p b unk X AT AF CO AS TI) as (file & m & qp & qb & W & _ & EB & Q1 & Q2 & K).
  rewrite E in W. injection W as _ <-. exists m, qp, qb. split; [exact EB|]. split; [exact Q1|]. split; [exact Q2|]. exact K.
Qed.
Print Assumptions C48_trie_accepted_partial.
(** ... for every table, over its supported n-grams, with the contexts the library keeps *)
Theorem C48_trie_accepted_kept_partial : forall x env henv data D secs a p b unk out bytes,
  ext_ok x -> arpa_text data secs -> arpa_file D -> words_listed D ->
  asks_prob a false (lenN D) 0 p b unk -> trie_inputs_ok D secs (qe_t (prob_instance env (pinst false 0))) 0 p b ->
  build_trie_prob x env a (Some (Some data)) = Ok (Wrote out bytes) ->
  collection (reversed D) 0 /\
  exists m qp qb, tp_build_file (qe_t (prob_instance env (pinst false 0))) data (lenN D) 0 unk p b = Ok m /\
    (forall ord v, 2 <= ord <= lenN D -> exists r, q_rank (tp_probs m) (ord - 2) v 0 = Ok r /\ r < 2 ^ p /\ q_access (tp_probs m) (ord - 2) r = Ok (qp ord v)) /\
    (forall ord v, 2 <= ord < lenN D -> exists r, q_rank (tp_backoffs m) (ord - 2) v 1 = Ok r /\ r < 2 ^ b /\ q_access (tp_backoffs m) (ord - 2) r = Ok (qb ord v)) /\
    (forall lines, corpus_ok lines -> lenN (corpus_bytes lines) < 2 ^ 62 ->
     (forall w, In w (concat lines) -> entry D [w] = None -> word_distinguished D (qe_t (prob_instance env (pinst false 0))) m w) ->
     kept_reports (printed (score_program x env henv bytes (corpus_bytes lines))) (supported (quantized D qp qb)) (unk_prob D unk) (N.to_nat (lenN D)) lines).
Proof.
  intros x env henv data D secs a p b unk out bytes X AT AF WL AS TI E.
  destruct (trie_prob_built x env a data D secs p b unk out bytes AF AS TI E) as (m0 & EB0).
  pose proof (C58_probs_file data D secs _ p b unk m0 AT AF WL (base_of _ _ _ _ _ _ TI) EB0) as CO. split; [exact CO|].
  destruct (C48_trie_kept_partial x env henv data D secs a 0 p b unk X AT AF CO AS TI) as (file & m & qp & qb & W & _ & EB & Q1 & Q2 & K).
  rewrite E in W. injection W as _ <-. exists m, qp, qb. split; [exact EB|]. split; [exact Q1|]. split; [exact Q2|]. exact K.
Qed.
Print Assumptions C48_trie_accepted_kept_partial.

(** the table of the examples of C25, C41 and C48 *)
Example C48_trie_accepted_example : ext_ok ex_x /\ arpa_text txfile txsecs /\ arpa_file txD /\ words_listed txD /\
  asks_prob (px_args false 0) false (lenN txD) 0 2 2 default_unk /\ trie_inputs_ok txD txsecs (qe_t (prob_instance (px_env 0) (pinst false 0))) 0 2 2 /\
  exists out bytes, build_trie_prob ex_x (px_env 0) (px_args false 0) (Some (Some txfile)) = Ok (Wrote out bytes).
Proof.
  destruct (C48_trie_example_hyps 0 ltac:(lia)) as (H1 & H2 & H3 & H4 & H5 & H6 & H7). destruct C58_probs_example as (_ & _ & WL & _).
  split; [exact H1|]. split; [exact H2|]. split; [exact H3|]. split; [exact WL|]. split; [exact H5|]. split; [exact H6|].
  destruct (C48_trie_example 0 ltac:(lia)) as (file & E & _). eexists _, file. exact E.
Qed.
(** the first two bigrams swapped: nothing is written *)
Definition swapped_secs : list (list (list N)) := match txsecs with [u; b1 :: b2 :: bs; t] => [u; b2 :: b1 :: bs; t] | l => l end.
Definition swapped_file : list N :=
  text_of ([[92; 100; 97; 116; 97; 92]] ++ count_lines 1 (map lenN swapped_secs) ++ [[]] ++ section_lines 1 swapped_secs [0%nat; 0%nat]) ++ [92; 101; 110; 100; 92; 10].
Example swapped_differs : swapped_file <> txfile /\ lenN swapped_file = lenN txfile.
Proof. split; [|vm_compute; reflexivity]. intros H. vm_compute in H. discriminate H. Qed.
Example C48_trie_unsorted_example : build_trie_prob ex_x (px_env 0) (px_args false 0) (Some (Some swapped_file)) = Throw.
Proof. vm_compute. reflexivity. Qed.
