(** * Property C58, probability tries: a trie that was built has a sorted and complete ARPA file *)
From Coq Require Import Floats.SpecFloat.
From Verif Require Import Prelude BitFacts M_Word M_Bits Spec M_HashVec M_Mph P_Mph M_Text P_Text P_Text2 M_Trie Spec_Trie P_Trie1 P_Trie2 P_SeqColl P_Typed M_Score Spec_Katz P_Score2 M_Quant M_MphProb Spec_Arpa Spec_Supported P_Supported P_Values P_MphProb Props_MphProb
  M_TrieProb P_TrieProb1 P_TrieProb4 Props_TrieProb M_Save M_Save2 Spec_Save P_Save P_Save2 Props_Save Props_Save2 M_ArpaFile Spec_ArpaFile Props_ArpaFile M_ScoreCorpus Spec_Corpus Props_ScoreCorpus Spec_Complete P_Complete Props_Complete P_AcceptProb.
From Coq Require Import Permutation Sorting.Sorted.

(** every word of every n-gram is a unigram *)
Definition words_listed (D : entries) : Prop := forall k g, In g (grams D k) -> Forall (fun w => In [w] (grams D 0)) g.
Lemma arpa_gram_files D secs env remap pq bq : arpa_file D -> words_listed D -> trie_base_ok D secs env remap pq bq -> gram_files D.
Proof.
  intros AF WL TI.
  assert (EX : forall k g, In g (grams D k) -> exists l e, nthN D k = Some l /\ In e l /\ fst e = g).
  { intros k g Hg. unfold grams in Hg. destruct (nthN D k) as [l|] eqn:E; [|destruct Hg]. apply in_map_iff in Hg. destruct Hg as (e & <- & He). eauto. }
  constructor.
  - apply (af_order _ AF).
  - apply (af_size _ AF).
  - intros k g Hg. destruct (EX k g Hg) as (l & e & Hl & He & EG). destruct (af_words _ AF k l e Hl He) as [L W]. rewrite EG in *. split; [exact L|].
    pose proof (WL k g Hg) as V. clear - W V. rewrite Forall_forall in *. intros w Iw. split; [apply W; exact Iw|]. split; [apply W; exact Iw|apply V; exact Iw].
  - intros k g Hg. destruct (EX k g Hg) as (l & e & Hl & He & EG). destruct (Forall2_nthN' _ _ _ (vi_lines _ _ _ _ _ (bo_values _ _ _ _ _ _ TI)) _ _ Hl) as (ls & Hs & F2).
    pose proof (Forall_nthN _ _ _ _ (bo_lens _ _ _ _ _ _ TI) Hs) as FL. cbn in FL. apply In_nthN in He. destruct He as (i & He). destruct (Forall2_nthN' _ _ _ F2 _ _ He) as (x & Hx & (num & rest & p & EL & _)).
    pose proof (Forall_nthN _ _ _ _ FL Hx) as LX. cbn in LX. rewrite EL, lenN_app, lenN_cons, lenN_app, EG in LX. lia.
  - apply (af_distinct _ AF).
Qed.

(** An ARPA file whose lines are in no particular order and whose suffixes may be missing: if the trie without
    remapping is built then the reversed n-grams are sorted and every suffix is there. *)
Theorem C58_probs_sorted : forall D secs env pq bq unk m, arpa_file D -> words_listed D -> trie_base_ok D secs env 0 pq bq ->
  tp_build env secs (lenN D) 0 unk pq bq = Ok m -> collection (reversed D) 0.
Proof.
  intros D secs env pq bq unk m AF WL TI E. eapply paccepted_collection; eauto. eapply arpa_gram_files; eauto.
Qed.
Print Assumptions C58_probs_sorted.
(** the same for the text of the file *)
Theorem C58_probs_file : forall data D secs env pq bq unk m, arpa_text data secs -> arpa_file D -> words_listed D -> trie_base_ok D secs env 0 pq bq ->
  tp_build_file env data (lenN D) 0 unk pq bq = Ok m -> collection (reversed D) 0.
Proof.
  intros data D secs env pq bq unk m AT AF WL TI E. rewrite (C40_trie_from_file data secs) in E by exact AT. eapply C58_probs_sorted; eauto.
Qed.
Print Assumptions C58_probs_file.
(** unsorted sections: the build does not end normally *)
Theorem C58_probs_unsorted : forall data D secs env pq bq unk k, arpa_text data secs -> arpa_file D -> words_listed D -> trie_base_ok D secs env 0 pq bq -> 0 < k ->
  ~ StronglySorted (gram_lt (grams D 0)) (map (@rev _) (grams D k)) -> forall m, tp_build_file env data (lenN D) 0 unk pq bq <> Ok m.
Proof.
  intros data D secs env pq bq unk k AT AF WL TI K NS m E. apply NS. pose proof (C58_probs_file data D secs env pq bq unk m AT AF WL TI E) as C.
  pose proof (col_sorted _ _ C k K) as S. rewrite <- !grams_reversed, !grams_revD' in S.
  assert (U : map (@rev _) (grams D 0) = grams D 0).
  { rewrite <- (map_id (grams D 0)) at 2. apply map_ext_in. intros g Hg. unfold grams in Hg. destruct (nthN D 0) as [l|] eqn:El; [|destruct Hg]. apply in_map_iff in Hg. destruct Hg as (e & <- & He).
    destruct (af_words _ AF 0 l e El He) as [L _]. destruct (fst e) as [|w [|w' g]]; [reflexivity|reflexivity|]. rewrite !lenN_cons in L. lia. }
  rewrite U in S. exact S.
Qed.
Print Assumptions C58_probs_unsorted.
(** Building from such a file, saving and loading the index, and scoring a corpus: if the build ends normally then the
    program reports the Katz scores.  Partial as C41_trie_programs_partial (which needs the order of the lines as a
    hypothesis; here it is a consequence). *)
Theorem C41_trie_accepted_partial : forall (x : ext) (header : N) data D secs env pq bq unk m, ext_ok x -> is_u8 header -> is_float unk ->
  arpa_text data secs -> arpa_file D -> words_listed D -> trie_inputs_ok D secs env 0 pq bq -> tp_build_file env data (lenN D) 0 unk pq bq = Ok m ->
  exists qp qb, closed (entry D) -> extended_nonzero (quantized D qp qb) ->
     forall lines, corpus_ok lines -> lenN (corpus_bytes lines) < 2 ^ 62 ->
     (forall w, In w (concat lines) -> entry D [w] = None -> word_distinguished D env m w) ->
     let index := save_file header (save_tpl x) m in
     reports (' (m', _) <- load_file (load_tpl x) index ;; tp_corpus env m' (corpus_bytes lines)) (quantized D qp qb) (unk_prob D unk) (N.to_nat (lenN D)) lines.
Proof.
  intros x header data D secs env pq bq unk m X H FU AT AF WL TI E. pose proof (C58_probs_file data D secs env pq bq unk m AT AF WL (base_of _ _ _ _ _ _ TI) E) as C.
  destruct (C41_trie_programs_partial x header data D secs env 0 pq bq unk X H FU AT AF C TI) as (m' & qp & qb & E' & K). assert (m' = m) by congruence. subst m'. exists qp, qb. exact K.
Qed.
Print Assumptions C41_trie_accepted_partial.

(** the table of the examples of C25 and C41 *)
Example C58_probs_example : arpa_text txfile txsecs /\ arpa_file txD /\ words_listed txD /\ trie_inputs_ok txD txsecs (txenv 0 [77]) 0 2 2 /\
  exists m, tp_build_file (txenv 0 [77]) txfile (lenN txD) 0 default_unk 2 2 = Ok m.
Proof.
  split; [exact C41_ex_text|]. split; [exact tx_arpa|]. split; [|split].
  - intros k g I. destruct (txg k) as [->|[->|[->|E]]].
    4: { rewrite <- grams_reversed, grams_revD' in E. destruct (grams txD k); [destruct I|discriminate E]. }
    all: vm_compute in I; repeat (destruct I as [<-|I]; [repeat (constructor; [vm_compute; tauto|]); constructor|]); destruct I.
  - apply tx_inputs; [lia|]. exists 77. split; [reflexivity|vm_compute; reflexivity].
  - destruct (tp_build_file (txenv 0 [77]) txfile (lenN txD) 0 default_unk 2 2) as [m| |] eqn:E; [exists m; reflexivity|vm_compute in E; discriminate E|vm_compute in E; discriminate E].
Qed.
(** the same lines, two bigrams swapped: all suffixes are there, and the build throws *)
Definition unsE : list (list (gram * (N * N))) := [
  [([[97]], (1, 2)); ([[98]], (2, 3)); ([[99]], (3, 1))];
  [([[99]; [97]], (3, 4)); ([[97]; [97]], (4, 1)); ([[97]; [98]], (1, 2)); ([[98]; [99]], (2, 3))]].
Definition unsD : entries := map (map exent) unsE.
Definition unssecs : list (list (list N)) := map (map exline) unsE.
Lemma unsks k l : nthN unsD k = Some l -> k = 0 \/ k = 1.
Proof. intro H. apply nthN_lt in H. change (lenN unsD) with 2 in H. lia. Qed.
Example C58_probs_unsorted_example : arpa_file unsD /\ words_listed unsD /\ trie_base_ok unsD unssecs (txenv 0 [77]) 0 2 2 /\
  ~ StronglySorted (gram_lt (grams unsD 0)) (map (@rev _) (grams unsD 1)) /\ tp_build (txenv 0 [77]) unssecs 2 0 default_unk 2 2 = Throw.
Proof.
  split; [|split; [|split; [|split]]].
  - split.
    + vm_compute. split; discriminate.
    + intros k l H. destruct (unsks k l H) as [->| ->]; injection H as <-; (split; [discriminate|reflexivity]).
    + intros k l e H I. destruct (unsks k l H) as [->| ->]; injection H as <-; cbn [map unsD unsE exent In fst snd] in I;
        repeat (destruct I as [I|I]; [subst e; split; [reflexivity|]; cbn [fst]; repeat (constructor; [split; [split; [discriminate|cbn; intuition discriminate]|cbn; intuition discriminate]|]); constructor|]); destruct I.
    + intro k. unfold grams, level. destruct (nthN unsD k) as [l|] eqn:H; [|constructor]. destruct (unsks k l H) as [->| ->]; injection H as <-; cbn [map unsD unsE exent fst];
        repeat (constructor; [cbn; intuition discriminate|]); constructor.
    + intros k l e H I. destruct (unsks k l H) as [->| ->]; injection H as <-; cbn [map unsD unsE exent In fst snd] in I;
        repeat (destruct I as [I|I]; [subst e; split; vm_compute; reflexivity|]); destruct I.
  - intros k g I. unfold grams in I. destruct (nthN unsD k) as [l|] eqn:H; [|destruct I]. destruct (unsks k l H) as [->| ->]; injection H as <-;
      vm_compute in I; repeat (destruct I as [<-|I]; [repeat (constructor; [vm_compute; tauto|]); constructor|]); destruct I.
  - assert (TX : trie_inputs_ok txD txsecs (txenv 0 [77]) 0 2 2) by (apply tx_inputs; [lia|]; exists 77; split; [reflexivity|vm_compute; reflexivity]).
    split.
    + split.
      * assert (L : Forall (Forall (fun e => arpa_line exsd (exent e) (exline e))) unsE).
        { repeat constructor; unfold arpa_line; cbn [exent exline fst snd].
          all: match goal with |- context [exline (_, (?a, ?b))] => exists [48 + a], (if b =? 0 then [] else [9; 48 + b]), (exf a); split; [reflexivity|]; split; [vm_compute; reflexivity|]; split; [vm_compute; reflexivity|] end.
          all: first [left; split; vm_compute; reflexivity | right; eexists; split; [reflexivity|vm_compute; reflexivity]]. }
        unfold unsD, unssecs. clear - L. induction L as [|l E HL L IH]; constructor; [|exact IH]. clear - HL. induction HL; constructor; assumption.
      * intro l. apply Permutation_refl.
      * split; [lia|]. intros k l Hk H. destruct (unsks k l H) as [->| ->]; [lia|]; injection H as <-; vm_compute; discriminate.
      * split; [lia|]. intros k l Hk Hk2 H. destruct (unsks k l H) as [->| ->]; [lia|]; exfalso; vm_compute in Hk2; discriminate Hk2.
    + lia.
    + unfold unssecs. repeat constructor.
    + reflexivity.
    + intros l H. apply (ti_vocab _ _ _ _ _ _ TX). exact H.
    + exact (ti_pad _ _ _ _ _ _ TX).
  - intros S. pose proof (ss_nthN _ _ S 0 1 [[97]; [99]] [[97]; [97]] ltac:(lia) eq_refl eq_refl) as L.
    assert (ND : NoDup (grams unsD 0)) by (vm_compute; repeat (constructor; [intros Q; repeat (destruct Q as [Q|Q]; [discriminate Q|]); destruct Q|]); constructor).
    inversion L as [a b r s LE W|a r s L' E1 E2]; subst.
    + destruct W as (i & j & LT & I & J). pose proof (NoDup_nthN _ _ _ _ ND I J). lia.
    + inversion L' as [a b r s LE W|a' r' s' L'' E1' E2']; subst. destruct W as (i & j & LT & I & J).
      pose proof (NoDup_nthN _ i 2 _ ND I eq_refl). pose proof (NoDup_nthN _ j 0 _ ND J eq_refl). lia.
  - vm_compute. reflexivity.
Qed.
