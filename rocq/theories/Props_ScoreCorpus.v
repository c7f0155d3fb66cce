(** * C41: the program score on a corpus *)
From Coq Require Import Floats.SpecFloat.
From Verif Require Import Prelude BitFacts M_Word Spec M_Text P_Text P_Text2 M_Pool M_Trie Spec_Trie M_Score Spec_Katz P_Score1 P_Score2 P_Score3 Props_Score M_Quant P_Quant M_MphProb Spec_Arpa
  P_Sentence P_Values P_MphProb Props_MphProb M_TrieProb P_TrieProb1 P_TrieProb2 P_TrieProb3 P_TrieProb4 Props_TrieProb P_SeqColl P_Trie4 M_ArpaFile Spec_ArpaFile P_ArpaFile Props_ArpaFile
  Spec_Corpus M_ScoreCorpus P_ScoreCorpus Spec_Supported P_Supported.
From Verif Require Import M_Save M_Save2 Spec_Save P_Save P_Save2 Props_Save Props_Save2.

Lemma mp_sentence_gen env m buf : forall ws s, mp_sentence env m buf s ws = sentence (mp_score env m) buf s ws.
Proof.
  induction ws as [|w ws IH]; intro s; [reflexivity|]. cbn [mp_sentence sentence]. destruct (mp_score env m buf s w) as [[[x s1] o]| |]; cbn [bind]; [rewrite IH; reflexivity|reflexivity|reflexivity].
Qed.
Lemma tp_sentence_gen env m buf : forall ws s, tp_sentence env m buf s ws = sentence (tp_score env m) buf s ws.
Proof.
  induction ws as [|w ws IH]; intro s; [reflexivity|]. cbn [tp_sentence sentence]. destruct (tp_score env m buf s w) as [[[x s1] o]| |]; cbn [bind]; [rewrite IH; reflexivity|reflexivity|reflexivity].
Qed.
Lemma mp_sentence_ops env m buf : forall ws s out s', mp_sentence env m buf s ws = Ok (out, s') -> foldM (mp_op env m) (map (fun w => Some (buf, w)) ws) s = Ok s'.
Proof.
  induction ws as [|w ws IH]; intros s out s' H; [injection H as _ <-; reflexivity|]. cbn [mp_sentence map foldM mp_op] in *.
  apply bind_ok in H. destruct H as ([[x s1] o] & E & H). rewrite E. cbn [bind]. apply bind_ok in H. destruct H as ([xs s2] & E2 & H). injection H as <- <-. eapply IH. exact E2.
Qed.
Lemma tp_sentence_ops env m buf : forall ws s out s', tp_sentence env m buf s ws = Ok (out, s') -> foldM (tp_op env m) (map (fun w => Some (buf, w)) ws) s = Ok s'.
Proof.
  induction ws as [|w ws IH]; intros s out s' H; [injection H as _ <-; reflexivity|]. cbn [tp_sentence map foldM tp_op] in *.
  apply bind_ok in H. destruct H as ([[x s1] o] & E & H). rewrite E. cbn [bind]. apply bind_ok in H. destruct H as ([xs s2] & E2 & H). injection H as <- <-. eapply IH. exact E2.
Qed.
Lemma foldM_app {A B} (f : A -> B -> res A) a : forall b s, foldM f (a ++ b) s = bind (foldM f a s) (foldM f b).
Proof. induction a as [|x a IH]; intros b s; [reflexivity|]. cbn [app foldM]. destruct (f s x); cbn [bind]; [apply IH|reflexivity|reflexivity]. Qed.

(** a corpus line is at most as long as the text *)
Lemma line_short lines ws : corpus_ok lines -> In ws lines -> lenN (corpus_bytes lines) < 2 ^ 62 -> lenN ws < 2 ^ 62.
Proof.
  intros HL HI HB. destruct (corpus_len lines HL) as [_ B]. apply in_split in HI. destruct HI as (a & b & ->). rewrite concat_app in B. cbn [concat] in B. rewrite !lenN_app in B. lia.
Qed.

(** the report of score on a corpus, for a model [M] of the n-grams: numbers of tokens, of sentences and of unknown
    words, sum of the log probabilities of the sentences, and sum of those of the unknown words.  Sums are computed
    in binary32, word by word, from left to right. *)
Definition reports (r : res (totals * N)) (M : list (list N) -> option (spec_float * spec_float)) (unk : spec_float) (n : nat) (lines : list (list (list N))) : Prop :=
  exists tot, r = Ok (tot, lenN (concat lines)) /\
    tt_sentences tot = lenN lines /\
    tt_oovs tot = corpus_oovs M lines /\
    feq (tt_prob tot) (corpus_prob M unk n lines) /\
    feq (tt_oov_prob tot) (corpus_oov_prob M unk n lines) /\
    (* the number of known words does not wrap around *)
    known_tokens (lenN (concat lines)) tot = lenN (filter (fun w => negb (oov M w)) (concat lines)).

(** the same with the scores of the kept contexts: holds of tables with back-off weights of 0 too *)
Definition kept_reports (r : res (totals * N)) (M : list (list N) -> option (spec_float * spec_float)) (unk : spec_float) (n : nat) (lines : list (list (list N))) : Prop :=
  exists tot, r = Ok (tot, lenN (concat lines)) /\
    tt_sentences tot = lenN lines /\
    tt_oovs tot = corpus_oovs M lines /\
    feq (tt_prob tot) (kept_corpus_prob M unk n lines) /\
    feq (tt_oov_prob tot) (kept_corpus_oov_prob M unk n lines) /\
    known_tokens (lenN (concat lines)) tot = lenN (filter (fun w => negb (oov M w)) (concat lines)).

Lemma filter_split {A} (f : A -> bool) l : lenN l = lenN (filter f l) + lenN (filter (fun x => negb (f x)) l).
Proof. induction l as [|x l IH]; [reflexivity|]. cbn [filter]. destruct (f x); cbn [negb]; rewrite !lenN_cons, IH; lia. Qed.
Lemma reports_of score (Inv : pstate N -> Prop) M unk n lines st :
  (forall pre post ws s, Inv s -> In ws lines -> corpus_bytes lines = pre ++ join ws ++ 10 :: post ->
    exists s1 out s2, ps_init s = Ok s1 /\ sentence score (corpus_bytes lines) s1 (word_ranges (lenN pre) ws) = Ok (out, s2) /\ Inv s2 /\
      Forall2 feq (map fst out) (katz_scores M unk n ws) /\ map snd out = map (oov M) ws /\ ps_oovs s2 = lenN (filter (oov M) ws)) ->
  corpus_ok lines -> lenN (corpus_bytes lines) < 2 ^ 62 -> Inv st -> reports (score_corpus score (corpus_bytes lines) st) M unk n lines.
Proof.
  intros HS HL HB IV. destruct (gen_corpus score Inv (katz_scores M unk n) (oov M) lines HS HL HB st IV) as (tot & E & O1 & O2 & P1 & P2).
  exists tot. split; [exact E|]. split; [exact O2|]. split; [exact O1|]. split; [exact P1|]. split; [exact P2|].
  unfold known_tokens. rewrite O1. pose proof (filter_split (oov M) (concat lines)) as FS. destruct (corpus_len lines HL) as [_ B]. rewrite sub64_small; [lia|lia|].
  apply N.le_lt_trans with (1 := B). apply N.lt_trans with (1 := HB). reflexivity.
Qed.
Lemma kept_reports_of score (Inv : pstate N -> Prop) M unk n lines st :
  (forall pre post ws s, Inv s -> In ws lines -> corpus_bytes lines = pre ++ join ws ++ 10 :: post ->
    exists s1 out s2, ps_init s = Ok s1 /\ sentence score (corpus_bytes lines) s1 (word_ranges (lenN pre) ws) = Ok (out, s2) /\ Inv s2 /\
      Forall2 feq (map fst out) (kept_scores M unk n ws) /\ map snd out = map (oov M) ws /\ ps_oovs s2 = lenN (filter (oov M) ws)) ->
  corpus_ok lines -> lenN (corpus_bytes lines) < 2 ^ 62 -> Inv st -> kept_reports (score_corpus score (corpus_bytes lines) st) M unk n lines.
Proof.
  intros HS HL HB IV. destruct (gen_corpus score Inv (kept_scores M unk n) (oov M) lines HS HL HB st IV) as (tot & E & O1 & O2 & P1 & P2).
  exists tot. split; [exact E|]. split; [exact O2|]. split; [exact O1|]. split; [exact P1|]. split; [exact P2|].
  unfold known_tokens. rewrite O1. pose proof (filter_split (oov M) (concat lines)) as FS. destruct (corpus_len lines HL) as [_ B]. rewrite sub64_small; [lia|lia|].
  apply N.le_lt_trans with (1 := B). apply N.lt_trans with (1 := HB). reflexivity.
Qed.
Lemma Forall2_feq_refl l : Forall2 feq l l. Proof. induction l; constructor; [apply feq_refl|assumption]. Qed.
Lemma oov_quantized D qp qb w : oov (quantized D qp qb) w = match entry D [w] with Some _ => false | None => true end.
Proof. unfold oov, quantized. destruct (entry D [w]) as [[p b]|]; reflexivity. Qed.

Lemma oov_supported D qp qb w : oov (supported (quantized D qp qb)) w = match entry D [w] with Some _ => false | None => true end.
Proof. unfold oov. rewrite supported_one. apply oov_quantized. Qed.

(** ** the hash model *)
Theorem C41_mph_partial : forall data D secs env pq bq unk, arpa_text data secs -> arpa_file D -> prob_inputs_ok D secs env pq bq ->
  exists m qp qb, mp_build_file env data (lenN D) unk pq bq = Ok m /\
    (* the quantizer: the centre of the rank chosen for the value *)
    (forall ord x, 2 <= ord <= lenN D -> exists r, q_rank (mp_probs m) (ord - 2) x 0 = Ok r /\ r < 2 ^ pq /\ q_access (mp_probs m) (ord - 2) r = Ok (qp ord x)) /\
    (forall ord x, 2 <= ord < lenN D -> exists r, q_rank (mp_backoffs m) (ord - 2) x 1 = Ok r /\ r < 2 ^ bq /\ q_access (mp_backoffs m) (ord - 2) r = Ok (qb ord x)) /\
    (closed (entry D) -> extended_nonzero (quantized D qp qb) ->
     forall lines, corpus_ok lines -> lenN (corpus_bytes lines) < 2 ^ 62 ->
     (forall ws a g c, In ws lines -> ws = a ++ g ++ c -> 1 <= lenN g <= lenN D -> entry D g = None -> distinguished D env m g) ->
     reports (mp_corpus env m (corpus_bytes lines)) (quantized D qp qb) (unk_prob D unk) (N.to_nat (lenN D)) lines).
Proof.
  intros data D secs env pq bq unk AT AF PI. destruct (C25_mph_file_partial data D secs env pq bq unk AT AF PI) as (m & qp & qb & EB & Q1 & Q2 & K).
  exists m, qp, qb. split; [exact EB|]. split; [exact Q1|]. split; [exact Q2|]. intros HC HX lines HL HB HD. specialize (K HC HX).
  assert (MO : mp_order m = lenN D).
  { rewrite (C40_mph_from_file data secs env (lenN D) unk pq bq AT) in EB. destruct (build_ok D secs env pq bq AF PI unk) as (m' & EB' & MR). rewrite EB' in EB. injection EB as <-. exact (mr_order _ _ _ _ _ _ MR). }
  pose proof (af_order _ AF) as HO. rewrite <- MO in HO. unfold mp_corpus.
  destruct (new_ok (mp_order m) HO 0) as (s0 & E0 & W0 & L0 & O0). unfold mp_state. rewrite E0. cbn [bind].
  apply (reports_of (mp_score env m) (fun s => exists hist, foldM (mp_op env m) hist s0 = Ok s)); [|exact HL|exact HB|exists []; reflexivity].
  intros pre post ws s (hist & HH) IW EQ. pose proof (mp_ops_wf env m HO hist s0 s W0 HH) as Ws. destruct (init_wf (mp_order m) HO s Ws) as (s1 & E1 & _).
  assert (HT : holds_text (corpus_bytes lines) (lenN pre, lenN pre + lenN (join ws)) (join ws)) by (rewrite EQ; apply holds_mid; reflexivity).
  destruct (K (corpus_bytes lines) (lenN pre) ws s0 hist s s1 HT (line_short lines ws HL IW HB) (fun a g c => HD ws a g c IW) E0 HH E1) as (out & s2 & A1 & A2 & A3 & A4 & _).
  exists s1, out, s2. split; [exact E1|]. split; [rewrite <- mp_sentence_gen; exact A1|]. split.
  { exists (hist ++ [None] ++ map (fun w => Some (corpus_bytes lines, w)) (word_ranges (lenN pre) ws)). rewrite foldM_app, HH. cbn [bind app foldM mp_op]. rewrite E1. cbn [bind]. eapply mp_sentence_ops. exact A1. }
  split; [exact A2|]. split; [rewrite A3; apply map_ext; intro w; symmetry; apply oov_quantized|].
  rewrite A4. f_equal. apply filter_ext. intro w. symmetry. apply oov_quantized.
Qed.
(** ... for every table, over its supported n-grams (C25_supported_all) *)
Theorem C41_mph_kept_partial : forall data D secs env pq bq unk, arpa_text data secs -> arpa_file D -> prob_inputs_ok D secs env pq bq ->
  exists m qp qb, mp_build_file env data (lenN D) unk pq bq = Ok m /\
    (* the quantizer: the centre of the rank chosen for the value *)
    (forall ord x, 2 <= ord <= lenN D -> exists r, q_rank (mp_probs m) (ord - 2) x 0 = Ok r /\ r < 2 ^ pq /\ q_access (mp_probs m) (ord - 2) r = Ok (qp ord x)) /\
    (forall ord x, 2 <= ord < lenN D -> exists r, q_rank (mp_backoffs m) (ord - 2) x 1 = Ok r /\ r < 2 ^ bq /\ q_access (mp_backoffs m) (ord - 2) r = Ok (qb ord x)) /\
    (forall lines, corpus_ok lines -> lenN (corpus_bytes lines) < 2 ^ 62 ->
     (forall ws a g c, In ws lines -> ws = a ++ g ++ c -> 1 <= lenN g <= lenN D -> entry D g = None -> distinguished D env m g) ->
     kept_reports (mp_corpus env m (corpus_bytes lines)) (supported (quantized D qp qb)) (unk_prob D unk) (N.to_nat (lenN D)) lines).
Proof.
  intros data D secs env pq bq unk AT AF PI. destruct (C25_mph_kept_partial D secs env pq bq unk AF PI) as (m & qp & qb & EB & Q1 & Q2 & K).
  rewrite (C40_mph_from_file data secs env (lenN D) unk pq bq AT). exists m, qp, qb. split; [exact EB|]. split; [exact Q1|]. split; [exact Q2|]. intros lines HL HB HD.
  assert (MO : mp_order m = lenN D).
  { destruct (build_ok D secs env pq bq AF PI unk) as (m' & EB' & MR). rewrite EB' in EB. injection EB as <-. exact (mr_order _ _ _ _ _ _ MR). }
  pose proof (af_order _ AF) as HO. rewrite <- MO in HO. unfold mp_corpus.
  destruct (new_ok (mp_order m) HO 0) as (s0 & E0 & W0 & L0 & O0). unfold mp_state. rewrite E0. cbn [bind].
  apply (kept_reports_of (mp_score env m) (fun s => exists hist, foldM (mp_op env m) hist s0 = Ok s)); [|exact HL|exact HB|exists []; reflexivity].
  intros pre post ws s (hist & HH) IW EQ. pose proof (mp_ops_wf env m HO hist s0 s W0 HH) as Ws. destruct (init_wf (mp_order m) HO s Ws) as (s1 & E1 & _).
  assert (HT : holds_text (corpus_bytes lines) (lenN pre, lenN pre + lenN (join ws)) (join ws)) by (rewrite EQ; apply holds_mid; reflexivity).
  destruct (K (corpus_bytes lines) (lenN pre) ws s0 hist s s1 HT (line_short lines ws HL IW HB) (fun a g c => HD ws a g c IW) E0 HH E1) as (out & s2 & A1 & A2 & A3 & A4 & _).
  exists s1, out, s2. split; [exact E1|]. split; [rewrite <- mp_sentence_gen; exact A1|]. split.
  { exists (hist ++ [None] ++ map (fun w => Some (corpus_bytes lines, w)) (word_ranges (lenN pre) ws)). rewrite foldM_app, HH. cbn [bind app foldM mp_op]. rewrite E1. cbn [bind]. eapply mp_sentence_ops. exact A1. }
  split; [rewrite A2; apply Forall2_feq_refl|]. split; [rewrite A3; apply map_ext; intro w; symmetry; apply oov_supported|].
  rewrite A4. f_equal. apply filter_ext. intro w. symmetry. apply oov_supported.
Qed.
(** ** the trie *)
Theorem C41_trie_partial : forall data D secs env remap pq bq unk, arpa_text data secs -> arpa_file D -> collection (reversed D) remap -> trie_inputs_ok D secs env remap pq bq ->
  exists m qp qb, tp_build_file env data (lenN D) remap unk pq bq = Ok m /\
    (forall ord x, 2 <= ord <= lenN D -> exists r, q_rank (tp_probs m) (ord - 2) x 0 = Ok r /\ r < 2 ^ pq /\ q_access (tp_probs m) (ord - 2) r = Ok (qp ord x)) /\
    (forall ord x, 2 <= ord < lenN D -> exists r, q_rank (tp_backoffs m) (ord - 2) x 1 = Ok r /\ r < 2 ^ bq /\ q_access (tp_backoffs m) (ord - 2) r = Ok (qb ord x)) /\
    (closed (entry D) -> extended_nonzero (quantized D qp qb) ->
     forall lines, corpus_ok lines -> lenN (corpus_bytes lines) < 2 ^ 62 ->
     (forall w, In w (concat lines) -> entry D [w] = None -> word_distinguished D env m w) ->
     reports (tp_corpus env m (corpus_bytes lines)) (quantized D qp qb) (unk_prob D unk) (N.to_nat (lenN D)) lines).
Proof.
  intros data D secs env remap pq bq unk AT AF CO TI. destruct (C25_trie_file_partial data D secs env remap pq bq unk AT AF CO TI) as (m & qp & qb & EB & Q1 & Q2 & K).
  exists m, qp, qb. split; [exact EB|]. split; [exact Q1|]. split; [exact Q2|]. intros HC HX lines HL HB HD. specialize (K HC HX).
  assert (MO : tp_order m = lenN D).
  { rewrite (C40_trie_from_file data secs env (lenN D) remap unk pq bq AT) in EB. unfold tp_build in EB. repeat (apply bind_ok in EB; destruct EB as (? & _ & EB)).
    destruct (lenN secs <? lenN D); [discriminate|]. apply bind_ok in EB; destruct EB as ([pb bb] & _ & EB). destruct (lenN D <? lenN secs); [discriminate|].
    repeat (apply bind_ok in EB; destruct EB as (? & _ & EB)). injection EB as <-. reflexivity. }
  pose proof (af_order _ AF) as HO. rewrite <- MO in HO. unfold tp_corpus.
  destruct (new_ok (tp_order m) HO 0) as (s0 & E0 & W0 & L0 & O0). unfold tp_state. rewrite E0. cbn [bind].
  apply (reports_of (tp_score env m) (fun s => exists hist, foldM (tp_op env m) hist s0 = Ok s)); [|exact HL|exact HB|exists []; reflexivity].
  intros pre post ws s (hist & HH) IW EQ. pose proof (tp_ops_wf env m HO hist s0 s W0 HH) as Ws. destruct (init_wf (tp_order m) HO s Ws) as (s1 & E1 & _).
  assert (HT : holds_text (corpus_bytes lines) (lenN pre, lenN pre + lenN (join ws)) (join ws)) by (rewrite EQ; apply holds_mid; reflexivity).
  destruct (K (corpus_bytes lines) (lenN pre) ws s0 hist s s1 HT (line_short lines ws HL IW HB)) as (out & s2 & A1 & A2 & A3 & A4 & _); [|exact E0|exact HH|exact E1|].
  { intros w HI. apply HD. apply in_concat. exists ws. auto. }
  exists s1, out, s2. split; [exact E1|]. split; [rewrite <- tp_sentence_gen; exact A1|]. split.
  { exists (hist ++ [None] ++ map (fun w => Some (corpus_bytes lines, w)) (word_ranges (lenN pre) ws)). rewrite foldM_app, HH. cbn [bind app foldM tp_op]. rewrite E1. cbn [bind]. eapply tp_sentence_ops. exact A1. }
  split; [exact A2|]. split; [rewrite A3; apply map_ext; intro w; symmetry; apply oov_quantized|].
  rewrite A4. f_equal. apply filter_ext. intro w. symmetry. apply oov_quantized.
Qed.
(** ... for every table, over its supported n-grams (C25_supported_all) *)
Theorem C41_trie_kept_partial : forall data D secs env remap pq bq unk, arpa_text data secs -> arpa_file D -> collection (reversed D) remap -> trie_inputs_ok D secs env remap pq bq ->
  exists m qp qb, tp_build_file env data (lenN D) remap unk pq bq = Ok m /\
    (forall ord x, 2 <= ord <= lenN D -> exists r, q_rank (tp_probs m) (ord - 2) x 0 = Ok r /\ r < 2 ^ pq /\ q_access (tp_probs m) (ord - 2) r = Ok (qp ord x)) /\
    (forall ord x, 2 <= ord < lenN D -> exists r, q_rank (tp_backoffs m) (ord - 2) x 1 = Ok r /\ r < 2 ^ bq /\ q_access (tp_backoffs m) (ord - 2) r = Ok (qb ord x)) /\
    (forall lines, corpus_ok lines -> lenN (corpus_bytes lines) < 2 ^ 62 ->
     (forall w, In w (concat lines) -> entry D [w] = None -> word_distinguished D env m w) ->
     kept_reports (tp_corpus env m (corpus_bytes lines)) (supported (quantized D qp qb)) (unk_prob D unk) (N.to_nat (lenN D)) lines).
Proof.
  intros data D secs env remap pq bq unk AT AF CO TI. destruct (C25_trie_kept_partial D secs env remap pq bq unk AF CO TI) as (m & qp & qb & EB & Q1 & Q2 & K).
  rewrite (C40_trie_from_file data secs env (lenN D) remap unk pq bq AT). exists m, qp, qb. split; [exact EB|]. split; [exact Q1|]. split; [exact Q2|]. intros lines HL HB HD.
  assert (MO : tp_order m = lenN D).
  { unfold tp_build in EB. repeat (apply bind_ok in EB; destruct EB as (? & _ & EB)).
    destruct (lenN secs <? lenN D); [discriminate|]. apply bind_ok in EB; destruct EB as ([pb bb] & _ & EB). destruct (lenN D <? lenN secs); [discriminate|].
    repeat (apply bind_ok in EB; destruct EB as (? & _ & EB)). injection EB as <-. reflexivity. }
  pose proof (af_order _ AF) as HO. rewrite <- MO in HO. unfold tp_corpus.
  destruct (new_ok (tp_order m) HO 0) as (s0 & E0 & W0 & L0 & O0). unfold tp_state. rewrite E0. cbn [bind].
  apply (kept_reports_of (tp_score env m) (fun s => exists hist, foldM (tp_op env m) hist s0 = Ok s)); [|exact HL|exact HB|exists []; reflexivity].
  intros pre post ws s (hist & HH) IW EQ. pose proof (tp_ops_wf env m HO hist s0 s W0 HH) as Ws. destruct (init_wf (tp_order m) HO s Ws) as (s1 & E1 & _).
  assert (HT : holds_text (corpus_bytes lines) (lenN pre, lenN pre + lenN (join ws)) (join ws)) by (rewrite EQ; apply holds_mid; reflexivity).
  destruct (K (corpus_bytes lines) (lenN pre) ws s0 hist s s1 HT (line_short lines ws HL IW HB)) as (out & s2 & A1 & A2 & A3 & A4 & _); [|exact E0|exact HH|exact E1|].
  { intros w HI. apply HD. apply in_concat. exists ws. auto. }
  exists s1, out, s2. split; [exact E1|]. split; [rewrite <- tp_sentence_gen; exact A1|]. split.
  { exists (hist ++ [None] ++ map (fun w => Some (corpus_bytes lines, w)) (word_ranges (lenN pre) ws)). rewrite foldM_app, HH. cbn [bind app foldM tp_op]. rewrite E1. cbn [bind]. eapply tp_sentence_ops. exact A1. }
  split; [rewrite A2; apply Forall2_feq_refl|]. split; [rewrite A3; apply map_ext; intro w; symmetry; apply oov_supported|].
  rewrite A4. f_equal. apply filter_ext. intro w. symmetry. apply oov_supported.
Qed.

(** ** the two programs: an index file written by the builder, then read by score *)
Theorem C41_trie_programs_partial : forall (x : ext) (header : N) data D secs env remap pq bq unk, ext_ok x -> is_u8 header -> is_float unk ->
  arpa_text data secs -> arpa_file D -> collection (reversed D) remap -> trie_inputs_ok D secs env remap pq bq ->
  exists m qp qb, tp_build_file env data (lenN D) remap unk pq bq = Ok m /\
    (closed (entry D) -> extended_nonzero (quantized D qp qb) ->
     forall lines, corpus_ok lines -> lenN (corpus_bytes lines) < 2 ^ 62 ->
     (forall w, In w (concat lines) -> entry D [w] = None -> word_distinguished D env m w) ->
     let index := save_file header (save_tpl x) m in
     reports (' (m', _) <- load_file (load_tpl x) index ;; tp_corpus env m' (corpus_bytes lines)) (quantized D qp qb) (unk_prob D unk) (N.to_nat (lenN D)) lines).
Proof.
  intros x h data D secs env remap pq bq unk X H FU AT AF CO TI. destruct (C41_trie_partial data D secs env remap pq bq unk AT AF CO TI) as (m & qp & qb & EB & _ & _ & K).
  exists m, qp, qb. split; [exact EB|]. intros HC HX lines HL HB HD index. rewrite (C40_trie_from_file data secs) in EB by exact AT.
  destruct (C30_built_trie_prob_restored x h D secs env remap pq bq unk m X H AF CO TI FU EB) as [_ LD]. fold index in LD. rewrite LD. cbn [bind]. apply K; assumption.
Qed.

(** ** an instance: the file of the examples of C25 (trie), a corpus of two lines, one word ("d") unknown *)
Definition txfile : list N :=
  text_of ([[92; 100; 97; 116; 97; 92]] ++ count_lines 1 (map lenN txsecs) ++ [[]] ++ section_lines 1 txsecs [0%nat; 0%nat]) ++ [92; 101; 110; 100; 92; 10].
Definition txlines : list (list (list N)) := [[[97]; [98]; [97]; [99]; [97]; [98]]; [[100]; [97]; [98]]].
Example C41_ex_text : arpa_text txfile txsecs.
Proof.
  exists 0%nat, 0%nat, [0%nat; 0%nat], [10]. split; [reflexivity|]. split; [right; exists []; reflexivity|]. split; [vm_compute; split; [discriminate|reflexivity]|]. split; [|split].
  - assert (C : forallb (forallb (fun l => negb (existsb (fun c => c =? 10) l))) txsecs = true) by (vm_compute; reflexivity).
    apply Forall_forall. intros s Hs. apply Forall_forall. intros l Hl I. rewrite forallb_forall in C. specialize (C s Hs). rewrite forallb_forall in C. specialize (C l Hl).
    apply negb_true_iff in C. assert (existsb (fun c => c =? 10) l = true) by (apply existsb_exists; exists 10; split; [exact I|reflexivity]). congruence.
  - vm_compute. reflexivity.
  - apply Forall_forall. intros s Hs. assert (C : forallb (fun s => lenN s <? 2 ^ 64) txsecs = true) by (vm_compute; reflexivity). rewrite forallb_forall in C. apply N.ltb_lt. exact (C s Hs).
Qed.
Example C41_ex_corpus : corpus_ok txlines /\ lenN (corpus_bytes txlines) < 2 ^ 62 /\
  forall remap m w, remap = 0 \/ remap = 1 -> tx_build remap [77] = Ok m -> In w (concat txlines) -> entry txD [w] = None -> word_distinguished txD (txenv remap [77]) m w.
Proof.
  split; [|split].
  - unfold corpus_ok, txlines. repeat (constructor; [split; [discriminate|]; repeat (constructor; [split; cbn; intuition discriminate|]); constructor|]). constructor.
  - vm_compute. reflexivity.
  - intros remap m w HR HM HI HE. assert (w = [100]).
    { cbn in HI. repeat (destruct HI as [HI|HI]; [subst w; try reflexivity; vm_compute in HE; discriminate|]). destruct HI. }
    subst w. exact (C25_trie_example_unknown remap m HR HM).
Qed.
Example C41_ex_report : match tp_build_file (txenv 1 [77]) txfile 3 1 default_unk 2 2 with
  | Ok m => match tp_corpus (txenv 1 [77]) m (corpus_bytes txlines) with
            | Ok (tot, tokens) => tokens = 9 /\ tt_oovs tot = 1 /\ tt_sentences tot = 2 /\ SFeqb (tt_oov_prob tot) default_unk = true /\ SFltb (tt_prob tot) default_unk = true
            | _ => False end
  | _ => False end.
Proof. vm_compute. repeat split. Qed.

(** ** what does not hold *)
(** a blank line is not an empty sentence: it is scored as one unknown (empty) word *)
Theorem C41_blank_line_refuted : match tp_build_file (txenv 1 [77]) txfile 3 1 default_unk 2 2 with
  | Ok m => match tp_corpus (txenv 1 [77]) m [97; 10; 10; 97; 10] with
            | Ok (tot, tokens) => tokens = 3 /\ tt_oovs tot = 1 /\ tt_sentences tot = 3 /\ SFltb (tt_prob tot) default_unk = true
            | _ => False end
  | _ => False end.
Proof. vm_compute. repeat split. Qed.
(** so is a space at the end of a line *)
Theorem C41_trailing_space_refuted : match tp_build_file (txenv 1 [77]) txfile 3 1 default_unk 2 2 with
  | Ok m => match tp_corpus (txenv 1 [77]) m [97; 32; 10] with
            | Ok (tot, tokens) => tokens = 2 /\ tt_oovs tot = 1 /\ tt_sentences tot = 1
            | _ => False end
  | _ => False end.
Proof. vm_compute. repeat split. Qed.

Print Assumptions C41_mph_partial.
Print Assumptions C41_mph_kept_partial.
Print Assumptions C41_trie_kept_partial.
Print Assumptions C41_trie_partial.
Print Assumptions C41_trie_programs_partial.
