(** * Scoring sentences and texts with a probability trie over either gram sequence *)
From Coq Require Import Floats.SpecFloat.
From Verif Require Import Prelude BitFacts M_Word P_Word M_Bits Spec P_Bits P_Builder M_CompactVector P_CompactVector M_DArray M_EF P_EF P_EF2
  M_HashVec M_Mph P_Mph P_MphTables M_FastEF P_FastEF P_FastEF3 M_Text P_Text P_Text2 M_SeqColl P_SeqColl M_Pool P_Pool M_Pef Spec_Pef M_Trie Spec_Trie Spec_TriePef P_Trie1 P_Trie2 P_Trie3 P_Trie4 P_Trie5 P_Trie6 P_Trie7
  Props_MphCount M_Score Spec_Katz P_Score1 P_Score2 P_Score3 M_Quant P_Quant M_MphProb Spec_Arpa P_Sentence P_Values P_MphProb M_TrieProb P_TrieProb1 P_TrieProb2 P_TrieProb3 P_TrieProb4
  M_ArpaFile Spec_ArpaFile P_ArpaFile M_ScoreCorpus Spec_Corpus P_ScoreCorpus Props_ScoreCorpus Spec_Supported P_Supported.
From Verif Require Import M_TriePef P_TriePef1 P_TriePef2 P_TriePef5 M_TrieProbPef Spec_TrieProbPef P_TrieProbPef1 P_TrieProbPef2 P_TrieProbPef3.
From Coq Require Import Permutation Sorting.Sorted.

Section Score.
Variable D : entries.
Variable secs : list (list (list N)).
Variable env : qenv.
Variables remap pq bq : N.
Notation tv := (qe_t env).
Hypothesis AF : arpa_file D.
Hypothesis CO : collection (reversed D) remap.
Hypothesis TI : trie_base_ok D secs tv remap pq bq.
Variable unk : spec_float.
Variable m : qpl.
Hypothesis QR : qp_rep D env remap pq bq unk m.
Notation Mq := (quantized D (qfun (qp_probs m) 0) (qfun (qp_backoffs m) 1)).
Notation wids := (wid D).
Notation Inv := (fun arr => gup D env remap arr (lenN D)).

Lemma safe_sentence ws pre v post : ws = pre ++ v :: post -> pef_safe D remap ws -> safe_after D remap (rev pre) v.
Proof.
  intros E HS k H1 H2 H3 H4 H5. destruct (nthN_Some (rev pre) k ltac:(lia)) as (c & Hc).
  assert (CS : ctx (rev pre) (k + 1) = c :: ctx (rev pre) k).
  { unfold ctx. replace (N.to_nat (k + 1)) with (S (N.to_nat k)) by lia. rewrite (firstn_S_nth _ _ _ Hc), rev_app_distr. reflexivity. }
  assert (EP : pre = rev (skipn (N.to_nat (k + 1)) (rev pre)) ++ ctx (rev pre) (k + 1)).
  { unfold ctx. rewrite <- rev_app_distr, firstn_skipn, rev_involutive. reflexivity. }
  assert (LK : lenN (ctx (rev pre) k) = k) by (apply ctx_len; lia).
  destruct (HS (rev (skipn (N.to_nat (k + 1)) (rev pre))) c (ctx (rev pre) k) v post) as [Z|Z].
  - rewrite E. rewrite EP at 1. rewrite CS, <- app_assoc. reflexivity.
  - lia.
  - rewrite <- CS. exact H3.
  - exact H4.
  - exact H5.
  - left. rewrite CS. exact Z.
  - right. rewrite LK in Z. apply told_apart_rev in Z.
    replace (v :: firstn (N.to_nat (k + 1)) (rev pre)) with (rev (c :: ctx (rev pre) k ++ [v])); [exact Z|].
    rewrite app_comm_cons, <- CS, rev_app_distr. unfold ctx. rewrite rev_involutive. reflexivity.
Qed.

Lemma qp_sentence_ok buf p ws : lenN ws < 2 ^ 62 -> pef_safe D remap ws ->
  holds_text buf (p, p + lenN (join ws)) (join ws) ->
  (forall w, In w ws -> entry D [w] = None -> qword_distinguished D tv (qp_vocab m) w) ->
  forall post pre st arr, Inv arr -> ws = pre ++ post -> st_rep (supported Mq) (lenN D) st (map wids (rev pre)) (rev pre) ->
  exists out st' arr', qp_sentence env (qwith m arr) buf st (word_ranges (start p pre) post) = Ok (out, st', qwith m arr') /\ Inv arr' /\
    map fst out = skipn (length pre) (kept_scores (supported Mq) (unk_prob D unk) (N.to_nat (lenN D)) ws) /\
    map snd out = map (oov_of D) post /\ st_rep (supported Mq) (lenN D) st' (map wids (rev ws)) (rev ws) /\
    ps_oovs st' = fold_left (fun n w => if oov_of D w then add64 n 1 else n) post (ps_oovs st).
Proof.
  intros Hbig HS HT HD. pose proof (af_order _ AF) as HO. induction post as [|v post IH]; intros pre st arr PA E Rp.
  - rewrite app_nil_r in E. subst pre. exists [], st, arr. cbn [word_ranges qp_sentence map fold_left]. split; [reflexivity|]. split; [exact PA|]. split; [|split; [reflexivity|split; [exact Rp|reflexivity]]].
    symmetry. apply skipn_all2. rewrite kept_scores_length. lia.
  - cbn [word_ranges qp_sentence]. unfold qp_score.
    assert (BA : bytes_at buf (start p pre, start p pre + lenN v) = Ok v).
    { apply bytes_at_ok. change v with (join [v]). apply (join_at buf [v] post); [discriminate|]. cbn [app]. rewrite <- E. exact HT. }
    destruct (quni_found D env remap pq bq AF CO unk m QR arr v buf _ PA BA) as (val & r0 & EV & FE & HJ0).
    { intro Z. apply HD; [|exact Z]. rewrite E. apply in_or_app. right. left. reflexivity. }
    change (qp_vocab (qwith m arr)) with (qp_vocab m). change (qp_arrays (qwith m arr)) with arr. change (qp_unk (qwith m arr)) with (qp_unk m).
    change (qp_probe env (qwith m arr)) with (qp_probe env m).
    rewrite EV. cbn [bind]. cbv beta iota. rewrite FE. cbn [bind]. rewrite (qr_unk _ _ _ _ _ _ _ QR).
    assert (HB : lenN (rev pre) < 2 ^ 62). { unfold lenN in *. rewrite rev_length. rewrite E, app_length in Hbig. lia. }
    destruct (score_step_s_any Mq (unk_prob D unk) (lenN D) (rev pre) v (qp_probe env m) (J D (rev pre) v) Inv st (map wids (rev pre)) (wids v) r0 arr HO Rp HB
      (probe_qtrie D secs env remap pq bq AF CO TI unk m QR (rev pre) v st HB Rp (safe_sentence ws pre v post E HS)) (HJ0 (rev pre)) PA) as (st1 & arr1 & ES & R1 & OV & PA1).
    unfold tp_loop in ES. rewrite ES. cbn [bind]. cbv beta iota.
    change (qwith (qwith m arr) arr1) with (qwith m arr1).
    destruct (IH (pre ++ [v]) st1 arr1 PA1) as (out & st' & arr' & E1 & PA' & E2 & E3 & E4 & E5).
    + rewrite <- app_assoc. exact E.
    + rewrite rev_app_distr. exact R1.
    + replace (start p pre + lenN v + 1) with (start p (pre ++ [v])) by (rewrite start_app; reflexivity).
      rewrite E1. cbn [bind]. cbv beta iota. eexists _, _, arr'. split; [reflexivity|]. split; [exact PA'|]. cbn [map fst snd fold_left].
      split; [|split; [|split; [exact E4|]]].
      * rewrite E2. rewrite kept_scored, (scored_at _ pre v post ws E). f_equal. rewrite (rep_ctx _ _ _ _ _ Rp). reflexivity.
      * unfold oov_of at 1. unfold quantized. rewrite E3. f_equal. destruct (entry D [v]) as [[? ?]|]; reflexivity.
      * rewrite E5. f_equal. rewrite OV. unfold oov_of, quantized. destruct (entry D [v]) as [[? ?]|]; reflexivity.
Qed.
End Score.

(** ** texts *)
Section Corpus.
Variable env : qenv.
Lemma qline_ok ws : ws <> [] -> Forall no_sep ws -> forall pre post n fuel st m a b out st' m',
  (length ws <= fuel)%nat ->
  qp_sentence env m (pre ++ join ws ++ 10 :: post) st (word_ranges (lenN pre) ws) = Ok (out, st', m') ->
  qp_line fuel env (pre ++ join ws ++ 10 :: post) (mktl (lenN pre) n false) st m a b
    = Ok (mktl (lenN pre + lenN (join ws) + 1) (n + lenN ws) true, st', m', fold_left fadd (map fst out) a, fold_left addp out b).
Proof.
  induction ws as [|w ws IH]; intros Hne HF pre post n fuel st m a b out st' m' Hf HS; [congruence|].
  apply Forall_cons_iff in HF. destruct HF as [Hw HF]. cbn [qp_sentence word_ranges] in HS.
  apply bind_ok in HS. destruct HS as ([[[x st1] o] m1] & E1 & HS). apply bind_ok in HS. destruct HS as ([[xs st2] m2] & E2 & HS). injection HS as <- <- <-.
  destruct fuel as [|f]; [cbn in Hf; lia|]. cbn [qp_line tl_eol]. unfold tl_next. cbn [tl_pos tl_words tl_eol].
  destruct ws as [|w2 ws].
  - cbn [join] in *. rewrite tl_seek_ok; [| assumption | rewrite !app_length; lia | right; reflexivity]. cbn [bind]. cbv beta iota.
    change (10 =? 10) with true. cbv iota. rewrite E1. cbn [bind]. cbv beta iota. cbn [word_ranges qp_sentence] in E2. injection E2 as <- <- <-.
    destruct f as [|f]; cbn [qp_line tl_eol]; cbn [map fold_left fst snd addp]; unfold addp; cbn [fst snd]; rewrite lenN_cons, lenN_nil, N.add_0_r; reflexivity.
  - rewrite join_cons by discriminate. rewrite join_cons in E1, E2 by discriminate.
    assert (EB : pre ++ (w ++ 32 :: join (w2 :: ws)) ++ 10 :: post = pre ++ w ++ 32 :: (join (w2 :: ws) ++ 10 :: post)) by (rewrite <- !app_assoc; reflexivity).
    rewrite EB in *. rewrite tl_seek_ok; [| assumption | rewrite !app_length; lia | left; reflexivity]. cbn [bind]. cbv beta iota.
    change (32 =? 10) with false. cbv iota. rewrite E1. cbn [bind]. cbv beta iota.
    assert (EB' : (pre ++ w ++ [32]) ++ join (w2 :: ws) ++ 10 :: post = pre ++ w ++ 32 :: join (w2 :: ws) ++ 10 :: post) by (rewrite <- !app_assoc; reflexivity).
    assert (EL : lenN pre + lenN w + 1 = lenN (pre ++ w ++ [32])) by (rewrite !lenN_app, lenN_cons, lenN_nil; lia).
    rewrite EL in E2 |- *. rewrite <- EB' in E2 |- *. assert (LF : (length (w2 :: ws) <= f)%nat) by (cbn in *; lia).
    rewrite (IH ltac:(discriminate) HF (pre ++ w ++ [32]) post (n + 1) f st1 m1 (fadd a x) (if o then fadd b x else b) xs st2 m2 LF E2). cbn [map fold_left fst].
    match goal with |- Ok (mktl ?a ?b _, _, _, _, _) = Ok (mktl ?c ?d _, _, _, _, _) => replace a with c by (rewrite !lenN_app, !lenN_cons, lenN_nil; lia); replace b with d by (rewrite !lenN_cons; lia) end. reflexivity.
Qed.

Variable (Inv : pstate N -> qpl -> Prop) (K : list (list N) -> list spec_float) (unknown : list N -> bool) (lines : list (list (list N))).
Hypothesis HS : forall pre post ws s m, Inv s m -> In ws lines -> corpus_bytes lines = pre ++ join ws ++ 10 :: post ->
  exists s1 out s2 m2, ps_init s = Ok s1 /\ qp_sentence env m (corpus_bytes lines) s1 (word_ranges (lenN pre) ws) = Ok (out, s2, m2) /\ Inv s2 m2 /\ Forall2 feq (map fst out) (K ws) /\ map snd out = map unknown ws /\ ps_oovs s2 = lenN (filter unknown ws).
Hypothesis HL : corpus_ok lines.
Hypothesis HB : lenN (corpus_bytes lines) < 2 ^ 62.

Lemma qlines_ok rest : forall done pre t st m tot fuel, lines = done ++ rest -> corpus_bytes lines = pre ++ corpus_bytes rest -> Inv st m -> (length rest < fuel)%nat ->
  tl_pos t = lenN pre -> tl_words t = lenN (concat done) ->
  tt_oovs tot = lenN (filter unknown (concat done)) -> tt_sentences tot = lenN done ->
  feq (tt_prob tot) (fsum (map (fun ws => fsum (K ws)) done)) ->
  feq (tt_oov_prob tot) (fsum (concat (map (fun ws => select (K ws) (map unknown ws)) done))) ->
  exists t' st' tot', qp_lines fuel env (corpus_bytes lines) t st m tot = Ok (t', st', tot') /\ tl_words t' = lenN (concat lines) /\
    tt_oovs tot' = lenN (filter unknown (concat lines)) /\ tt_sentences tot' = lenN lines /\
    feq (tt_prob tot') (fsum (map (fun ws => fsum (K ws)) lines)) /\
    feq (tt_oov_prob tot') (fsum (concat (map (fun ws => select (K ws) (map unknown ws)) lines))).
Proof.
  induction rest as [|ws rest IH]; intros done pre t st m tot fuel EL EB IV Hf T1 T2 O1 O2 P1 P2.
  - rewrite app_nil_r in EL. subst done. destruct fuel as [|f]; [lia|]. cbn [qp_lines]. unfold tl_eof.
    assert (X : tl_pos t =? lenN (corpus_bytes lines) = true) by (apply N.eqb_eq; rewrite T1, EB, lenN_app; unfold corpus_bytes; cbn [map concat]; rewrite lenN_nil; lia).
    rewrite X. exists t, st, tot. auto 8.
  - destruct fuel as [|f]; [lia|]. cbn [qp_lines]. unfold tl_eof.
    assert (ER : corpus_bytes (ws :: rest) = join ws ++ 10 :: corpus_bytes rest) by (unfold corpus_bytes; cbn [map concat]; rewrite <- app_assoc; reflexivity).
    rewrite ER in EB.
    assert (X : tl_pos t =? lenN (corpus_bytes lines) = false) by (apply N.eqb_neq; rewrite T1, EB, !lenN_app, lenN_cons; lia).
    rewrite X. clear X.
    assert (IW : In ws lines) by (rewrite EL; apply in_elt).
    destruct (HS pre (corpus_bytes rest) ws st m IV IW EB) as (s1 & out & s2 & m2 & E1 & E2 & IV2 & F2 & EO & OO).
    rewrite E1. cbn [bind].
    assert (CW : ws <> [] /\ Forall (fun w => ~ In 32 w /\ ~ In 10 w) ws) by (unfold corpus_ok in HL; rewrite Forall_forall in HL; apply HL; exact IW).
    destruct CW as [NE FW].
    assert (NS : Forall no_sep ws) by (eapply Forall_impl; [|exact FW]; intros w [A B]; split; assumption).
    unfold tl_begin_line. rewrite T1.
    assert (LF : (length ws <= S (length (corpus_bytes lines)))%nat).
    { assert (Z : lenN ws <= lenN (join ws) + 1) by apply join_len. rewrite EB, !app_length. unfold lenN in Z. cbn [length]. lia. }
    assert (LK := qline_ok ws NE NS pre (corpus_bytes rest) (tl_words t) (S (length (corpus_bytes lines))) s1 m fzero (tt_oov_prob tot) out s2 m2 LF).
    rewrite <- EB in LK. rewrite (LK E2). cbn [bind]. cbv beta iota.
    destruct (corpus_len lines HL) as [B1 B2].
    assert (BF : lenN (filter unknown (concat lines)) <= lenN (concat lines)) by (apply filter_len).
    assert (EC : concat lines = concat done ++ ws ++ concat rest) by (rewrite EL, concat_app; reflexivity).
    assert (EN : lenN lines = lenN done + (1 + lenN rest)) by (rewrite EL, lenN_app, lenN_cons; reflexivity).
    assert (P62 : 2 ^ 62 < 2 ^ 64) by reflexivity.
    assert (CD : concat (done ++ [ws]) = concat done ++ ws) by (rewrite concat_app; cbn [concat]; rewrite app_nil_r; reflexivity).
    apply (IH (done ++ [ws]) (pre ++ join ws ++ [10])).
    + rewrite EL, <- app_assoc. reflexivity.
    + rewrite EB, <- !app_assoc. reflexivity.
    + exact IV2.
    + cbn in Hf. lia.
    + cbn [tl_pos]. rewrite !lenN_app, lenN_cons, lenN_nil. lia.
    + cbn [tl_words]. rewrite T2, CD, lenN_app. reflexivity.
    + cbn [tt_oovs]. rewrite O1, OO, CD, filter_app, lenN_app. apply add64_small.
      rewrite EC in BF at 1. rewrite !filter_app, !lenN_app in BF. lia.
    + cbn [tt_sentences]. rewrite O2, lenN_app, lenN_cons, lenN_nil. apply add64_small. lia.
    + cbn [tt_prob]. unfold fsum at 1. rewrite map_app, fold_left_app. cbn [map fold_left]. apply fadd_feq; [exact P1|]. apply fold_feq; [exact F2|apply feq_refl].
    + cbn [tt_oov_prob]. unfold fsum. rewrite map_app, concat_app, fold_left_app. cbn [map concat]. rewrite app_nil_r. apply addp_fold; [exact F2|exact EO|exact P2].
Qed.
Lemma qgen_corpus st m : qp_state m = Ok st -> Inv st m -> exists tot, qp_corpus env m (corpus_bytes lines) = Ok (tot, lenN (concat lines)) /\
    tt_oovs tot = lenN (filter unknown (concat lines)) /\ tt_sentences tot = lenN lines /\
    feq (tt_prob tot) (fsum (map (fun ws => fsum (K ws)) lines)) /\
    feq (tt_oov_prob tot) (fsum (concat (map (fun ws => select (K ws) (map unknown ws)) lines))).
Proof.
  intros ES IV. destruct (corpus_len lines HL) as [B1 B2].
  destruct (qlines_ok lines [] [] tl_init st m tot_init (S (length (corpus_bytes lines)))) as (t' & st' & tot' & E & T & R); try reflexivity; try assumption; try (left; reflexivity).
  - unfold lenN in *. lia.
  - exists tot'. unfold qp_corpus. rewrite ES. cbn [bind]. rewrite E. cbn [bind]. rewrite T. split; [reflexivity|exact R].
Qed.
End Corpus.

(** ** from the table to the totals of a text *)
Lemma rep_wf {V W} (M : list V -> option (spec_float * spec_float)) n (s : pstate W) pw rh : 2 <= n <= 8 -> st_rep M n s pw rh -> wf n s.
Proof.
  intros Hn [[C1 C2 C3 C4 C5] SC SL SP SCu SPr SM SLe SB SK]. rewrite SC in *. constructor; auto. split; [reflexivity|]. split; lia.
Qed.
Lemma oov_fold (f : list N -> bool) : forall (ws : list (list N)) n, n + lenN ws < 2 ^ 64 -> fold_left (fun (n : N) w => if f w then add64 n 1 else n) ws n = n + lenN (filter f ws).
Proof.
  induction ws as [|w ws IH]; intros n H; cbn [fold_left filter]; [change (lenN (@nil (list N))) with 0; lia|]. rewrite lenN_cons in H. destruct (f w).
  - rewrite add64_small by lia. rewrite IH by lia. rewrite lenN_cons. lia.
  - apply IH. lia.
Qed.
Lemma level_ok D env remap k : collection (reversed D) remap -> pe_pef (genv env) = true ->
  lenN (grams (reversed D) k) * lenN (grams (reversed D) 0) < 2 ^ 56 -> one_pad (qe_gpad env k) ->
  (lenN (grams (reversed D) k) <= piece (k + 1) -> lenN (grams (reversed D) k) * lenN (grams (reversed D) 0) < 2 ^ 31) ->
  level_searchable (reversed D) remap k -> pef_level (revD D) remap (genv env) k.
Proof.
  intros CO _ A1 A2 A3 A4. unfold pef_level. rewrite !grams_reversed. split; [exact A1|]. split; [exact A2|]. intro L. split; [exact (A3 L)|].
  rewrite <- grams_reversed in *. apply (searchable_lids (revD D) remap (collection_revD D remap CO) k); [|exact L].
  unfold level_searchable, first_choice in A4 |- *. rewrite !grams_reversed. exact A4.
Qed.

Section Whole.
Variable D : entries.
Variable secs : list (list (list N)).
Variable env : qenv.
Variables remap pq bq : N.
Hypothesis AF : arpa_file D.
Hypothesis CO : collection (reversed D) remap.
Hypothesis TI : trie_base_ok D secs (qe_t env) remap pq bq.
Variable unk : spec_float.
Variable m : qpl.
Hypothesis QR : qp_rep D env remap pq bq unk m.
Notation Mq := (quantized D (qfun (qp_probs m) 0) (qfun (qp_backoffs m) 1)).

Lemma qwith_same (x : qpl) : qwith x (qp_arrays x) = x. Proof. destruct x. reflexivity. Qed.
Lemma qp_text lines : corpus_ok lines -> lenN (corpus_bytes lines) < 2 ^ 62 -> Forall (pef_safe D remap) lines ->
  (forall w, In w (concat lines) -> entry D [w] = None -> qword_distinguished D (qe_t env) (qp_vocab m) w) ->
  exists tot, qp_corpus env m (corpus_bytes lines) = Ok (tot, lenN (concat lines)) /\
    tt_oovs tot = lenN (filter (oov_of D) (concat lines)) /\ tt_sentences tot = lenN lines /\
    feq (tt_prob tot) (fsum (map (fun ws => fsum (kept_scores (supported Mq) (unk_prob D unk) (N.to_nat (lenN D)) ws)) lines)) /\
    feq (tt_oov_prob tot) (fsum (concat (map (fun ws => select (kept_scores (supported Mq) (unk_prob D unk) (N.to_nat (lenN D)) ws) (map (oov_of D) ws)) lines))).
Proof.
  intros HL HB HS HD. pose proof (af_order _ AF) as HO. rewrite Forall_forall in HS.
  destruct (new_ok (lenN D) HO 0) as (s0 & E0 & W0 & _).
  apply (qgen_corpus env (fun s x => wf (lenN D) s /\ exists arr, x = qwith m arr /\ gup D env remap arr (lenN D)) (kept_scores (supported Mq) (unk_prob D unk) (N.to_nat (lenN D))) (oov_of D) lines) with (st := s0).
  - intros pre post ws s x (Ws & arr & -> & GA) IW EQ. destruct (init_wf (lenN D) HO s Ws) as (s1 & E1 & W1 & L1 & O1).
    assert (HT : holds_text (corpus_bytes lines) (lenN pre, lenN pre + lenN (join ws)) (join ws)) by (rewrite EQ; apply holds_mid; reflexivity).
    pose proof (line_short lines ws HL IW HB) as LW.
    destruct (qp_sentence_ok D secs env remap pq bq AF CO TI unk m QR (corpus_bytes lines) (lenN pre) ws LW (HS ws IW) HT) with (post := ws) (pre := @nil (list N)) (st := s1) (arr := arr) as (out & s2 & arr2 & A1 & A2 & A3 & A4 & A5 & A6).
    { intros w HI. apply HD. apply in_concat. exists ws. auto. }
    { exact GA. } { reflexivity. } { apply (wf_rep (supported Mq) (lenN D) s1 HO W1 L1). }
    exists s1, out, s2, (qwith m arr2). split; [exact E1|]. split; [exact A1|]. split; [split; [exact (rep_wf _ _ _ _ _ HO A5)|exists arr2; auto]|].
    split; [rewrite A3; apply Forall2_feq_refl|]. split; [exact A4|]. rewrite A6, O1, oov_fold; [lia|].
    assert (2 ^ 62 < 2 ^ 64) by reflexivity. lia.
  - exact HL.
  - exact HB.
  - unfold qp_state. rewrite (qr_order _ _ _ _ _ _ _ QR). exact E0.
  - split; [exact W0|]. exists (qp_arrays m). split; [symmetry; apply qwith_same|exact (qr_arrays _ _ _ _ _ _ _ QR)].
Qed.
End Whole.
