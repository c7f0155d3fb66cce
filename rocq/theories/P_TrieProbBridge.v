(** * The instances of M_TrieProbPef over fast_ef_sequence are the tries of M_TrieProb *)
From Coq Require Import Floats.SpecFloat.
From Verif Require Import Prelude BitFacts M_Word M_Bits M_CompactVector M_DArray M_EF M_HashVec M_Mph M_FastEF M_Text M_SeqColl M_Pool M_Pef M_Trie
  M_Score M_Quant M_MphProb M_TrieProb M_ArpaFile M_Save M_SavePef M_Save2 M_ScoreCorpus M_TrieProbPef P_TrieBridge.
From Verif Require M_TriePef.

Notation qarrays l := (map (fun a => emb_arr (a_sa a)) l).
Definition embq (m : tpl) : qpl :=
  mkqpl (tp_order m) (tp_remap m) (tp_unk m) (tp_probs m) (tp_backoffs m) (tp_vocab m) (qarrays (tp_arrays m)) (map a_pb (tp_arrays m)).

Section B.
Variable env : qenv.
Hypothesis E1 : qe_pef env = false.
Notation te := (qe_t env).
Notation ge := (genv env).

Lemma qa_emb l : qarrays l = emb (map a_sa l).
Proof. unfold emb. rewrite map_map. reflexivity. Qed.
Lemma q_range l k pos : M_TriePef.pa_range (qarrays l) k pos = (a <- rd l k ;; sa_range (a_sa a) pos).
Proof. rewrite qa_emb, pa_range_emb, rd_map. destruct (rd l k); reflexivity. Qed.
Lemma q_position l k r id : M_TriePef.pa_position ge (qarrays l) k r id = (a <- rd l k ;; p <- sa_position (tp_hu te k) (a_sa a) r id ;; Ok (p, qarrays l)).
Proof. rewrite qa_emb, (pa_position_emb ge), rd_map. destruct (rd l k); reflexivity. Qed.
Lemma q_next l k r id : M_TriePef.pa_next ge (qarrays l) k r id = (a <- rd l k ;; ' (p, r') <- sa_next (tp_hu te k) (a_sa a) r id ;; Ok (p, r', qarrays l)).
Proof. rewrite qa_emb, (pa_next_emb ge), rd_map. destruct (rd l k); reflexivity. Qed.
Lemma q_map_in l k r id : M_TriePef.pmap_in ge (qarrays l) k r id = (a <- rd l k ;; m <- map_in (tp_hu te k) r id (a_sa a) ;; Ok (m, qarrays l)).
Proof. rewrite qa_emb, (pmap_in_emb ge), rd_map. destruct (rd l k); reflexivity. Qed.

Lemma qmap_gram_emb v l remap buf g id : qmap_gram_rev env v (qarrays l) remap buf g id = (m <- map_gram_rev te v l remap buf g id ;; Ok (m, qarrays l)).
Proof.
  unfold qmap_gram_rev, map_gram_rev. destruct (to buf g remap) as [b| |]; cbn [bind]; [|reflexivity|reflexivity]. destruct (plook (tp_h te) v buf b) as [pid| |]; cbn [bind]; [|reflexivity|reflexivity].
  rewrite q_range. destruct (rd l 0) as [a0| |]; cbn [bind]; [|reflexivity|reflexivity]. destruct (sa_range (a_sa a0) pid) as [r| |]; cbn [bind]; [|reflexivity|reflexivity].
  destruct (remap =? 2).
  - destruct (prev buf b) as [nw| |]; cbn [bind]; [|reflexivity|reflexivity]. destruct (plook (tp_h te) v buf nw) as [ni| |]; cbn [bind]; [|reflexivity|reflexivity]. rewrite q_next.
    destruct (rd l 1) as [a1| |]; cbn [bind]; [|reflexivity|reflexivity]. destruct (sa_next (tp_hu te 1) (a_sa a1) r ni) as [[q r']| |]; cbn [bind]; cbv beta iota; [|reflexivity|reflexivity]. cbn [bind]. cbv beta iota. rewrite q_map_in.
    destruct (rd l remap); reflexivity.
  - cbn [bind]. cbv beta iota. rewrite q_map_in. destruct (rd l remap); reflexivity.
Qed.
Lemma qmap_ids_emb l p pp id remap : qmap_ids env (qarrays l) p pp id remap = (m <- map_ids te l p pp id remap ;; Ok (m, qarrays l)).
Proof.
  unfold qmap_ids, map_ids. destruct (remap =? 1).
  - rewrite q_range. destruct (rd l 0) as [a0| |]; cbn [bind]; [|reflexivity|reflexivity]. destruct (sa_range (a_sa a0) p) as [r| |]; cbn [bind]; [|reflexivity|reflexivity]. cbv beta iota. rewrite q_map_in. destruct (rd l remap); reflexivity.
  - rewrite q_range. destruct (rd l 0) as [a0| |]; cbn [bind]; [|reflexivity|reflexivity]. destruct (sa_range (a_sa a0) pp) as [r| |]; cbn [bind]; [|reflexivity|reflexivity]. rewrite q_next.
    destruct (rd l 1) as [a1| |]; cbn [bind]; [|reflexivity|reflexivity]. destruct (sa_next (tp_hu te 1) (a_sa a1) r p) as [[q r']| |]; cbn [bind]; cbv beta iota; [|reflexivity|reflexivity]. cbn [bind]. cbv beta iota. rewrite q_map_in.
    destruct (rd l remap); reflexivity.
Qed.

Lemma qp_step_emb v l pb bb order mo remap s ln : qp_step env v pb bb order mo remap (s, qarrays l) ln = (s <- tp_step te v l pb bb order mo remap s ln ;; Ok (s, qarrays l)).
Proof.
  unfold qp_step, tp_step. destruct (parse_arpa_line (tp_sd te) ln) as [r| |]; cbn [bind]; cbv zeta; [|reflexivity|reflexivity]. destruct (suffix (c_str ln) (r_gram r)) as [pt| |]; cbn [bind]; [|reflexivity|reflexivity].
  destruct (tp_advance (tp_sd te) (c_str ln) pt (pbs_prv s) (pbs_ptrs s) (pbs_pos s)) as [[prv ptrs]| |]; cbn [bind]; cbv beta iota; [|reflexivity|reflexivity]. destruct prv as [|p0 prv]; [reflexivity|].
  destruct (plook_pair (tp_h te) v (c_str ln) (fst (r_gram r), sub64 (fst pt) 1)) as [[id val]| |]; cbn [bind]; cbv beta iota; [|reflexivity|reflexivity]. rewrite qmap_gram_emb.
  assert (K : forall x,
    (g <- cvb_push_back (pb_grams (pbs_pab s)) x ;; prob_rank <- q_rank pb (order - 2) (r_prob r) 0 ;;
      rank <- (if order =? mo then Ok prob_rank else backoff_rank <- q_rank bb (order - 2) (r_backoff r) 1 ;; bits <- q_qbits pb (order - 2) ;; Ok (rank_pack bits prob_rank backoff_rank)) ;;
      rk <- cvb_push_back (pb_ranks (pbs_pab s)) rank ;; Ok (mkpbst (p0 :: prv) ptrs (pbs_pos s + 1) (mkpab g rk), qarrays l)) =
    (s0 <- (g <- cvb_push_back (pb_grams (pbs_pab s)) x ;; prob_rank <- q_rank pb (order - 2) (r_prob r) 0 ;;
      rank <- (if order =? mo then Ok prob_rank else backoff_rank <- q_rank bb (order - 2) (r_backoff r) 1 ;; bits <- q_qbits pb (order - 2) ;; Ok (rank_pack bits prob_rank backoff_rank)) ;;
      rk <- cvb_push_back (pb_ranks (pbs_pab s)) rank ;; Ok (mkpbst (p0 :: prv) ptrs (pbs_pos s + 1) (mkpab g rk))) ;; Ok (s0, qarrays l))).
  { intros x. destruct (cvb_push_back (pb_grams (pbs_pab s)) x); cbn [bind]; [|reflexivity|reflexivity]. destruct (q_rank pb (order - 2) (r_prob r) 0); cbn [bind]; [|reflexivity|reflexivity].
    match goal with |- bind ?m _ = _ => destruct m end; cbn [bind]; [|reflexivity|reflexivity]. destruct (cvb_push_back (pb_ranks (pbs_pab s)) _); reflexivity. }
  destruct (tp_map te && (remap + 1 <? order)).
  - destruct (map_gram_rev te v l remap (c_str ln) (r_gram r) id) as [m| |]; cbn [bind]; cbv beta iota; [|reflexivity|reflexivity]. apply K.
  - cbn [bind]. cbv beta iota. apply K.
Qed.
Lemma qp_ngrams_emb v l pb bb order mo remap cur prv b : qp_ngrams env v (qarrays l) pb bb order mo remap cur prv b = (' (p, b) <- tp_ngrams te v l pb bb order mo remap cur prv b ;; Ok (p, b, qarrays l)).
Proof.
  unfold qp_ngrams, tp_ngrams. destruct (parse_arpa_line (tp_sd te) (hd [] prv)); cbn [bind]; [|reflexivity|reflexivity].
  assert (F : forall cur s, foldM (qp_step env v pb bb order mo remap) cur (s, qarrays l) = (s <- foldM (tp_step te v l pb bb order mo remap) cur s ;; Ok (s, qarrays l))).
  { clear. induction cur as [|ln cur IH]; intros s; [reflexivity|]. cbn [foldM]. rewrite qp_step_emb. destruct (tp_step te v l pb bb order mo remap s ln); cbn [bind]; [apply IH|reflexivity|reflexivity]. }
  rewrite F. destruct (foldM (tp_step te v l pb bb order mo remap) cur (mkpbst prv [0] 0 b)); reflexivity.
Qed.

Lemma qab_build_emb k b (a : parr) ptrs order : qab_build env k b (emb_arr (a_sa a)) ptrs order =
  (a <- pab_build (tp_hu te k) (tp_orders te k) b a ptrs ;; match a_pb a with Some c => Ok (emb_arr (a_sa a), c) | None => UB end).
Proof.
  unfold qab_build, pab_build, M_TriePef.g_build. cbn [genv M_TriePef.pe_pef]. rewrite E1. destruct (cv_all (cv_of_builder (pb_grams b))) as [ids| |]; cbn [bind]; [|reflexivity|reflexivity].
  cbn [genv M_TriePef.pe_t te_hu te_orders]. destruct (fef_build (tp_hu te k) (tp_orders te k) ids ptrs) as [f| |]; cbn [bind]; [|reflexivity|reflexivity]. destruct (cv_all (cv_of_builder (pb_ranks b))) as [rs| |]; cbn [bind]; [|reflexivity|reflexivity].
  destruct (cv_build rs); reflexivity.
Qed.
Lemma pab_build_some h eo b a ptrs a' : pab_build h eo b a ptrs = Ok a' -> exists c, a_pb a' = Some c.
Proof.
  unfold pab_build. intros H. destruct (cv_all (cv_of_builder (pb_grams b))) as [ids| |]; [|discriminate|discriminate]. cbn [bind] in H. destruct (fef_build h eo ids ptrs) as [f| |]; [|discriminate|discriminate]. cbn [bind] in H.
  destruct (cv_all (cv_of_builder (pb_ranks b))) as [rs| |]; [|discriminate|discriminate]. cbn [bind] in H. destruct (cv_build rs) as [c| |]; [|discriminate|discriminate]. injection H as <-. exists c. reflexivity.
Qed.
Lemma wr_pb l k (a : parr) : wr (map a_pb l) k (a_pb a) = (l <- wr l k a ;; Ok (map a_pb l)).
Proof. apply wr_map. Qed.
Lemma wr_q l k (a : parr) : wr (qarrays l) k (emb_arr (a_sa a)) = (l <- wr l k a ;; Ok (qarrays l)).
Proof. exact (wr_map (fun a => emb_arr (a_sa a)) l k a). Qed.
Lemma qp_build_order_emb v pb bb remap secs order pq bq l ord : 
  qp_build_order env v pb bb remap secs order pq bq (qarrays l, map a_pb l) ord =
  (l <- tp_build_order te v pb bb remap secs order pq bq l ord ;; Ok (qarrays l, map a_pb l)).
Proof.
  unfold qp_build_order, tp_build_order. destruct (rd secs (ord - 2)) as [prv| |]; cbn [bind]; [|reflexivity|reflexivity]. destruct (rd secs (ord - 1)) as [cur| |]; cbn [bind]; [|reflexivity|reflexivity].
  match goal with |- bind ?m _ = _ => destruct m as [b| |] end; cbn [bind]; [|reflexivity|reflexivity]. rewrite qp_ngrams_emb. destruct (tp_ngrams te v l pb bb ord order remap cur prv b) as [[ptrs b']| |]; cbn [bind]; cbv beta iota; [|reflexivity|reflexivity].
  rewrite rd_map. destruct (rd l (ord - 1)) as [a| |]; cbn [bind]; [|reflexivity|reflexivity]. rewrite qab_build_emb. destruct (pab_build (tp_hu te (ord - 1)) (tp_orders te (ord - 1)) b' a ptrs) as [a2| |] eqn:EA; cbn [bind]; [|reflexivity|reflexivity].
  destruct (pab_build_some _ _ _ _ _ _ EA) as (c & EC). rewrite EC. cbn [bind]. cbv beta iota. rewrite wr_q.
  rewrite <- EC, wr_pb. destruct (wr l (ord - 1) a2) as [l2| |]; cbn [bind]; [|reflexivity|reflexivity].
  rewrite rd_map. destruct (rd l2 (ord - 2)) as [a3| |] eqn:E3; cbn [bind]; [|reflexivity|reflexivity]. rewrite pa_build_pointers_emb. destruct (sa_build_pointers (a_sa a3) ptrs) as [s4| |]; cbn [bind]; [|reflexivity|reflexivity].
  pose proof (wr_q l2 (ord - 2) (mkparr s4 (a_pb a3))) as W2. cbn [a_sa] in W2. rewrite W2. clear W2.
  pose proof (wr_pb l2 (ord - 2) (mkparr s4 (a_pb a3))) as W. cbn [a_pb] in W. rewrite (wr_id (map a_pb l2) (ord - 2) (a_pb a3)) in W by (rewrite rd_map, E3; reflexivity).
  destruct (wr l2 (ord - 2) (mkparr s4 (a_pb a3))) as [l4| |]; cbn [bind] in *; [|reflexivity|reflexivity]. injection W as <-. reflexivity.
Qed.
(** the same file gives the same trie, or the same failure *)
Lemma qp_build_emb data order remap unk pq bq : qp_build_file env data order remap unk pq bq = (m <- tp_build_file te data order remap unk pq bq ;; Ok (embq m)).
Proof.
  unfold qp_build_file, tp_build_file. destruct (check_order order); cbn [bind]; [|reflexivity|reflexivity]. destruct (check_remapping_order remap); cbn [bind]; [|reflexivity|reflexivity].
  destruct (ap_load (tp_penv te) data order pq bq) as [[[pb bb] secs]| |]; cbn [bind]; cbv beta iota; [|reflexivity|reflexivity]. destruct (rd secs 0) as [uni| |]; cbn [bind]; [|reflexivity|reflexivity]. destruct (set_unk (tp_penv te) uni unk) as [u| |]; cbn [bind]; [|reflexivity|reflexivity].
  destruct (tp_vocabulary te uni) as [v| |]; cbn [bind]; [|reflexivity|reflexivity].
  assert (F : forall os l, foldM (qp_build_order env v pb bb remap secs order pq bq) os (qarrays l, map a_pb l) = (l <- foldM (tp_build_order te v pb bb remap secs order pq bq) os l ;; Ok (qarrays l, map a_pb l))).
  { clear - E1. induction os as [|o os IH]; intros l; [reflexivity|]. cbn [foldM]. rewrite qp_build_order_emb. destruct (tp_build_order te v pb bb remap secs order pq bq l o); cbn [bind]; [apply IH|reflexivity|reflexivity]. }
  specialize (F (seqN 2 (N.to_nat (order - 1))) (map (fun l => mkparr (sarr_new (lenN l)) None) secs)). rewrite !map_map in F. cbn [a_sa a_pb] in F.
  change (map (fun l : list (list N) => emb_arr (sarr_new (lenN l))) secs) with (map (fun l : list (list N) => M_TriePef.parr_new (lenN l)) secs) in F. rewrite F.
  destruct (foldM (tp_build_order te v pb bb remap secs order pq bq) (seqN 2 (N.to_nat (order - 1))) (map (fun l => mkparr (sarr_new (lenN l)) None) secs)); reflexivity.
Qed.

(** ** scoring *)
Lemma qp_probe_emb m k w v : qp_probe env (embq m) k w v (qarrays (tp_arrays m)) = (x <- tp_probe te m k w v ;; Ok (x, qarrays (tp_arrays m))).
Proof.
  unfold qp_probe, tp_probe. destruct v as [[r p] pp]. destruct (sub64 (snd r) (fst r) =? 0); [reflexivity|]. cbn [embq qp_remap qp_order qp_probs qp_backoffs qp_ranks].
  assert (G : forall id, 
   (' (pos, arrays) <- M_TriePef.pa_position ge (qarrays (tp_arrays m)) k r id ;;
    if pos =? not_found then Ok (None, arrays) else
    bits <- q_qbits (tp_probs m) (k - 1) ;; o <- rd (map a_pb (tp_arrays m)) k ;; rank <- q_rank_at env o pos ;;
    let '(prob_rank, backoff_rank) := rank_unpack bits rank in
    prob <- q_access (tp_probs m) (k - 1) prob_rank ;;
    if negb (k =? sub64 (tp_order m) 1) then
      backoff <- q_access (tp_backoffs m) (k - 1) backoff_rank ;; r <- M_TriePef.pa_range arrays k pos ;; Ok (Some (prob, Some backoff, (r, w, p)), arrays)
    else Ok (Some (prob, None, (r, w, p)), arrays)) =
   (x <- (a <- rd (tp_arrays m) k ;; pos <- sa_position (tp_hu te k) (a_sa a) r id ;;
     if pos =? not_found then Ok None else
     bits <- q_qbits (tp_probs m) (k - 1) ;; rank <- a_rank te a pos ;;
     let '(prob_rank, backoff_rank) := rank_unpack bits rank in
     prob <- q_access (tp_probs m) (k - 1) prob_rank ;;
     if negb (k =? sub64 (tp_order m) 1) then
       backoff <- q_access (tp_backoffs m) (k - 1) backoff_rank ;; r <- sa_range (a_sa a) pos ;; Ok (Some (prob, Some backoff, (r, w, p)))
     else Ok (Some (prob, None, (r, w, p)))) ;; Ok (x, qarrays (tp_arrays m)))).
  { intros id. rewrite q_position, rd_map. destruct (rd (tp_arrays m) k) as [a| |] eqn:EA; cbn [bind]; [|reflexivity|reflexivity]. destruct (sa_position (tp_hu te k) (a_sa a) r id) as [pos| |]; cbn [bind]; cbv beta iota; [|reflexivity|reflexivity].
    destruct (pos =? not_found); [reflexivity|]. destruct (q_qbits (tp_probs m) (k - 1)) as [bits| |]; cbn [bind]; [|reflexivity|reflexivity]. change (q_rank_at env (a_pb a) pos) with (a_rank te a pos). destruct (a_rank te a pos) as [rk| |]; cbn [bind]; [|reflexivity|reflexivity].
    destruct (rank_unpack bits rk) as [pr br]. destruct (q_access (tp_probs m) (k - 1) pr) as [prob| |]; cbn [bind]; [|reflexivity|reflexivity]. destruct (negb (k =? sub64 (tp_order m) 1)); [|reflexivity].
    destruct (q_access (tp_backoffs m) (k - 1) br) as [bo| |]; cbn [bind]; [|reflexivity|reflexivity]. rewrite q_range, EA. cbn [bind]. destruct (sa_range (a_sa a) pos); reflexivity. }
  destruct (tp_map te && (tp_remap m <? k)).
  - rewrite qmap_ids_emb. destruct (map_ids te (tp_arrays m) p pp w (tp_remap m)) as [id| |]; cbn [bind]; cbv beta iota; [|reflexivity|reflexivity]. apply G.
  - cbn [bind]. cbv beta iota. apply G.
Qed.
Lemma score_loop_s {R S} (probe : N -> N -> R -> res (option (F * option F * R))) (probe_s : N -> N -> R -> S -> res (option (F * option F * R) * S)) s :
  (forall k w r, probe_s k w r s = (x <- probe k w r ;; Ok (x, s))) ->
  forall n l, loop n (score_round_s probe_s) (l, s) = (l <- loop n (score_round probe) l ;; Ok (l, s)).
Proof.
  intros HP. induction n as [|n IH]; intros l; [reflexivity|]. cbn [loop]. unfold score_round_s at 1, score_round at 1. destruct (negb (sl_m1 l <=? ps_length (sl_st l))); [reflexivity|]. cbv zeta.
  destruct (ri_deref (ps_words (ps_advance (sl_st l))) (sl_it l)) as [w| |]; cbn [bind]; [|reflexivity|reflexivity]. rewrite HP. destruct (probe (sl_m1 l) w (sl_r l)) as [[[[prob bo] r]|]| |]; cbn [bind]; cbv beta iota; [| |reflexivity|reflexivity].
  - destruct bo as [b|].
    + destruct (ps_add_backoff (ps_advance (sl_st l)) b); cbn [bind]; cbv beta iota; [apply IH|reflexivity|reflexivity].
    + cbn [bind]. cbv beta iota. apply IH.
  - reflexivity.
Qed.
Lemma score_with_s_pure {R S} (unk : F) found (probe : N -> N -> R -> res (option (F * option F * R))) (probe_s : N -> N -> R -> S -> res (option (F * option F * R) * S)) st w s :
  (forall k w r, probe_s k w r s = (x <- probe k w r ;; Ok (x, s))) ->
  score_with_s unk found probe_s st w s = (y <- score_with unk found probe st w ;; Ok (y, s)).
Proof.
  intros HP. unfold score_with_s, score_with. destruct (ps_add_word st w) as [st1| |]; cbn [bind]; [|reflexivity|reflexivity]. destruct found as [[[p b] r]|].
  - destruct (ps_add_backoff st1 b) as [st2| |]; cbn [bind]; cbv zeta; [|reflexivity|reflexivity]. rewrite (score_loop_s probe probe_s s HP).
    match goal with |- context [loop ?n ?f ?a] => destruct (loop n f a) as [l| |] end; cbn [bind]; cbv beta iota; [|reflexivity|reflexivity]. cbn [bind]. cbv beta iota.
    match goal with |- bind ?m _ = _ => destruct m end; reflexivity.
  - cbv zeta. match goal with |- context [ps_add_backoff ?a fzero] => destruct (ps_add_backoff a fzero) as [st2| |] end; cbn [bind]; cbv beta iota; [|reflexivity|reflexivity]. match goal with |- bind ?m _ = _ => destruct m end; reflexivity.
Qed.
(** every word is scored alike, and the trie stays as it was *)
Lemma qp_score_emb m buf st w : qp_score env (embq m) buf st w = (' (x, st, oov) <- tp_score te m buf st w ;; Ok (x, st, oov, embq m)).
Proof.
  unfold qp_score, tp_score. cbn [embq qp_vocab qp_arrays qp_unk]. destruct (plook_pair (tp_h te) (tp_vocab m) buf w) as [[id val]| |]; cbn [bind]; cbv beta iota; [|reflexivity|reflexivity].
  assert (FE : (if id =? not_found then Ok None else let '(p, b) := unpack val in r <- M_TriePef.pa_range (qarrays (tp_arrays m)) 0 id ;; Ok (Some (f_of_bits p, f_of_bits b, (r, id, id)))) =
    (if id =? not_found then Ok None else let '(p, b) := unpack val in a0 <- rd (tp_arrays m) 0 ;; r <- sa_range (a_sa a0) id ;; Ok (Some (f_of_bits p, f_of_bits b, (r, id, id))))).
  { destruct (id =? not_found); [reflexivity|]. destruct (unpack val). rewrite q_range. destruct (rd (tp_arrays m) 0); reflexivity. }
  rewrite FE. match goal with |- bind ?m _ = _ => destruct m as [fo| |] end; cbn [bind]; [|reflexivity|reflexivity].
  rewrite (score_with_s_pure (tp_unk m) fo (tp_probe te m)) by (intros; apply qp_probe_emb). destruct (score_with (tp_unk m) fo (tp_probe te m) st id) as [[[x st'] o]| |]; reflexivity.
Qed.
Lemma qp_sentence_emb m buf : forall ws st, qp_sentence env (embq m) buf st ws = (' (xs, st) <- tp_sentence te m buf st ws ;; Ok (xs, st, embq m)).
Proof.
  induction ws as [|w ws IH]; intros st; [reflexivity|]. cbn [qp_sentence tp_sentence]. rewrite qp_score_emb. destruct (tp_score te m buf st w) as [[[x st1] o]| |]; cbn [bind]; cbv beta iota; [|reflexivity|reflexivity]. rewrite IH. destruct (tp_sentence te m buf st1 ws) as [[xs st2]| |]; reflexivity.
Qed.
Lemma qp_corpus_emb m buf : qp_corpus env (embq m) buf = tp_corpus te m buf.
Proof.
  unfold qp_corpus, tp_corpus, score_corpus. change (qp_state (embq m)) with (tp_state m). destruct (tp_state m) as [st| |]; cbn [bind]; [|reflexivity|reflexivity].
  assert (L1 : forall f t st sent oovp, qp_line f env buf t st (embq m) sent oovp = (' (t, st, a, b) <- score_line (tp_score te m) f buf t st sent oovp ;; Ok (t, st, embq m, a, b))).
  { clear. induction f as [|f IH]; intros t st sent oovp; cbn [qp_line score_line]; destruct (tl_eol t); [reflexivity|reflexivity|reflexivity|]. destruct (tl_next buf t) as [[w t1]| |]; cbn [bind]; cbv beta iota; [|reflexivity|reflexivity].
    rewrite qp_score_emb. destruct (tp_score te m buf st w) as [[[x st1] o]| |]; cbn [bind]; cbv beta iota; [apply IH|reflexivity|reflexivity]. }
  assert (L2 : forall f t st tot, qp_lines f env buf t st (embq m) tot = score_lines (tp_score te m) f buf t st tot).
  { clear - L1. induction f as [|f IH]; intros t st tot; cbn [qp_lines score_lines]; destruct (tl_eof buf t); [reflexivity|reflexivity|reflexivity|]. destruct (ps_init st) as [st0| |]; cbn [bind]; [|reflexivity|reflexivity]. rewrite L1.
    match goal with |- context [score_line ?a ?b ?c ?d ?e ?f ?g] => destruct (score_line a b c d e f g) as [[[[t1 st1] s1] o1]| |] end; cbn [bind]; cbv beta iota; [apply IH|reflexivity|reflexivity]. }
  rewrite L2. reflexivity.
Qed.

(** ** files *)
Lemma save_embq x m : save_qpl x env (embq m) = save_tpl x m.
Proof.
  unfold save_qpl, save_tpl. cbn [embq qp_order qp_remap qp_unk qp_probs qp_backoffs qp_vocab qp_arrays qp_ranks]. do 6 f_equal.
  assert (F : forall l k, save_qarrs x env k (qarrays l) (map a_pb l) = save_parrs x (k + 1) l); [|apply (F _ 0)].
  induction l as [|a l IH]; intros k; [reflexivity|]. cbn [map save_qarrs save_parrs]. rewrite IH. f_equal. unfold save_qarr, save_parr. cbn [emb_arr M_TriePef.p_size M_TriePef.p_grams M_TriePef.p_ptrs]. f_equal.
  rewrite E1. f_equal. destruct (k + 1 =? 1); [reflexivity|]. f_equal. destruct (s_grams (a_sa a)); reflexivity.
Qed.
Lemma load_embq x s : load_qpl x env s = (' (m, s) <- load_tpl x s ;; Ok (embq m, s)).
Proof.
  unfold load_qpl, load_tpl. destruct (load_pod 1 s) as [[o s1]| |]; cbn [bind]; cbv beta iota; [|reflexivity|reflexivity]. destruct (load_pod 1 s1) as [[rm s2]| |]; cbn [bind]; cbv beta iota; [|reflexivity|reflexivity].
  destruct (load_pod 4 s2) as [[u s3]| |]; cbn [bind]; cbv beta iota; [|reflexivity|reflexivity]. destruct (load_qsc (sub64 o 1) s3) as [[p s4]| |]; cbn [bind]; cbv beta iota; [|reflexivity|reflexivity]. destruct (load_qsc (sub64 o 2) s4) as [[b s5]| |]; cbn [bind]; cbv beta iota; [|reflexivity|reflexivity].
  destruct (load_dvt x s5) as [[v s6]| |]; cbn [bind]; cbv beta iota; [|reflexivity|reflexivity]. destruct (o =? 0); [reflexivity|].
  assert (F : forall n k s, load_qarrs x env k n s = (' (l, s) <- load_parrs x (k + 1) n s ;; Ok (qarrays l, map a_pb l, s))).
  { clear - E1. induction n as [|n IH]; intros k s; [reflexivity|]. cbn [load_qarrs load_parrs].
    assert (A : load_qarr x env k s = (' (a, s) <- load_parr x (k + 1) s ;; Ok (emb_arr (a_sa a), a_pb a, s))).
    { unfold load_qarr, load_parr, load_gseq. cbn [genv M_TriePef.pe_pef]. rewrite E1. destruct (load_pod 8 s) as [[z s1]| |]; cbn [bind]; cbv beta iota; [|reflexivity|reflexivity]. destruct (k + 1 =? 1).
      - cbn [bind]. cbv beta iota. destruct (load_opt load_ef (fun e => ef_size e =? 0) s1) as [[p s3]| |]; reflexivity.
      - destruct (load_opt (load_fef x) (fun f => f_size f =? 0) s1) as [[g s2]| |]; cbn [bind]; cbv beta iota; [|reflexivity|reflexivity]. destruct (load_opt load_cv (fun c => c_size c =? 0) s2) as [[r s3]| |]; cbn [bind]; cbv beta iota; [|reflexivity|reflexivity].
        destruct (load_opt load_ef (fun e => ef_size e =? 0) s3) as [[p s4]| |]; reflexivity. }
    rewrite A. destruct (load_parr x (k + 1) s) as [[a s1]| |]; cbn [bind]; cbv beta iota; [|reflexivity|reflexivity]. rewrite IH. destruct (load_parrs x (k + 1 + 1) n s1) as [[l s2]| |]; reflexivity. }
  rewrite F. change (0 + 1) with 1. destruct (load_parrs x 1 (N.to_nat o) s6) as [[a s7]| |]; reflexivity.
Qed.
End B.
