(** * The instances of M_TriePef over fast_ef_sequence are the tries of M_Trie *)
From Verif Require Import Prelude BitFacts M_Word M_Bits M_CompactVector M_DArray M_EF M_HashVec M_Mph M_FastEF M_Text M_SeqColl M_Pool M_Pef M_Trie M_TriePef M_Save M_SavePef.

Definition emb_arr (a : sarr) : parr := mkparr (s_size a) (option_map SEF (s_grams a)) (option_map RR (s_ranks a)) (s_ptrs a).
Definition emb (l : list sarr) : list parr := map emb_arr l.
Definition embed (t : trie) : ptrie := mkptrie (t_order t) (t_remap t) (t_counts t) (t_vocab t) (emb (t_arrays t)).

Lemma rd_map {A B} (f : A -> B) l k : rd (map f l) k = (a <- rd l k ;; Ok (f a)).
Proof. unfold rd. rewrite lenN_map, nth_error_map. destruct (k <? lenN l); [|reflexivity]. destruct (nth_error l (N.to_nat k)); reflexivity. Qed.
Lemma set_nth_map {A B} (f : A -> B) a : forall l k, set_nth (map f l) k (f a) = map f (set_nth l k a).
Proof. induction l as [|y l IH]; intros [|k]; cbn [map set_nth]; [reflexivity|reflexivity|reflexivity|rewrite IH; reflexivity]. Qed.
Lemma wr_map {A B} (f : A -> B) l k a : wr (map f l) k (f a) = (l <- wr l k a ;; Ok (map f l)).
Proof. unfold wr. rewrite lenN_map. destruct (k <? lenN l); [|reflexivity]. cbn [bind]. rewrite set_nth_map. reflexivity. Qed.
Lemma set_nth_id {A} (a : A) : forall l k, nth_error l k = Some a -> set_nth l k a = l.
Proof. induction l as [|y l IH]; intros [|k] H; cbn [nth_error set_nth] in *; [discriminate|discriminate|congruence|rewrite IH; auto]. Qed.
Lemma wr_id {A} (l : list A) k a : rd l k = Ok a -> wr l k a = Ok l.
Proof. unfold rd, wr. destruct (k <? lenN l); [|discriminate]. destruct (nth_error l (N.to_nat k)) eqn:E; [|discriminate]. intros H. injection H as ->. rewrite set_nth_id by exact E. reflexivity. Qed.


Section B.
Variable env : penv.
Hypothesis E1 : pe_pef env = false.
Hypothesis E2 : pe_pspef env = false.
Notation te := (pe_t env).

Lemma pa_range_emb l k pos : pa_range (emb l) k pos = (a <- rd l k ;; sa_range a pos).
Proof. unfold pa_range, emb. rewrite rd_map. destruct (rd l k) as [a| |]; reflexivity. Qed.
Lemma pa_position_emb l k r id : pa_position env (emb l) k r id = (a <- rd l k ;; p <- sa_position (te_hu te k) a r id ;; Ok (p, emb l)).
Proof.
  unfold pa_position, emb. rewrite rd_map. destruct (rd l k) as [a| |] eqn:E; cbn [bind]; [|reflexivity|reflexivity]. unfold sa_position. cbn [emb_arr p_grams p_size p_ranks p_ptrs].
  destruct (s_grams a) as [f|] eqn:EG; cbn [option_map]; [|reflexivity]. cbn [g_find]. destruct (fef_find (te_hu te k) f r id); cbn [bind]; cbv beta iota; [|reflexivity|reflexivity].
  change (Some (SEF f)) with (option_map SEF (Some f)). rewrite <- EG. fold (emb_arr a). rewrite wr_map, (wr_id _ _ _ E). reflexivity.
Qed.
Lemma pa_next_emb l k r id : pa_next env (emb l) k r id = (a <- rd l k ;; ' (p, r') <- sa_next (te_hu te k) a r id ;; Ok (p, r', emb l)).
Proof.
  unfold pa_next. rewrite pa_position_emb. destruct (rd l k) as [a| |] eqn:E; cbn [bind]; [|reflexivity|reflexivity]. unfold sa_next. destruct (sa_position (te_hu te k) a r id) as [p| |]; cbn [bind]; cbv beta iota; [|reflexivity|reflexivity].
  destruct (p =? not_found); [reflexivity|]. rewrite pa_range_emb, E. cbn [bind]. destruct (sa_range a p); reflexivity.
Qed.
Lemma pa_count_rank_emb l k pos : pa_count_rank env (emb l) k pos = (a <- rd l k ;; x <- sa_count_rank a pos ;; Ok (x, emb l)).
Proof.
  unfold pa_count_rank, emb. rewrite rd_map. destruct (rd l k) as [a| |] eqn:E; cbn [bind]; [|reflexivity|reflexivity]. unfold sa_count_rank. cbn [emb_arr p_grams p_size p_ranks p_ptrs].
  destruct (s_ranks a) as [f|] eqn:EG; cbn [option_map]; [|reflexivity]. cbn [rk_get]. destruct (ranks_get f pos); cbn [bind]; cbv beta iota; [|reflexivity|reflexivity].
  change (Some (RR f)) with (option_map RR (Some f)). rewrite <- EG. fold (emb_arr a). rewrite wr_map, (wr_id _ _ _ E). reflexivity.
Qed.

Lemma pmap_in_emb l k r id : pmap_in env (emb l) k r id = (a <- rd l k ;; m <- map_in (te_hu te k) r id a ;; Ok (m, emb l)).
Proof.
  unfold pmap_in, map_in. rewrite pa_position_emb. destruct (rd l k) as [a| |]; cbn [bind]; [|reflexivity|reflexivity]. destruct (sa_position (te_hu te k) a r id) as [p| |]; cbn [bind]; cbv beta iota; [|reflexivity|reflexivity].
  destruct (p =? not_found); reflexivity.
Qed.
Lemma pmap_gram_emb v l remap buf g id : pmap_gram env v (emb l) remap buf g id = (m <- map_gram te v l remap buf g id ;; Ok (m, emb l)).
Proof.
  unfold pmap_gram, map_gram. destruct (back_to buf g remap) as [b| |]; cbn [bind]; [|reflexivity|reflexivity]. destruct (vlook (te_h te) v buf b) as [pid| |]; cbn [bind]; [|reflexivity|reflexivity].
  rewrite pa_range_emb. destruct (rd l 0) as [a0| |]; cbn [bind]; [|reflexivity|reflexivity]. destruct (sa_range a0 pid) as [r| |]; cbn [bind]; [|reflexivity|reflexivity].
  destruct (remap =? 2) eqn:R.
  - destruct (next buf b) as [nw| |]; cbn [bind]; [|reflexivity|reflexivity]. destruct (vlook (te_h te) v buf nw) as [ni| |]; cbn [bind]; [|reflexivity|reflexivity]. rewrite pa_next_emb.
    destruct (rd l 1) as [a1| |]; cbn [bind]; [|reflexivity|reflexivity]. destruct (sa_next (te_hu te 1) a1 r ni) as [[q r']| |]; cbn [bind]; cbv beta iota; [|reflexivity|reflexivity]. cbn [bind]. cbv beta iota. rewrite pmap_in_emb.
    destruct (rd l remap); reflexivity.
  - cbn [bind]. cbv beta iota. rewrite pmap_in_emb. destruct (rd l remap); reflexivity.
Qed.
Lemma pmap_parents_emb l id pids order remap : pmap_parents env (emb l) id pids order remap = (m <- map_parents te l id pids order remap ;; Ok (m, emb l)).
Proof.
  unfold pmap_parents, map_parents. destruct (rd pids (sub64 (add64 order 1) remap)) as [b| |]; cbn [bind]; [|reflexivity|reflexivity].
  rewrite pa_range_emb. destruct (rd l 0) as [a0| |]; cbn [bind]; [|reflexivity|reflexivity]. destruct (sa_range a0 b) as [r| |]; cbn [bind]; [|reflexivity|reflexivity].
  destruct (remap =? 2) eqn:R.
  - destruct (rd pids order) as [ni| |]; cbn [bind]; [|reflexivity|reflexivity]. rewrite pa_next_emb.
    destruct (rd l 1) as [a1| |]; cbn [bind]; [|reflexivity|reflexivity]. destruct (sa_next (te_hu te 1) a1 r ni) as [[q r']| |]; cbn [bind]; cbv beta iota; [|reflexivity|reflexivity]. cbn [bind]. cbv beta iota. rewrite pmap_in_emb.
    destruct (rd l remap); reflexivity.
  - cbn [bind]. cbv beta iota. rewrite pmap_in_emb. destruct (rd l remap); reflexivity.
Qed.

(** a mapping, with the arrays it leaves *)
Definition lift (l : list sarr) (m : res (N * list N * list N)) : res mqres := ' (o, w, p) <- m ;; Ok (o, w, p, emb l).
Lemma pmq_inner_emb v l remap buf last : forall fuel pos prev order wids pids,
  pmq_inner fuel env v (emb l) remap buf last pos prev order wids pids = lift l (mq_inner fuel te v l remap buf last pos prev order wids pids).
Proof.
  induction fuel as [|f IH]; intros pos prev order wids pids; cbn [pmq_inner mq_inner].
  - destruct (pos =? last); [|reflexivity]. destruct (vlook (te_h te) v buf (prev, pos)) as [id| |]; cbn [bind]; [|reflexivity|reflexivity]. destruct (id =? not_found); [reflexivity|].
    rewrite pmap_parents_emb. destruct (negb (order =? 2) || negb (remap =? 2)).
    + destruct (map_parents te l id pids order remap) as [m| |]; cbn [bind]; cbv beta iota; [|reflexivity|reflexivity]. destruct (m =? not_found); [reflexivity|]. destruct (wr wids order m); reflexivity.
    + cbn [bind]. cbv beta iota. destruct (id =? not_found); [reflexivity|]. destruct (wr wids order id); reflexivity.
  - destruct (pos =? last).
    + destruct (vlook (te_h te) v buf (prev, pos)) as [id| |]; cbn [bind]; [|reflexivity|reflexivity]. destruct (id =? not_found); [reflexivity|].
      rewrite pmap_parents_emb. destruct (negb (order =? 2) || negb (remap =? 2)).
      * destruct (map_parents te l id pids order remap) as [m| |]; cbn [bind]; cbv beta iota; [|reflexivity|reflexivity]. destruct (m =? not_found); [reflexivity|]. destruct (wr wids order m); reflexivity.
      * cbn [bind]. cbv beta iota. destruct (id =? not_found); [reflexivity|]. destruct (wr wids order id); reflexivity.
    + destruct (rd buf pos) as [c| |]; cbn [bind]; [|reflexivity|reflexivity]. destruct (c =? c_space); [|apply IH].
      destruct (vlook (te_h te) v buf (prev, pos)) as [id| |]; cbn [bind]; [|reflexivity|reflexivity]. destruct (id =? not_found); [reflexivity|]. rewrite pmap_parents_emb. destruct ((order =? 2) && (remap =? 2)).
      * cbn [bind]. cbv beta iota. destruct (id =? not_found); [reflexivity|]. destruct (wr wids order id); cbn [bind]; [|reflexivity|reflexivity]. destruct (wr pids (order + 1) id); cbn [bind]; [|reflexivity|reflexivity]. apply IH.
      * destruct (map_parents te l id pids order remap) as [m| |]; cbn [bind]; cbv beta iota; [|reflexivity|reflexivity]. destruct (m =? not_found); [reflexivity|]. destruct (wr wids order m); cbn [bind]; [|reflexivity|reflexivity]. destruct (wr pids (order + 1) id); cbn [bind]; [|reflexivity|reflexivity]. apply IH.
Qed.
Lemma pmq_sorted_emb v l remap buf first last : forall fuel pos prev order wids pids,
  pmq_sorted fuel env v (emb l) remap buf first last pos prev order wids pids = lift l (mq_sorted fuel te v l remap buf first last pos prev order wids pids).
Proof.
  assert (FIN : forall prev pos order wids pids, (id <- vlook (te_h te) v buf (prev, pos) ;; if id =? not_found then Ok (not_found, wids, pids, emb l) else wids <- wr wids order id ;; Ok (order, wids, pids, emb l)) =
    lift l (id <- vlook (te_h te) v buf (prev, pos) ;; if id =? not_found then Ok (not_found, wids, pids) else wids <- wr wids order id ;; Ok (order, wids, pids))).
  { intros. destruct (vlook (te_h te) v buf (prev, pos)) as [id| |]; cbn [bind]; [|reflexivity|reflexivity]. destruct (id =? not_found); [reflexivity|]. destruct (wr wids order id); reflexivity. }
  induction fuel as [|f IH]; intros pos prev order wids pids; cbn [pmq_sorted mq_sorted]; cbv zeta.
  - destruct (pos =? last); [apply FIN|reflexivity].
  - destruct (pos =? last); [apply FIN|]. destruct (rd buf pos) as [c| |]; cbn [bind]; [|reflexivity|reflexivity]. destruct (c =? c_space); [|apply IH]. destruct (pos =? first); [apply FIN|].
    destruct (vlook (te_h te) v buf (prev, pos)) as [id| |]; cbn [bind]; [|reflexivity|reflexivity]. destruct (id =? not_found); [reflexivity|]. destruct (wr wids order id); cbn [bind]; [|reflexivity|reflexivity]. destruct (wr pids (order + 1) id); cbn [bind]; [|reflexivity|reflexivity].
    destruct (order + 1 =? 2); [apply pmq_inner_emb|apply IH].
Qed.
Lemma pdescend_emb l wids : forall n i pos, pdescend n env (emb l) wids i pos = (p <- descend n te l wids i pos ;; Ok (p, emb l)).
Proof.
  induction n as [|n IH]; intros i pos; cbn [pdescend descend]; [reflexivity|]. rewrite pa_range_emb. destruct (rd l (i - 1)) as [a| |]; cbn [bind]; [|reflexivity|reflexivity]. destruct (sa_range a pos) as [r| |]; cbn [bind]; [|reflexivity|reflexivity].
  assert (RW : forall A (l : list A) k, rd l k = UB \/ exists a, rd l k = Ok a). { intros A m k. unfold rd. destruct (k <? lenN m); [|left; reflexivity]. destruct (nth_error m (N.to_nat k)); [right; eauto|left; reflexivity]. }
  destruct (RW _ wids i) as [EW|(w & EW)]; destruct (RW _ l i) as [EL|(b & EL)]; rewrite ?EW, ?EL; cbn [bind]; try reflexivity.
  - rewrite pa_position_emb, EL. reflexivity.
  - rewrite pa_position_emb, EL. cbn [bind]. destruct (sa_position (te_hu te i) b r w) as [p| |]; cbn [bind]; cbv beta iota; [|reflexivity|reflexivity]. destruct (p =? not_found); [reflexivity|apply IH].
Qed.
(** every query is answered alike, and leaves the trie as it was *)
Lemma ptrie_lookup_emb t st buf r : ptrie_lookup env (embed t) st buf r = (' (c, st) <- trie_lookup te t st buf r ;; Ok (c, st, embed t)).
Proof.
  unfold ptrie_lookup, trie_lookup. destruct st as [wids pids]. cbn [embed pt_order pt_remap pt_counts pt_vocab pt_arrays].
  assert (EM : (if te_map te then pmq_sorted (S (length buf)) env (t_vocab t) (emb (t_arrays t)) (t_remap t) buf (fst r) (snd r) (fst r) (fst r) 0 wids pids
     else ' (o, wids) <- mq_identity (S (length buf)) (te_h te) (t_vocab t) buf (fst r) (snd r) (fst r) (fst r) 0 wids ;; Ok (o, wids, pids, emb (t_arrays t))) =
     lift (t_arrays t) (if te_map te then mq_sorted (S (length buf)) te (t_vocab t) (t_arrays t) (t_remap t) buf (fst r) (snd r) (fst r) (fst r) 0 wids pids
     else ' (o, wids) <- mq_identity (S (length buf)) (te_h te) (t_vocab t) buf (fst r) (snd r) (fst r) (fst r) 0 wids ;; Ok (o, wids, pids))).
  { destruct (te_map te); [apply pmq_sorted_emb|]. destruct (mq_identity (S (length buf)) (te_h te) (t_vocab t) buf (fst r) (snd r) (fst r) (fst r) 0 wids) as [[o w]| |]; reflexivity. }
  rewrite EM. clear EM. match goal with |- bind (lift _ ?m) _ = _ => destruct m as [[[o w] p]| |] end; cbn [lift bind]; cbv beta iota; [|reflexivity|reflexivity].
  destruct ((o =? not_found) || (t_order t <? o)); [reflexivity|]. destruct (rd w 0) as [w0| |]; cbn [bind]; [|reflexivity|reflexivity]. rewrite pdescend_emb.
  destruct (descend (N.to_nat o) te (t_arrays t) w 1 w0) as [pos| |]; cbn [bind]; cbv beta iota; [|reflexivity|reflexivity]. destruct ((pos =? not_found) && negb (o =? 0)); [reflexivity|]. rewrite pa_count_rank_emb.
  destruct (rd (t_arrays t) o) as [a| |]; cbn [bind]; [|reflexivity|reflexivity]. destruct (sa_count_rank a pos) as [k| |]; cbn [bind]; cbv beta iota; [|reflexivity|reflexivity]. destruct (sc_access (t_counts t) o k); reflexivity.
Qed.

(** ** building *)
Lemma pngram_step_emb v cb order remap s l ln : pngram_step env v cb order remap (s, emb l) ln = (s <- ngram_step te v l cb order remap s ln ;; Ok (s, emb l)).
Proof.
  unfold pngram_step, ngram_step. destruct (parse_count_line ln) as [[g c]| |]; cbn [bind]; cbv beta iota zeta; [|reflexivity|reflexivity].
  destruct (predecessor (c_str ln) g) as [pt| |]; cbn [bind]; [|reflexivity|reflexivity]. destruct (advance (c_str ln) pt (bs_prv s) (bs_ptrs s) (bs_pointer s)) as [[prv ptrs]| |]; cbn [bind]; cbv beta iota; [|reflexivity|reflexivity].
  destruct prv as [|p0 prv]; [reflexivity|]. destruct (vlook (te_h te) v (c_str ln) (snd pt + 1, snd g)) as [id| |]; cbn [bind]; [|reflexivity|reflexivity].
  rewrite pmap_gram_emb.
  assert (K : forall x, (g0 <- cvb_push_back (ab_grams (bs_sab s)) x ;; rank <- sc_rank cb (order - 1) c ;; rk <- cvb_push_back (ab_ranks (bs_sab s)) rank ;; Ok (mkbst (p0 :: prv) ptrs (bs_pointer s + 1) (mksab g0 rk), emb l)) =
    (s0 <- (g0 <- cvb_push_back (ab_grams (bs_sab s)) x ;; rank <- sc_rank cb (order - 1) c ;; rk <- cvb_push_back (ab_ranks (bs_sab s)) rank ;; Ok (mkbst (p0 :: prv) ptrs (bs_pointer s + 1) (mksab g0 rk))) ;; Ok (s0, emb l))).
  { intros x. destruct (cvb_push_back (ab_grams (bs_sab s)) x); cbn [bind]; [|reflexivity|reflexivity]. destruct (sc_rank cb (order - 1) c); cbn [bind]; [|reflexivity|reflexivity]. destruct (cvb_push_back (ab_ranks (bs_sab s)) _); reflexivity. }
  destruct (te_map te && (remap + 1 <? order)).
  - destruct (map_gram te v l remap (c_str ln) g id) as [m| |]; cbn [bind]; cbv beta iota; [|reflexivity|reflexivity]. destruct (m =? not_found); cbn [bind]; cbv beta iota; [reflexivity|apply K].
  - cbn [bind]. cbv beta iota. apply K.
Qed.
Lemma pbuild_ngrams_emb v l cb order remap cur prv b : pbuild_ngrams env v (emb l) cb order remap cur prv b = (' (p, b) <- build_ngrams te v l cb order remap cur prv b ;; Ok (p, b, emb l)).
Proof.
  unfold pbuild_ngrams, build_ngrams.
  assert (F : forall cur s, foldM (pngram_step env v cb order remap) cur (s, emb l) = (s <- foldM (ngram_step te v l cb order remap) cur s ;; Ok (s, emb l))).
  { clear. induction cur as [|ln cur IH]; intros s; [reflexivity|]. cbn [foldM]. rewrite pngram_step_emb. destruct (ngram_step te v l cb order remap s ln); cbn [bind]; [apply IH|reflexivity|reflexivity]. }
  rewrite F. destruct (foldM (ngram_step te v l cb order remap) cur (mkbst prv [0] 0 b)); reflexivity.
Qed.
Lemma pab_build_ranks_emb k b a order : pab_build_ranks env k b (emb_arr a) order = (a <- sab_build_ranks (te_kind te) b a order ;; Ok (emb_arr a)).
Proof. unfold pab_build_ranks, sab_build_ranks, rk_build. rewrite E2. destruct (cv_all (cv_of_builder (ab_ranks b))) as [vs| |]; cbn [bind]; [|reflexivity|reflexivity]. destruct (ranks_build (te_kind te) vs order); reflexivity. Qed.
Lemma pab_build_emb k b a ptrs order : pab_build env k b (emb_arr a) ptrs order = (a <- sab_build (te_kind te) (te_hu te k) (te_orders te k) b a ptrs order ;; Ok (emb_arr a)).
Proof.
  unfold pab_build, sab_build, g_build. rewrite E1. destruct (cv_all (cv_of_builder (ab_grams b))) as [ids| |]; cbn [bind]; [|reflexivity|reflexivity]. destruct (fef_build (te_hu te k) (te_orders te k) ids ptrs) as [f| |]; cbn [bind]; [|reflexivity|reflexivity].
  rewrite <- (pab_build_ranks_emb k). reflexivity.
Qed.
Lemma pa_build_pointers_emb a ptrs : pa_build_pointers (emb_arr a) ptrs = (a <- sa_build_pointers a ptrs ;; Ok (emb_arr a)).
Proof. unfold pa_build_pointers, sa_build_pointers. destruct (ptr_build ptrs); reflexivity. Qed.

Lemma pbuild_order_emb v cb remap files l ord : pbuild_order env v cb remap files (emb l) ord = (l <- build_order te v cb remap files l ord ;; Ok (emb l)).
Proof.
  unfold pbuild_order, build_order. destruct (rd files (ord - 2)) as [prv| |]; cbn [bind]; [|reflexivity|reflexivity]. destruct (rd files (ord - 1)) as [cur| |]; cbn [bind]; cbv zeta; [|reflexivity|reflexivity].
  destruct (sc_size cb (ord - 1)) as [mx| |]; cbn [bind]; [|reflexivity|reflexivity]. destruct (sab_new (lenN cur) (m_n (sv_h v)) mx) as [b| |]; cbn [bind]; [|reflexivity|reflexivity]. rewrite pbuild_ngrams_emb.
  destruct (build_ngrams te v l cb ord remap cur prv b) as [[ptrs b']| |]; cbn [bind]; cbv beta iota; [|reflexivity|reflexivity]. unfold emb. rewrite rd_map. destruct (rd l (ord - 1)) as [a| |]; cbn [bind]; [|reflexivity|reflexivity].
  rewrite pab_build_emb. destruct (sab_build (te_kind te) (te_hu te (ord - 1)) (te_orders te (ord - 1)) b' a ptrs ord) as [a2| |]; cbn [bind]; [|reflexivity|reflexivity]. rewrite wr_map. destruct (wr l (ord - 1) a2) as [l2| |]; cbn [bind]; [|reflexivity|reflexivity].
  rewrite rd_map. destruct (rd l2 (ord - 2)) as [a3| |]; cbn [bind]; [|reflexivity|reflexivity]. rewrite pa_build_pointers_emb. destruct (sa_build_pointers a3 ptrs) as [a4| |]; cbn [bind]; [|reflexivity|reflexivity]. apply wr_map.
Qed.
Lemma pbuild_vocabulary_emb cb lines l : pbuild_vocabulary env cb lines (emb l) = (' (v, l) <- build_vocabulary te cb lines l ;; Ok (v, emb l)).
Proof.
  unfold pbuild_vocabulary, build_vocabulary. destruct (pool_load (pool_new (te_ram te)) lines) as [p| |]; cbn [bind]; cbv zeta; [|reflexivity|reflexivity]. destruct (mapM (pool_record p) (range (lenN (p_index p)))) as [recs| |]; cbn [bind]; [|reflexivity|reflexivity].
  destruct (sc_size cb 0) as [sz| |]; cbn [bind]; [|reflexivity|reflexivity]. destruct (sab_new (lenN (p_index p)) 0 sz) as [b| |]; cbn [bind]; [|reflexivity|reflexivity].
  match goal with |- bind ?m _ = _ => destruct m as [rk| |] end; cbn [bind]; [|reflexivity|reflexivity]. unfold emb. rewrite rd_map. destruct (rd l 0) as [a0| |]; cbn [bind]; [|reflexivity|reflexivity]. rewrite pab_build_ranks_emb.
  destruct (sab_build_ranks (te_kind te) (mksab (ab_grams b) rk) a0 1) as [a1| |]; cbn [bind]; [|reflexivity|reflexivity]. rewrite wr_map. destruct (wr l 0 a1) as [l2| |]; cbn [bind]; [|reflexivity|reflexivity].
  destruct (cvb_new (lenN (p_index p)) _) as [ids| |]; cbn [bind]; [|reflexivity|reflexivity]. destruct (foldM cvb_push_back _ ids) as [ids2| |]; cbn [bind]; [|reflexivity|reflexivity]. destruct (svt_build _ _ _ _ _ _); reflexivity.
Qed.
(** the same files give the same trie, or the same failure *)
Lemma ptrie_build_emb files order remap : ptrie_build env files order remap = (t <- trie_build te files order remap ;; Ok (embed t)).
Proof.
  unfold ptrie_build, trie_build. destruct (check_order order); cbn [bind]; [|reflexivity|reflexivity]. destruct (check_remapping_order remap); cbn [bind]; [|reflexivity|reflexivity]. destruct (mapM (rd files) (range order)) as [fs| |]; cbn [bind]; [|reflexivity|reflexivity].
  match goal with |- bind ?m _ = _ => destruct m as [values| |] end; cbn [bind]; [|reflexivity|reflexivity]. destruct (sc_add_all scb_empty values (te_sorts te)) as [cb| |]; cbn [bind]; [|reflexivity|reflexivity]. destruct (rd files 0) as [l1| |]; cbn [bind]; [|reflexivity|reflexivity].
  replace (map (fun f => parr_new (lenN f)) fs) with (emb (map (fun f => sarr_new (lenN f)) fs)) by (unfold emb; rewrite map_map; reflexivity).
  rewrite pbuild_vocabulary_emb. destruct (build_vocabulary te cb l1 (map (fun f => sarr_new (lenN f)) fs)) as [[v l]| |]; cbn [bind]; cbv beta iota; [|reflexivity|reflexivity].
  assert (F : forall os l, foldM (pbuild_order env v cb remap files) os (emb l) = (l <- foldM (build_order te v cb remap files) os l ;; Ok (emb l))).
  { clear - E1 E2. induction os as [|o os IH]; intros l; [reflexivity|]. cbn [foldM]. rewrite pbuild_order_emb. destruct (build_order te v cb remap files l o); cbn [bind]; [apply IH|reflexivity|reflexivity]. }
  rewrite F. destruct (foldM (build_order te v cb remap files) (seqN 2 (N.to_nat (order - 1))) l); reflexivity.
Qed.

(** ** files *)
Lemma save_emb x t : save_ptrie x env (embed t) = save_trie x (te_kind te) t.
Proof.
  unfold save_ptrie, save_trie. cbn [embed pt_order pt_remap pt_counts pt_vocab pt_arrays]. do 4 f_equal.
  assert (F : forall l k, save_peas x env k (emb l) = save_arrays x (te_kind te) (k + 1) l); [|apply (F _ 0)].
  induction l as [|a l IH]; intros k; [reflexivity|]. cbn [emb map save_peas save_arrays]. fold (emb l). rewrite IH. f_equal. unfold save_pea, save_sarr. cbn [emb_arr p_size p_grams p_ranks p_ptrs]. f_equal.
  rewrite E1, E2. f_equal; [destruct (k + 1 =? 1); [reflexivity|]; destruct (s_grams a); reflexivity|]. f_equal. destruct (s_ranks a); reflexivity.
Qed.
Lemma load_emb x s : load_ptrie x env s = (' (t, s) <- load_trie x (te_kind te) s ;; Ok (embed t, s)).
Proof.
  unfold load_ptrie, load_trie. destruct (load_pod 1 s) as [[o s1]| |]; cbn [bind]; cbv beta iota; [|reflexivity|reflexivity]. destruct (load_pod 1 s1) as [[rm s2]| |]; cbn [bind]; cbv beta iota; [|reflexivity|reflexivity].
  destruct (load_sc o s2) as [[c s3]| |]; cbn [bind]; cbv beta iota; [|reflexivity|reflexivity]. destruct (load_svt x 64 s3) as [[v s4]| |]; cbn [bind]; cbv beta iota; [|reflexivity|reflexivity].
  assert (F : forall n k s, load_peas x env k n s = (' (l, s) <- load_arrays x (te_kind te) (k + 1) n s ;; Ok (emb l, s))).
  { clear - E1 E2. induction n as [|n IH]; intros k s; [reflexivity|]. cbn [load_peas load_arrays].
    assert (A : load_pea x env k s = (' (a, s) <- load_sarr x (te_kind te) (k + 1) s ;; Ok (emb_arr a, s))).
    { unfold load_pea, load_sarr. destruct (load_pod 8 s) as [[z s1]| |]; cbn [bind]; cbv beta iota; [|reflexivity|reflexivity]. unfold load_gseq, load_rseq. rewrite E1, E2.
      destruct (k + 1 =? 1).
      - cbn [bind]. cbv beta iota. destruct (load_opt (load_ranks (te_kind te)) ranks_dflt s1) as [[r s2]| |]; cbn [bind]; cbv beta iota; [|reflexivity|reflexivity]. destruct (load_opt load_ef (fun e => ef_size e =? 0) s2) as [[p s3]| |]; reflexivity.
      - destruct (load_opt (load_fef x) (fun f => f_size f =? 0) s1) as [[g s2]| |]; cbn [bind]; cbv beta iota; [|reflexivity|reflexivity]. destruct (load_opt (load_ranks (te_kind te)) ranks_dflt s2) as [[r s3]| |]; cbn [bind]; cbv beta iota; [|reflexivity|reflexivity]. destruct (load_opt load_ef (fun e => ef_size e =? 0) s3) as [[p s4]| |]; reflexivity. }
    rewrite A. destruct (load_sarr x (te_kind te) (k + 1) s) as [[a s1]| |]; cbn [bind]; cbv beta iota; [|reflexivity|reflexivity]. rewrite IH. destruct (load_arrays x (te_kind te) (k + 1 + 1) n s1) as [[l s2]| |]; reflexivity. }
  rewrite F. change (0 + 1) with 1. destruct (load_arrays x (te_kind te) 1 (N.to_nat o) s4) as [[a s5]| |]; reflexivity.
Qed.
End B.
