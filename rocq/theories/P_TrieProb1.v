(** * Building a probability trie *)
From Coq Require Import Floats.SpecFloat.
From Verif Require Import Prelude BitFacts M_Word P_Word M_Bits Spec P_Bits P_Builder M_CompactVector P_CompactVector M_DArray M_EF P_EF P_EF2
  M_HashVec M_Mph P_Mph P_MphTables M_FastEF P_FastEF3 M_Text P_Text P_Text2 M_SeqColl P_SeqColl M_Pool P_Pool M_Trie Spec_Trie P_Trie1 P_Trie2 P_Trie3 P_Trie4 P_Trie5
  M_Score Spec_Katz P_Score1 P_Score2 M_Quant P_Quant M_MphProb Spec_Arpa P_Sentence P_Values M_TrieProb.
From Coq Require Import Permutation Sorting.Sorted.

(** the environment of the lemmas about the levels of a count trie *)
Definition tenv0 (env : tpenv) : tenv := mktenv (tp_h env) (tp_vorder env) (tp_hu env) (tp_orders env) [] IC (tp_map env) 0.
(** the reversed n-grams, without values *)
Definition revD (D : entries) : list (list (gram * N)) := map (map (fun e => (rev (fst e), 0))) D.
Lemma grams_revD D k : grams (revD D) k = map (fun e => rev (fst e)) (match nthN D k with Some l => l | None => [] end).
Proof. unfold grams, revD. rewrite nthN_map. destruct (nthN D k) as [l|]; [|reflexivity]. cbn [option_map]. rewrite map_map. reflexivity. Qed.
Lemma grams_reversed D k : grams (revD D) k = grams (reversed D) k.
Proof. rewrite grams_revD. unfold grams, reversed. rewrite nthN_map. destruct (nthN D k) as [l|]; [|reflexivity]. cbn [option_map]. rewrite map_map. reflexivity. Qed.
Lemma lenN_revD D : lenN (revD D) = lenN D. Proof. apply lenN_map. Qed.
Lemma collection_revD D remap : collection (reversed D) remap -> collection (revD D) remap.
Proof.
  intro C. assert (LR : lenN (revD D) = lenN (reversed D)) by (unfold revD, reversed; rewrite !lenN_map; reflexivity).
  constructor; rewrite ?grams_reversed.
  - rewrite LR. apply (col_order _ _ C).
  - intros k l H. unfold revD in H. rewrite nthN_map in H. destruct (nthN D k) as [l'|] eqn:E; [|discriminate]. cbn in H. injection H as <-.
    destruct (col_size _ _ C k (map (fun e => (rev (fst e), snd e)) l')) as [H1 H2]. { unfold reversed. rewrite nthN_map, E. reflexivity. }
    unfold lenN in *. rewrite map_length in *. split; [destruct l'; [cbn in H1; congruence|discriminate]|exact H2].
  - intros k g. rewrite grams_reversed. apply (col_words _ _ C).
  - intros k g. rewrite grams_reversed. apply (col_bytes _ _ C).
  - apply (col_unigrams _ _ C).
  - intros k Hk. rewrite grams_reversed. apply (col_sorted _ _ C k Hk).
  - intros k g. rewrite !grams_reversed. apply (col_prefix _ _ C).
  - apply (col_remap _ _ C).
  - intros k g. rewrite !grams_reversed. apply (col_suffix _ _ C).
Qed.

(** what the build needs besides the values and the gram sequences *)
Record trie_base_ok (D : entries) (secs : list (list (list N))) (env : tpenv) (remap pq bq : N) : Prop := {
  bo_values : value_inputs_ok D secs (tp_penv env) pq bq;
  bo_bits : pq + bq <= 57;
  bo_lens : Forall (Forall (fun l => lenN l < 2 ^ 32)) secs;
  bo_map : tp_map env = negb (remap =? 0);
  bo_vocab : forall l, nthN D 0 = Some l -> valid_order (hash_domain (lenN l)) (tp_h env) (map (fun e => join (fst e)) l) (tp_vorder env);
  bo_pad : exists x, tp_pad env = [x] /\ x < 2 ^ 64 }.
(** what the build needs besides the values *)
Record trie_inputs_ok (D : entries) (secs : list (list (list N))) (env : tpenv) (remap pq bq : N) : Prop := {
  ti_values : value_inputs_ok D secs (tp_penv env) pq bq;
  ti_bits : pq + bq <= 57;
  ti_lens : Forall (Forall (fun l => lenN l < 2 ^ 32)) secs;
  ti_map : tp_map env = negb (remap =? 0);
  ti_vocab : forall l, nthN D 0 = Some l -> valid_order (hash_domain (lenN l)) (tp_h env) (map (fun e => join (fst e)) l) (tp_vorder env);
  ti_levels : forall k, 0 < k < lenN D ->
    let starts := long_starts 128 (child_ptrs (grams (reversed D) (k - 1)) (grams (reversed D) k)) in
    starts = [] \/ valid_order (hash_domain (lenN starts)) (tp_hu env k) starts (tp_orders env k);
  ti_pad : exists x, tp_pad env = [x] /\ x < 2 ^ 64 }.

Lemma base_of D secs env remap pq bq : trie_inputs_ok D secs env remap pq bq -> trie_base_ok D secs env remap pq bq.
Proof. intros []. constructor; assumption. Qed.

Lemma parse_arpa_holds sd (e : gram * (spec_float * spec_float)) line : ~ In 9 (join (fst e)) -> arpa_line sd e line ->
  exists r, parse_arpa_line sd line = Ok r /\ prec_bytes line r = join (fst e) /\ r_prob r = fst (snd e) /\ r_backoff r = snd (snd e) /\
    holds_text (c_str line) (r_gram r) (join (fst e)).
Proof.
  intros HT HA. destruct (parse_arpa_ok sd e line HT HA) as (r & E & P0 & P1 & P2). exists r. split; [exact E|]. split; [exact P0|]. split; [exact P1|]. split; [exact P2|].
  split; [|exact P0]. unfold parse_arpa_line in E. destruct (sd (c_str line) 0) as [p0 e0]. cbv beta zeta iota in E.
  destruct (N.ltb_spec (lenN line) (e0 + 1)) as [Z|Z]; [discriminate|]. apply bind_ok in E. destruct E as (pos & E1 & E). injection E as <-. cbn [r_gram fst snd].
  unfold c_str. rewrite lenN_app. change (lenN [0]) with 1.
  assert (G : forall f q res_, q <= lenN line -> seek_end f (line ++ [0]) q (lenN line) c_tab = Ok res_ -> q <= res_ <= lenN line).
  { clear. induction f as [|f IH]; intros q x Hq H; cbn [seek_end] in H.
    - discriminate H.
    - destruct (N.eqb_spec q (lenN line)); [injection H as <-; lia|]. apply bind_ok in H. destruct H as (c & _ & H). destruct (c =? c_tab); [injection H as <-; lia|].
      apply IH in H; lia. }
  specialize (G _ _ _ Z E1). lia.
Qed.

Section Build.
Variable D : entries.
Variable secs : list (list (list N)).
Variable env : tpenv.
Variables remap pq bq : N.
Hypothesis AF : arpa_file D.
Hypothesis CO : collection (reversed D) remap.
Hypothesis TI : trie_base_ok D secs env remap pq bq.
Notation R := (revD D).
Notation G := (grams (revD D)).
Notation voc := (grams (revD D) 0).
Notation E0 := (tenv0 env).
Notation keys l := (map (fun e : gram * (spec_float * spec_float) => join (fst e)) l).
Notation entry_t := (gram * (spec_float * spec_float))%type.

Lemma CR : collection R remap. Proof. apply collection_revD. exact CO. Qed.
Lemma VIN : value_inputs_ok D secs (tp_penv env) pq bq. Proof. apply (bo_values _ _ _ _ _ _ TI). Qed.
Lemma G_of k l : nthN D k = Some l -> G k = map (fun e => rev (fst e)) l.
Proof. intro H. rewrite grams_revD, H. reflexivity. Qed.
Lemma nthN_G k l i e : nthN D k = Some l -> nthN l i = Some e -> nthN (G k) i = Some (rev (fst e)).
Proof. intros H1 H2. rewrite (G_of k l H1), nthN_map, H2. reflexivity. Qed.
Lemma G_len k l : nthN D k = Some l -> lenN (G k) = lenN l.
Proof. intro H. rewrite (G_of k l H), lenN_map. reflexivity. Qed.
Lemma lines_of k l : nthN D k = Some l -> exists ls, nthN secs k = Some ls /\ Forall2 (arpa_line (tp_sd env)) l ls /\ Forall (fun x => lenN x < 2 ^ 32) ls.
Proof.
  intro H. destruct (level_lines D secs (tp_penv env) pq bq VIN k l H) as (ls & H1 & H2). exists ls. split; [exact H1|]. split; [exact H2|].
  exact (Forall_nthN _ _ _ _ (bo_lens _ _ _ _ _ _ TI) H1).
Qed.
Lemma words_of k l e : nthN D k = Some l -> In e l -> lenN (fst e) = k + 1 /\ Forall word (fst e).
Proof. intros H1 H2. destruct (af_words _ AF k l e H1 H2) as [H3 H4]. split; [exact H3|]. eapply Forall_impl; [|exact H4]. intros ? [? _]. assumption. Qed.
Lemma uni_rev l e : nthN D 0 = Some l -> In e l -> rev (fst e) = fst e.
Proof.
  intros Hl He. destruct (words_of 0 l e Hl He) as [L _]. destruct (fst e) as [|w [|? ?]]; [reflexivity|reflexivity|]. rewrite !lenN_cons in L. lia.
Qed.
Lemma voc_keys l : nthN D 0 = Some l -> map (fun g : gram => join g) voc = keys l.
Proof.
  intro Hl. rewrite (G_of 0 l Hl), map_map. apply map_ext_in. intros e He. rewrite (uni_rev l e Hl He). reflexivity.
Qed.

(** ** vocabulary *)
Definition pvoc_rep (v : dvt) : Prop := forall l, nthN D 0 = Some l -> dvt_rep 64 (tp_h env) v (keys l) (combine (range (lenN l)) (map uni_value l)).
Lemma In_combine_at {A B} (a : list A) (b : list B) i x y : nthN a i = Some x -> nthN b i = Some y -> In (x, y) (combine a b).
Proof.
  unfold nthN. generalize (N.to_nat i) as n. clear i. revert b. induction a as [|x0 a IH]; intros b n H1 H2; [destruct n; discriminate|].
  destruct b as [|y0 b]; [destruct n; discriminate|]. destruct n; cbn in *; [injection H1 as <-; injection H2 as <-; left; reflexivity|right; eapply IH; eauto].
Qed.
Lemma nthN_comb {A B} (a : list A) (b : list B) i x y : nthN a i = Some x -> nthN b i = Some y -> nthN (combine a b) i = Some (x, y).
Proof.
  unfold nthN. generalize (N.to_nat i) as n. clear i. revert b. induction a as [|x0 a IH]; intros b n H1 H2; [destruct n; discriminate|].
  destruct b as [|y0 b]; [destruct n; discriminate|]. destruct n; cbn in *; [injection H1 as <-; injection H2 as <-; reflexivity|eapply IH; eauto].
Qed.
Lemma voc_entry w : In [w] voc -> exists l e, nthN D 0 = Some l /\ nthN l (vid R w) = Some e /\ fst e = [w].
Proof.
  intro H. pose proof (vid_In R w H) as V. pose proof (af_order _ AF) as HO. destruct (nthN_Some D 0 ltac:(lia)) as (l & Hl). exists l.
  rewrite (G_of 0 l Hl), nthN_map in V. destruct (nthN l (vid R w)) as [e|] eqn:E; [|discriminate]. cbn in V. injection V as V. exists e. split; [exact Hl|]. split; [reflexivity|].
  rewrite <- (uni_rev l e Hl (nthN_In _ _ _ E)). exact V.
Qed.
Lemma dict_pair v w : pvoc_rep v -> In [w] voc -> exists l e, nthN D 0 = Some l /\ nthN l (vid R w) = Some e /\ fst e = [w] /\
  dvt_lookup_pair 64 (tp_h env) v w = Ok (vid R w, uni_value e) /\ dvt_lookup 64 (tp_h env) v w = Ok (vid R w).
Proof.
  intros RV H. destruct (voc_entry w H) as (l & e & Hl & He & Ee). exists l, e. split; [exact Hl|]. split; [exact He|]. split; [exact Ee|].
  apply dvt_lookup_in with (keys := keys l) (vs := combine (range (lenN l)) (map uni_value l)); [apply RV; exact Hl|].
  apply (In_combine_at _ _ (vid R w)).
  - rewrite nthN_map, He. cbn. rewrite Ee. reflexivity.
  - apply nthN_comb; [apply nthN_range; apply nthN_lt in He; exact He|rewrite nthN_map, He; reflexivity].
Qed.
Lemma plook_ok v buf r w : pvoc_rep v -> holds_text buf r w -> In [w] voc -> plook (tp_h env) v buf r = Ok (vid R w).
Proof. intros RV H I. unfold plook. rewrite (bytes_at_ok _ _ _ H). cbn [bind]. destruct (dict_pair v w RV I) as (l & e & _ & _ & _ & _ & E). exact E. Qed.
Lemma plook_pair_ok v buf r w : pvoc_rep v -> holds_text buf r w -> In [w] voc -> exists y, plook_pair (tp_h env) v buf r = Ok (vid R w, y).
Proof. intros RV H I. unfold plook_pair. rewrite (bytes_at_ok _ _ _ H). cbn [bind]. destruct (dict_pair v w RV I) as (l & e & _ & _ & _ & E & _). eauto. Qed.

Lemma vocabulary_ok l ls : nthN D 0 = Some l -> Forall2 (arpa_line (tp_sd env)) l ls -> exists v, tp_vocabulary env ls = Ok v /\ pvoc_rep v /\ m_n (dv_h v) = lenN voc /\
  exists c1 c2, cv_holds c1 (range (lenN l)) /\ cv_holds c2 (map uni_value l) /\ dvt_build 64 (tp_h env) (hash_domain (lenN l)) (tp_vorder env) (keys l) c1 c2 = Ok v.
Proof.
  intros Hl F2. destruct (af_size _ AF 0 l Hl) as [S1 S2]. unfold tp_vocabulary.
  assert (LL : lenN ls = lenN (map uni_value l)) by (rewrite lenN_map; apply Forall2_len in F2; unfold lenN; lia).
  destruct (push_w_holds (map uni_value l) 64) as (b & b' & E1 & E2 & E3 & E4).
  { lia. }
  { rewrite lenN_map. lia. }
  { apply Forall_forall. intros v Hv. apply in_map_iff in Hv. destruct Hv as (e & <- & He). destruct (af_floats _ AF 0 l e Hl He) as [V1 V2].
    apply f_bits_lt in V1, V2. apply pack_lt; lia. }
  rewrite LL, E1. cbn [bind].
  set (step := fun (s : list N * list N * cvb) (x : list N) => let '(data, offs, c) := s in
      r <- parse_arpa_line (tp_sd env) x ;;
      let data := data ++ prec_bytes x r in
      c <- cvb_push_back c (pack (f_bits (r_prob r)) (f_bits (r_backoff r))) ;;
      Ok (data, offs ++ [lenN data], c)).
  assert (FO : forall l0 ls0, Forall2 (arpa_line (tp_sd env)) l0 ls0 -> forall l1 c, l = l1 ++ l0 -> foldM cvb_push_back (map uni_value l0) c = Ok b' ->
    foldM step ls0 (concat (keys l1), map (fun j => lenN (concat (firstn (N.to_nat j) (keys l)))) (range (lenN l1 + 1)), c)
    = Ok (concat (keys l), map (fun j => lenN (concat (firstn (N.to_nat j) (keys l)))) (range (lenN l + 1)), b')).
  { intros l0 ls0 H. induction H as [|e x l0 ls0 He H IH]; intros l1 c El Ec.
    - rewrite app_nil_r in El. subst l1. cbn in Ec. injection Ec as ->. reflexivity.
    - assert (Hin : In e l) by (rewrite El; apply in_or_app; right; left; reflexivity).
      destruct (level_no_tab D AF 0 l e Hl Hin) as [NT _].
      destruct (parse_arpa_ok (tp_sd env) e x NT He) as (r & P0 & P1 & P2 & P3).
      cbn [foldM]. unfold step at 1. rewrite P0. cbn [bind]. rewrite P1, P2, P3. cbn [map foldM] in Ec. apply bind_ok in Ec. destruct Ec as (c1 & C1 & Ec).
      change (pack (f_bits (fst (snd e))) (f_bits (snd (snd e)))) with (uni_value e). rewrite C1. cbn [bind].
      specialize (IH (l1 ++ [e]) c1 ltac:(rewrite <- app_assoc; exact El) Ec).
      replace (concat (keys l1) ++ join (fst e)) with (concat (keys (l1 ++ [e]))) by (rewrite map_app, concat_app; cbn; rewrite app_nil_r; reflexivity).
      rewrite <- IH. f_equal. f_equal. f_equal. rewrite lenN_app. change (lenN [e]) with 1. unfold range.
      replace (N.to_nat (lenN l1 + 1 + 1)) with (N.to_nat (lenN l1 + 1) + 1)%nat by lia. rewrite seqN_app, (map_app _ (seqN 0 _) (seqN _ 1)). f_equal. cbn [seqN map].
      f_equal. f_equal. f_equal. replace (N.to_nat (0 + N.of_nat (N.to_nat (lenN l1 + 1)))) with (length (keys (l1 ++ [e]))) by (rewrite map_length, app_length; unfold lenN; cbn [length]; lia).
      rewrite El. replace (l1 ++ e :: l0) with ((l1 ++ [e]) ++ l0) by (rewrite <- app_assoc; reflexivity). rewrite (map_app _ (l1 ++ [e]) l0). rewrite firstn_app, firstn_all, Nat.sub_diag. cbn [firstn]. rewrite app_nil_r. reflexivity. }
  specialize (FO l ls F2 [] b eq_refl E2). change (concat (keys [])) with (@nil N) in FO.
  change (map (fun j => lenN (concat (firstn (N.to_nat j) (keys l)))) (range (lenN (@nil entry_t) + 1))) with [0] in FO.
  rewrite FO. cbn [bind]. set (offs := map _ _).
  assert (LO : lenN offs = lenN l + 1) by (unfold offs; rewrite lenN_map, lenN_range; reflexivity).
  assert (KS : mapM (fun i => b <- rd offs i ;; e <- rd offs (i + 1) ;; bytes_at (concat (keys l)) (b, e)) (range (lenN offs - 1)) = Ok (keys l)).
  { rewrite LO, N.add_sub. replace (lenN l) with (lenN (keys l)) by apply lenN_map.
    rewrite (mapM_range _ (fun x => x) (keys l)); [rewrite map_id; reflexivity|]. intros i x Hx.
    pose proof (nthN_lt _ _ _ Hx) as Li. rewrite lenN_map in Li.
    assert (O : forall j, j <= lenN l -> rd offs j = Ok (lenN (concat (firstn (N.to_nat j) (keys l))))).
    { intros j Hj. apply (proj2 (rd_nthN _ _ _)). unfold offs. rewrite nthN_map, nthN_range by lia. reflexivity. }
    rewrite (O i) by lia. cbn [bind]. rewrite (O (i + 1)) by lia. cbn [bind]. apply bytes_at_ok.
    assert (SP : keys l = firstn (N.to_nat i) (keys l) ++ x :: skipn (N.to_nat (i + 1)) (keys l)).
    { rewrite <- (skipn_nthN _ _ _ Hx). symmetry. apply firstn_skipn. }
    assert (F1 : firstn (N.to_nat (i + 1)) (keys l) = firstn (N.to_nat i) (keys l) ++ [x]).
    { replace (N.to_nat (i + 1)) with (S (N.to_nat i)) by lia. apply firstn_S_nth. exact Hx. }
    rewrite F1. rewrite SP at 1. rewrite !concat_app. cbn [concat]. rewrite app_nil_r. apply holds_mid; [reflexivity|]. rewrite lenN_app. reflexivity. }
  rewrite KS. cbn [bind].
  destruct (cv_push_holds (range (lenN l)) (lenN l)) as (b3 & b3' & E7 & E8 & E9); [rewrite lenN_range; lia|lia| |].
  { apply Forall_forall. intros x Hx. unfold range in Hx. apply In_seqN in Hx. lia. }
  rewrite lenN_range in E7. rewrite lenN_map, E7. cbn [bind]. rewrite E8. cbn [bind]. rewrite lenN_map.
  destruct (dvt_build_ok 64 (tp_h env) (hash_domain (lenN l)) (tp_vorder env) (keys l) (cv_of_builder b3') (cv_of_builder b') (range (lenN l)) (map uni_value l)) as (v & EV & RV); auto.
  - unfold hash_domain. assert (PL : 0 < lenN l) by (destruct l; [congruence|rewrite lenN_cons; lia]).
    assert (2 <= (lenN l * 123 + 99) / 100); [apply N.div_le_lower_bound; lia|]. apply N.div_str_pos. lia.
  - apply (bo_vocab _ _ _ _ _ _ TI l Hl).
  - rewrite map_length. unfold range. rewrite length_seqN. unfold lenN. lia.
  - rewrite !map_length. reflexivity.
  - lia.
  - destruct (cv_holds_width _ _ E9) as (W & _). destruct (cv_holds_width _ _ E3) as (W' & _). rewrite lenN_map. nia.
  - exists v. split; [exact EV|]. split.
    + intros l' Hl'. rewrite Hl in Hl'. injection Hl' as <-. exact RV.
    + split; [destruct RV as (_ & N1 & _); rewrite N1, lenN_map; symmetry; apply G_len; exact Hl|]. exists (cv_of_builder b3'), (cv_of_builder b'). split; [exact E9|]. split; [exact E3|exact EV].
Qed.
End Build.
