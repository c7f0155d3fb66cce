(** * Proofs about the hash probability model *)
From Coq Require Import Floats.SpecFloat.
From Verif Require Import Prelude BitFacts M_Word P_Word M_Bits Spec P_Bits P_Builder M_CompactVector P_CompactVector
  M_HashVec M_Mph P_Mph P_MphTables M_Text P_Text P_Text2 M_Pool P_Pool M_Trie Spec_Trie P_Trie1 P_Trie3 P_Trie4 P_Trie5 M_SeqColl P_SeqColl
  M_Score Spec_Katz P_Score1 P_Score2 P_Score3 M_Quant P_Quant M_MphProb Spec_Arpa P_Sentence P_Values Spec_Supported P_Supported.
From Coq Require Import Permutation.

(** ** what the build needs *)
Record prob_inputs_ok (D : entries) (secs : list (list (list N))) (env : penv) (pq bq : N) : Prop := {
  pi_lines : Forall2 (Forall2 (arpa_line (pe_sd env))) D secs;
  pi_bits : pe_hb env = 64 \/ (pe_hb env = 32 /\ pq + bq <= 32 /\ forall k l, nthN D k = Some l -> lenN l <= 2 ^ 25);
  pi_orders : forall k l, nthN D k = Some l -> valid_order (hash_domain (lenN l)) (pe_h env k) (map (fun e => join (fst e)) l) (pe_orders env k);
  pi_sort : forall l, Permutation (pe_sort env l) l;
  pi_ram : forall k l, nthN D k = Some l -> lenN (concat (map (fun e => join (fst e)) l)) <= pe_ram env;
  pi_pq : 2 <= pq <= 31 /\ forall k l, 1 <= k -> nthN D k = Some l -> 2 ^ pq <= lenN l;
  pi_bq : 2 <= bq <= 32 /\ forall k l, 1 <= k -> k + 1 < lenN D -> nthN D k = Some l -> nonzero_backoffs l = [] \/ 2 ^ bq <= lenN (nonzero_backoffs l) }.

Section Build.
Variable D : entries.
Variable secs : list (list (list N)).
Variable env : penv.
Variables pq bq : N.
Hypothesis AF : arpa_file D.
Hypothesis PI : prob_inputs_ok D secs env pq bq.
Lemma PV : value_inputs_ok D secs env pq bq.
Proof. destruct PI. constructor; assumption. Qed.
Notation keys l := (map (fun e : gram * (spec_float * spec_float) => join (fst e)) l).

(** the pool of a section *)
Lemma pool_ok k l ls : nthN D k = Some l -> Forall2 (arpa_line (pe_sd env)) l ls ->
  exists p, mp_pool env ls = Ok p /\ pool_rep p (pe_ram env) (map (fun e => (join (fst e), snd e)) l).
Proof.
  intros Hl F2. unfold mp_pool.
  assert (G : forall l0 ls0, Forall2 (arpa_line (pe_sd env)) l0 ls0 -> forall l1 p, l = l1 ++ l0 -> pool_rep p (pe_ram env) (map (fun e => (join (fst e), snd e)) l1) ->
    exists p', foldM (fun p x => r <- parse_arpa_line (pe_sd env) x ;; Ok (snd (pool_append p (prec_bytes x r) (r_prob r, r_backoff r)))) ls0 p = Ok p' /\ pool_rep p' (pe_ram env) (map (fun e => (join (fst e), snd e)) l)).
  { intros l0 ls0 H. induction H as [|e x l0 ls0 He H IH]; intros l1 p E R.
    - exists p. rewrite app_nil_r in E. subst l1. auto.
    - cbn [foldM]. assert (Hin : In e l) by (rewrite E; apply in_or_app; right; left; reflexivity).
      destruct (level_no_tab D AF k l e Hl Hin) as [NT NE].
      destruct (parse_arpa_ok (pe_sd env) e x NT He) as (r & E1 & E2 & E3 & E4). rewrite E1. cbn [bind]. rewrite E2, E3, E4.
      destruct (pool_append_rep p (pe_ram env) _ (join (fst e)) (snd e) R NE) as (p' & EA & RA).
      { pose proof (pi_ram _ _ _ _ _ PI k l Hl) as HR. rewrite E in HR. rewrite map_app, concat_app in HR. cbn [map concat] in HR. rewrite !lenN_app in HR.
        rewrite map_map. cbn [fst]. eapply N.le_trans; [|exact HR]. rewrite N.add_assoc. apply N.le_add_r. }
      rewrite <- surjective_pairing. apply (IH (l1 ++ [e])).
      + rewrite <- app_assoc. exact E.
      + replace (snd (pool_append p (join (fst e)) (snd e))) with p' by (symmetry; exact (f_equal snd EA)).
        rewrite map_app. exact RA. }
  apply (G l ls F2 [] (pool_new (pe_ram env)) eq_refl). apply pool_new_rep.
Qed.
Lemma recs_ok p l : pool_rep p (pe_ram env) (map (fun e : gram * (spec_float * spec_float) => (join (fst e), snd e)) l) ->
  mapM (pool_record p) (range (lenN (p_index p))) = Ok (map (fun e => (join (fst e), snd e)) l).
Proof.
  intro RP. pose proof RP as (_ & _ & _ & _ & _ & LX & _). rewrite LX.
  rewrite (mapM_range (pool_record p) (fun x => x) (map (fun e : gram * (spec_float * spec_float) => (join (fst e), snd e)) l)); [rewrite map_id; reflexivity|].
  intros i [g a] H. eapply pool_record_ok; eauto.
Qed.
Lemma dom_pos l : l <> [] -> 0 < hash_domain (lenN (l : list (gram * (spec_float * spec_float)))).
Proof.
  intro H. unfold hash_domain. assert (PL : 0 < lenN l) by (destruct l; [congruence|rewrite lenN_cons; lia]).
  assert (2 <= (lenN l * 123 + 99) / 100); [apply N.div_le_lower_bound; lia|]. apply N.div_str_pos. lia.
Qed.
Lemma build_table k l c vs w : nthN D k = Some l -> cv_holds c vs -> c_width c = w -> lenN vs = lenN l ->
  (pe_hb env = 64 /\ w <= 64 \/ w <= 32 \/ w = 64) ->
  exists t, svt_build (pe_hb env) (pe_h env k) (hash_domain (lenN l)) (pe_orders env k) (keys l) c = Ok t /\ svt_rep (pe_hb env) (pe_h env k) t (keys l) vs.
Proof.
  intros Hl HC HW HV HB. destruct (af_size _ AF k l Hl) as [S1 S2].
  assert (W64 : w <= 64) by (destruct (pi_bits _ _ _ _ _ PI) as [?|[? _]]; lia).
  apply svt_build_ok; rewrite ?HW, ?lenN_map.
  - apply dom_pos. exact S1.
  - apply (pi_orders _ _ _ _ _ PI k l Hl).
  - exact HC.
  - rewrite map_length. unfold lenN in HV. lia.
  - destruct (pi_bits _ _ _ _ _ PI) as [E|[E _]]; [left; exact E|right; split; [exact E|]]. rewrite E in HB. destruct HB as [[X _]|X]; [discriminate|exact X].
  - destruct (pi_bits _ _ _ _ _ PI) as [E|[E [_ L]]]; rewrite E; [nia|]. specialize (L k l Hl). change (2 ^ 32) with (128 * 2 ^ 25). nia.
  - destruct (pi_bits _ _ _ _ _ PI) as [E|[E [_ L]]]; rewrite E; nia.
Qed.
(** the vocabulary *)
Lemma vocabulary_ok l ls : nthN D 0 = Some l -> Forall2 (arpa_line (pe_sd env)) l ls ->
  exists t, mp_vocabulary env ls = Ok t /\ svt_rep (pe_hb env) (pe_h env 0) t (keys l) (map uni_value l).
Proof.
  intros Hl F2. destruct (pool_ok 0 l ls Hl F2) as (p & EP & RP). unfold mp_vocabulary. rewrite EP. cbn [bind]. destruct (af_size _ AF 0 l Hl) as [S1 S2].
  assert (LL : lenN ls = lenN (map uni_value l)) by (rewrite lenN_map; apply Forall2_len in F2; unfold lenN; lia).
  destruct (push_w_holds (map uni_value l) 64) as (b & b' & E1 & E2 & E3 & E4).
  { lia. }
  { rewrite lenN_map. lia. }
  { apply Forall_forall. intros v Hv. apply in_map_iff in Hv. destruct Hv as (e & <- & He). destruct (af_floats _ AF 0 l e Hl He) as [V1 V2].
    apply f_bits_lt in V1, V2. apply pack_lt; lia. }
  rewrite LL, E1. cbn [bind]. rewrite (recs_ok p l RP). cbn [bind]. rewrite foldM_map_. cbn [fst snd].
  assert (EF : foldM (fun c (a : gram * (spec_float * spec_float)) => cvb_push_back c (pack (f_bits (fst (snd a))) (f_bits (snd (snd a))))) l b = Ok b').
  { rewrite <- E2. rewrite foldM_map_. reflexivity. }
  rewrite EF. cbn [bind]. rewrite lenN_map, map_map. cbn [fst].
  apply build_table with (w := 64); auto. rewrite lenN_map. reflexivity.
Qed.

Lemma table_ok pb bb k l : vinv D pq bq (lenN D) (pb, bb) -> 1 <= k -> nthN D k = Some l ->
  exists t vs, mp_table env pb bb secs (lenN D) pq bq k = Ok t /\ Forall2 (value_ok D pq bq pb bb k) l vs /\ svt_rep (pe_hb env) (pe_h env k) t (keys l) vs.
Proof.
  intros VI Hk Hl. destruct (level_lines D secs env pq bq PV k l Hl) as (ls & Hs & F2). destruct (pool_ok k l ls Hl F2) as (p & EP & RP). destruct (af_size _ AF k l Hl) as [S1 S2].
  destruct (values_exist D secs env pq bq PV pb bb k l VI Hk Hl) as (vs & FV & FB). pose proof (tab_width D secs env pq bq PV) as [TP TB].
  set (w := pq + if k + 1 =? lenN D then 0 else bq) in *. assert (HW : 2 <= w <= 63) by (unfold w; destruct (_ =? _); lia).
  assert (LV : lenN vs = lenN l) by (apply Forall2_len in FV; unfold lenN; lia).
  assert (LL : lenN ls = lenN vs) by (apply Forall2_len in F2; unfold lenN in *; lia).
  unfold mp_table. rewrite (proj2 (rd_nthN _ _ _) Hs). cbn [bind]. rewrite EP. cbn [bind]. rewrite (recs_ok p l RP). cbn [bind]. fold w.
  destruct (push_w_holds vs w) as (b & b' & E1 & E2 & E3 & E4); [lia|rewrite LV; nia|assumption|].
  rewrite LL, E1. cbn [bind]. rewrite foldM_map_. cbn [fst snd].
  assert (EF : foldM (fun c (a : gram * (spec_float * spec_float)) =>
     prob_rank <- q_rank pb (k - 1) (fst (snd a)) 0 ;;
     packed <- (if k + 1 =? lenN D then Ok prob_rank else
                backoff_rank <- q_rank bb (k - 1) (snd (snd a)) 1 ;; Ok (rank_pack pq prob_rank backoff_rank)) ;;
     cvb_push_back c packed) l b = Ok b').
  { rewrite <- E2. clear - FV TP TB. revert b. induction FV as [|e v l vs H F IH]; intro b; [reflexivity|]. cbn [foldM].
    destruct H as (pr & H1 & H2 & H3). rewrite H1. cbn [bind].
    destruct (k + 1 =? lenN D).
    - subst v. cbn [bind]. destruct (cvb_push_back b pr); cbn [bind]; [apply IH|reflexivity|reflexivity].
    - destruct H3 as (br & H3 & H4 & H5). rewrite H3. cbn [bind]. rewrite rank_pack_shift; [|lia|eapply N.lt_le_trans; [exact H4|apply N.pow_le_mono_r; lia]].
      rewrite <- H5. destruct (cvb_push_back b v); cbn [bind]; [apply IH|reflexivity|reflexivity]. }
  rewrite EF. cbn [bind]. rewrite lenN_map, map_map. cbn [fst].
  destruct (build_table k l (cv_of_builder b') vs w Hl E3) as (t & ET & RT); [exact E4|exact LV| |].
  { destruct (pi_bits _ _ _ _ _ PI) as [E|[E [L _]]]; [left; lia|right; left]. unfold w. destruct (_ =? _); lia. }
  exists t, vs. auto.
Qed.

(** ** the whole model *)
Record mp_rep (m : mpl) (unk : spec_float) : Prop := {
  mr_order : mp_order m = lenN D;
  mr_unk : mp_unk m = unk_prob D unk;
  mr_vinv : vinv D pq bq (lenN D) (mp_probs m, mp_backoffs m);
  mr_len : lenN (mp_tables m) = lenN D;
  mr_uni : forall l, nthN D 0 = Some l -> exists t, nthN (mp_tables m) 0 = Some t /\ svt_rep (pe_hb env) (pe_h env 0) t (keys l) (map uni_value l);
  mr_table : forall k l, 1 <= k -> nthN D k = Some l -> exists t vs, nthN (mp_tables m) k = Some t /\
    Forall2 (value_ok D pq bq (mp_probs m) (mp_backoffs m) k) l vs /\ svt_rep (pe_hb env) (pe_h env k) t (keys l) vs }.
Lemma build_ok unk : exists m, mp_build env secs (lenN D) unk pq bq = Ok m /\ mp_rep m unk.
Proof.
  pose proof (af_order _ AF) as HO. unfold mp_build.
  assert (CO : check_order (lenN D) = Ok tt).
  { unfold check_order, u8. replace (N.land (lenN D) 255) with (lenN D); [|symmetry; change 255 with (N.ones 8); rewrite N.land_ones; apply N.mod_small; change (2 ^ 8) with 256; lia].
    destruct (N.ltb_spec (lenN D) 2); [lia|]. destruct (N.ltb_spec 8 (lenN D)); [lia|]. reflexivity. }
  rewrite CO. cbn [bind]. rewrite (lenN_secs D secs env pq bq PV). rewrite N.ltb_irrefl.
  destruct (values_ok D secs env pq bq AF PV) as ([pb bb] & EV & VI). rewrite EV. cbn [bind].
  destruct (nthN_Some D 0 ltac:(lia)) as (l0 & Hl0). destruct (level_lines D secs env pq bq PV 0 l0 Hl0) as (ls & Hs & F2).
  rewrite (proj2 (rd_nthN _ _ _) Hs). cbn [bind]. rewrite (set_unk_ok D env AF l0 ls unk Hl0 F2). cbn [bind].
  destruct (vocabulary_ok l0 ls Hl0 F2) as (t0 & ET & R0). rewrite ET. cbn [bind].
  assert (TS : exists ts, mapM (mp_table env pb bb secs (lenN D) pq bq) (seqN 1 (N.to_nat (lenN D - 1))) = Ok ts /\
    Forall2 (fun k t => forall l, nthN D k = Some l -> exists vs, Forall2 (value_ok D pq bq pb bb k) l vs /\ svt_rep (pe_hb env) (pe_h env k) t (keys l) vs) (seqN 1 (N.to_nat (lenN D - 1))) ts).
  { assert (GG : forall ks, (forall k, In k ks -> 1 <= k < lenN D) -> exists ts, mapM (mp_table env pb bb secs (lenN D) pq bq) ks = Ok ts /\
    Forall2 (fun k t => forall l, nthN D k = Some l -> exists vs, Forall2 (value_ok D pq bq pb bb k) l vs /\ svt_rep (pe_hb env) (pe_h env k) t (keys l) vs) ks ts).
    { induction ks as [|k ks IH]; intro HK; [exists []; split; [reflexivity|constructor]|].
      destruct IH as (ts & E & F); [intros; apply HK; right; assumption|]. pose proof (HK k (or_introl eq_refl)) as Hk.
      destruct (nthN_Some D k ltac:(lia)) as (l & Hl). destruct (table_ok pb bb k l VI ltac:(lia) Hl) as (t & vs & E1 & E2 & E3).
      exists (t :: ts). cbn [mapM]. rewrite E1. cbn [bind]. rewrite E. cbn [bind]. split; [reflexivity|]. constructor; [|exact F].
      intros l' Hl'. rewrite Hl in Hl'. injection Hl' as <-. eauto. }
    apply GG. intros k Hk. apply In_seqN in Hk. lia. }
  destruct TS as (ts & E & F). rewrite E. cbn [bind]. eexists. split; [reflexivity|].
  assert (LT : lenN ts = lenN D - 1). { apply Forall2_len in F. rewrite length_seqN in F. unfold lenN in *. lia. }
  constructor; cbn [mp_order mp_unk mp_probs mp_backoffs mp_tables]; auto.
  - rewrite lenN_cons. lia.
  - intros l Hl. rewrite Hl0 in Hl. injection Hl as <-. exists t0. split; [reflexivity|exact R0].
  - intros k l Hk Hl. pose proof (nthN_lt _ _ _ Hl) as LK. rewrite nthN_cons. destruct (N.eqb_spec k 0); [lia|].
    destruct (nthN_Some ts (k - 1) ltac:(lia)) as (t & Ht).
    assert (HK : nthN (seqN 1 (N.to_nat (lenN D - 1))) (k - 1) = Some k).
    { unfold nthN. rewrite nth_error_seqN by lia. f_equal. lia. }
    destruct (Forall2_nthN _ _ _ _ _ _ F HK Ht l Hl) as (vs & X & Y). exists t, vs. auto.
Qed.

(** ** lookups *)
Variable m : mpl.
Variable unk : spec_float.
Hypothesis MR : mp_rep m unk.
Lemma entry_In g v : entry D g = Some v -> exists l, nthN D (lenN g - 1) = Some l /\ In (g, v) l.
Proof using Type.
  clear. unfold entry. destruct (nthN D (lenN g - 1)) as [l|]; [|discriminate]. intro H. exists l. split; [reflexivity|].
  destruct (find _ l) as [[g' v']|] eqn:F; [|discriminate]. cbn in H. injection H as <-. apply find_some in F. destruct F as [F1 F2].
  cbn [fst] in F2. destruct (gram_dec g' g) as [->|]; [exact F1|discriminate].
Qed.
Lemma entry_len g v : entry D g = Some v -> 1 <= lenN g.
Proof.
  intro H. destruct (entry_In g v H) as (l & H1 & H2). destruct (af_words _ AF _ l _ H1 H2) as [H3 _]. cbn [fst] in H3. lia.
Qed.
(** the hash function and the fingerprint tell an unlisted n-gram from the listed ones *)
Definition distinguished (g : gram) : Prop := forall l t, nthN D (lenN g - 1) = Some l -> nthN (mp_tables m) (lenN g - 1) = Some t ->
  mph_lookup (sv_h t) (pe_h env (lenN g - 1) (join g)) <> Ok (lenN l) /\
  forall e, In e l -> mix (pe_hb env) (pe_h env (lenN g - 1) (join (fst e))) <> mix (pe_hb env) (pe_h env (lenN g - 1) (join g)).
Lemma absent_lookup g l t vs : distinguished g -> nthN D (lenN g - 1) = Some l -> nthN (mp_tables m) (lenN g - 1) = Some t ->
  svt_rep (pe_hb env) (pe_h env (lenN g - 1)) t (keys l) vs -> svt_lookup (pe_hb env) (pe_h env (lenN g - 1)) t (join g) = Ok not_found.
Proof using Type.
  clear AF PI MR. intros HD Hl Ht R. destruct (HD l t Hl Ht) as [H1 H2]. destruct (svt_lookup_any _ _ _ _ _ (join g) R) as [Z|(k & v & HI & E)].
  - rewrite lenN_map in Z. contradiction.
  - apply in_combine_l in HI. apply in_map_iff in HI. destruct HI as (e & <- & He). specialize (H2 e He).
    destruct (N.eqb_spec (mix (pe_hb env) (pe_h env (lenN g - 1) (join (fst e)))) (mix (pe_hb env) (pe_h env (lenN g - 1) (join g)))); [contradiction|]. exact E.
Qed.
Lemma combine_Forall2 {A B C} (f : A -> C) (R : A -> B -> Prop) l vs e : Forall2 R l vs -> In e l -> exists v, In (f e, v) (combine (map f l) vs) /\ R e v.
Proof using Type.
  clear. intros H. induction H as [|x v l vs HR H IH]; intros I; [destruct I|]. destruct I as [->|I].
  - exists v. split; [left; reflexivity|exact HR].
  - destruct (IH I) as (v' & I' & R'). exists v'. split; [right; exact I'|exact R'].
Qed.
(** what quantization makes of a value of order [ord] *)
Definition qfun (b : qsc) (reserved ord : N) (x : spec_float) : spec_float :=
  match q_rank b (ord - 2) x reserved with
  | Ok r => match q_access b (ord - 2) r with Ok y => y | _ => x end
  | _ => x
  end.
Notation qp := (qfun (mp_probs m) 0).
Notation qb := (qfun (mp_backoffs m) 1).
Notation Mq := (quantized D qp qb).

Lemma uni_lookup w buf r : bytes_at buf r = Ok w -> (entry D [w] = None -> distinguished [w]) ->
  exists st0, (g <- bytes_at buf r ;; t <- rd (mp_tables m) 0 ;; svt_lookup (pe_hb env) (pe_h env 0) t g) = Ok st0 /\
  (if st0 =? not_found then None else let '(p, b) := unpack st0 in Some (f_of_bits p, f_of_bits b, tt))
  = match Mq [w] with Some (p, b) => Some (p, b, tt) | None => None end.
Proof.
  intros E HD. pose proof (af_order _ AF) as HO. destruct (nthN_Some D 0 ltac:(lia)) as (l & Hl).
  destruct (mr_uni _ _ MR l Hl) as (t & Ht & RT). rewrite E. cbn [bind]. rewrite (proj2 (rd_nthN _ _ _) Ht). cbn [bind].
  unfold quantized. change (lenN [w] =? 1) with true. cbv iota. destruct (entry D [w]) as [[p b]|] eqn:EE.
  - destruct (entry_In _ _ EE) as (l' & Hl' & HI). change (lenN [w] - 1) with 0 in Hl'. rewrite Hl in Hl'. injection Hl' as <-.
    exists (pack (f_bits p) (f_bits b)). destruct (af_floats _ AF 0 l _ Hl HI) as [F1 F2]. cbn [fst snd] in F1, F2.
    pose proof (f_bits_lt _ F1) as B1. pose proof (f_bits_lt _ F2) as B2. split.
    + eapply svt_lookup_in; [exact RT|]. change w with (join (fst ([w], (p, b)))). change (pack (f_bits p) (f_bits b)) with (uni_value ([w], (p, b))).
      generalize ([w], (p, b)) HI. clear. intros e I. induction l as [|x l IH]; [destruct I|]. destruct I as [->|I]; [left; reflexivity|right; auto].
    + rewrite unpack_pack by lia. rewrite !f_of_bits_f_bits by assumption.
      destruct (N.eqb_spec (pack (f_bits p) (f_bits b)) not_found) as [Z|Z]; [|reflexivity]. exfalso.
      assert (U : unpack (pack (f_bits p) (f_bits b)) = unpack not_found) by (rewrite Z; reflexivity).
      rewrite unpack_pack in U by lia. apply (f_equal fst) in U. cbn [fst] in U. change (fst (unpack not_found)) with (2 ^ 32 - 1) in U. lia.
  - exists not_found. split; [|reflexivity]. change 0 with (lenN [w] - 1) at 1. change w with (join [w]) at 2. apply (absent_lookup [w] l t (map uni_value l)); auto.
Qed.
Lemma probe_lookup g buf b0 e0 k : lenN g = k + 1 -> 1 <= k -> k + 1 <= lenN D -> bytes_at buf (b0, e0) = Ok (join g) -> (entry D g = None -> distinguished g) ->
  mp_probe env m buf e0 k b0 tt = Ok (match Mq g with Some (p, b) => Some (p, (if k =? lenN D - 1 then None else Some b), tt) | None => None end).
Proof.
  intros LG Hk HkD E HD. pose proof (af_order _ AF) as HO. destruct (nthN_Some D k ltac:(lia)) as (l & Hl).
  destruct (mr_table _ _ MR k l Hk Hl) as (t & vs & Ht & FV & RT). pose proof (mr_vinv _ _ MR) as (V1 & V2 & V3 & V4 & V5). cbn [fst snd] in V1, V2, V3, V4, V5.
  unfold mp_probe. rewrite E. cbn [bind]. rewrite (proj2 (rd_nthN _ _ _) Ht). cbn [bind]. pose proof (tab_width D secs env pq bq PV) as [TP TB].
  assert (GK : lenN g - 1 = k) by lia. unfold quantized. destruct (N.eqb_spec (lenN g) 1) as [Z|_]; [lia|].
  destruct (entry D g) as [[p b]|] eqn:EE.
  - destruct (entry_In _ _ EE) as (l' & Hl' & HI). rewrite GK, Hl in Hl'. injection Hl' as <-.
    destruct (combine_Forall2 (fun e : gram * (spec_float * spec_float) => join (fst e)) _ _ _ _ FV HI) as (v & IC & VO). cbn [fst] in IC.
    rewrite (svt_lookup_in _ _ _ _ _ _ _ RT IC). cbn [bind]. destruct VO as (pr & R1 & R2 & R3). cbn [fst snd] in R1, R3.
    rewrite (mr_order _ _ MR). rewrite (sub64_small (lenN D) 1) by lia. rewrite LG.
    assert (QB : q_qbits (mp_probs m) (k - 1) = Ok pq).
    { unfold q_qbits. rewrite V2. apply (proj2 (rd_nthN _ _ _)). apply nthN_rep. lia. }
    destruct (nthN_Some (q_seqs (mp_probs m)) (k - 1) ltac:(lia)) as (dp & Hp).
    assert (LP : lenN dp = 2 ^ pq) by (rewrite Forall_forall in V3; apply V3; eapply nthN_In; exact Hp).
    destruct (nthN_Some dp pr ltac:(lia)) as (pv & Hpv). pose proof (q_access_ok _ _ _ _ _ Hp Hpv) as A1.
    assert (QP : qp (k + 1) p = pv). { unfold qfun. replace (k + 1 - 2) with (k - 1) by lia. rewrite R1, A1. reflexivity. }
    assert (VL : v < 2 ^ 63).
    { destruct (N.eqb_spec (k + 1) (lenN D)); [subst v; eapply N.lt_le_trans; [exact R2|]; apply N.pow_le_mono_r; lia|].
      destruct R3 as (br & S1 & S2 & ->). eapply N.lt_le_trans; [apply lor_shift_lt; eassumption|]. apply N.pow_le_mono_r; lia. }
    destruct (N.eqb_spec v not_found) as [Z|_]; [exfalso; rewrite Z in VL; vm_compute in VL; discriminate|].
    rewrite QP. destruct (N.eqb_spec k (lenN D - 1)) as [Y|Y]; cbn [negb].
    + destruct (N.eqb_spec (k + 1) (lenN D)) as [_|Y']; [|lia]. subst v. rewrite A1. cbn [bind]. reflexivity.
    + destruct (N.eqb_spec (k + 1) (lenN D)) as [Y'|_]; [lia|]. destruct R3 as (br & S1 & S2 & S3).
      rewrite QB. cbn [bind]. destruct (nthN_Some (q_seqs (mp_backoffs m)) (k - 1) ltac:(lia)) as (db & Hb).
      assert (LB : lenN db = 2 ^ bq) by (rewrite Forall_forall in V5; apply V5; eapply nthN_In; exact Hb).
      destruct (nthN_Some db br ltac:(lia)) as (bv & Hbv). pose proof (q_access_ok _ _ _ _ _ Hb Hbv) as A2.
      assert (QBV : qb (k + 1) b = bv). { unfold qfun. replace (k + 1 - 2) with (k - 1) by lia. rewrite S1, A2. reflexivity. }
      rewrite S3, <- rank_pack_shift, rank_unpack_pack; [|lia|exact R2|eapply N.lt_le_trans; [exact S2|apply N.pow_le_mono_r; lia]|lia|eapply N.lt_le_trans; [exact S2|apply N.pow_le_mono_r; lia]].
      rewrite A1. cbn [bind]. rewrite A2. cbn [bind]. rewrite QBV. reflexivity.
  - rewrite <- GK in *. rewrite (absent_lookup g l t vs) by auto. cbn [bind]. reflexivity.
Qed.

(** ** sentences *)
Definition oov_of (w : list N) : bool := match entry D [w] with Some _ => false | None => true end.
Lemma Mq_uni w : match Mq [w] with Some _ => false | None => true end = oov_of w.
Proof using Type. unfold quantized, oov_of. destruct (entry D [w]) as [[p b]|]; reflexivity. Qed.
Lemma Mq_none g : Mq g = None <-> entry D g = None.
Proof using Type.
  unfold quantized. destruct (entry D g) as [[p b]|]; [|tauto]. destruct (lenN g =? 1); split; discriminate.
Qed.
Lemma closed_q : closed (entry D) -> closed Mq.
Proof using Type.
  intros H g x y HM. rewrite Mq_none in *. rewrite Mq_none. destruct (H g x y); auto. 
Qed.

Lemma sentence_ok buf p ws : lenN ws < 2 ^ 62 ->
  holds_text buf (p, p + lenN (join ws)) (join ws) ->
  (forall a g c, ws = a ++ g ++ c -> 1 <= lenN g <= lenN D -> entry D g = None -> distinguished g) ->
  forall post pre st, ws = pre ++ post -> st_rep (supported Mq) (lenN D) st (starts p pre) (rev pre) ->
  exists out st', mp_sentence env m buf st (word_ranges (start p pre) post) = Ok (out, st') /\
    map fst out = skipn (length pre) (kept_scores (supported Mq) (unk_prob D unk) (N.to_nat (lenN D)) ws) /\
    map snd out = map oov_of post /\ st_rep (supported Mq) (lenN D) st' (starts p ws) (rev ws) /\
    ps_oovs st' = fold_left (fun n w => if oov_of w then add64 n 1 else n) post (ps_oovs st).
Proof.
  intros Hbig HT HD. pose proof (af_order _ AF) as HO. induction post as [|v post IH]; intros pre st E Rp.
  - rewrite app_nil_r in E. subst pre. exists [], st. cbn [word_ranges mp_sentence map fold_left]. split; [reflexivity|]. split; [|split; [reflexivity|split; [exact Rp|reflexivity]]].
    symmetry. apply skipn_all2. rewrite kept_scores_length. lia.
  - cbn [word_ranges mp_sentence]. unfold mp_score.
    assert (BA : bytes_at buf (start p pre, start p pre + lenN v) = Ok v).
    { apply bytes_at_ok. change v with (join [v]). apply (join_at buf [v] post); [discriminate|]. cbn [app]. rewrite <- E. exact HT. }
    destruct (uni_lookup v buf _ BA) as (val & EV & FE).
    { intro Z. apply (HD pre [v] post); [exact E| |exact Z]. change (lenN [v]) with 1. lia. }
    apply bind_ok in EV. destruct EV as (g & EG & EV). apply bind_ok in EV. destruct EV as (t & ET & EV).
    rewrite EG. cbn [bind]. rewrite ET. cbn [bind]. rewrite EV. cbn [bind fst snd]. rewrite FE. rewrite (mr_unk _ _ MR).
    destruct (score_step_any Mq (unk_prob D unk) (lenN D) (rev pre) v (mp_probe env m buf (start p pre + lenN v)) (fun _ _ => True) st (starts p pre) (start p pre) tt HO Rp) as (st1 & ES & R1 & OV).
    + unfold lenN in *. rewrite rev_length. rewrite E, app_length in Hbig. lia.
    + intros k [] b0 _ HK HM HN. destruct (nth_starts _ _ _ _ HN) as (a & b & EP & LB & -> & EC). rewrite EC.
      assert (HB : bytes_at buf (start p a, start p pre + lenN v) = Ok (join (b ++ [v]))).
      { apply bytes_at_ok. replace (start p pre + lenN v) with (start p a + lenN (join (b ++ [v]))).
        - apply (join_at buf (b ++ [v]) post); [destruct b; discriminate|]. replace (a ++ (b ++ [v]) ++ post) with ws; [exact HT|].
          rewrite E, EP, <- !app_assoc. reflexivity.
        - rewrite EP, start_app. symmetry. apply start_last. }
      pose proof (sr_max _ _ _ _ _ Rp) as LM.
      rewrite (probe_lookup (b ++ [v]) buf (start p a) _ (k + 1)); [|rewrite lenN_app, LB; reflexivity|lia|lia|exact HB|].
      * destruct (Mq (b ++ [v])) as [[pp bb]|]; [|reflexivity]. exists tt. auto.
      * intro Z. apply (HD a (b ++ [v]) post); [|rewrite lenN_app, LB; change (lenN [v]) with 1; lia|exact Z].
        rewrite E, EP, <- !app_assoc. reflexivity.
    + auto.
    + rewrite ES. cbn [bind]. destruct (IH (pre ++ [v]) st1) as (out & st' & E1 & E2 & E3 & E4 & E5).
      * rewrite <- app_assoc. exact E.
      * rewrite starts_snoc, rev_app_distr. exact R1.
      * replace (start p pre + lenN v + 1) with (start p (pre ++ [v])) by (rewrite start_app; reflexivity).
        rewrite E1. cbn [bind]. eexists _, _. split; [reflexivity|]. cbn [map fst snd fold_left].
        split; [|split; [|split; [exact E4|]]].
        -- rewrite E2. rewrite kept_scored, (scored_at _ pre v post ws E). f_equal. rewrite (rep_ctx _ _ _ _ _ Rp). reflexivity.
        -- rewrite Mq_uni, E3. reflexivity.
        -- rewrite E5. f_equal. rewrite OV. rewrite <- Mq_uni. destruct (Mq [v]); reflexivity.
Qed.
End Build.
Lemma closed_quantized D qp qb : closed (entry D) -> closed (quantized D qp qb).
Proof.
  assert (E : forall g, quantized D qp qb g = None <-> entry D g = None).
  { intro g. unfold quantized. destruct (entry D g) as [[p b]|]; [|tauto]. destruct (lenN g =? 1); split; discriminate. }
  intros H g x y HM. rewrite E in *. rewrite E. destruct (H g x y); auto.
Qed.
