(** * Scoring with a probability trie *)
From Coq Require Import Floats.SpecFloat.
From Verif Require Import Prelude BitFacts M_Word P_Word M_Bits Spec P_Bits P_Builder M_CompactVector P_CompactVector M_DArray M_EF P_EF P_EF2
  M_HashVec M_Mph P_Mph P_MphTables M_FastEF P_FastEF3 M_Text P_Text P_Text2 M_SeqColl P_SeqColl M_Pool P_Pool M_Trie Spec_Trie P_Trie1 P_Trie2 P_Trie3 P_Trie4 P_Trie5 P_Trie7
  M_Score Spec_Katz P_Score1 P_Score2 P_Score3 M_Quant P_Quant M_MphProb Spec_Arpa P_Sentence P_Values P_MphProb M_TrieProb P_TrieProb1 P_TrieProb2 P_TrieProb3 Spec_Supported P_Supported.
From Coq Require Import Permutation Sorting.Sorted.

Section Score.
Variable D : entries.
Variable secs : list (list (list N)).
Variable env : tpenv.
Variables remap pq bq : N.
Hypothesis AF : arpa_file D.
Hypothesis CO : collection (reversed D) remap.
Hypothesis TI : trie_inputs_ok D secs env remap pq bq.
Variable unk : spec_float.
Variable m : tpl.
Hypothesis TR : tp_rep D env remap pq bq unk m.
Notation R := (revD D).
Notation G := (grams (revD D)).
Notation voc := (grams (revD D) 0).
Notation E0 := (tenv0 env).
Notation CRR := (CR D remap CO).
Notation ENT := (gram * (spec_float * spec_float))%type.
Notation qp := (qfun (tp_probs m) 0).
Notation qb := (qfun (tp_backoffs m) 1).
Notation Mq := (quantized D qp qb).

(** ** entries and levels *)
Lemma entry_at k i x : nthN (G k) i = Some x -> exists l e, nthN D k = Some l /\ nthN l i = Some e /\ fst e = rev x /\ entry D (rev x) = Some (snd e).
Proof.
  intro H. pose proof (grams_In_lt R k x (nthN_In _ _ _ H)) as Hk. rewrite lenN_revD in Hk. destruct (nthN_Some D k Hk) as (l & Hl).
  rewrite (G_of D k l Hl), nthN_map in H. destruct (nthN l i) as [e|] eqn:E; [|discriminate]. cbn in H. injection H as <-.
  exists l, e. rewrite rev_involutive. split; [exact Hl|]. split; [exact E|]. split; [reflexivity|].
  destruct (words_of D AF k l e Hl (nthN_In _ _ _ E)) as [LE _]. unfold entry. rewrite LE, N.add_sub, Hl.
  pose proof (af_distinct _ AF k) as ND. unfold grams in ND. rewrite Hl in ND.
  assert (FE : find (fun e0 : ENT => if gram_dec (fst e0) (fst e) then true else false) l = Some e).
  { pose proof (nthN_In _ _ _ E) as I. clear - ND I. induction l as [|y l IH]; [destruct I|]. cbn [map find] in *. apply NoDup_cons_iff in ND. destruct ND as [N1 N2].
    destruct I as [->|I].
    - destruct (gram_dec (fst e) (fst e)); [reflexivity|congruence].
    - destruct (gram_dec (fst y) (fst e)) as [Q|Q]; [|apply IH; assumption]. exfalso. apply N1. rewrite Q. apply in_map. exact I. }
  rewrite FE. reflexivity.
Qed.
Lemma entry_listed g : entry D g <> None -> In (rev g) (G (lenN g - 1)).
Proof.
  destruct (entry D g) as [v|] eqn:E; [|congruence]. intros _. destruct (entry_In D g v E) as (l & Hl & I). rewrite (G_of D _ l Hl).
  apply in_map_iff. exists (g, v). auto.
Qed.
Lemma listed_entry k x : In x (G k) -> entry D (rev x) <> None.
Proof. intro I. apply In_nthN in I. destruct I as (i & Hi). destruct (entry_at k i x Hi) as (l & e & _ & _ & _ & E). rewrite E. discriminate. Qed.
Lemma voc_word w : entry D [w] <> None <-> In [w] voc.
Proof. split; intro H; [apply (entry_listed [w] H)|apply (listed_entry 0 [w] H)]. Qed.

Lemma closed_tq : closed (entry D) -> closed Mq.
Proof using Type.
  assert (E : forall g, Mq g = None <-> entry D g = None).
  { intro g. unfold quantized. destruct (entry D g) as [[p b]|]; [|tauto]. destruct (lenN g =? 1); split; discriminate. }
  intros H g x y HM. rewrite E in *. rewrite E. destruct (H g x y); auto.
Qed.
(** ** contexts *)
Definition wid (w : list N) : N := match entry D [w] with Some _ => vid R w | None => not_found end.
Lemma ctx_rev (rh : list (list N)) k v : rev (v :: firstn (N.to_nat k) rh) = ctx rh k ++ [v].
Proof. reflexivity. Qed.

(** loop invariant: the range of the children of the n-gram matched so far, and the ids of the last two words *)
Definition J (rh : list (list N)) (v : list N) (k : N) (r : tp_loop) : Prop :=
  k + 1 < lenN D -> exists p, nthN (G k) p = Some (v :: firstn (N.to_nat k) rh) /\ fst (fst r) = (kids R (k + 1) p, kids R (k + 1) (p + 1)) /\
    (forall y, nthN (v :: rh) k = Some y -> snd (fst r) = vid R y) /\ (0 < k -> forall y, nthN (v :: rh) (k - 1) = Some y -> snd r = vid R y).

Lemma skipn_nth_add {A} (l : list A) a i : nthN (skipn (N.to_nat a) l) i = nthN l (a + i).
Proof.
  unfold nthN. replace (N.to_nat (a + i)) with (N.to_nat a + N.to_nat i)%nat by lia. generalize (N.to_nat a) as n, (N.to_nat i) as j. clear.
  intros n. revert l. induction n as [|n IH]; intros l j; [reflexivity|]. destruct l as [|x l]; cbn; [destruct j; reflexivity|apply IH].
Qed.
Lemma nth_firstn_lt {A} (l : list A) n i : i < n -> nthN (firstn (N.to_nat n) l) i = nthN l i.
Proof.
  intro H. unfold nthN. assert (N.to_nat i < N.to_nat n)%nat by lia. revert H0. generalize (N.to_nat n) as a, (N.to_nat i) as j. clear. intros a. revert l.
  induction a as [|a IH]; intros l j H; [lia|]. destruct l as [|x l]; [reflexivity|]. destruct j; [reflexivity|]. cbn. apply IH. lia.
Qed.

Lemma probe_trie rh v st : lenN rh < 2 ^ 62 -> st_rep (supported Mq) (lenN D) st (map wid rh) rh ->
  probe_ok Mq (lenN D) rh v (tp_probe env m) (J rh v) (ps_length st) (map wid rh).
Proof.
  intros HB Rp k r w HJ HK HM HW. pose proof (af_order _ AF) as HO. pose proof (sr_max _ _ _ _ _ Rp) as LM. pose proof (sr_le _ _ _ _ _ Rp) as LE.
  destruct (HJ ltac:(lia)) as (p & Hp & Er & Hprev & Hpp). destruct r as [[r prev] pprev]. cbn [fst snd] in Er, Hprev, Hpp. subst r.
  rewrite nthN_map in HW. destruct (nthN rh k) as [y|] eqn:Ey; [|discriminate]. cbn in HW. injection HW as <-.
  pose proof (st_rep_listed _ _ _ _ _ Rp (k + 1) ltac:(lia)) as EC.
  assert (EC' : entry D (ctx rh (k + 1)) <> None). { intro Z. unfold quantized in EC. rewrite Z in EC. congruence. }
  assert (IC : In (firstn (N.to_nat (k + 1)) rh) (G k)).
  { apply entry_listed in EC'. rewrite ctx_len in EC' by lia. rewrite N.add_sub in EC'. unfold ctx in EC'. rewrite rev_involutive in EC'. exact EC'. }
  set (x := v :: firstn (N.to_nat (k + 1)) rh).
  assert (Lx : length x = N.to_nat (k + 2)). { unfold x. cbn [length]. rewrite firstn_length. unfold lenN in LE. lia. }
  assert (FS : firstn (N.to_nat (k + 1)) rh = firstn (N.to_nat k) rh ++ [y]).
  { replace (N.to_nat (k + 1)) with (S (N.to_nat k)) by lia. apply firstn_S_nth. exact Ey. }
  assert (RL : removelast x = v :: firstn (N.to_nat k) rh). { unfold x. rewrite FS. change (v :: firstn (N.to_nat k) rh ++ [y]) with ((v :: firstn (N.to_nat k) rh) ++ [y]). apply removelast_last. }
  assert (LX : last x [] = y). { unfold x. rewrite FS. change (v :: firstn (N.to_nat k) rh ++ [y]) with ((v :: firstn (N.to_nat k) rh) ++ [y]). apply last_last. }
  assert (Vy : In [y] voc). { apply (gram_voc R remap CRR k _ y IC). rewrite FS. apply in_or_app. right. left. reflexivity. }
  assert (Wy : wid y = vid R y). { unfold wid. apply voc_word in Vy. destruct (entry D [y]); [reflexivity|congruence]. }
  rewrite Wy. clear Wy.
  assert (Vlt : vid R y < lenN voc) by (eapply nthN_lt; apply vid_In; exact Vy).
  pose proof (lev_size R remap CRR 0) as SZ0. pose proof (lev_size R remap CRR (k + 1)) as SZk. pose proof (lev_size R remap CRR k) as SZk0. pose proof (lev_size R remap CRR remap) as SZr.
  rewrite <- ctx_rev. fold x.
  assert (XN : x <> []) by discriminate.
  assert (lx : lenN x = k + 2) by (unfold lenN; lia).
  assert (HP' : nthN (G (k + 1 - 1)) p = Some (removelast x)) by (rewrite RL, N.add_sub; exact Hp).
  assert (QI : forall i, nthN (G (k + 1)) i = Some x -> kids R (k + 1) p <= i < kids R (k + 1) (p + 1)).
  { intros i Hi. apply (kid_range R remap CRR (k + 1) i x p); [lia|exact Hi|exact HP']. }
  assert (NQ : Mq (rev x) <> None -> exists i, nthN (G (k + 1)) i = Some x).
  { intro Q. assert (Q' : entry D (rev x) <> None) by (intro Z; apply Q; unfold quantized; rewrite Z; reflexivity).
    apply entry_listed in Q'. rewrite rev_involutive in Q'. replace (lenN (rev x) - 1) with (k + 1) in Q' by (unfold lenN in *; rewrite rev_length; lia). apply In_nthN. exact Q'. }
  pose proof (kids_mono R remap CRR (k + 1) p (p + 1) ltac:(lia) ltac:(lia)) as KM. pose proof (kids_le R (k + 1) (p + 1)) as KL.
  unfold tp_probe. cbn [fst snd].
  rewrite (sub64_small (kids R (k + 1) (p + 1)) (kids R (k + 1) p)) by lia.
  destruct (N.eqb_spec (kids R (k + 1) (p + 1) - kids R (k + 1) p) 0) as [Z|Z].
  { destruct (Mq (rev x)) eqn:Q; [|reflexivity]. destruct NQ as (i & Hi); [discriminate|]. specialize (QI i Hi). lia. }
  pose proof (tr_arrays _ _ _ _ _ _ _ TR) as PA. pose proof PA as (AL & AP & APtr & AV).
  rewrite (tr_remap _ _ _ _ _ _ _ TR), (ti_map _ _ _ _ _ _ TI).
  assert (SX : remap <> 0 -> remap < k + 1 -> In (skipn (N.to_nat (k + 1 - remap)) x) (G remap)).
  { intros R0 R1. replace (N.to_nat (k + 1 - remap)) with (S (N.to_nat (k - remap))) by lia. unfold x. cbn [skipn]. destruct (N.eq_dec k remap) as [->|NE].
    - rewrite N.sub_diag. exact IC.
    - apply (col_suffix _ _ CRR); [lia|lia|exact IC]. }
  assert (ID : (if negb (remap =? 0) && (remap <? k + 1) then map_ids env (tp_arrays m) prev pprev (vid R y) remap else Ok (vid R y)) = Ok (lid R remap (k + 1) x)).
  { destruct (N.eqb_spec remap 0) as [R0|R0]; cbn [negb andb].
    - rewrite lid_plain by (left; exact R0). rewrite LX. reflexivity.
    - destruct (N.ltb_spec remap (k + 1)) as [R1|R1].
      + specialize (SX R0 R1). rewrite (lid_mapped R remap (k + 1) x R0 R1). cbv zeta. set (s := skipn (N.to_nat (k + 1 - remap)) x) in *.
        assert (LS : last s [] = y).
        { rewrite <- LX. unfold s. rewrite (snoc_removelast x [] XN) at 1. rewrite skipn_snoc by (rewrite length_removelast; lia). apply last_last. }
        rewrite <- LS. apply (map_ids_ok D env remap pq bq CO (tp_probs m) (tp_backoffs m) (tp_arrays m) (lenN D) s prev pprev PA R0 ltac:(lia) ltac:(lia) SX).
        * intros z Hz. apply Hprev. unfold s in Hz. rewrite skipn_nth_add in Hz. replace (k + 1 - remap + (remap - 1)) with k in Hz by lia. rewrite <- Hz.
          unfold x. change (v :: firstn (N.to_nat (k + 1)) rh) with (firstn (S (N.to_nat (k + 1))) (v :: rh)). replace (S (N.to_nat (k + 1))) with (N.to_nat (k + 2)) by lia.
          symmetry. apply nth_firstn_lt. lia.
        * intros R2 z Hz. apply Hpp; [lia|]. unfold s in Hz. rewrite skipn_nth_add in Hz. replace (k + 1 - remap + 0) with (k - 1) in Hz by lia. rewrite <- Hz.
          unfold x. change (v :: firstn (N.to_nat (k + 1)) rh) with (firstn (S (N.to_nat (k + 1))) (v :: rh)). replace (S (N.to_nat (k + 1))) with (N.to_nat (k + 2)) by lia.
          symmetry. apply nth_firstn_lt. lia.
      + rewrite lid_plain by (right; lia). rewrite LX. reflexivity. }
  rewrite ID. cbn [bind]. clear ID.
  destruct (nthN_Some (tp_arrays m) (k + 1) ltac:(lia)) as (a & Ha). rewrite (proj2 (rd_nthN _ _ _) Ha). cbn [bind].
  assert (LB : lid R remap (k + 1) x < 2 ^ 64).
  { destruct (N.eq_dec remap 0) as [R0|R0]; [rewrite lid_plain by (left; exact R0); rewrite LX; lia|]. destruct (N.le_gt_cases (k + 1) remap) as [R1|R1].
    - rewrite lid_plain by (right; exact R1). rewrite LX. lia.
    - rewrite (lid_mapped R remap (k + 1) x R0 R1). cbv zeta. pose proof (nthN_lt _ _ _ (posn_In _ _ (SX R0 R1))). lia. }
  destruct (find_of R remap E0 (map a_sa (tp_arrays m)) (k + 1) p (lid R remap (k + 1) x) (a_sa a)) as (i & EF & SR).
  { lia. } { apply AP. lia. } { apply nth_sa. exact Ha. } { rewrite N.add_sub. eapply nthN_lt. exact Hp. } { lia. } { exact LB. }
  cbn [tenv0 te_hu] in EF. rewrite EF. cbn [bind].
  destruct (N.eqb_spec i not_found) as [Ei|Ei].
  { destruct (Mq (rev x)) eqn:Q; [|reflexivity]. destruct NQ as (j & Hj); [discriminate|]. exfalso.
    pose proof (search_present R remap CRR (k + 1) j x p i ltac:(lia) Hj HP' SR) as ES. subst i. apply nthN_lt in Hj. unfold not_found in ES. lia. }
  destruct (search_sound R remap CRR (k + 1) p _ i ltac:(lia) SR Ei) as (g & Hg & Hgp & EL).
  assert (g = x).
  { apply (lid_inj R remap CRR (k + 1) g x); auto.
    - lia.
    - eapply nthN_In; exact Hg.
    - lia.
    - rewrite HP' in Hgp. congruence.
    - rewrite LX. exact Vy. }
  subst g. clear Hgp EL.
  destruct (entry_at (k + 1) i x Hg) as (l & e & Hl & He & Ee & EE). destruct (AV (k + 1) l ltac:(lia) Hl) as (a' & c & vs & Ha' & Hc & CH & CW & FV).
  rewrite Ha in Ha'. injection Ha' as <-.
  destruct (nthN_Some vs i) as (val & Hv). { apply nthN_lt in He. apply Forall2_len in FV. unfold lenN in *. lia. }
  assert (VO : value_ok D pq bq (tp_probs m) (tp_backoffs m) (k + 1) e val).
  { clear - FV He Hv. unfold nthN in *. revert FV He Hv. generalize (N.to_nat i) as n. clear. intros n H. revert n. induction H as [|a b l vs Hab H IH]; intros n H1 H2; [destruct n; discriminate|].
    destruct n; cbn in *; [congruence|eauto]. }
  destruct (ti_pad _ _ _ _ _ _ TI) as (pad & EP & Lpad).
  assert (RK : a_rank env a i = Ok val). { unfold a_rank. rewrite Hc, EP. eapply access_padded; eauto. }
  pose proof (tr_vinv _ _ _ _ _ _ _ TR) as (V1 & V2 & V3 & V4 & V5). cbn [fst snd] in V1, V2, V3, V4, V5.
  pose proof (tab_width D secs (tp_penv env) pq bq (VIN D secs env remap pq bq (base_of _ _ _ _ _ _ TI))) as [TP TB]. pose proof (ti_bits _ _ _ _ _ _ TI) as TW.
  destruct VO as (pr & R1 & R2 & R3). rewrite N.add_sub in *.
  assert (QB : q_qbits (tp_probs m) k = Ok pq). { unfold q_qbits. rewrite V2. apply (proj2 (rd_nthN _ _ _)). apply nthN_rep. lia. }
  rewrite QB, RK. cbn [bind].
  destruct (nthN_Some (q_seqs (tp_probs m)) k ltac:(lia)) as (dp & Hdp).
  assert (LP : lenN dp = 2 ^ pq) by (rewrite Forall_forall in V3; apply V3; eapply nthN_In; exact Hdp).
  destruct (nthN_Some dp pr ltac:(lia)) as (pv & Hpv). pose proof (q_access_ok _ _ _ _ _ Hdp Hpv) as A1.
  destruct e as [ge [ep eb]]. cbn [fst snd] in *.
  assert (QP : qp (k + 2) ep = pv). { unfold qfun. replace (k + 2 - 2) with k by lia. rewrite R1, A1. reflexivity. }
  rewrite (tr_order _ _ _ _ _ _ _ TR). rewrite (sub64_small (lenN D) 1) by lia.
  assert (LR : lenN (rev x) = k + 2) by (unfold lenN in *; rewrite rev_length; lia).
  unfold quantized. rewrite EE, LR. destruct (N.eqb_spec (k + 2) 1) as [Z1|_]; [lia|]. rewrite QP.
  destruct (N.eqb_spec (k + 1) (lenN D - 1)) as [Y|Y]; cbn [negb].
  - destruct (N.eqb_spec (k + 1 + 1) (lenN D)) as [_|Y']; [|lia]. subst val.
    assert (UP : rank_unpack pq pr = (pr, 0)).
    { pose proof (pow2_pos (64 - pq)) as PP. rewrite <- (rank_unpack_pack pq pr 0) by (first [exact R2|lia]).
      rewrite rank_pack_shift by lia. rewrite N.shiftl_0_l, N.lor_0_r. reflexivity. }
    rewrite UP. rewrite A1. cbn [bind]. eexists. split; [reflexivity|]. intro Q. lia.
  - destruct (N.eqb_spec (k + 1 + 1) (lenN D)) as [Y'|_]; [lia|]. destruct R3 as (br & S1 & S2 & S3).
    destruct (nthN_Some (q_seqs (tp_backoffs m)) k ltac:(lia)) as (db & Hb).
    assert (LB' : lenN db = 2 ^ bq) by (rewrite Forall_forall in V5; apply V5; eapply nthN_In; exact Hb).
    destruct (nthN_Some db br ltac:(lia)) as (bv & Hbv). pose proof (q_access_ok _ _ _ _ _ Hb Hbv) as A2.
    assert (QBV : qb (k + 2) eb = bv). { unfold qfun. replace (k + 2 - 2) with k by lia. rewrite S1, A2. reflexivity. }
    rewrite S3, <- rank_pack_shift, rank_unpack_pack; [|lia|exact R2|eapply N.lt_le_trans; [exact S2|apply N.pow_le_mono_r; lia]|lia|eapply N.lt_le_trans; [exact S2|apply N.pow_le_mono_r; lia]].
    rewrite A1. cbn [bind]. rewrite A2. cbn [bind]. destruct (N.eqb_spec (k + 2) (lenN D)) as [Y'|_]; [lia|].
    rewrite (range_of R (map a_sa (tp_arrays m)) (k + 1) i (a_sa a) (APtr (k + 1) ltac:(lia)) (nth_sa _ _ _ Ha)) by (eapply nthN_lt; exact Hg). cbn [bind].
    rewrite QBV. eexists. split; [reflexivity|]. intro Q. exists i. cbn [fst snd]. split; [exact Hg|]. split; [reflexivity|]. split.
    + intros z Hz. rewrite nthN_S in Hz by lia. rewrite N.add_sub, Ey in Hz. congruence.
    + intros _ z Hz. rewrite N.add_sub in Hz. apply Hprev. exact Hz.
Qed.

(** ** unknown words: the hash function must tell them from the listed ones *)
Definition word_distinguished (w : list N) : Prop := forall l, nthN D 0 = Some l ->
  mph_lookup (dv_h (tp_vocab m)) (tp_h env w) <> Ok (lenN l) /\ forall e, In e l -> mix 64 (tp_h env (join (fst e))) <> mix 64 (tp_h env w).

Lemma uni_found w buf r : bytes_at buf r = Ok w -> (entry D [w] = None -> word_distinguished w) ->
  exists val r0, plook_pair (tp_h env) (tp_vocab m) buf r = Ok (wid w, val) /\
  (if wid w =? not_found then Ok None else
            let '(p, b) := unpack val in
            a0 <- rd (tp_arrays m) 0 ;;
            r <- sa_range (a_sa a0) (wid w) ;;
            Ok (Some (f_of_bits p, f_of_bits b, (r, wid w, wid w)))) = Ok (match Mq [w] with Some (p, b) => Some (p, b, r0) | None => None end) /\
  forall rh, Mq [w] <> None -> J rh w 0 r0.
Proof.
  intros E HD. pose proof (af_order _ AF) as HO. unfold plook_pair. rewrite E. cbn [bind]. pose proof (lev_size R remap CRR 0) as SZ0.
  unfold quantized, wid. change (lenN [w] =? 1) with true. cbv iota. destruct (entry D [w]) as [[p b]|] eqn:EE.
  - assert (Vw : In [w] voc) by (apply voc_word; rewrite EE; discriminate). pose proof (vid_In R w Vw) as Vn.
    destruct (dict_pair D env AF (tp_vocab m) w (tr_voc _ _ _ _ _ _ _ TR) Vw) as (l & e & Hl & He & Ee & DP & _). rewrite DP.
    destruct (entry_at 0 (vid R w) [w] Vn) as (l' & e' & Hl' & He' & Ee' & EE'). rewrite Hl in Hl'. injection Hl' as <-. rewrite He in He'. injection He' as <-.
    cbn [rev app] in EE'. rewrite EE in EE'. injection EE' as EE'.
    pose proof (tr_arrays _ _ _ _ _ _ _ TR) as (AL & AP & APtr & AV). destruct (nthN_Some (tp_arrays m) 0 ltac:(lia)) as (a0 & Ha0).
    destruct (N.eqb_spec (vid R w) not_found) as [Z|_]; [apply nthN_lt in Vn; unfold not_found in Z; lia|].
    exists (uni_value e). eexists (_, vid R w, vid R w). split; [reflexivity|]. destruct (af_floats _ AF 0 l e Hl (nthN_In _ _ _ He)) as [F1 F2].
    unfold uni_value. rewrite <- EE' in F1, F2 |- *. cbn [fst snd] in F1, F2 |- *. pose proof (f_bits_lt _ F1) as B1. pose proof (f_bits_lt _ F2) as B2.
    rewrite unpack_pack by lia. rewrite !f_of_bits_f_bits by assumption. rewrite (proj2 (rd_nthN _ _ _) Ha0). cbn [bind].
    rewrite (range_of R (map a_sa (tp_arrays m)) 0 (vid R w) (a_sa a0) (APtr 0 ltac:(lia)) (nth_sa _ _ _ Ha0)) by (eapply nthN_lt; exact Vn). cbn [bind].
    split; [reflexivity|]. intros rh _ _. exists (vid R w). cbn [fst snd]. split; [exact Vn|]. split; [reflexivity|]. split; [|lia].
    intros y Hy. change (nthN (w :: rh) 0) with (Some w) in Hy. congruence.
  - exists not_found, ((0, 0), 0, 0). destruct (nthN_Some D 0 ltac:(lia)) as (l & Hl). destruct (HD eq_refl l Hl) as [D1 D2].
    pose proof (tr_voc _ _ _ _ _ _ _ TR l Hl) as RV. destruct (dvt_lookup_any _ _ _ _ _ w RV) as [Z|(kk & xx & yy & I & EL & _)].
    + exfalso. apply D1. rewrite Z. rewrite lenN_map. reflexivity.
    + rewrite EL. apply in_combine_l in I. apply in_map_iff in I. destruct I as (e & <- & He). specialize (D2 e He).
      destruct (N.eqb_spec (mix 64 (tp_h env (join (fst e)))) (mix 64 (tp_h env w))) as [Q|_]; [contradiction|]. split; [reflexivity|]. split; [reflexivity|congruence].
Qed.

(** ** sentences *)
Lemma tp_sentence_ok buf p ws : lenN ws < 2 ^ 62 ->
  holds_text buf (p, p + lenN (join ws)) (join ws) ->
  (forall w, In w ws -> entry D [w] = None -> word_distinguished w) ->
  forall post pre st, ws = pre ++ post -> st_rep (supported Mq) (lenN D) st (map wid (rev pre)) (rev pre) ->
  exists out st', tp_sentence env m buf st (word_ranges (start p pre) post) = Ok (out, st') /\
    map fst out = skipn (length pre) (kept_scores (supported Mq) (unk_prob D unk) (N.to_nat (lenN D)) ws) /\
    map snd out = map (oov_of D) post /\ st_rep (supported Mq) (lenN D) st' (map wid (rev ws)) (rev ws) /\
    ps_oovs st' = fold_left (fun n w => if oov_of D w then add64 n 1 else n) post (ps_oovs st).
Proof.
  intros Hbig HT HD. pose proof (af_order _ AF) as HO. induction post as [|v post IH]; intros pre st E Rp.
  - rewrite app_nil_r in E. subst pre. exists [], st. cbn [word_ranges tp_sentence map fold_left]. split; [reflexivity|]. split; [|split; [reflexivity|split; [exact Rp|reflexivity]]].
    symmetry. apply skipn_all2. rewrite kept_scores_length. lia.
  - cbn [word_ranges tp_sentence]. unfold tp_score.
    assert (BA : bytes_at buf (start p pre, start p pre + lenN v) = Ok v).
    { apply bytes_at_ok. change v with (join [v]). apply (join_at buf [v] post); [discriminate|]. cbn [app]. rewrite <- E. exact HT. }
    destruct (uni_found v buf _ BA) as (val & r0 & EV & FE & HJ0).
    { intro Z. apply HD; [|exact Z]. rewrite E. apply in_or_app. right. left. reflexivity. }
    rewrite EV. cbn [bind]. rewrite FE. cbn [bind]. rewrite (tr_unk _ _ _ _ _ _ _ TR).
    assert (HB : lenN (rev pre) < 2 ^ 62). { unfold lenN in *. rewrite rev_length. rewrite E, app_length in Hbig. lia. }
    destruct (score_step_any Mq (unk_prob D unk) (lenN D) (rev pre) v (tp_probe env m) (J (rev pre) v) st (map wid (rev pre)) (wid v) r0 HO Rp HB
      (probe_trie (rev pre) v st HB Rp) (HJ0 (rev pre))) as (st1 & ES & R1 & OV).
    unfold tp_loop in ES. rewrite ES. cbn [bind]. destruct (IH (pre ++ [v]) st1) as (out & st' & E1 & E2 & E3 & E4 & E5).
    + rewrite <- app_assoc. exact E.
    + rewrite rev_app_distr. exact R1.
    + replace (start p pre + lenN v + 1) with (start p (pre ++ [v])) by (rewrite start_app; reflexivity).
      rewrite E1. cbn [bind]. eexists _, _. split; [reflexivity|]. cbn [map fst snd fold_left].
      split; [|split; [|split; [exact E4|]]].
      * rewrite E2. rewrite kept_scored, (scored_at _ pre v post ws E). f_equal. rewrite (rep_ctx _ _ _ _ _ Rp). reflexivity.
      * unfold oov_of at 1. unfold quantized. rewrite E3. f_equal. destruct (entry D [v]) as [[? ?]|]; reflexivity.
      * rewrite E5. f_equal. rewrite OV. unfold oov_of, quantized. destruct (entry D [v]) as [[? ?]|]; reflexivity.
Qed.
End Score.
