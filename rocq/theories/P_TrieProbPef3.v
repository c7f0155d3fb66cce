(** * Scoring with a probability trie over either gram sequence *)
From Coq Require Import Floats.SpecFloat.
From Verif Require Import Prelude BitFacts M_Word P_Word M_Bits Spec P_Bits P_Builder M_CompactVector P_CompactVector M_DArray M_EF P_EF P_EF2
  M_HashVec M_Mph P_Mph P_MphTables M_FastEF P_FastEF P_FastEF3 M_Text P_Text P_Text2 M_SeqColl P_SeqColl M_Pool P_Pool M_Pef Spec_Pef M_Trie Spec_Trie Spec_TriePef P_Trie1 P_Trie2 P_Trie3 P_Trie4 P_Trie5 P_Trie6 P_Trie7
  Props_MphCount M_Score Spec_Katz P_Score1 P_Score2 P_Score3 M_Quant P_Quant M_MphProb Spec_Arpa P_Sentence P_Values P_MphProb M_TrieProb P_TrieProb1 P_TrieProb2 P_TrieProb3 P_TrieProb4
  M_ArpaFile Spec_ArpaFile P_ArpaFile Spec_Supported P_Supported.
From Verif Require Import M_TriePef P_TriePef1 P_TriePef2 P_TriePef5 M_TrieProbPef Spec_TrieProbPef P_TrieProbPef1 P_TrieProbPef2.
From Coq Require Import Permutation Sorting.Sorted.

Lemma told_apart_rev D remap k g : told_apart (reversed D) remap k g <-> told_apart (revD D) remap k g.
Proof. unfold told_apart, first_choice. rewrite <- !grams_reversed. tauto. Qed.

(** unknown words: the hash function must tell them from the listed ones *)
Definition qword_distinguished (D : entries) (t : tpenv) (v : dvt) (w : list N) : Prop := forall l, nthN D 0 = Some l ->
  mph_lookup (dv_h v) (tp_h t w) <> Ok (lenN l) /\ forall e, In e l -> mix 64 (tp_h t (join (fst e))) <> mix 64 (tp_h t w).

Section Score.
Variable D : entries.
Variable secs : list (list (list N)).
Variable env : qenv.
Variables remap pq bq : N.
Notation tv := (qe_t env).
Hypothesis AF : arpa_file D.
Hypothesis CO : collection (reversed D) remap.
Hypothesis TI : trie_base_ok D secs tv remap pq bq.
Variable unk : spec_float.
Variable m : qpl.
Hypothesis QR : qp_rep D env remap pq bq unk m.
Notation R := (revD D).
Notation G := (grams (revD D)).
Notation voc := (grams (revD D) 0).
Notation CRR := (CR D remap CO).
Notation ENT := (gram * (spec_float * spec_float))%type.
Notation qp := (qfun (qp_probs m) 0).
Notation qb := (qfun (qp_backoffs m) 1).
Notation Mq := (quantized D qp qb).
Notation wids := (wid D).
Notation JJ := (J D).
Notation Inv := (fun arr => gup D env remap arr (lenN D)).

Lemma closed_qq : closed (entry D) -> closed Mq.
Proof using Type.
  assert (E : forall g, Mq g = None <-> entry D g = None).
  { intro g. unfold quantized. destruct (entry D g) as [[p b]|]; [|tauto]. destruct (lenN g =? 1); split; discriminate. }
  intros H g x y HM. rewrite E in *. rewrite E. destruct (H g x y); auto.
Qed.

(** the searches for the continuations of the contexts [rh] by [v] *)
Definition safe_after (rh : list (list N)) (v : list N) : Prop :=
  forall k, k + 1 <= lenN rh -> k + 2 <= lenN D -> entry D (ctx rh (k + 1)) <> None -> entry D (ctx rh k ++ [v]) <> None ->
    (exists c', entry D (c' :: ctx rh k ++ [v]) <> None) -> entry D (ctx rh (k + 1) ++ [v]) <> None \/ told_apart R remap (k + 1) (v :: firstn (N.to_nat (k + 1)) rh).

Lemma probe_qtrie rh v st : lenN rh < 2 ^ 62 -> st_rep (supported Mq) (lenN D) st (map wids rh) rh -> safe_after rh v ->
  probe_ok_s Mq (lenN D) rh v (qp_probe env m) (JJ rh v) Inv (ps_length st) (map wids rh).
Proof.
  intros HB Rp SAFE k r w arr HJ PA HK HM HW. pose proof (af_order _ AF) as HO. pose proof (sr_max _ _ _ _ _ Rp) as LM. pose proof (sr_le _ _ _ _ _ Rp) as LE.
  destruct (HJ ltac:(lia)) as (p & Hp & Er & Hprev & Hpp). destruct r as [[r prev] pprev]. cbn [fst snd] in Er, Hprev, Hpp. subst r.
  rewrite nthN_map in HW. destruct (nthN rh k) as [y|] eqn:Ey; [|discriminate]. cbn in HW. injection HW as <-.
  pose proof (st_rep_listed _ _ _ _ _ Rp (k + 1) ltac:(lia)) as EC.
  assert (EC' : entry D (ctx rh (k + 1)) <> None). { intro Z. unfold quantized in EC. rewrite Z in EC. congruence. }
  assert (IC : In (firstn (N.to_nat (k + 1)) rh) (G k)).
  { apply (entry_listed D) in EC'. rewrite ctx_len in EC' by lia. rewrite N.add_sub in EC'. unfold ctx in EC'. rewrite rev_involutive in EC'. exact EC'. }
  set (x := v :: firstn (N.to_nat (k + 1)) rh).
  assert (Lx : length x = N.to_nat (k + 2)). { unfold x. cbn [length]. rewrite firstn_length. unfold lenN in LE. lia. }
  assert (FS : firstn (N.to_nat (k + 1)) rh = firstn (N.to_nat k) rh ++ [y]).
  { replace (N.to_nat (k + 1)) with (S (N.to_nat k)) by lia. apply firstn_S_nth. exact Ey. }
  assert (RL : removelast x = v :: firstn (N.to_nat k) rh). { unfold x. rewrite FS. change (v :: firstn (N.to_nat k) rh ++ [y]) with ((v :: firstn (N.to_nat k) rh) ++ [y]). apply removelast_last. }
  assert (LX : last x [] = y). { unfold x. rewrite FS. change (v :: firstn (N.to_nat k) rh ++ [y]) with ((v :: firstn (N.to_nat k) rh) ++ [y]). apply last_last. }
  assert (Vy : In [y] voc). { apply (gram_voc R remap CRR k _ y IC). rewrite FS. apply in_or_app. right. left. reflexivity. }
  assert (Wy : wids y = vid R y). { unfold wid. apply (voc_word D AF) in Vy. destruct (entry D [y]); [reflexivity|congruence]. }
  rewrite Wy. clear Wy.
  assert (Vlt : vid R y < lenN voc) by (eapply nthN_lt; apply vid_In; exact Vy).
  pose proof (lev_size R remap CRR 0) as SZ0. pose proof (lev_size R remap CRR (k + 1)) as SZk. pose proof (lev_size R remap CRR k) as SZk0. pose proof (lev_size R remap CRR remap) as SZr.
  rewrite <- ctx_rev. fold x.
  assert (XN : x <> []) by discriminate.
  assert (lx : lenN x = k + 2) by (unfold lenN; lia).
  assert (HP' : nthN (G (k + 1 - 1)) p = Some (removelast x)) by (rewrite RL, N.add_sub; exact Hp).
  assert (QI : forall i, nthN (G (k + 1)) i = Some x -> kids R (k + 1) p <= i < kids R (k + 1) (p + 1)).
  { intros i Hi. apply (kid_range R remap CRR (k + 1) i x p); [lia|exact Hi|exact HP']. }
  assert (NQ : Mq (rev x) <> None -> exists i, nthN (G (k + 1)) i = Some x).
  { intro Q. assert (Q' : entry D (rev x) <> None) by (intro Z; apply Q; unfold quantized; rewrite Z; reflexivity).
    apply (entry_listed D) in Q'. rewrite rev_involutive in Q'. replace (lenN (rev x) - 1) with (k + 1) in Q' by (unfold lenN in *; rewrite rev_length; lia). apply In_nthN. exact Q'. }
  pose proof (kids_mono R remap CRR (k + 1) p (p + 1) ltac:(lia) ltac:(lia)) as KM. pose proof (kids_le R (k + 1) (p + 1)) as KL.
  unfold qp_probe. cbn [fst snd].
  rewrite (sub64_small (kids R (k + 1) (p + 1)) (kids R (k + 1) p)) by lia.
  destruct (N.eqb_spec (kids R (k + 1) (p + 1) - kids R (k + 1) p) 0) as [Z|Z].
  { destruct (Mq (rev x)) eqn:Q; [|exists arr; split; [reflexivity|exact PA]]. destruct NQ as (i & Hi); [discriminate|]. specialize (QI i Hi). lia. }
  rewrite (qr_remap _ _ _ _ _ _ _ QR), (bo_map _ _ _ _ _ _ TI).
  assert (SX : remap <> 0 -> remap < k + 1 -> In (skipn (N.to_nat (k + 1 - remap)) x) (G remap)).
  { intros R0 R1. replace (N.to_nat (k + 1 - remap)) with (S (N.to_nat (k - remap))) by lia. unfold x. cbn [skipn]. destruct (N.eq_dec k remap) as [->|NE].
    - rewrite N.sub_diag. exact IC.
    - apply (col_suffix _ _ CRR); [lia|lia|exact IC]. }
  assert (ID : exists arr', (if negb (remap =? 0) && (remap <? k + 1) then qmap_ids env arr prev pprev (vid R y) remap else Ok (vid R y, arr)) = Ok (lid R remap (k + 1) x, arr') /\ Inv arr').
  { destruct (N.eqb_spec remap 0) as [R0|R0]; cbn [negb andb].
    - rewrite lid_plain by (left; exact R0). rewrite LX. exists arr. split; [reflexivity|exact PA].
    - destruct (N.ltb_spec remap (k + 1)) as [R1|R1].
      + specialize (SX R0 R1). rewrite (lid_mapped R remap (k + 1) x R0 R1). cbv zeta. set (s := skipn (N.to_nat (k + 1 - remap)) x) in *.
        assert (LS : last s [] = y).
        { rewrite <- LX. unfold s. rewrite (snoc_removelast x [] XN) at 1. rewrite skipn_snoc by (rewrite length_removelast; lia). apply last_last. }
        rewrite <- LS. apply (qmap_ids_ok D env remap CO arr (lenN D) s prev pprev PA R0 ltac:(lia) ltac:(lia) SX).
        * intros z Hz. apply Hprev. unfold s in Hz. rewrite skipn_nth_add in Hz. replace (k + 1 - remap + (remap - 1)) with k in Hz by lia. rewrite <- Hz.
          unfold x. change (v :: firstn (N.to_nat (k + 1)) rh) with (firstn (S (N.to_nat (k + 1))) (v :: rh)). replace (S (N.to_nat (k + 1))) with (N.to_nat (k + 2)) by lia.
          symmetry. apply nth_firstn_lt. lia.
        * intros R2 z Hz. apply Hpp; [lia|]. unfold s in Hz. rewrite skipn_nth_add in Hz. replace (k + 1 - remap + 0) with (k - 1) in Hz by lia. rewrite <- Hz.
          unfold x. change (v :: firstn (N.to_nat (k + 1)) rh) with (firstn (S (N.to_nat (k + 1))) (v :: rh)). replace (S (N.to_nat (k + 1))) with (N.to_nat (k + 2)) by lia.
          symmetry. apply nth_firstn_lt. lia.
      + rewrite lid_plain by (right; lia). rewrite LX. exists arr. split; [reflexivity|exact PA]. }
  destruct ID as (arr1 & ID & PA1). rewrite ID. cbn [bind]. cbv beta iota. clear ID PA arr.
  destruct (in_dec gram_dec x (G (k + 1))) as [IX|NX].
  2:{ (* not listed: told apart *)
    assert (QN : Mq (rev x) = None). { destruct (Mq (rev x)) eqn:Q; [|reflexivity]. destruct NQ as (j & Hj); [discriminate|]. exfalso. apply NX. eapply nthN_In; exact Hj. }
    rewrite QN. assert (TA : told_apart (revD D) remap (k + 1) x).
    { assert (SA : entry D (ctx rh (k + 1) ++ [v]) <> None \/ told_apart R remap (k + 1) (v :: firstn (N.to_nat (k + 1)) rh)).
      { apply SAFE.
        - lia.
        - lia.
        - exact EC'.
        - intro Q. apply HM. unfold quantized. rewrite Q. reflexivity.
        - destruct (nthN_Some (G (k + 1)) (kids R (k + 1) p)) as (z & Hz). { pose proof (kids_le R (k + 1) (p + 1)). lia. }
          pose proof (kid_parent R remap CRR (k + 1) _ z p ltac:(lia) Hz ltac:(lia)) as HPz. rewrite N.add_sub, Hp in HPz. injection HPz as HPz.
          exists (last z []). pose proof (listed_entry D AF (k + 1) z (nthN_In _ _ _ Hz)) as LE'. pose proof (snoc_removelast z [] (gram_ne R remap CRR _ _ (nthN_In _ _ _ Hz))) as Ez.
          rewrite Ez, <- HPz, rev_app_distr in LE'. exact LE'. }
      destruct SA as [SA|SA]; [|exact SA]. exfalso. apply SA. rewrite <- ctx_rev. fold x. unfold quantized in QN.
      destruct (entry D (rev x)) as [[? ?]|]; [destruct (lenN (rev x) =? 1); discriminate|reflexivity]. }
    pose proof (told_missing R remap CRR (k + 1) p x ltac:(lia) HP' ltac:(rewrite LX; exact Vy) ltac:(lia) SX NX TA) as SM.
    destruct (gmiss D env remap arr1 (lenN D) (k + 1) p _ PA1 ltac:(lia) SM) as (arr2 & EF & PA2). rewrite EF. cbn [bind]. cbv beta iota. exists arr2. split; [reflexivity|exact PA2]. }
  apply In_nthN in IX. destruct IX as (i & Hg).
  destruct (gfind D env remap arr1 (lenN D) (k + 1) i x p PA1 ltac:(lia) Hg HP') as (arr2 & EF & PA2). rewrite EF. cbn [bind]. cbv beta iota.
  rewrite (not_found_big i (lenN (G (k + 1)))) by (first [eapply nthN_lt; exact Hg | lia]).
  destruct (entry_at D AF (k + 1) i x Hg) as (l & e & Hl & He & Ee & EE). destruct (proj2 (qr_ranks _ _ _ _ _ _ _ QR) (k + 1) l ltac:(lia) Hl) as (c & vs & Hc & CH & CW & FV).
  destruct (nthN_Some vs i) as (val & Hv). { apply nthN_lt in He. apply Forall2_len in FV. unfold lenN in *. lia. }
  assert (VO : value_ok D pq bq (qp_probs m) (qp_backoffs m) (k + 1) e val).
  { clear - FV He Hv. unfold nthN in *. revert FV He Hv. generalize (N.to_nat i) as n. clear. intros n H. revert n. induction H as [|a b l vs Hab H IH]; intros n H1 H2; [destruct n; discriminate|].
    destruct n; cbn in *; [congruence|eauto]. }
  destruct (bo_pad _ _ _ _ _ _ TI) as (pad & EP & Lpad).
  assert (RK : q_rank_at env (Some c) i = Ok val). { unfold q_rank_at. rewrite EP. eapply access_padded; eauto. }
  pose proof (qr_vinv _ _ _ _ _ _ _ QR) as (V1 & V2 & V3 & V4 & V5). cbn [fst snd] in V1, V2, V3, V4, V5.
  pose proof (tab_width D secs (tp_penv tv) pq bq (VIN D secs tv remap pq bq TI)) as [TP TB]. pose proof (bo_bits _ _ _ _ _ _ TI) as TW.
  destruct VO as (pr & R1 & R2 & R3). rewrite N.add_sub in *.
  assert (QB : q_qbits (qp_probs m) k = Ok pq). { unfold q_qbits. rewrite V2. apply (proj2 (rd_nthN _ _ _)). apply nthN_rep. lia. }
  rewrite QB. cbn [bind]. rewrite (proj2 (rd_nthN _ _ _) Hc). cbn [bind]. rewrite RK. cbn [bind].
  destruct (nthN_Some (q_seqs (qp_probs m)) k ltac:(lia)) as (dp & Hdp).
  assert (LP : lenN dp = 2 ^ pq) by (rewrite Forall_forall in V3; apply V3; eapply nthN_In; exact Hdp).
  destruct (nthN_Some dp pr ltac:(lia)) as (pv & Hpv). pose proof (q_access_ok _ _ _ _ _ Hdp Hpv) as A1.
  destruct e as [ge [ep eb]]. cbn [fst snd] in *.
  assert (QP : qp (k + 2) ep = pv). { unfold qfun. replace (k + 2 - 2) with k by lia. rewrite R1, A1. reflexivity. }
  rewrite (qr_order _ _ _ _ _ _ _ QR). rewrite (sub64_small (lenN D) 1) by lia.
  assert (LR : lenN (rev x) = k + 2) by (unfold lenN in *; rewrite rev_length; lia).
  unfold quantized. rewrite EE, LR. destruct (N.eqb_spec (k + 2) 1) as [Z1|_]; [lia|]. rewrite QP.
  destruct (N.eqb_spec (k + 1) (lenN D - 1)) as [Y|Y]; cbn [negb].
  - destruct (N.eqb_spec (k + 1 + 1) (lenN D)) as [_|Y']; [|lia]. subst val.
    assert (UP : rank_unpack pq pr = (pr, 0)).
    { pose proof (pow2_pos (64 - pq)) as PP. rewrite <- (rank_unpack_pack pq pr 0) by (first [exact R2|lia]).
      rewrite rank_pack_shift by lia. rewrite N.shiftl_0_l, N.lor_0_r. reflexivity. }
    rewrite UP. rewrite A1. cbn [bind]. eexists _, arr2. split; [reflexivity|]. split; [|exact PA2]. intro Q. lia.
  - destruct (N.eqb_spec (k + 1 + 1) (lenN D)) as [Y'|_]; [lia|]. destruct R3 as (br & S1 & S2 & S3).
    destruct (nthN_Some (q_seqs (qp_backoffs m)) k ltac:(lia)) as (db & Hb).
    assert (LB' : lenN db = 2 ^ bq) by (rewrite Forall_forall in V5; apply V5; eapply nthN_In; exact Hb).
    destruct (nthN_Some db br ltac:(lia)) as (bv & Hbv). pose proof (q_access_ok _ _ _ _ _ Hb Hbv) as A2.
    assert (QBV : qb (k + 2) eb = bv). { unfold qfun. replace (k + 2 - 2) with k by lia. rewrite S1, A2. reflexivity. }
    rewrite S3, <- rank_pack_shift, rank_unpack_pack; [|lia|exact R2|eapply N.lt_le_trans; [exact S2|apply N.pow_le_mono_r; lia]|lia|eapply N.lt_le_trans; [exact S2|apply N.pow_le_mono_r; lia]].
    rewrite A1. cbn [bind]. rewrite A2. cbn [bind]. destruct (N.eqb_spec (k + 2) (lenN D)) as [Y'|_]; [lia|].
    rewrite (grange_of D env remap arr2 (lenN D) (k + 1) i PA2 ltac:(lia)) by (eapply nthN_lt; exact Hg). cbn [bind].
    rewrite QBV. eexists _, arr2. split; [reflexivity|]. split; [|exact PA2]. intro Q. exists i. cbn [fst snd]. split; [exact Hg|]. split; [reflexivity|]. split.
    + intros z Hz. rewrite nthN_S in Hz by lia. rewrite N.add_sub, Ey in Hz. congruence.
    + intros _ z Hz. rewrite N.add_sub in Hz. apply Hprev. exact Hz.
Qed.

Lemma quni_found arr w buf r : Inv arr -> bytes_at buf r = Ok w -> (entry D [w] = None -> qword_distinguished D tv (qp_vocab m) w) ->
  exists val r0, plook_pair (tp_h tv) (qp_vocab m) buf r = Ok (wids w, val) /\
  (if wids w =? not_found then Ok None else
            let '(p, b) := unpack val in
            r <- pa_range arr 0 (wids w) ;;
            Ok (Some (f_of_bits p, f_of_bits b, (r, wids w, wids w)))) = Ok (match Mq [w] with Some (p, b) => Some (p, b, r0) | None => None end) /\
  forall rh, Mq [w] <> None -> JJ rh w 0 r0.
Proof.
  intros PA E HD. pose proof (af_order _ AF) as HO. unfold plook_pair. rewrite E. cbn [bind]. pose proof (lev_size R remap CRR 0) as SZ0.
  unfold quantized, wid. change (lenN [w] =? 1) with true. cbv iota. destruct (entry D [w]) as [[p b]|] eqn:EE.
  - assert (Vw : In [w] voc) by (apply (voc_word D AF); rewrite EE; discriminate). pose proof (vid_In R w Vw) as Vn.
    destruct (dict_pair D tv AF (qp_vocab m) w (qr_voc _ _ _ _ _ _ _ QR) Vw) as (l & e & Hl & He & Ee & DP & _). rewrite DP.
    destruct (entry_at D AF 0 (vid R w) [w] Vn) as (l' & e' & Hl' & He' & Ee' & EE'). rewrite Hl in Hl'. injection Hl' as <-. rewrite He in He'. injection He' as <-.
    cbn [rev app] in EE'. rewrite EE in EE'. injection EE' as EE'.
    destruct (N.eqb_spec (vid R w) not_found) as [Z|_]; [apply nthN_lt in Vn; unfold not_found in Z; lia|].
    exists (uni_value e). eexists (_, vid R w, vid R w). split; [reflexivity|]. destruct (af_floats _ AF 0 l e Hl (nthN_In _ _ _ He)) as [F1 F2].
    unfold uni_value. rewrite <- EE' in F1, F2 |- *. cbn [fst snd] in F1, F2 |- *. pose proof (f_bits_lt _ F1) as B1. pose proof (f_bits_lt _ F2) as B2.
    rewrite unpack_pack by lia. rewrite !f_of_bits_f_bits by assumption. 
    rewrite (grange_of D env remap arr (lenN D) 0 (vid R w) PA ltac:(lia)) by (eapply nthN_lt; exact Vn). cbn [bind].
    split; [reflexivity|]. intros rh _ _. exists (vid R w). cbn [fst snd]. split; [exact Vn|]. split; [reflexivity|]. split; [|lia].
    intros y Hy. change (nthN (w :: rh) 0) with (Some w) in Hy. congruence.
  - exists not_found, ((0, 0), 0, 0). destruct (nthN_Some D 0 ltac:(lia)) as (l & Hl). destruct (HD eq_refl l Hl) as [D1 D2].
    pose proof (qr_voc _ _ _ _ _ _ _ QR l Hl) as RV. destruct (dvt_lookup_any _ _ _ _ _ w RV) as [Z|(kk & xx & yy & I & EL & _)].
    + exfalso. apply D1. rewrite Z. rewrite lenN_map. reflexivity.
    + rewrite EL. apply in_combine_l in I. apply in_map_iff in I. destruct I as (e & <- & He). specialize (D2 e He).
      destruct (N.eqb_spec (mix 64 (tp_h tv (join (fst e)))) (mix 64 (tp_h tv w))) as [Q|_]; [contradiction|]. split; [reflexivity|]. split; [reflexivity|congruence].
Qed.

End Score.
