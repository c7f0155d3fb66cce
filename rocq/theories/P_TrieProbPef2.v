(** * Probability tries over either gram sequence: assembly *)
From Coq Require Import Floats.SpecFloat.
From Verif Require Import Prelude BitFacts M_Word P_Word M_Bits Spec P_Bits P_Builder M_CompactVector P_CompactVector M_DArray M_EF P_EF P_EF2
  M_HashVec M_Mph P_Mph P_MphTables M_FastEF P_FastEF P_FastEF3 M_Text P_Text P_Text2 M_SeqColl P_SeqColl M_Pool P_Pool M_Pef Spec_Pef M_Trie Spec_Trie P_Trie1 P_Trie2 P_Trie3 P_Trie4 P_Trie5 P_Trie6 P_Trie7
  Props_MphCount M_Score Spec_Katz P_Score1 P_Score2 P_Score3 M_Quant P_Quant M_MphProb Spec_Arpa P_Sentence P_Values P_MphProb M_TrieProb P_TrieProb1 P_TrieProb2 P_TrieProb3
  M_ArpaFile Spec_ArpaFile P_ArpaFile M_Save Spec_Save P_Save P_Typed M_SavePef Spec_SavePef P_SavePef2.
From Verif Require Import M_TriePef P_TriePef1 P_TriePef2 M_TrieProbPef P_TrieProbPef1.
From Coq Require Import Permutation Sorting.Sorted.

(** ** the searches of the builder leave all but the enumerators *)
Section Same.
Variable env : qenv.
Lemma qmap_gram_same v arrays remap buf g id p arrays' : qmap_gram_rev env v arrays remap buf g id = Ok (p, arrays') -> same_arrays arrays arrays'.
Proof.
  intros E. unfold qmap_gram_rev in E. apply bind_inv in E. destruct E as (b & _ & E). apply bind_inv in E. destruct E as (pid & _ & E). apply bind_inv in E. destruct E as (r & _ & E).
  apply bind_inv in E. destruct E as ([r2 l] & E1 & E). cbv beta iota in E. apply map_in_same in E.
  destruct (remap =? 2); [|injection E1 as _ <-; exact E]. apply bind_inv in E1. destruct E1 as (nw & _ & E1). apply bind_inv in E1. destruct E1 as (ni & _ & E1).
  apply bind_inv in E1. destruct E1 as ([[q r3] l2] & E2 & E1). cbv beta iota in E1. injection E1 as _ <-. apply next_same in E2. eapply same_arrays_trans; eauto.
Qed.
Lemma qp_step_same v pb bb order m_order remap s arrays l s' arrays' : qp_step env v pb bb order m_order remap (s, arrays) l = Ok (s', arrays') -> same_arrays arrays arrays'.
Proof.
  intros E. unfold qp_step in E. apply bind_inv in E. destruct E as (r & _ & E). cbv beta iota zeta in E. apply bind_inv in E. destruct E as (pat & _ & E).
  apply bind_inv in E. destruct E as ([prv ptrs] & _ & E). cbv beta iota in E. destruct prv as [|]; [discriminate|]. apply bind_inv in E. destruct E as ([tid u] & _ & E). cbv beta iota in E.
  apply bind_inv in E. destruct E as ([tid2 l2] & E1 & E). cbv beta iota in E.
  assert (SL : same_arrays arrays l2).
  { destruct (tp_map (qe_t env) && (remap + 1 <? order)); [|injection E1 as _ <-; apply same_arrays_refl]. apply qmap_gram_same in E1. exact E1. }
  repeat (apply bind_inv in E; destruct E as (? & _ & E)). injection E as _ <-. exact SL.
Qed.
Lemma qp_ngrams_same v arrays pb bb order m_order remap cur prv b ptrs b' arrays' : qp_ngrams env v arrays pb bb order m_order remap cur prv b = Ok (ptrs, b', arrays') -> same_arrays arrays arrays'.
Proof.
  intros E. unfold qp_ngrams in E. apply bind_inv in E. destruct E as (u & _ & E). apply bind_inv in E. destruct E as ([s l] & E1 & E). cbv beta iota in E. injection E as _ _ <-.
  refine (foldM_inv (fun s : pbst * list parr => same_arrays arrays (snd s)) _ _ _ (mkpbst prv [0] 0 b, arrays) (s, l) (same_arrays_refl _) E1). clear.
  intros [s l] a [s' l'] _ HI E. cbn [snd] in *. eapply same_arrays_trans; [exact HI|]. eapply qp_step_same; exact E.
Qed.
End Same.

Section Build.
Variable D : entries.
Variable secs : list (list (list N)).
Variable env : qenv.
Variables remap pq bq : N.
Notation tv := (qe_t env).
Hypothesis AF : arpa_file D.
Hypothesis CO : collection (reversed D) remap.
Hypothesis TI : trie_base_ok D secs tv remap pq bq.
Notation R := (revD D).
Notation G := (grams (revD D)).
Notation voc := (grams (revD D) 0).
Notation CRR := (CR D remap CO).
Notation VI := (VIN D secs tv remap pq bq TI).
Notation ge := (genv env).
Notation gups := (gup D env remap).
Hypothesis LVL : forall k, 0 < k < lenN D ->
  if pe_pef ge then pef_level R remap ge k else long_starts 128 (child_ptrs (G (k - 1)) (G k)) = [] \/
    valid_order (hash_domain (lenN (long_starts 128 (child_ptrs (G (k - 1)) (G k))))) (te_hu (pe_t ge) k) (long_starts 128 (child_ptrs (G (k - 1)) (G k))) (te_orders (pe_t ge) k).

(** the rank vectors below [K] hold the positions of the values in the tables *)
Definition rup (pb bb : qsc) (ranks : list (option cv)) (K : N) : Prop :=
  lenN ranks = lenN D /\ forall k l, 0 < k < K -> nthN D k = Some l ->
    exists c vs, nthN ranks k = Some (Some c) /\ cv_holds c vs /\ c_width c <= 57 /\ Forall2 (value_ok D pq bq pb bb k) l vs.

(** where the sequences of the arrays come from, and that the rank vectors hold values of their types *)
Definition qpr_a (k : N) (a : parr) : Prop :=
  p_size a < 2 ^ 64 /\ p_ranks a = None /\ opt_all (pr_g R remap ge k) (p_grams a) /\ opt_all (pr_p R k) (p_ptrs a).
Definition qprov (arrays : list parr) (ranks : list (option cv)) : Prop :=
  (forall k a, nthN arrays k = Some a -> qpr_a k a) /\
  (forall k o, nthN ranks k = Some o -> if k =? 0 then o = None else t_opt t_cv (fun c => c_size c <> 0) o).
Lemma qprov_same l l' ranks : same_arrays l l' -> qprov l ranks -> qprov l' ranks.
Proof.
  intros (SL & S0) (Q1 & Q2). split; [|exact Q2]. intros k a' Ha'. destruct (S0 k a' Ha') as (a & Ha & (P1 & P2 & P3 & P4)). destruct (Q1 k a Ha) as (A1 & A2 & A3 & A4).
  split; [congruence|]. split; [rewrite A2 in P3; destruct (p_ranks a'); [destruct P3|reflexivity]|]. split; [|rewrite <- P4; exact A4].
  intros g' Hg'. rewrite Hg' in P2. destruct (p_grams a) as [g|] eqn:EG; [|destruct P2]. cbn in P2. destruct (A3 g eq_refl) as (B1 & g0 & B2 & B3). split; [exact B1|]. exists g0. split; [exact B2|].
  eapply same_gseq_trans; [exact B3|exact P2].
Qed.

Lemma qp_build_order_ok v pb bb arrays ranks k : pvoc_rep D tv v -> m_n (dv_h v) = lenN voc -> vinv D pq bq (lenN D) (pb, bb) -> 0 < k < lenN D -> gups arrays k -> rup pb bb ranks k ->
  exists arrays' ranks', qp_build_order env v pb bb remap secs (lenN D) pq bq (arrays, ranks) (k + 1) = Ok (arrays', ranks') /\ gups arrays' (k + 1) /\ rup pb bb ranks' (k + 1) /\
    (qprov arrays ranks -> qprov arrays' ranks').
Proof.
  intros RV MN VV [Hk HkD] AU RU. destruct (nthN_Some D k HkD) as (l & Hl). destruct (nthN_Some D (k - 1) ltac:(lia)) as (l' & Hl').
  destruct (lines_of D secs tv remap pq bq TI k l Hl) as (ls & Hs & F2 & FL).
  destruct (lines_of D secs tv remap pq bq TI (k - 1) l' Hl') as (ls' & Hs' & F2' & FL').
  destruct (values_exist D secs (tp_penv tv) pq bq VI pb bb k l VV ltac:(lia) Hl) as (vs & FV & FB).
  pose proof (tab_width D secs (tp_penv tv) pq bq VI) as [TP TB]. pose proof (bo_bits _ _ _ _ _ _ TI) as TW.
  set (W := pq + (if k + 1 =? lenN D then 0 else bq)) in *. assert (HW : 1 <= W <= 57) by (unfold W; destruct (k + 1 =? lenN D); lia).
  destruct (af_size _ AF _ _ Hl) as [S1 S2]. destruct (af_size _ AF _ _ Hl') as [S1' S2'].
  assert (LV : lenN vs = lenN l) by (apply Forall2_len in FV; unfold lenN; lia).
  assert (LLS : lenN ls = lenN l) by (apply Forall2_len in F2; unfold lenN; lia).
  assert (LG : lenN (G k) = lenN l) by (apply G_len; exact Hl). assert (LG' : lenN (G (k - 1)) = lenN l') by (apply G_len; exact Hl').
  assert (LI : lenN (lids R remap k) = lenN l) by (rewrite lids_len; exact LG).
  pose proof (lev_size R remap CRR 0) as LVOC.
  destruct (cv_push_holds (lids R remap k) (lenN voc)) as (b1 & b1' & E1 & E2 & E3); [lia|lia|apply (lids_bound R remap CRR)|].
  destruct (push_w_holds vs W) as (b2 & b2' & E4 & E5 & E6 & _); [lia|nia|exact FB|].
  unfold qp_build_order. replace (k + 1 - 2) with (k - 1) by lia. replace (k + 1 - 1) with k by lia.
  rewrite (proj2 (rd_nthN _ _ _) Hs'). cbn [bind]. rewrite (proj2 (rd_nthN _ _ _) Hs). cbn [bind]. fold W.
  unfold pab_new. rewrite MN. replace (lenN ls) with (lenN (lids R remap k)) by lia. rewrite E1. cbn [bind].
  change (ceil_log2 (add64 0 1)) with 0. unfold cvb_new at 1. change (64 <? cv_width 0) with false. cbv iota. cbn [bind].
  assert (U8 : u8 W = W). { unfold u8. change 255 with (N.ones 8). rewrite N.land_ones. apply N.mod_small. lia. }
  rewrite U8. replace (lenN (lids R remap k)) with (lenN vs) by lia. rewrite E4. cbn [bind].
  destruct (qp_ngrams_ok D secs env remap pq bq AF CO TI v pb bb arrays k l l' ls ls' vs (mkpab b1 b2) b1' b2' Hk RV VV AU Hl Hl' F2' FL' F2 FL FV E2 E5) as (arr0 & EN & AU0).
  rewrite EN. cbn [bind]. cbv beta iota. apply qp_ngrams_same in EN. assert (QS : qprov arrays ranks -> qprov arr0 ranks) by (apply qprov_same; exact EN). clear AU EN. rename AU0 into AU. revert QS. generalize (qprov arrays ranks). intros PQ QS. clear arrays. rename arr0 into arrays.
  pose proof AU as (AL & AP & APtr). pose proof RU as (RL & RV2).
  destruct (nthN_Some arrays k ltac:(lia)) as (a & Ha). rewrite (proj2 (rd_nthN _ _ _) Ha). cbn [bind].
  set (ptrs := child_ptrs (G (k - 1)) (G k)) in *.
  assert (LP : lenN ptrs = lenN l' + 1) by (unfold ptrs; rewrite lenN_child_ptrs, LG'; reflexivity).
  destruct (g_build_ok R remap CRR ge k) as (g & EG & GG); [rewrite lenN_revD; lia|apply LVL; lia|].
  destruct (cv_build_holds vs) as (c & EC & HC). { lia. } { eapply Forall_impl; [|exact FB]. intros x Hx. cbv beta in Hx |- *. assert (2 ^ W <= 2 ^ 57) by (apply N.pow_le_mono_r; lia). lia. }
  pose proof (cv_build_width vs c W EC ltac:(lia) FB) as CW.
  unfold qab_build. cbn [pb_grams pb_ranks]. rewrite (cv_all_ok _ _ E3). cbn [bind]. unfold ptrs. rewrite EG. fold ptrs. cbn [bind]. rewrite (cv_all_ok _ _ E6). cbn [bind]. rewrite EC. cbn [bind]. cbv beta iota.
  rewrite wr_setN by lia. cbn [bind]. rewrite (wr_setN ranks) by lia. cbn [bind]. set (ak := mkparr (p_size a) (Some g) _ _). set (arr1 := setN arrays k ak).
  assert (L1 : lenN arr1 = lenN arrays) by apply lenN_setN.
  destruct (nthN_Some arrays (k - 1) ltac:(lia)) as (a' & Ha').
  assert (Ha1 : nthN arr1 (k - 1) = Some a') by (unfold arr1; rewrite setN_other by lia; exact Ha').
  rewrite (proj2 (rd_nthN _ _ _) Ha1). cbn [bind].
  destruct (ptr_build_ok ptrs) as (pe & EP & RP).
  { apply child_sortedN; [apply (lev_NoDup R remap CRR)|apply (lev_PRE R remap CRR); exact Hk|apply (lev_MON R remap CRR); exact Hk]. }
  { intros Z. rewrite Z in LP. change (lenN (@nil N)) with 0 in LP. lia. }
  { apply Forall_forall. intros p Hp. apply In_nthN in Hp. destruct Hp as (j & Hj). apply nthN_child_ptrs_inv in Hj. destruct Hj as [_ ->].
    pose proof (children_le_all (G (k - 1)) (G k) j). lia. }
  { lia. }
  unfold pa_build_pointers. rewrite EP. cbn [bind]. rewrite wr_setN by lia. cbn [bind]. eexists _, _. split; [reflexivity|].
  set (ap := mkparr (p_size a') _ _ (Some pe)).
  assert (NK : nthN (setN arr1 (k - 1) ap) k = Some ak). { rewrite setN_other by lia. unfold arr1. apply setN_same. lia. }
  assert (NP : nthN (setN arr1 (k - 1) ap) (k - 1) = Some ap) by (apply setN_same; lia).
  assert (NO : forall j, j <> k -> j <> k - 1 -> nthN (setN arr1 (k - 1) ap) j = nthN arrays j).
  { intros j J1 J2. rewrite setN_other by lia. unfold arr1. apply setN_other; lia. }
  split.
  - split; [rewrite lenN_setN; lia|]. split.
    + intros j Hj. destruct (N.eq_dec j k) as [->|J1].
      * exists ak, g. split; [exact NK|]. split; [reflexivity|exact GG].
      * destruct (AP j ltac:(lia)) as (x & g0 & X1 & X2 & X3). destruct (N.eq_dec j (k - 1)) as [->|J2].
        -- rewrite Ha' in X1. injection X1 as <-. exists ap, g0. split; [exact NP|]. split; [exact X2|exact X3].
        -- exists x, g0. split; [rewrite NO by assumption; exact X1|]. split; assumption.
    + intros j Hj. destruct (N.eq_dec j (k - 1)) as [->|J2].
      * exists ap, pe. split; [exact NP|]. split; [reflexivity|]. replace (k - 1 + 1) with k by lia. exact RP.
      * destruct (APtr j ltac:(lia)) as (x & e0 & X1 & X2 & X3). exists x, e0. split; [rewrite NO by lia; exact X1|]. split; assumption.
  - split; [|intros Q0; specialize (QS Q0); clear Q0 PQ; destruct QS as (Q1 & Q2); split].
    2:{ intros j b Hb. destruct (N.eq_dec j (k - 1)) as [->|J2]; [rewrite NP in Hb; injection Hb as <-|].
        { destruct (Q1 (k - 1) a' Ha') as (A1 & A2 & A3 & A4). unfold ap, qpr_a. cbn [p_size p_grams p_ranks p_ptrs]. split; [exact A1|]. split; [exact A2|]. split; [exact A3|].
          intros e0 He0. injection He0 as <-. split; [rewrite lenN_revD; lia|]. replace (k - 1 + 1) with k by lia. exact EP. }
        destruct (N.eq_dec j k) as [->|J1]; [rewrite NK in Hb; injection Hb as <-|rewrite NO in Hb by assumption; exact (Q1 j b Hb)].
        destruct (Q1 k a Ha) as (A1 & A2 & A3 & A4). unfold ak, qpr_a. cbn [p_size p_grams p_ranks p_ptrs]. split; [exact A1|]. split; [exact A2|]. split; [|exact A4].
        intros g0 Hg0. injection Hg0 as <-. split; [rewrite lenN_revD; lia|]. exists g. split; [exact EG|apply same_gseq_refl]. }
    2:{ intros j o Ho. destruct (N.eq_dec j k) as [->|J1]; [|rewrite setN_other in Ho by lia; exact (Q2 j o Ho)].
        rewrite setN_same in Ho by lia. injection Ho as <-. destruct (N.eqb_spec k 0); [lia|]. split; [exact (cv_holds_typed _ _ HC)|]. rewrite (cv_holds_size _ _ HC).
        intros Z. destruct l; [congruence|]. rewrite lenN_cons in LV. lia. }
    split; [rewrite lenN_setN; exact RL|]. intros j lj Hj Hlj. destruct (N.eq_dec j k) as [->|J1].
    + rewrite Hl in Hlj. injection Hlj as <-. exists c, vs. split; [apply setN_same; lia|]. split; [exact HC|]. split; [lia|exact FV].
    + destruct (RV2 j lj ltac:(lia) Hlj) as (c0 & vs0 & Y1 & Y2). exists c0, vs0. split; [rewrite setN_other by lia; exact Y1|exact Y2].
Qed.
Lemma qp_build_orders_ok v pb bb : pvoc_rep D tv v -> m_n (dv_h v) = lenN voc -> vinv D pq bq (lenN D) (pb, bb) ->
  forall m k arrays ranks, 0 < k -> k + N.of_nat m <= lenN D -> gups arrays k -> rup pb bb ranks k ->
  exists arrays' ranks', foldM (qp_build_order env v pb bb remap secs (lenN D) pq bq) (seqN (k + 1) m) (arrays, ranks) = Ok (arrays', ranks') /\
    gups arrays' (k + N.of_nat m) /\ rup pb bb ranks' (k + N.of_nat m) /\ (qprov arrays ranks -> qprov arrays' ranks').
Proof.
  intros RV MN VV. induction m as [|m IH]; intros k arrays ranks Hk Hm AU RU; [exists arrays, ranks; rewrite N.add_0_r; auto|].
  cbn [seqN foldM]. destruct (qp_build_order_ok v pb bb arrays ranks k RV MN VV ltac:(lia) AU RU) as (a1 & r1 & E1 & AU1 & RU1 & Q1). rewrite E1. cbn [bind].
  replace (N.succ (k + 1)) with (k + 1 + 1) by lia. destruct (IH (k + 1) a1 r1 ltac:(lia) ltac:(lia) AU1 RU1) as (a2 & r2 & E2 & AU2 & RU2 & Q2). exists a2, r2. split; [exact E2|].
  replace (k + N.of_nat (S m)) with (k + 1 + N.of_nat m) by lia. split; [exact AU2|]. split; [exact RU2|]. intros Q0. apply Q2, Q1, Q0.
Qed.

Record qp_rep (unk : spec_float) (m : qpl) : Prop := mkqprep {
  qr_order : qp_order m = lenN D;
  qr_remap : qp_remap m = remap;
  qr_unk : qp_unk m = unk_prob D unk;
  qr_vinv : vinv D pq bq (lenN D) (qp_probs m, qp_backoffs m);
  qr_voc : pvoc_rep D tv (qp_vocab m);
  qr_arrays : gups (qp_arrays m) (lenN D);
  qr_ranks : rup (qp_probs m) (qp_backoffs m) (qp_ranks m) (lenN D) }.
Theorem qp_build_ok data unk : arpa_text data secs -> exists m, qp_build_file env data (lenN D) remap unk pq bq = Ok m /\ qp_rep unk m.
Proof.
  intro AT. pose proof (af_order _ AF) as HO. pose proof (col_remap _ _ CRR) as HR. unfold qp_build_file.
  assert (U : forall x, x <= 8 -> u8 x = x). { intros x Hx. unfold u8. change 255 with (N.ones 8). rewrite N.land_ones. apply N.mod_small. lia. }
  unfold check_order, check_remapping_order. rewrite !U by lia.
  destruct (N.ltb_spec (lenN D) 2); [lia|]. destruct (N.ltb_spec 8 (lenN D)); [lia|]. destruct (N.ltb_spec 2 remap); [lia|]. cbn [bind].
  rewrite (load_ok (tp_penv tv) data secs (lenN D) pq bq AT ltac:(lia)).
  rewrite (lenN_secs D secs (tp_penv tv) pq bq VI). rewrite N.ltb_irrefl.
  destruct (values_ok D secs (tp_penv tv) pq bq AF VI) as ([pb bb] & EV & VV). rewrite EV. cbn [bind]. cbv beta iota.
  destruct (nthN_Some D 0 ltac:(lia)) as (l & Hl). destruct (lines_of D secs tv remap pq bq TI 0 l Hl) as (ls & Hs & F2 & FL).
  rewrite (proj2 (rd_nthN _ _ _) Hs). cbn [bind].
  rewrite (set_unk_ok D (tp_penv tv) AF l ls unk Hl F2). cbn [bind].
  destruct (vocabulary_ok D secs tv remap pq bq AF TI l ls Hl F2) as (v & EVO & RV & MN & _). rewrite EVO. cbn [bind].
  set (arr := map (fun l0 : list (list N) => parr_new (lenN l0)) secs). set (rk := map (fun _ : list (list N) => @None cv) secs).
  assert (AU : gups arr 1).
  { split; [unfold arr; rewrite lenN_map; apply (lenN_secs D secs (tp_penv tv) pq bq VI)|]. split; intros; lia. }
  assert (RU : rup pb bb rk 1).
  { split; [unfold rk; rewrite lenN_map; apply (lenN_secs D secs (tp_penv tv) pq bq VI)|]. intros; lia. }
  destruct (qp_build_orders_ok v pb bb RV MN VV (N.to_nat (lenN D - 1)) 1 arr rk ltac:(lia) ltac:(lia) AU RU) as (arr' & rk' & E' & AU' & RU' & QP).
  change (1 + 1) with 2 in E'. rewrite E'. cbn [bind]. cbv beta iota. eexists. split; [reflexivity|].
  replace (1 + N.of_nat (N.to_nat (lenN D - 1))) with (lenN D) in AU', RU' by lia. constructor; cbn [qp_order qp_remap qp_unk qp_probs qp_backoffs qp_vocab qp_arrays qp_ranks]; auto.
Qed.
End Build.
