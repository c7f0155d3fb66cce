(** * Building a probability trie: assembly *)
From Coq Require Import Floats.SpecFloat.
From Verif Require Import Prelude BitFacts M_Word P_Word M_Bits Spec P_Bits P_Builder M_CompactVector P_CompactVector M_DArray M_EF P_EF P_EF2
  M_HashVec M_Mph P_Mph P_MphTables M_FastEF P_FastEF3 M_Text P_Text P_Text2 M_SeqColl P_SeqColl M_Pool P_Pool M_Trie Spec_Trie P_Trie1 P_Trie2 P_Trie3 P_Trie4 P_Trie5 P_Trie6 P_Trie7
  Props_MphCount M_Score Spec_Katz P_Score1 P_Score2 P_Score3 M_Quant P_Quant M_MphProb Spec_Arpa P_Sentence P_Values P_MphProb M_TrieProb P_TrieProb1 P_TrieProb2.
From Coq Require Import Permutation Sorting.Sorted.

Lemma cv_build_width vs c w : cv_build vs = Ok c -> 1 <= w <= 63 -> Forall (fun v => v < 2 ^ w) vs -> c_width c <= w.
Proof.
  intros H Hw HF. unfold cv_build in H. apply bind_ok in H. destruct H as (b & E1 & H). apply bind_ok in H. destruct H as (b' & E2 & H). injection H as <-.
  unfold cv_of_builder. cbn [c_width]. unfold cvb_fill in E2. destruct (cb_width b =? 0); [discriminate|]. rewrite (foldM_push_width _ _ _ E2).
  unfold cvb_new in E1. destruct (64 <? _); [discriminate|]. injection E1 as <-. cbn [cb_width].
  assert (ML : fold_left (fun m v => if m <? v then v else m) vs 0 < 2 ^ w) by (apply maxN_lt; [apply pow2_pos|exact HF]).
  assert (2 ^ w <= 2 ^ 63) by (apply N.pow_le_mono_r; lia). change (2 ^ 63) with 9223372036854775808 in *.
  rewrite add64_small by lia. unfold cv_width. destruct (N.eqb_spec (ceil_log2 (fold_left (fun m v => if m <? v then v else m) vs 0 + 1)) 0); [lia|]. apply ceil_log2_spec. lia.
Qed.

Section Build.
Variable D : entries.
Variable secs : list (list (list N)).
Variable env : tpenv.
Variables remap pq bq : N.
Hypothesis AF : arpa_file D.
Hypothesis CO : collection (reversed D) remap.
Hypothesis TI : trie_inputs_ok D secs env remap pq bq.
Notation R := (revD D).
Notation G := (grams (revD D)).
Notation voc := (grams (revD D) 0).
Notation E0 := (tenv0 env).
Notation CRR := (CR D remap CO).
Notation VI := (VIN D secs env remap pq bq (base_of _ _ _ _ _ _ TI)).
Notation ENT := (gram * (spec_float * spec_float))%type.
Notation upto := (parrays_upto D env remap pq bq).

Lemma tp_build_order_ok v pb bb arrays k : pvoc_rep D env v -> m_n (dv_h v) = lenN voc -> vinv D pq bq (lenN D) (pb, bb) -> 0 < k < lenN D -> upto pb bb arrays k ->
  exists arrays', tp_build_order env v pb bb remap secs (lenN D) pq bq arrays (k + 1) = Ok arrays' /\ upto pb bb arrays' (k + 1).
Proof.
  intros RV MN VV [Hk HkD] AU. destruct (nthN_Some D k HkD) as (l & Hl). destruct (nthN_Some D (k - 1) ltac:(lia)) as (l' & Hl').
  destruct (lines_of D secs env remap pq bq (base_of _ _ _ _ _ _ TI) k l Hl) as (ls & Hs & F2 & FL).
  destruct (lines_of D secs env remap pq bq (base_of _ _ _ _ _ _ TI) (k - 1) l' Hl') as (ls' & Hs' & F2' & FL').
  destruct (values_exist D secs (tp_penv env) pq bq VI pb bb k l VV ltac:(lia) Hl) as (vs & FV & FB).
  pose proof (tab_width D secs (tp_penv env) pq bq VI) as [TP TB]. pose proof (ti_bits _ _ _ _ _ _ TI) as TW.
  set (W := pq + (if k + 1 =? lenN D then 0 else bq)) in *. assert (HW : 1 <= W <= 57) by (unfold W; destruct (k + 1 =? lenN D); lia).
  destruct (af_size _ AF _ _ Hl) as [S1 S2]. destruct (af_size _ AF _ _ Hl') as [S1' S2'].
  assert (LV : lenN vs = lenN l) by (apply Forall2_len in FV; unfold lenN; lia).
  assert (LLS : lenN ls = lenN l) by (apply Forall2_len in F2; unfold lenN; lia).
  assert (LG : lenN (G k) = lenN l) by (apply G_len; exact Hl). assert (LG' : lenN (G (k - 1)) = lenN l') by (apply G_len; exact Hl').
  assert (LI : lenN (lids R remap k) = lenN l) by (rewrite lids_len; exact LG).
  pose proof (lev_size R remap CRR 0) as LVOC.
  destruct (cv_push_holds (lids R remap k) (lenN voc)) as (b1 & b1' & E1 & E2 & E3); [lia|lia|apply (lids_bound R remap CRR)|].
  destruct (push_w_holds vs W) as (b2 & b2' & E4 & E5 & E6 & _); [lia|nia|exact FB|].
  unfold tp_build_order. replace (k + 1 - 2) with (k - 1) by lia. replace (k + 1 - 1) with k by lia.
  rewrite (proj2 (rd_nthN _ _ _) Hs'). cbn [bind]. rewrite (proj2 (rd_nthN _ _ _) Hs). cbn [bind]. fold W.
  unfold pab_new. rewrite MN. replace (lenN ls) with (lenN (lids R remap k)) by lia. rewrite E1. cbn [bind].
  change (ceil_log2 (add64 0 1)) with 0. unfold cvb_new at 1. change (64 <? cv_width 0) with false. cbv iota. cbn [bind].
  assert (U8 : u8 W = W). { unfold u8. change 255 with (N.ones 8). rewrite N.land_ones. apply N.mod_small. lia. }
  rewrite U8. replace (lenN (lids R remap k)) with (lenN vs) by lia. rewrite E4. cbn [bind].
  rewrite (tp_ngrams_ok D secs env remap pq bq AF CO (base_of _ _ _ _ _ _ TI) v pb bb arrays k l l' ls ls' vs (mkpab b1 b2) b1' b2' Hk RV VV AU Hl Hl' F2' FL' F2 FL FV E2 E5). cbn [bind].
  pose proof AU as (AL & AP & APtr & AV).
  destruct (nthN_Some arrays k ltac:(lia)) as (a & Ha). rewrite (proj2 (rd_nthN _ _ _) Ha). cbn [bind].
  set (ptrs := child_ptrs (G (k - 1)) (G k)) in *.
  assert (LP : lenN ptrs = lenN l' + 1) by (unfold ptrs; rewrite lenN_child_ptrs, LG'; reflexivity).
  assert (PF : pointers_for ptrs (lenN (lids R remap k))).
  { rewrite lids_len. apply child_pointers; [apply (lev_NoDup R remap CRR)|apply (lev_PRE R remap CRR); exact Hk|apply (lev_MON R remap CRR); exact Hk|].
    apply (lev_nonempty R remap CRR). rewrite lenN_revD. lia. }
  destruct (fef_build_ok (tp_hu env k) (tp_orders env k) (lids R remap k) ptrs (lenN voc)) as (f & fvs & EF & RF); auto.
  { apply (lids_sorted R remap CRR). exact Hk. }
  { intros Z. rewrite Z in LI. change (lenN (@nil N)) with 0 in LI. destruct l; [congruence|]. rewrite lenN_cons in LI. lia. }
  { lia. }
  { apply (lids_bound R remap CRR). }
  { nia. }
  { pose proof (ti_levels _ _ _ _ _ _ TI k ltac:(lia)) as TL. cbv zeta in TL. rewrite <- !grams_reversed in TL. exact TL. }
  destruct (cv_build_holds vs) as (c & EC & HC). { lia. } { eapply Forall_impl; [|exact FB]. intros x Hx. cbv beta in Hx |- *. assert (2 ^ W <= 2 ^ 57) by (apply N.pow_le_mono_r; lia). lia. }
  pose proof (cv_build_width vs c W EC ltac:(lia) FB) as CW.
  unfold pab_build. cbn [pb_grams pb_ranks]. rewrite (cv_all_ok _ _ E3). cbn [bind]. rewrite EF. cbn [bind]. rewrite (cv_all_ok _ _ E6). cbn [bind]. rewrite EC. cbn [bind].
  rewrite wr_setN by lia. cbn [bind]. set (ak := mkparr _ (Some c)). set (arr1 := setN arrays k ak).
  assert (L1 : lenN arr1 = lenN arrays) by apply lenN_setN.
  destruct (nthN_Some arrays (k - 1) ltac:(lia)) as (a' & Ha').
  assert (Ha1 : nthN arr1 (k - 1) = Some a') by (unfold arr1; rewrite setN_other by lia; exact Ha').
  rewrite (proj2 (rd_nthN _ _ _) Ha1). cbn [bind].
  destruct (ptr_build_ok ptrs) as (pe & EP & RP).
  { apply child_sortedN; [apply (lev_NoDup R remap CRR)|apply (lev_PRE R remap CRR); exact Hk|apply (lev_MON R remap CRR); exact Hk]. }
  { intros Z. rewrite Z in LP. change (lenN (@nil N)) with 0 in LP. lia. }
  { apply Forall_forall. intros p Hp. apply In_nthN in Hp. destruct Hp as (j & Hj). apply nthN_child_ptrs_inv in Hj. destruct Hj as [_ ->].
    pose proof (children_le_all (G (k - 1)) (G k) j). lia. }
  { lia. }
  unfold sa_build_pointers. rewrite EP. cbn [bind]. rewrite wr_setN by lia. eexists. split; [reflexivity|].
  set (ap := mkparr _ (a_pb a')).
  assert (NK : nthN (setN arr1 (k - 1) ap) k = Some ak). { rewrite setN_other by lia. unfold arr1. apply setN_same. lia. }
  assert (NP : nthN (setN arr1 (k - 1) ap) (k - 1) = Some ap) by (apply setN_same; lia).
  assert (NO : forall j, j <> k -> j <> k - 1 -> nthN (setN arr1 (k - 1) ap) j = nthN arrays j).
  { intros j J1 J2. rewrite setN_other by lia. unfold arr1. apply setN_other; lia. }
  assert (SA : forall j x, nthN (setN arr1 (k - 1) ap) j = Some x -> nthN (map a_sa (setN arr1 (k - 1) ap)) j = Some (a_sa x)) by (intros j x Hx; rewrite nthN_map, Hx; reflexivity).
  assert (SB : forall j x, nthN (map a_sa arrays) j = Some x -> exists y, nthN arrays j = Some y /\ x = a_sa y).
  { intros j x Hx. rewrite nthN_map in Hx. destruct (nthN arrays j) as [y|]; [|discriminate]. cbn in Hx. injection Hx as <-. eauto. }
  split; [rewrite lenN_setN; lia|]. split; [|split].
  - intros j Hj. destruct (N.eq_dec j k) as [->|J1].
    + exists (a_sa ak), f, fvs. split; [apply SA; exact NK|]. split; [reflexivity|exact RF].
    + destruct (AP j ltac:(lia)) as (x & f0 & vs0 & X1 & X2 & X3). destruct (SB _ _ X1) as (y & Y1 & ->). destruct (N.eq_dec j (k - 1)) as [->|J2].
      * rewrite Ha' in Y1. injection Y1 as <-. exists (a_sa ap), f0, vs0. split; [apply SA; exact NP|]. split; [exact X2|exact X3].
      * exists (a_sa y), f0, vs0. split; [apply SA; rewrite NO by assumption; exact Y1|]. split; assumption.
  - intros j Hj. destruct (N.eq_dec j (k - 1)) as [->|J2].
    + exists (a_sa ap), pe. split; [apply SA; exact NP|]. split; [reflexivity|]. replace (k - 1 + 1) with k by lia. exact RP.
    + destruct (APtr j ltac:(lia)) as (x & e0 & X1 & X2 & X3). destruct (SB _ _ X1) as (y & Y1 & ->). exists (a_sa y), e0. split; [apply SA; rewrite NO by lia; exact Y1|]. split; assumption.
  - intros j lj Hj Hlj. destruct (N.eq_dec j k) as [->|J1].
    + rewrite Hl in Hlj. injection Hlj as <-. exists ak, c, vs. split; [exact NK|]. split; [reflexivity|]. split; [exact HC|]. split; [lia|exact FV].
    + destruct (AV j lj ltac:(lia) Hlj) as (y & c0 & vs0 & Y1 & Y2 & Y3 & Y4 & Y5). destruct (N.eq_dec j (k - 1)) as [->|J2].
      * rewrite Ha' in Y1. injection Y1 as <-. exists ap, c0, vs0. split; [exact NP|]. auto.
      * exists y, c0, vs0. split; [rewrite NO by assumption; exact Y1|]. auto.
Qed.
Lemma tp_build_orders_ok v pb bb : pvoc_rep D env v -> m_n (dv_h v) = lenN voc -> vinv D pq bq (lenN D) (pb, bb) ->
  forall m k arrays, 0 < k -> k + N.of_nat m <= lenN D -> upto pb bb arrays k ->
  exists arrays', foldM (tp_build_order env v pb bb remap secs (lenN D) pq bq) (seqN (k + 1) m) arrays = Ok arrays' /\ upto pb bb arrays' (k + N.of_nat m).
Proof.
  intros RV MN VV. induction m as [|m IH]; intros k arrays Hk Hm AU; [exists arrays; rewrite N.add_0_r; auto|].
  cbn [seqN foldM]. destruct (tp_build_order_ok v pb bb arrays k RV MN VV ltac:(lia) AU) as (a1 & E1 & AU1). rewrite E1. cbn [bind].
  replace (N.succ (k + 1)) with (k + 1 + 1) by lia. destruct (IH (k + 1) a1 ltac:(lia) ltac:(lia) AU1) as (a2 & E2 & AU2). exists a2. split; [exact E2|].
  replace (k + N.of_nat (S m)) with (k + 1 + N.of_nat m) by lia. exact AU2.
Qed.

Record tp_rep (unk : spec_float) (m : tpl) : Prop := mktprep {
  tr_order : tp_order m = lenN D;
  tr_remap : tp_remap m = remap;
  tr_unk : tp_unk m = unk_prob D unk;
  tr_vinv : vinv D pq bq (lenN D) (tp_probs m, tp_backoffs m);
  tr_voc : pvoc_rep D env (tp_vocab m);
  tr_arrays : upto (tp_probs m) (tp_backoffs m) (tp_arrays m) (lenN D) }.
Theorem tp_build_ok unk : exists m, tp_build env secs (lenN D) remap unk pq bq = Ok m /\ tp_rep unk m.
Proof.
  pose proof (af_order _ AF) as HO. pose proof (col_remap _ _ CRR) as HR. unfold tp_build.
  assert (U : forall x, x <= 8 -> u8 x = x). { intros x Hx. unfold u8. change 255 with (N.ones 8). rewrite N.land_ones. apply N.mod_small. lia. }
  unfold check_order, check_remapping_order. rewrite !U by lia.
  destruct (N.ltb_spec (lenN D) 2); [lia|]. destruct (N.ltb_spec 8 (lenN D)); [lia|]. destruct (N.ltb_spec 2 remap); [lia|]. cbn [bind].
  rewrite (lenN_secs D secs (tp_penv env) pq bq VI). rewrite N.ltb_irrefl.
  destruct (values_ok D secs (tp_penv env) pq bq AF VI) as ([pb bb] & EV & VV). rewrite EV. cbn [bind].
  destruct (nthN_Some D 0 ltac:(lia)) as (l & Hl). destruct (lines_of D secs env remap pq bq (base_of _ _ _ _ _ _ TI) 0 l Hl) as (ls & Hs & F2 & FL).
  rewrite (proj2 (rd_nthN _ _ _) Hs). cbn [bind].
  rewrite (set_unk_ok D (tp_penv env) AF l ls unk Hl F2). cbn [bind].
  destruct (vocabulary_ok D secs env remap pq bq AF (base_of _ _ _ _ _ _ TI) l ls Hl F2) as (v & EVO & RV & MN & _). rewrite EVO. cbn [bind].
  set (arr := map (fun l0 : list (list N) => mkparr (sarr_new (lenN l0)) None) secs).
  assert (AU : upto pb bb arr 1).
  { split; [unfold arr; rewrite lenN_map; apply (lenN_secs D secs (tp_penv env) pq bq VI)|]. split; [|split]; intros; lia. }
  destruct (tp_build_orders_ok v pb bb RV MN VV (N.to_nat (lenN D - 1)) 1 arr ltac:(lia) ltac:(lia) AU) as (arr' & E' & AU').
  change (1 + 1) with 2 in E'. rewrite E'. cbn [bind]. eexists. split; [reflexivity|].
  replace (1 + N.of_nat (N.to_nat (lenN D - 1))) with (lenN D) in AU' by lia. constructor; cbn [tp_order tp_remap tp_unk tp_probs tp_backoffs tp_vocab tp_arrays]; auto.
Qed.
End Build.
