(** * Proofs for C58, part 3: an input that was accepted is sorted *)
From Verif Require Import Prelude BitFacts M_Word M_Bits Spec M_DArray M_EF P_EF M_CompactVector P_CompactVector M_HashVec M_Mph P_Mph P_MphTables M_FastEF M_Text P_Text P_Text2 M_SeqColl P_SeqColl M_Pool P_Pool M_Trie P_FastEF3 P_Typed
  Spec_Trie P_Trie1 P_Trie2 P_Trie3 P_Trie4 P_Trie5 Spec_Complete P_Complete Props_Complete P_Accept P_Accept2.
From Coq Require Import Sorting.Sorted.

Lemma trie_build_levels env files order remap t : te_map env = false -> Forall (Forall short) files -> trie_build env files order remap = Ok t ->
  exists arr arr' cb lines0, nthN files 0 = Some lines0 /\ build_vocabulary env cb lines0 arr = Ok (t_vocab t, arr') /\
  forall k prv cur, k + 1 < order -> nthN files k = Some prv -> nthN files (k + 1) = Some cur ->
    exists at_ ids ids' b b' f maxr, StronglySorted N.le at_ /\ Forall2 (continues_at prv) cur at_ /\ Forall2 (token_is env (t_vocab t)) cur ids /\
      sab_new (lenN cur) (m_n (sv_h (t_vocab t))) maxr = Ok b /\ foldM cvb_push_back ids (ab_grams b) = Ok (ab_grams b') /\
      cv_all (cv_of_builder (ab_grams b')) = Ok ids' /\ fef_build (te_hu env (k + 1)) (te_orders env (k + 1)) ids' (map (below at_) (range (lenN prv + 1))) = Ok f.
Proof.
  intros TM HF E. unfold trie_build in E. do 2 (apply bind_inv in E; destruct E as (? & _ & E)). apply bind_inv in E. destruct E as (fs & _ & E). apply bind_inv in E. destruct E as (vals & _ & E).
  apply bind_inv in E. destruct E as (cb & _ & E). apply bind_inv in E. destruct E as (l1 & EL & E). apply bind_inv in E. destruct E as ((v & arrays) & EV & E). cbv iota beta in E. apply bind_inv in E. destruct E as (arrays' & E & ET). injection ET as <-. cbn [t_vocab].
  apply rd_inv in EL. eexists _, arrays, cb, l1. split; [exact EL|]. split; [exact EV|]. intros k prv cur Hk Hp Hc.
  destruct (foldM_each _ _ _ _ E (k + 2)) as (a & b & EB). { apply in_seqN. lia. }
  unfold build_order in EB. replace (k + 2 - 2) with k in EB by lia. replace (k + 2 - 1) with (k + 1) in EB by lia.
  apply bind_inv in EB. destruct EB as (p & E1 & EB). apply rd_inv in E1. rewrite Hp in E1. injection E1 as <-. apply bind_inv in EB. destruct EB as (c & E1 & EB). apply rd_inv in E1. rewrite Hc in E1. injection E1 as <-.
  apply bind_inv in EB. destruct EB as (mr & _ & EB). apply bind_inv in EB. destruct EB as (sb & ES & EB). apply bind_inv in EB. destruct EB as ((ptrs & sb') & EN & EB). cbv iota beta in EB.
  rewrite Forall_forall in HF. apply (build_ngrams_full env v a cb (k + 2) remap prv (ab_grams sb) TM) in EN; [|apply HF; eapply nthN_In; exact Hp|reflexivity|apply HF; eapply nthN_In; exact Hc].
  destruct EN as (at_ & ids & H1 & H2 & H3 & -> & H4). apply bind_inv in EB. destruct EB as (z1 & _ & EB). apply bind_inv in EB. destruct EB as (z2 & EB & _).
  unfold sab_build in EB. apply bind_inv in EB. destruct EB as (ids' & E5 & EB). apply bind_inv in EB. destruct EB as (f & E6 & _).
  exists at_, ids, ids', sb, sb', f, mr. auto 10.
Qed.

(** ** the vocabulary *)
Lemma vocabulary_rep D env cb arr v arr' l : gram_files D -> nthN D 0 = Some l ->
  valid_order (hash_domain (lenN (uwords D))) (te_h env) (uwords D) (te_vorder env) -> lenN (concat (uwords D)) <= te_ram env -> Forall (fun e => snd e < 2 ^ 64 - 1) l ->
  build_vocabulary env cb (map line l) arr = Ok (v, arr') -> voc_rep D env v.
Proof.
  intros GF Hl VO RAM CT E. destruct (gf_size _ GF _ _ Hl) as [S1 S2]. pose proof (grams_some D 0 l Hl) as GL.
  set (gs := map (fun e : gram * N => (join (fst e), snd e)) l).
  assert (UW : map fst gs = uwords D). { unfold gs, uwords. rewrite GL, !map_map. reflexivity. }
  assert (LGS : lenN gs = lenN l) by apply lenN_map.
  destruct (pool_load_lines_ok gs (pool_clear (pool_new (te_ram env))) (te_ram env) []) as (p & EP & RP).
  { eapply pool_clear_rep. apply pool_new_rep. }
  { apply Forall_forall. intros x Hx. apply in_map_iff in Hx. destruct Hx as (e & <- & He). cbn [fst snd].
    assert (Hg : In (fst e) (grams D 0)) by (rewrite GL; apply in_map; exact He). destruct (gf_words _ GF _ _ Hg) as (LG & WG). split; [|split].
    - intros Z. assert (J : 0 < lenN (join (fst e))). { apply join_nonempty; [intros Z'; rewrite Z' in LG; discriminate LG|]. eapply Forall_impl; [|exact WG]. cbn. tauto. } rewrite Z in J. revert J. apply N.nlt_0_r.
    - apply join_no_tab. eapply Forall_impl; [|exact WG]. cbn. tauto.
    - rewrite Forall_forall in CT. pose proof (CT _ He). lia. }
  { cbn [app]. rewrite UW. assumption. }
  assert (ML : map (fun r => format_count_line (fst r) (snd r)) gs = map line l). { unfold gs. rewrite map_map. reflexivity. }
  rewrite ML in EP. cbn [app] in RP. unfold build_vocabulary, pool_load in E. rewrite EP in E. cbn [bind] in E.
  pose proof RP as (_ & _ & _ & _ & _ & LX & _). rewrite LX in E.
  assert (RECS : mapM (pool_record p) (range (lenN gs)) = Ok gs).
  { rewrite (mapM_range (pool_record p) (fun x => x) gs); [rewrite map_id; reflexivity|]. intros i [g a] H. eapply pool_record_ok; eauto. }
  rewrite RECS in E. cbn [bind] in E. cbv zeta in E. do 6 (apply bind_inv in E; destruct E as (? & _ & E)). rewrite LGS in E.
  destruct (cv_push_holds (range (lenN l)) (lenN l)) as (b3 & b3' & E7 & E8 & E9); [rewrite lenN_range; lia|lia| |].
  { apply Forall_forall. intros x' Hx. unfold range in Hx. apply In_seqN in Hx. lia. }
  rewrite lenN_range in E7. rewrite E7 in E. cbn [bind] in E. rewrite E8 in E. cbn [bind] in E. rewrite UW in E.
  assert (LU : lenN (uwords D) = lenN l). { rewrite <- UW, lenN_map. exact LGS. }
  assert (PL : 0 < lenN l) by (destruct l; [congruence|rewrite lenN_cons; lia]).
  destruct (svt_build_ok 64 (te_h env) (hash_domain (lenN (uwords D))) (te_vorder env) (uwords D) (cv_of_builder b3') (range (lenN l))) as (v' & EV & RV).
  { rewrite LU. unfold hash_domain. assert (2 <= (lenN l * 123 + 99) / 100); [apply N.div_le_lower_bound; lia|]. apply N.div_str_pos. lia. }
  { assumption. }
  { assumption. }
  { unfold lenN in LU. rewrite <- Nnat.Nat2N.id at 1. rewrite <- Nnat.Nat2N.id. f_equal. change (lenN (uwords D) = lenN (range (lenN l))). rewrite lenN_range. assumption. }
  { left. reflexivity. }
  { destruct (cv_holds_width _ _ E9) as (W & _). rewrite LU. nia. }
  { destruct (cv_holds_width _ _ E9) as (W & _). rewrite LU. nia. }
  rewrite LU in EV. rewrite EV in E. cbn [bind] in E. injection E as <- _. unfold voc_rep. rewrite LU. exact RV.
Qed.

(** ** order of n-grams *)
Lemma gl_snoc voc p q a b : gram_lt voc p q -> gram_lt voc (p ++ [a]) (q ++ [b]).
Proof.
  intros H. induction H as [x y r s L W|x r s H IH]; cbn [app]; [apply gram_lt_here; [rewrite !app_length, L; reflexivity|exact W]|apply gram_lt_next; exact IH].
Qed.
Lemma gl_last voc p a b : word_lt voc a b -> gram_lt voc (p ++ [a]) (p ++ [b]).
Proof. intros H. induction p as [|x p IH]; cbn [app]; [apply gram_lt_here; [reflexivity|exact H]|apply gram_lt_next; exact IH]. Qed.
Lemma ss_of_pos {A} (R : A -> A -> Prop) l : (forall i j x y, i < j -> nthN l i = Some x -> nthN l j = Some y -> R x y) -> StronglySorted R l.
Proof.
  induction l as [|h l IH]; intros H; [constructor|]. constructor.
  - apply IH. intros i j x y L X Y. apply (H (N.succ i) (N.succ j)); [lia|rewrite nth_succ; exact X|rewrite nth_succ; exact Y].
  - apply Forall_forall. intros y Hy. apply In_nthN in Hy. destruct Hy as (j & Hj). apply (H 0 (N.succ j)); [lia|reflexivity|rewrite nth_succ; exact Hj].
Qed.
Lemma chain at_ ids : StronglySorted N.le at_ -> (forall t a x y, nthN at_ t = Some a -> nthN at_ (t + 1) = Some a -> nthN ids t = Some x -> nthN ids (t + 1) = Some y -> x <= y) -> lenN at_ = lenN ids ->
  forall d i a x y, nthN at_ i = Some a -> nthN at_ (i + N.of_nat d) = Some a -> nthN ids i = Some x -> nthN ids (i + N.of_nat d) = Some y -> x <= y.
Proof.
  intros S H L. induction d as [|d IH]; intros i a x y A1 A2 X Y.
  - replace (i + N.of_nat 0) with i in Y by lia. assert (x = y) by congruence. lia.
  - pose proof (nthN_lt _ _ _ A2) as LT. destruct (nthN_Some at_ (i + 1)) as (m & M); [lia|]. destruct (nthN_Some ids (i + 1)) as (z & Z); [lia|].
    assert (m = a).
    { pose proof (ss_nthN _ _ S i (i + 1) _ _ ltac:(lia) A1 M) as L1. destruct d as [|d']; [replace (i + N.of_nat 1) with (i + 1) in A2 by lia; congruence|].
      pose proof (ss_nthN _ _ S (i + 1) (i + N.of_nat (Datatypes.S (Datatypes.S d'))) _ _ ltac:(lia) M A2) as L2. lia. }
    subst m. pose proof (H _ _ _ _ A1 M X Z). replace (i + N.of_nat (Datatypes.S d)) with (i + 1 + N.of_nat d) in A2, Y by lia. pose proof (IH (i + 1) a z y M A2 Z Y). lia.
Qed.

Section Accepted.
Variable D : list (list (gram * N)).
Variable env : tenv.
Hypothesis GF : gram_files D.
Hypothesis CT : Forall (Forall (fun e => snd e < 2 ^ 64 - 1)) D.
Notation G := (grams D).
Lemma gf_lt k g : In g (G k) -> k < lenN D.
Proof. unfold grams. destruct (nthN D k) as [l|] eqn:E; [intros _; eapply nthN_lt; exact E|intros []]. Qed.
Lemma gf_short : Forall (Forall short) (map (map line) D).
Proof.
  apply Forall_forall. intros f Hf. apply in_map_iff in Hf. destruct Hf as (l & <- & Hl). apply Forall_forall. intros x Hx. apply in_map_iff in Hx. destruct Hx as (e & <- & He).
  apply In_nthN in Hl. destruct Hl as (k & Hk). assert (Hg : In (fst e) (G k)) by (rewrite (grams_some D k l Hk); apply in_map; exact He).
  pose proof (gf_bytes _ GF _ _ Hg) as B. unfold short, line, format_count_line. unfold c_tab. rewrite !lenN_app. change (lenN [9]) with 1. pose proof (dec_digits_len 20 (snd e) []) as T. change (lenN (@nil N)) with 0 in T. unfold to_string. lia.
Qed.
Lemma token_id v k l e id : voc_rep D env v -> nthN D k = Some l -> 0 < k -> In e l -> token_is env v (line e) id -> id = vid D (last (fst e) []).
Proof.
  intros RV Hk K He (r & c & pt & E1 & E2 & E3). assert (Hg : In (fst e) (G k)) by (rewrite (grams_some D k l Hk); apply in_map; exact He).
  destruct (gf_words _ GF _ _ Hg) as (LG & WG). destruct (plain_cut (fst e)) as (xs & w & EG & NX); [lia|]. rewrite EG in *. rewrite last_last.
  pose proof WG as WG'. apply Forall_app in WG'. destruct WG' as [_ WW]. apply Forall_inv in WW. destruct WW as ((NW1 & NW2) & _ & IW).
  assert (TAB : ~ In 9 (join (xs ++ [w]))). { apply join_no_tab. eapply Forall_impl; [|exact WG]. cbn. tauto. }
  assert (CE : snd e < 2 ^ 64). { pose proof (Forall_nthN _ _ _ _ CT Hk) as F. cbn in F. rewrite Forall_forall in F. pose proof (F _ He). lia. }
  assert (PE : parse_count_line (line e) = Ok ((0, lenN (join (xs ++ [w]))), snd e)). { unfold line. rewrite EG. apply parse_format; assumption. }
  rewrite PE in E1. injection E1 as <- <-.
  pose proof (line_holds e) as LH. rewrite EG in LH.
  assert (LL : lenN (c_str (line e)) < 2 ^ 64).
  { pose proof gf_short as SH. rewrite Forall_forall in SH. assert (I : In (map line l) (map (map line) D)) by (apply in_map; eapply nthN_In; exact Hk). apply SH in I. rewrite Forall_forall in I.
    assert (I2 : short (line e)) by (apply I; apply in_map; exact He). unfold short in I2. unfold c_str. rewrite lenN_app. change (lenN [0]) with 1. lia. }
  destruct (predecessor_ok _ _ _ _ LL LH NX NW2) as (q & P1 & P2 & P3). cbn [fst snd] in P1, P3. rewrite P1 in E2. injection E2 as <-. cbn [fst snd] in E3.
  rewrite (vlook_ok D env v _ _ w RV P3 IW) in E3. congruence.
Qed.
Lemma at_grams k prv cur at_ : nthN D k = Some prv -> nthN D (k + 1) = Some cur -> Forall2 (continues_at (map line prv)) (map line cur) at_ ->
  Forall2 (fun g i => nthN (G k) i = Some (removelast g)) (G (k + 1)) at_.
Proof.
  intros Hp Hc F. rewrite (grams_some D _ _ Hc), (grams_some D _ _ Hp).
  assert (W : forall e, In e cur -> In (fst e) (G (k + 1))) by (intros e He; rewrite (grams_some D _ _ Hc); apply in_map; exact He).
  assert (W' : forall e, In e prv -> In (fst e) (G k)) by (intros e He; rewrite (grams_some D _ _ Hp); apply in_map; exact He).
  assert (PW : forall j g, In g (G j) -> lenN g = j + 1 /\ Forall (fun w => word w /\ ~ In 9 w) g).
  { intros j g Hg. destruct (gf_words _ GF _ _ Hg) as (L & FW). split; [exact L|]. eapply Forall_impl; [|exact FW]. cbn. tauto. }
  clear Hp Hc. revert at_ F. induction cur as [|e cur IH]; intros at_ F; inversion F as [|x i y l' (z & Z & RZ) F' E1 E2]; subst; cbn [map]; constructor.
  - rewrite nthN_map in Z. destruct (nthN prv i) as [e'|] eqn:P; [|discriminate Z]. injection Z as <-. rewrite nthN_map, P. cbn [option_map]. f_equal.
    destruct (PW _ _ (W e (or_introl eq_refl))) as (L1 & F1). destruct (PW _ _ (W' e' (nthN_In _ _ _ P))) as (L2 & F2). apply prefix_gram; auto; [lia|]. intros Q. rewrite Q in L2. change (lenN (@nil (list N))) with 0 in L2. lia.
  - apply IH; [intros e0 He0; apply W; right; exact He0|exact F'].
Qed.
Lemma F2_nth {A B} (P : A -> B -> Prop) a b : Forall2 P a b -> forall i x, nthN a i = Some x -> exists y, nthN b i = Some y /\ P x y.
Proof. exact (Forall2_nthN' P a b). Qed.

Variables (remap : N) (t : trie).
Hypothesis TM : te_map env = false.
Hypothesis VO : valid_order (hash_domain (lenN (uwords D))) (te_h env) (uwords D) (te_vorder env).
Hypothesis RAM : lenN (concat (uwords D)) <= te_ram env.
Hypothesis ET : trie_build env (map (map line) D) (lenN D) remap = Ok t.

Theorem accepted_sorted k : k < lenN D -> (forall i j g g', i < j -> nthN (G k) i = Some g -> nthN (G k) j = Some g' -> gram_lt (G 0) g g') /\
  (0 < k -> forall g, In g (G k) -> In (removelast g) (G (k - 1))).
Proof.
  destruct (trie_build_levels env _ _ _ _ TM gf_short ET) as (arr & arr' & cb & l0 & HL & EV & LEV).
  rewrite nthN_map in HL. destruct (nthN D 0) as [u|] eqn:Hu; [|discriminate HL]. injection HL as <-.
  assert (RV : voc_rep D env (t_vocab t)). { eapply vocabulary_rep; eauto. exact (Forall_nthN _ _ _ _ CT Hu). }
  clear EV. pattern k. apply N.peano_ind; clear k.
  - intros K. split; [|intros Z; lia]. intros i j g g' L X Y.
    destruct (gf_words _ GF 0 g (nthN_In _ _ _ X)) as (L1 & _). destruct (gf_words _ GF 0 g' (nthN_In _ _ _ Y)) as (L2 & _).
    assert (S1 : forall q : gram, lenN q = 0 + 1 -> exists w, q = [w]). { clear. intros q H. destruct q as [|w [|z q]]; rewrite ?lenN_cons in H; change (lenN (@nil (list N))) with 0 in H; [lia|eauto|lia]. }
    destruct (S1 _ L1) as (a & ->). destruct (S1 _ L2) as (b & ->). apply gram_lt_here; [reflexivity|]. exists i, j. auto.
  - intros k IH K. destruct (IH ltac:(lia)) as (IH1 & _). clear IH. rewrite <- N.add_1_r in *. destruct (nthN_Some D k ltac:(lia)) as (prv & Hp). destruct (nthN_Some D (k + 1) ltac:(lia)) as (cur & Hc).
    destruct (LEV k (map line prv) (map line cur)) as (at_ & ids & ids' & b & b' & f & maxr & H1 & H2 & H3 & H4 & H5 & H6 & H7); [lia|rewrite nthN_map, Hp; reflexivity|rewrite nthN_map, Hc; reflexivity|].
    pose proof (at_grams k prv cur at_ Hp Hc H2) as AG. pose proof (grams_some D _ _ Hc) as GC.
    assert (IDS : ids = map (fun g => vid D (last g [])) (G (k + 1))).
    { rewrite GC. assert (TI : forall e id, In e cur -> token_is env (t_vocab t) (line e) id -> id = vid D (last (fst e) [])) by (intros e id He T; apply (token_id (t_vocab t) (k + 1) cur e id RV Hc); [clear; lia|exact He|exact T]).
      clear - H3 TI. revert ids H3. induction cur as [|e cur IH]; intros ids F; inversion F; subst; [reflexivity|]. cbn [map]. f_equal; [apply TI; [left; reflexivity|assumption]|apply IH; [intros e0 id0 I0; apply TI; right; exact I0|assumption]]. }
    assert (VB : Forall (fun x => x <= lenN (G 0)) ids).
    { rewrite IDS. apply Forall_forall. intros x Hx. apply in_map_iff in Hx. destruct Hx as (g & <- & Hg). destruct (gf_words _ GF _ _ Hg) as (LG & WG). destruct (plain_cut g) as (xs & w & -> & _); [lia|]. rewrite last_last.
      apply Forall_app in WG. destruct WG as [_ WW]. apply Forall_inv in WW. destruct WW as (_ & _ & IW). pose proof (nthN_lt _ _ _ (vid_In D w IW)). lia. }
    destruct (gf_size _ GF _ _ Hu) as [SU1 SU2]. destruct (gf_size _ GF _ _ Hc) as [SC1 SC2].
    assert (L0 : lenN (G 0) < 2 ^ 31) by (rewrite (grams_some D _ _ Hu), lenN_map; exact SU2).
    assert (LI : lenN ids = lenN cur) by (rewrite IDS, GC, !lenN_map; reflexivity).
    assert (LA : lenN at_ = lenN ids). { rewrite <- (F2_len _ _ _ H2), lenN_map. congruence. }
    assert (EQ : ids' = ids).
    { destruct (cv_push_holds ids (lenN (G 0))) as (c1 & c2 & E1 & E2 & E3); [lia|lia|exact VB|].
      unfold sab_new in H4. destruct RV as (_ & MN & _). rewrite MN, lenN_uwords, lenN_map, <- LI, E1 in H4. cbn [bind] in H4. apply bind_inv in H4. destruct H4 as (c3 & _ & H4). injection H4 as <-. cbn [ab_grams] in H5. rewrite E2 in H5. injection H5 as H5.
      rewrite <- H5, (cv_all_ok _ _ E3) in H6. congruence. }
    subst ids'. assert (B64 : Forall (fun x => x < 2 ^ 64) ids) by (eapply Forall_impl; [|exact VB]; cbn; intros; lia).
    pose proof (built_sorted at_ (lenN (map line prv)) H1 ltac:(lia) _ _ ids f B64 H7) as BS.
    split.
    + intros i j g g' L X Y. destruct (F2_nth _ _ _ AG _ _ X) as (a & A1 & A2). destruct (F2_nth _ _ _ AG _ _ Y) as (a' & A1' & A2').
      destruct (gf_words _ GF _ _ (nthN_In _ _ _ X)) as (LG & WG). destruct (gf_words _ GF _ _ (nthN_In _ _ _ Y)) as (LG' & WG').
      destruct (plain_cut g) as (xs & w & EG & _); [lia|]. destruct (plain_cut g') as (xs' & w' & EG' & _); [lia|]. subst g g'. rewrite removelast_last in A2, A2'.
      pose proof (ss_nthN _ _ H1 i j _ _ L A1 A1') as LE. destruct (N.eq_dec a a') as [<-|NE].
      * assert (xs' = xs) by congruence. subst xs'. apply gl_last.
        apply Forall_app in WG, WG'. destruct WG as [_ WW]. destruct WG' as [_ WW']. apply Forall_inv in WW, WW'. destruct WW as (_ & _ & IW). destruct WW' as (_ & _ & IW').
        exists (vid D w), (vid D w'). split; [|split; apply vid_In; assumption].
        assert (I1 : nthN ids i = Some (vid D w)) by (rewrite IDS, nthN_map, X; cbn [option_map]; rewrite last_last; reflexivity).
        assert (I2 : nthN ids j = Some (vid D w')) by (rewrite IDS, nthN_map, Y; cbn [option_map]; rewrite last_last; reflexivity).
        pose proof (chain at_ ids H1 BS LA (N.to_nat (j - i)) i a (vid D w) (vid D w')) as CH. replace (i + N.of_nat (N.to_nat (j - i))) with j in CH by lia. pose proof (CH A1 A1' I1 I2) as LV.
        destruct (N.eq_dec (vid D w) (vid D w')) as [EV|NV]; [|lia]. exfalso. pose proof (vid_In D w IW) as V1. pose proof (vid_In D w' IW') as V2. rewrite EV, V2 in V1. injection V1 as ->.
        pose proof (NoDup_nthN _ _ _ _ (gf_distinct _ GF (k + 1)) X Y). lia.
      * apply gl_snoc. apply (IH1 a a'); [lia|exact A2|exact A2'].
    + intros _ g Hg. apply In_nthN in Hg. destruct Hg as (i & X). destruct (F2_nth _ _ _ AG _ _ X) as (a & _ & A2). replace (k + 1 - 1) with k by lia. eapply nthN_In. exact A2.
Qed.
Theorem accepted_collection : collection D 0.
Proof.
  constructor.
  - apply (gf_order _ GF).
  - apply (gf_size _ GF).
  - apply (gf_words _ GF).
  - apply (gf_bytes _ GF).
  - apply (gf_distinct _ GF).
  - intros k K. destruct (N.lt_ge_cases k (lenN D)) as [L|L].
    + apply ss_of_pos. apply (accepted_sorted k L).
    + unfold grams. destruct (nthN D k) as [l|] eqn:E; [apply nthN_lt in E; lia|constructor].
  - intros k g K Hg. apply (accepted_sorted k (gf_lt _ _ Hg)); assumption.
  - lia.
  - intros k g Z. lia.
Qed.
End Accepted.
