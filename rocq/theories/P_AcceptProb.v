(** * Proofs for C58, part 4: probability tries *)
From Coq Require Import Floats.SpecFloat.
From Verif Require Import Prelude BitFacts M_Word M_Bits Spec M_DArray M_EF P_EF M_CompactVector P_CompactVector M_HashVec M_Mph P_Mph P_MphTables M_FastEF M_Text P_Text P_Text2 M_SeqColl P_SeqColl M_Pool P_Pool M_Trie P_FastEF3 P_Typed
  Spec_Trie P_Trie1 P_Trie2 P_Trie3 P_Trie4 P_Trie5 M_Score M_Quant M_MphProb Spec_Arpa P_Values M_TrieProb P_TrieProb1 Spec_Complete P_Complete Props_Complete P_Accept P_Accept2 P_Accept3.
From Coq Require Import Sorting.Sorted.

(** ** one level, for any builder: the ids of a sequence that was built are sorted *)
Section OneLevel.
Variable R : list (list (gram * N)).
Hypothesis GF : gram_files R.
Notation G := (grams R).
Lemma level_sorted k at_ h order f : k + 1 < lenN R ->
  StronglySorted N.le at_ -> Forall2 (fun g i => nthN (G k) i = Some (removelast g)) (G (k + 1)) at_ ->
  fef_build h order (map (fun g => vid R (last g [])) (G (k + 1))) (map (below at_) (range (lenN (G k) + 1))) = Ok f ->
  (forall i j g g', i < j -> nthN (G k) i = Some g -> nthN (G k) j = Some g' -> gram_lt (G 0) g g') ->
  forall i j g g', i < j -> nthN (G (k + 1)) i = Some g -> nthN (G (k + 1)) j = Some g' -> gram_lt (G 0) g g'.
Proof.
  intros LK H1 AG H7 IH1. set (ids := map (fun g => vid R (last g [])) (G (k + 1))) in *.
  assert (LU : lenN (G 0) < 2 ^ 31).
  { destruct (nthN_Some R 0 ltac:(lia)) as (u & Hu). rewrite (grams_some R _ _ Hu), lenN_map. apply (gf_size _ GF _ _ Hu). }
  assert (LG1 : lenN (G k) < 2 ^ 31).
  { destruct (nthN_Some R k ltac:(lia)) as (u & Hu). rewrite (grams_some R _ _ Hu), lenN_map. apply (gf_size _ GF _ _ Hu). }
  assert (B64 : Forall (fun x => x < 2 ^ 64) ids).
  { apply Forall_forall. intros x Hx. apply in_map_iff in Hx. destruct Hx as (g & <- & Hg). destruct (gf_words _ GF _ _ Hg) as (LG & WG). destruct (plain_cut g) as (xs & w & -> & _); [lia|]. rewrite last_last.
    apply Forall_app in WG. destruct WG as [_ WW]. apply Forall_inv in WW. destruct WW as (_ & _ & IW). pose proof (nthN_lt _ _ _ (vid_In R w IW)). lia. }
  assert (LA : lenN at_ = lenN ids) by (unfold ids; rewrite lenN_map; symmetry; exact (F2_len _ _ _ AG)).
  assert (LA2 : lenN at_ < 2 ^ 31).
  { rewrite LA. unfold ids. rewrite lenN_map. destruct (nthN_Some R (k + 1) ltac:(lia)) as (u & Hu). rewrite (grams_some R _ _ Hu), lenN_map. apply (gf_size _ GF _ _ Hu). }
  pose proof (built_sorted at_ (lenN (G k)) H1 ltac:(lia) _ _ ids f B64 H7) as BS.
  intros i j g g' L X Y. destruct (F2_nth _ _ _ AG _ _ X) as (a & A1 & A2). destruct (F2_nth _ _ _ AG _ _ Y) as (a' & A1' & A2').
  destruct (gf_words _ GF _ _ (nthN_In _ _ _ X)) as (LG & WG). destruct (gf_words _ GF _ _ (nthN_In _ _ _ Y)) as (LG' & WG').
  destruct (plain_cut g) as (xs & w & EG & _); [lia|]. destruct (plain_cut g') as (xs' & w' & EG' & _); [lia|]. subst g g'. rewrite removelast_last in A2, A2'.
  pose proof (ss_nthN _ _ H1 i j _ _ L A1 A1') as LE. destruct (N.eq_dec a a') as [<-|NE].
  - assert (xs' = xs) by congruence. subst xs'. apply gl_last.
    apply Forall_app in WG, WG'. destruct WG as [_ WW]. destruct WG' as [_ WW']. apply Forall_inv in WW, WW'. destruct WW as (_ & _ & IW). destruct WW' as (_ & _ & IW').
    exists (vid R w), (vid R w'). split; [|split; apply vid_In; assumption].
    assert (I1 : nthN ids i = Some (vid R w)) by (unfold ids; rewrite nthN_map, X; cbn [option_map]; rewrite last_last; reflexivity).
    assert (I2 : nthN ids j = Some (vid R w')) by (unfold ids; rewrite nthN_map, Y; cbn [option_map]; rewrite last_last; reflexivity).
    pose proof (chain at_ ids H1 BS LA (N.to_nat (j - i)) i a (vid R w) (vid R w')) as CH. replace (i + N.of_nat (N.to_nat (j - i))) with j in CH by lia. pose proof (CH A1 A1' I1 I2) as LV.
    destruct (N.eq_dec (vid R w) (vid R w')) as [EV|NV]; [|lia]. exfalso. pose proof (vid_In R w IW) as V1. pose proof (vid_In R w' IW') as V2. rewrite EV, V2 in V1. injection V1 as ->.
    pose proof (NoDup_nthN _ _ _ _ (gf_distinct _ GF (k + 1)) X Y). lia.
  - apply gl_snoc. apply (IH1 a a'); [lia|exact A2|exact A2'].
Qed.
Lemma unigrams_sorted i j g g' : i < j -> nthN (G 0) i = Some g -> nthN (G 0) j = Some g' -> gram_lt (G 0) g g'.
Proof.
  intros L X Y. destruct (gf_words _ GF 0 g (nthN_In _ _ _ X)) as (L1 & _). destruct (gf_words _ GF 0 g' (nthN_In _ _ _ Y)) as (L2 & _).
  assert (S1 : forall q : gram, lenN q = 0 + 1 -> exists w, q = [w]). { clear. intros q H. destruct q as [|w [|z q]]; rewrite ?lenN_cons in H; change (lenN (@nil (list N))) with 0 in H; [lia|eauto|lia]. }
  destruct (S1 _ L1) as (a & ->). destruct (S1 _ L2) as (b & ->). apply gram_lt_here; [reflexivity|]. exists i, j. auto.
Qed.
End OneLevel.

(** ** what a successful construction of a level says about the lines of its section *)
Lemma tp_advance_full sd l r pt : short l -> parse_arpa_line sd l = Ok r -> suffix (c_str l) (r_gram r) = Ok pt ->
  forall prv ptrs pointer rest ptrs', Forall short prv -> tp_advance sd (c_str l) pt prv ptrs pointer = Ok (rest, ptrs') ->
  exists m, (m <= length prv)%nat /\ rest = skipn m prv /\ ptrs' = ptrs ++ repeat pointer m /\ (rest = [] \/ exists l' rest', rest = l' :: rest' /\ by_suffix (num_end sd) l' l).
Proof.
  intros L E P. induction prv as [|l' prv IH]; intros ptrs pointer rest ptrs' HP A; cbn [tp_advance] in A.
  - injection A as <- <-. exists 0%nat. split; [apply le_n|]. split; [reflexivity|]. split; [symmetry; apply app_nil_r|]. left. reflexivity.
  - apply Forall_cons_iff in HP. destruct HP as [L' HP]. apply bind_inv in A. destruct A as (r' & E' & A). apply bind_inv in A. destruct A as (b & Q & A). destruct b.
    + injection A as <- <-. exists 0%nat. split; [apply Nat.le_0_l|]. split; [reflexivity|]. split; [symmetry; apply app_nil_r|]. right. exists l', prv. split; [reflexivity|]. eapply equal_arpa; eauto.
    + apply bind_inv in A. destruct A as (z & _ & A). apply IH in A; [|exact HP]. destruct A as (m & LM & -> & -> & D). exists (S m). split; [cbn; apply le_n_S; exact LM|]. split; [reflexivity|]. split; [rewrite <- app_assoc; reflexivity|exact D].
Qed.
(** the id of the first word of a line, as the code finds it *)
Definition ptoken_is (env : tpenv) (v : dvt) (l : list N) (id : N) : Prop :=
  exists r pt y, parse_arpa_line (tp_sd env) l = Ok r /\ suffix (c_str l) (r_gram r) = Ok pt /\ plook_pair (tp_h env) v (c_str l) (fst (r_gram r), sub64 (fst pt) 1) = Ok (id, y).
Definition pcontinues_at (sd : list N -> N -> F * N) (prv : list (list N)) (l : list N) (a : N) : Prop := exists l', nthN prv a = Some l' /\ by_suffix (num_end sd) l' l.

Lemma tp_step_full env v arrays pb bb order mo remap s l s' : tp_map env = false -> short l -> Forall short (pbs_prv s) -> tp_step env v arrays pb bb order mo remap s l = Ok s' ->
  exists m l' rest id, (m <= length (pbs_prv s))%nat /\ skipn m (pbs_prv s) = l' :: rest /\ pbs_prv s' = l' :: rest /\ by_suffix (num_end (tp_sd env)) l' l /\
    pbs_ptrs s' = pbs_ptrs s ++ repeat (pbs_pos s) m /\ pbs_pos s' = pbs_pos s + 1 /\ ptoken_is env v l id /\
    cvb_push_back (pb_grams (pbs_pab s)) id = Ok (pb_grams (pbs_pab s')).
Proof.
  intros TM L HP E. unfold tp_step in E. apply bind_inv in E. destruct E as (r & E1 & E). apply bind_inv in E. destruct E as (pt & E2 & E). apply bind_inv in E. destruct E as ((prv & ptrs) & E3 & E).
  destruct (tp_advance_full _ l r pt L E1 E2 _ _ _ _ _ HP E3) as (m & LM & A & A2 & D). destruct prv as [|l' rest]; [discriminate E|]. destruct D as [D|(l1 & rest1 & D & B)]; [discriminate D|]. injection D as <- <-.
  apply bind_inv in E. destruct E as ((id & w) & E4 & E). rewrite TM in E. cbn [andb bind] in E. apply bind_inv in E. destruct E as (g & E5 & E). do 3 (apply bind_inv in E; destruct E as (? & _ & E)).
  injection E as <-. cbn [pbs_prv pbs_ptrs pbs_pos pbs_pab pb_grams]. exists m, l', rest, id. repeat (split; [assumption || (symmetry; assumption) || reflexivity|]). split; [exists r, pt, w; auto|exact E5].
Qed.

Section Level.
Variables (env : tpenv) (v : dvt) (arrays : list parr) (pb bb : qsc) (order mo remap : N) (prv : list (list N)) (b0 : cvb).
Hypothesis TM : tp_map env = false.
Hypothesis SP : Forall short prv.
Record plinv (done : list (list N)) (at_ ids : list N) (c : N) (s : pbst) : Prop := {
  pl_sorted : StronglySorted N.le at_;
  pl_le : Forall (fun a => a <= c) at_;
  pl_at : Forall2 (pcontinues_at (tp_sd env) prv) done at_;
  pl_tok : Forall2 (ptoken_is env v) done ids;
  pl_prv : pbs_prv s = skipn (N.to_nat c) prv;
  pl_c : c <= lenN prv;
  pl_ptrs : pbs_ptrs s = map (below at_) (range (c + 1));
  pl_pointer : pbs_pos s = lenN done;
  pl_ids : foldM cvb_push_back ids b0 = Ok (pb_grams (pbs_pab s)) }.
Lemma plinv_step done at_ ids c s l s' : plinv done at_ ids c s -> short l -> tp_step env v arrays pb bb order mo remap s l = Ok s' ->
  exists id c', plinv (done ++ [l]) (at_ ++ [c']) (ids ++ [id]) c' s'.
Proof.
  intros [I1 I2 I3 I4 I5 I6 I7 I8 I9] L E. destruct (tp_step_full _ _ _ _ _ _ _ _ _ _ _ TM L ltac:(rewrite I5; apply Forall_skipn; exact SP) E) as (m & l' & rest & id & LM & E1 & E2 & E3 & E4 & E5 & E6 & E7).
  set (c' := c + N.of_nat m). exists id, c'. rewrite I5 in *. rewrite skipn_length in LM.
  assert (NC : nthN prv c' = Some l').
  { rewrite skipn_skipn' in E1. replace (N.to_nat c + m)%nat with (N.to_nat c') in E1 by (unfold c'; lia). pose proof (nth_skipn prv 0 c') as K. rewrite E1 in K. rewrite N.add_0_r in K. symmetry. exact K. }
  assert (LC : Forall (fun a => a <= c') at_) by (eapply Forall_impl; [|exact I2]; cbn; intros a Ha; unfold c'; lia).
  constructor.
  - apply sorted_snoc; assumption.
  - apply Forall_app. split; [exact LC|]. constructor; [apply N.le_refl|constructor].
  - apply Forall2_app; [exact I3|]. constructor; [|constructor]. exists l'. auto.
  - apply Forall2_app; [exact I4|]. constructor; [exact E6|constructor].
  - rewrite E2, <- E1, skipn_skipn'. f_equal. unfold c'. lia.
  - apply nthN_lt in NC. lia.
  - rewrite E4, I7, I8, (F2_len _ _ _ I3), below_grow by exact I2. fold c'. apply map_ext_in. intros j Hj. unfold range in Hj. apply in_seqN in Hj. rewrite below_app.
    assert (Z : below [c'] j = 0). { unfold below. cbn [filter]. destruct (N.ltb_spec c' j); [lia|reflexivity]. } rewrite Z. lia.
  - rewrite E5, I8, lenN_app. reflexivity.
  - rewrite foldM_snoc, I9. cbn [bind]. exact E7.
Qed.
Lemma plinv_fold rest : forall done at_ ids c s s', plinv done at_ ids c s -> Forall short rest -> foldM (tp_step env v arrays pb bb order mo remap) rest s = Ok s' ->
  exists at_' ids' c', plinv (done ++ rest) at_' ids' c' s'.
Proof.
  induction rest as [|l rest IH]; intros done at_ ids c s s' I F E; cbn [foldM] in E.
  - injection E as <-. exists at_, ids, c. rewrite app_nil_r. exact I.
  - apply Forall_cons_iff in F. destruct F as [L F]. apply bind_inv in E. destruct E as (s1 & E1 & E). destruct (plinv_step _ _ _ _ _ _ _ I L E1) as (id & c' & I').
    destruct (IH _ _ _ _ _ _ I' F E) as (a2 & i2 & c2 & J). exists a2, i2, c2. rewrite <- app_assoc in J. exact J.
Qed.
Lemma tp_ngrams_full cur b ptrs b' : pb_grams b = b0 -> Forall short cur -> tp_ngrams env v arrays pb bb order mo remap cur prv b = Ok (ptrs, b') ->
  exists at_ ids, StronglySorted N.le at_ /\ Forall2 (pcontinues_at (tp_sd env) prv) cur at_ /\ Forall2 (ptoken_is env v) cur ids /\
    ptrs = map (below at_) (range (lenN prv + 1)) /\ foldM cvb_push_back ids b0 = Ok (pb_grams b').
Proof.
  intros EB F E. unfold tp_ngrams in E. apply bind_inv in E. destruct E as (z & _ & E). apply bind_inv in E. destruct E as (s & E1 & E). injection E as <- <-.
  assert (I0 : plinv [] [] [] 0 (mkpbst prv [0] 0 b)).
  { constructor; cbn [pbs_prv pbs_ptrs pbs_pos pbs_pab]; try constructor; try reflexivity; try apply N.le_0_l. cbn [foldM]. rewrite EB. reflexivity. }
  destruct (plinv_fold cur _ _ _ _ _ _ I0 F E1) as (at_ & ids & c & [I1 I2 I3 I4 I5 I6 I7 I8 I9]). cbn [app] in *. exists at_, ids. split; [exact I1|]. split; [exact I3|]. split; [exact I4|]. split; [|exact I9].
  rewrite I7, I8, (F2_len _ _ _ I3), below_grow by exact I2. do 2 f_equal. rewrite I5, skipn_length. unfold lenN in *. lia.
Qed.
End Level.

Lemma tp_build_levels env secs order remap unk pq bq t : tp_map env = false -> Forall (Forall short) secs -> tp_build env secs order remap unk pq bq = Ok t ->
  exists lines0 v, nthN secs 0 = Some lines0 /\ tp_vocabulary env lines0 = Ok v /\
  forall k prv cur, k + 1 < order -> nthN secs k = Some prv -> nthN secs (k + 1) = Some cur ->
    exists at_ ids ids' b b' f q, StronglySorted N.le at_ /\ Forall2 (pcontinues_at (tp_sd env) prv) cur at_ /\ Forall2 (ptoken_is env v) cur ids /\
      pab_new (lenN cur) (m_n (dv_h v)) q = Ok b /\ foldM cvb_push_back ids (pb_grams b) = Ok (pb_grams b') /\
      cv_all (cv_of_builder (pb_grams b')) = Ok ids' /\ fef_build (tp_hu env (k + 1)) (tp_orders env (k + 1)) ids' (map (below at_) (range (lenN prv + 1))) = Ok f.
Proof.
  intros TM HF E. unfold tp_build in E. do 2 (apply bind_inv in E; destruct E as (? & _ & E)). destruct (lenN secs <? order); [discriminate E|]. apply bind_inv in E. destruct E as ((pb & bb) & _ & E). destruct (order <? lenN secs); [discriminate E|].
  apply bind_inv in E. destruct E as (l1 & EL & E). apply bind_inv in E. destruct E as (u & _ & E). apply bind_inv in E. destruct E as (v & EV & E). apply bind_inv in E. destruct E as (arrays & E & _).
  apply rd_inv in EL. exists l1, v. split; [exact EL|]. split; [exact EV|]. intros k prv cur Hk Hp Hc.
  destruct (foldM_each _ _ _ _ E (k + 2)) as (a & b & EB). { apply in_seqN. lia. }
  unfold tp_build_order in EB. replace (k + 2 - 2) with k in EB by lia. replace (k + 2 - 1) with (k + 1) in EB by lia.
  apply bind_inv in EB. destruct EB as (p & E1 & EB). apply rd_inv in E1. rewrite Hp in E1. injection E1 as <-. apply bind_inv in EB. destruct EB as (c & E1 & EB). apply rd_inv in E1. rewrite Hc in E1. injection E1 as <-.
  apply bind_inv in EB. destruct EB as (sb & ES & EB). apply bind_inv in EB. destruct EB as ((ptrs & sb') & EN & EB). cbv iota beta in EB.
  rewrite Forall_forall in HF. apply (tp_ngrams_full env v a pb bb (k + 2) order remap prv (pb_grams sb) TM) in EN; [|apply HF; eapply nthN_In; exact Hp|reflexivity|apply HF; eapply nthN_In; exact Hc].
  destruct EN as (at_ & ids & H1 & H2 & H3 & -> & H4). apply bind_inv in EB. destruct EB as (z1 & _ & EB). apply bind_inv in EB. destruct EB as (z2 & EB & _).
  unfold pab_build in EB. apply bind_inv in EB. destruct EB as (ids' & E5 & EB). apply bind_inv in EB. destruct EB as (f & E6 & _).
  eexists at_, ids, ids', sb, sb', f, _. split; [exact H1|]. split; [exact H2|]. split; [exact H3|]. split; [exact ES|]. auto.
Qed.

(** ** reversed n-grams *)
Lemma join_rev_len (g : gram) : lenN (join (rev g)) = lenN (join g).
Proof.
  assert (X : forall g : gram, g <> [] -> lenN (join g) + 1 = lenN (concat g) + lenN g).
  { clear. induction g as [|w g IH]; intros NE; [congruence|]. destruct g as [|w' g].
    - cbn [join concat]. rewrite app_nil_r. reflexivity.
    - rewrite (join_cons w (w' :: g)) by discriminate. change (concat (w :: w' :: g)) with (w ++ concat (w' :: g)). specialize (IH ltac:(discriminate)). rewrite !lenN_app, !lenN_cons. rewrite lenN_cons in IH. lia. }
  assert (Y : forall g : gram, lenN (concat (rev g)) = lenN (concat g)).
  { clear. induction g as [|w g IH]; [reflexivity|]. cbn [rev concat]. rewrite concat_app, !lenN_app, IH. cbn [concat]. rewrite app_nil_r. lia. }
  destruct g as [|w g]; [reflexivity|]. pose proof (X (w :: g) ltac:(discriminate)) as A.
  assert (NE : rev (w :: g) <> []) by (cbn [rev]; intros Z; apply app_eq_nil in Z; destruct Z as [_ Z]; discriminate Z).
  pose proof (X _ NE) as B. rewrite Y in B. assert (LR : lenN (rev (w :: g)) = lenN (w :: g)) by (unfold lenN; rewrite rev_length; reflexivity). rewrite LR in B. lia.
Qed.
Lemma grams_revD' (D : entries) k : grams (revD D) k = map (@rev _) (grams D k).
Proof. rewrite grams_revD. unfold grams. destruct (nthN D k); [|reflexivity]. rewrite map_map. reflexivity. Qed.
Lemma gram_files_revD (D : entries) : gram_files D -> gram_files (revD D).
Proof.
  intros GF. constructor.
  - rewrite lenN_revD. apply (gf_order _ GF).
  - intros k l H. unfold revD in H. rewrite nthN_map in H. destruct (nthN D k) as [l'|] eqn:E; [|discriminate H]. injection H as <-.
    destruct (gf_size _ GF k l' E) as [H1 H2]. split; [destruct l'; [congruence|discriminate]|rewrite lenN_map; exact H2].
  - intros k g Hg. rewrite grams_revD' in Hg. apply in_map_iff in Hg. destruct Hg as (g' & <- & Hg). destruct (gf_words _ GF _ _ Hg) as (L & W).
    split; [unfold lenN in *; rewrite rev_length; exact L|]. apply Forall_rev. eapply Forall_impl; [|exact W]. cbn. intros w (W1 & W2 & W3). split; [exact W1|]. split; [exact W2|].
    rewrite grams_revD'. apply in_map_iff. exists [w]. auto.
  - intros k g Hg. rewrite grams_revD' in Hg. apply in_map_iff in Hg. destruct Hg as (g' & <- & Hg). rewrite join_rev_len. exact (gf_bytes _ GF _ _ Hg).
  - intros k. rewrite grams_revD'. apply FinFun.Injective_map_NoDup; [|apply (gf_distinct _ GF)]. intros a b H. rewrite <- (rev_involutive a), H. apply rev_involutive.
Qed.
Lemma collection_of_revD (D : entries) : collection (revD D) 0 -> collection (reversed D) 0.
Proof.
  intros C. constructor; rewrite <- ?grams_reversed.
  - assert (LR : lenN (reversed D) = lenN (revD D)) by (unfold revD, reversed; rewrite !lenN_map; reflexivity). rewrite LR. apply (col_order _ _ C).
  - intros k l H. unfold reversed in H. rewrite nthN_map in H. destruct (nthN D k) as [l'|] eqn:E; [|discriminate H]. injection H as <-.
    destruct (col_size _ _ C k (map (fun e => (rev (fst e), 0)) l')) as [H1 H2]. { unfold revD. rewrite nthN_map, E. reflexivity. }
    rewrite lenN_map in H2. split; [destruct l'; [cbn in H1; congruence|discriminate]|rewrite lenN_map; exact H2].
  - intros k g. rewrite <- grams_reversed. apply (col_words _ _ C).
  - intros k g. rewrite <- grams_reversed. apply (col_bytes _ _ C).
  - apply (col_unigrams _ _ C).
  - intros k Hk. rewrite <- grams_reversed. apply (col_sorted _ _ C k Hk).
  - intros k g. rewrite <- !grams_reversed. apply (col_prefix _ _ C).
  - apply (col_remap _ _ C).
  - intros k g Z. lia.
Qed.

Section Accepted.
Variable D : entries.
Variable secs : list (list (list N)).
Variable env : tpenv.
Variables pq bq : N.
Hypothesis GF : gram_files D.
Hypothesis AF : arpa_file D.
Hypothesis TI : trie_base_ok D secs env 0 pq bq.
Notation R := (revD D).
Notation G := (grams (revD D)).
Variables (unk : F) (t : tpl).
Hypothesis ET : tp_build env secs (lenN D) 0 unk pq bq = Ok t.
Let GR : gram_files R := gram_files_revD D GF.
Lemma lines2 : Forall2 (Forall2 (arpa_line (tp_sd env))) D secs. Proof. exact (vi_lines _ _ _ _ _ (bo_values _ _ _ _ _ _ TI)). Qed.
Lemma secs_short : Forall (Forall short) secs.
Proof. eapply Forall_impl; [|exact (bo_lens _ _ _ _ _ _ TI)]. cbn. intros s H. eapply Forall_impl; [|exact H]. cbn. intros l X. unfold short. eapply N.lt_le_trans; [exact X|]. apply N.pow_le_mono_r; lia. Qed.
Lemma tm0 : tp_map env = false. Proof. exact (bo_map _ _ _ _ _ _ TI). Qed.
Lemma plain_of k l e : nthN D k = Some l -> In e l -> lenN (fst e) = k + 1 /\ Forall (fun w => word w /\ ~ In 9 w) (fst e) /\ In (rev (fst e)) (G k).
Proof.
  intros Hk He. destruct (af_words _ AF _ _ _ Hk He) as (A & B). split; [exact A|]. split; [exact B|]. rewrite grams_revD', (grams_some D k l Hk), map_map. apply in_map_iff. exists e. auto.
Qed.
Lemma ptoken_id v k l e x id : pvoc_rep D env v -> nthN D k = Some l -> 0 < k -> In e l -> arpa_line (tp_sd env) e x -> lenN x < 2 ^ 32 -> ptoken_is env v x id -> id = vid R (last (rev (fst e)) []).
Proof.
  intros RV Hk K He AL LX (r & pt & y & E1 & E2 & E3). destruct (plain_of k l e Hk He) as (LG & WG & IG).
  destruct (level_no_tab D AF k l e Hk He) as [NT _]. destruct (parse_arpa_holds (tp_sd env) e x NT AL) as (r' & P0 & _ & _ & _ & P3). rewrite P0 in E1. injection E1 as <-.
  destruct (gf_words _ GR _ _ IG) as (_ & WR).
  destruct (fst e) as [|w0 h] eqn:Efe; [change (lenN (@nil (list N))) with 0 in LG; lia|]. cbn [rev] in *. rewrite last_last.
  assert (NH : h <> []). { intro Z. rewrite Z in LG. change (lenN [w0]) with 1 in LG. lia. }
  apply Forall_inv in WG. destruct WG as ((W1 & W2) & _). apply Forall_app in WR. destruct WR as [_ WR]. apply Forall_inv in WR. destruct WR as (_ & _ & IW).
  destruct (suffix_ok (c_str x) (r_gram r') w0 h P3 NH W2) as (q & PE & PT). rewrite PE in E2. injection E2 as <-. cbn [fst] in E3.
  destruct (holds_split _ _ _ P3) as (pre & post & EB & B1 & B2). destruct (holds_split _ _ _ PT) as (pre2 & post2 & EB2 & C1 & C2). cbn [fst snd] in C1, C2.
  assert (JC : join (w0 :: h) = w0 ++ 32 :: join h) by (apply join_cons; exact NH). rewrite JC, lenN_app, lenN_cons in B2.
  assert (LB : lenN (c_str x) = lenN x + 1) by (unfold c_str; rewrite lenN_app; reflexivity).
  assert (TK : holds_text (c_str x) (fst (r_gram r'), sub64 q 1) w0).
  { rewrite sub64_small by (rewrite EB2, lenN_app in LB; lia). rewrite EB, JC, <- app_assoc. apply holds_mid; [exact B1|lia]. }
  destruct (plook_pair_ok D env AF v _ _ w0 RV TK IW) as (y' & EPP). rewrite EPP in E3. congruence.
Qed.
Lemma pat_grams k prv cur lp lc at_ : nthN D k = Some prv -> nthN D (k + 1) = Some cur -> Forall2 (arpa_line (tp_sd env)) prv lp -> Forall2 (arpa_line (tp_sd env)) cur lc ->
  Forall2 (pcontinues_at (tp_sd env) lp) lc at_ -> Forall2 (fun g i => nthN (G k) i = Some (removelast g)) (G (k + 1)) at_.
Proof.
  intros Hp Hc QP QC F. rewrite !grams_revD', (grams_some D _ _ Hc), (grams_some D _ _ Hp).
  assert (W : forall e, In e cur -> lenN (fst e) = k + 1 + 1 /\ Forall (fun w => word w /\ ~ In 9 w) (fst e)) by (intros e He; destruct (plain_of _ _ _ Hc He) as (A & B & _); auto).
  assert (W' : forall e, In e prv -> lenN (fst e) = k + 1 /\ Forall (fun w => word w /\ ~ In 9 w) (fst e)) by (intros e He; destruct (plain_of _ _ _ Hp He) as (A & B & _); auto).
  clear Hp Hc. revert at_ F. induction QC as [|e l cur lc QE QC IH]; intros at_ F; inversion F as [|x i y l' (z & Z & RZ) F' E1 E2]; subst; cbn [map]; constructor.
  - assert (P : exists e', nthN prv i = Some e' /\ arpa_line (tp_sd env) e' z).
    { clear - QP Z. revert i Z. induction QP as [|e0 l0 prv lp Q0 QP IH]; intros i Z; [rewrite nthN_nil in Z; discriminate Z|]. rewrite nthN_cons in Z. rewrite nthN_cons.
      destruct (i =? 0); [injection Z as <-; exists e0; auto|exact (IH _ Z)]. }
    destruct P as (e' & P & QE'). rewrite !nthN_map, P. cbn [option_map]. f_equal.
    destruct (W e (or_introl eq_refl)) as (L1 & F1). destruct (W' e' (nthN_In _ _ _ P)) as (L2 & F2).
    assert (EE : fst e' = tl (fst e)).
    { apply (suffix_gram (tp_sd env) e e' l z); auto; [lia|]. intros Q. rewrite Q in L2. change (lenN (@nil (list N))) with 0 in L2. lia. }
    rewrite EE. destruct (fst e) as [|w0 h]; [reflexivity|]. cbn [tl rev]. rewrite removelast_last. reflexivity.
  - apply IH; [intros e0 He0; apply W; right; exact He0|exact F'].
Qed.

Theorem paccepted_sorted k : k < lenN D -> (forall i j g g', i < j -> nthN (G k) i = Some g -> nthN (G k) j = Some g' -> gram_lt (G 0) g g') /\
  (0 < k -> forall g, In g (G k) -> In (removelast g) (G (k - 1))).
Proof.
  destruct (tp_build_levels env _ _ _ _ _ _ _ tm0 secs_short ET) as (l0 & v & HL & EV & LEV).
  destruct (nthN_Some D 0 ltac:(pose proof (gf_order _ GF); lia)) as (u & Hu). destruct (Forall2_nthN' _ _ _ lines2 _ _ Hu) as (lu & Lu & QU). rewrite HL in Lu. injection Lu as <-.
  destruct (vocabulary_ok D secs env 0 pq bq AF TI u l0 Hu QU) as (v' & EV' & RV & MN & _). rewrite EV in EV'. injection EV' as <-. clear EV QU.
  pattern k. apply N.peano_ind; clear k.
  - intros K. split; [|intros Z; lia]. apply (unigrams_sorted R GR).
  - intros k IH K. destruct (IH ltac:(lia)) as (IH1 & _). clear IH. rewrite <- N.add_1_r in *. destruct (nthN_Some D k ltac:(lia)) as (prv & Hp). destruct (nthN_Some D (k + 1) ltac:(lia)) as (cur & Hc).
    destruct (Forall2_nthN' _ _ _ lines2 _ _ Hp) as (lp & Lp & QP). destruct (Forall2_nthN' _ _ _ lines2 _ _ Hc) as (lc & Lc & QC).
    destruct (LEV k lp lc ltac:(lia) Lp Lc) as (at_ & ids & ids' & b & b' & f & q & H1 & H2 & H3 & H4 & H5 & H6 & H7).
    pose proof (pat_grams k prv cur lp lc at_ Hp Hc QP QC H2) as AG.
    assert (FLC : Forall (fun l => lenN l < 2 ^ 32) lc) by (exact (Forall_nthN _ _ _ _ (bo_lens _ _ _ _ _ _ TI) Lc)).
    assert (GC : G (k + 1) = map (fun e => rev (fst e)) cur) by (rewrite grams_revD', (grams_some D _ _ Hc), map_map; reflexivity).
    assert (IDS : ids = map (fun g => vid R (last g [])) (G (k + 1))).
    { rewrite GC, map_map. assert (TK : forall e x id, In e cur -> arpa_line (tp_sd env) e x -> lenN x < 2 ^ 32 -> ptoken_is env v x id -> id = vid R (last (rev (fst e)) [])) by (intros e x id He AL LX T; apply (ptoken_id v (k + 1) cur e x id RV Hc); [clear; lia|exact He|exact AL|exact LX|exact T]).
      clear - H3 TK QC FLC. revert ids H3. induction QC as [|e x cur lc QE QC IH]; intros ids F; inversion F; subst; [reflexivity|]. apply Forall_cons_iff in FLC. destruct FLC as [FX FLC]. cbn [map]. f_equal.
      - eapply TK; [left; reflexivity|exact QE|exact FX|assumption].
      - apply IH; try assumption. intros e0 x0 id0 I0. apply TK. right. exact I0. }
    assert (VB : Forall (fun x => x <= lenN (G 0)) ids).
    { rewrite IDS. apply Forall_forall. intros x Hx. apply in_map_iff in Hx. destruct Hx as (g & <- & Hg). destruct (gf_words _ GR _ _ Hg) as (LG & WG). destruct (plain_cut g) as (xs & w & -> & _); [lia|]. rewrite last_last.
      apply Forall_app in WG. destruct WG as [_ WW]. apply Forall_inv in WW. destruct WW as (_ & _ & IW). pose proof (nthN_lt _ _ _ (vid_In R w IW)). lia. }
    destruct (gf_size _ GF _ _ Hu) as [SU1 SU2]. destruct (gf_size _ GF _ _ Hc) as [SC1 SC2].
    assert (L0 : lenN (G 0) < 2 ^ 31) by (rewrite (G_len D _ _ Hu); exact SU2).
    assert (LI : lenN ids = lenN cur) by (rewrite IDS, GC, !lenN_map; reflexivity).
    assert (LLC : lenN lc = lenN cur) by (symmetry; exact (F2_len _ _ _ QC)).
    assert (LLP : lenN lp = lenN (G k)) by (rewrite (G_len D _ _ Hp); symmetry; exact (F2_len _ _ _ QP)).
    assert (EQ : ids' = ids).
    { destruct (cv_push_holds ids (lenN (G 0))) as (c1 & c2 & E1 & E2 & E3); [lia|lia|exact VB|].
      unfold pab_new in H4. rewrite MN, LLC, <- LI, E1 in H4. cbn [bind] in H4. apply bind_inv in H4. destruct H4 as (c3 & _ & H4). apply bind_inv in H4. destruct H4 as (c4 & _ & H4). injection H4 as <-. cbn [pb_grams] in H5. rewrite E2 in H5. injection H5 as H5.
      rewrite <- H5, (cv_all_ok _ _ E3) in H6. congruence. }
    subst ids'. rewrite IDS, LLP in H7. split.
    + assert (KR : k + 1 < lenN R) by (rewrite lenN_revD; exact K). exact (level_sorted R GR k at_ (tp_hu env (k + 1)) (tp_orders env (k + 1)) f KR H1 AG H7 IH1).
    + intros _ g Hg. apply In_nthN in Hg. destruct Hg as (i & X). destruct (F2_nth _ _ _ AG _ _ X) as (a & _ & A2). replace (k + 1 - 1) with k by lia. eapply nthN_In. exact A2.
Qed.
Theorem paccepted_collection : collection (reversed D) 0.
Proof.
  apply collection_of_revD. constructor.
  - apply (gf_order _ GR).
  - apply (gf_size _ GR).
  - apply (gf_words _ GR).
  - apply (gf_bytes _ GR).
  - apply (gf_distinct _ GR).
  - intros k K. destruct (N.lt_ge_cases k (lenN D)) as [L|L].
    + apply ss_of_pos. apply (paccepted_sorted k L).
    + unfold grams. destruct (nthN R k) as [l|] eqn:E; [apply nthN_lt in E; rewrite lenN_revD in E; lia|constructor].
  - intros k g K Hg. apply (paccepted_sorted k); [|exact K|exact Hg]. pose proof (gf_lt R k g Hg) as L. rewrite lenN_revD in L. exact L.
  - lia.
  - intros k g Z. lia.
Qed.
End Accepted.
