(** * Proofs for C58, part 2: what a successful construction of a level says about the lines of its file *)
From Verif Require Import Prelude BitFacts M_Word M_Bits Spec M_DArray M_EF P_EF M_CompactVector M_HashVec M_Mph M_FastEF M_Text P_Text M_SeqColl P_SeqColl M_Pool M_Trie P_FastEF3 P_Typed Spec_Trie P_Trie1 P_Trie3 P_Trie4 Spec_Complete P_Complete P_Accept.
From Coq Require Import Sorting.Sorted.

Lemma advance_full l r c pt : short l -> parse_count_line l = Ok (r, c) -> predecessor (c_str l) r = Ok pt ->
  forall prv ptrs pointer rest ptrs', Forall short prv -> advance (c_str l) pt prv ptrs pointer = Ok (rest, ptrs') ->
  exists m, (m <= length prv)%nat /\ rest = skipn m prv /\ ptrs' = ptrs ++ repeat pointer m /\ (rest = [] \/ exists l' rest', rest = l' :: rest' /\ by_prefix l' l).
Proof.
  intros L E P. induction prv as [|l' prv IH]; intros ptrs pointer rest ptrs' HP A; cbn [advance] in A.
  - injection A as <- <-. exists 0%nat. split; [apply le_n|]. split; [reflexivity|]. split; [symmetry; apply app_nil_r|]. left. reflexivity.
  - apply Forall_cons_iff in HP. destruct HP as [L' HP]. apply bind_inv in A. destruct A as ((r' & c') & E' & A). apply bind_inv in A. destruct A as (b & Q & A). destruct b.
    + injection A as <- <-. exists 0%nat. split; [apply Nat.le_0_l|]. split; [reflexivity|]. split; [symmetry; apply app_nil_r|]. right. exists l', prv. split; [reflexivity|]. eapply equal_count; eauto.
    + apply IH in A; [|exact HP]. destruct A as (m & LM & -> & -> & D). exists (S m). split; [cbn; apply le_n_S; exact LM|]. split; [reflexivity|]. split; [rewrite <- app_assoc; reflexivity|exact D].
Qed.

(** the id of the last word of a line, as the code finds it *)
Definition token_is (env : tenv) (v : svt) (l : list N) (id : N) : Prop :=
  exists r c pt, parse_count_line l = Ok (r, c) /\ predecessor (c_str l) r = Ok pt /\ vlook (te_h env) v (c_str l) (snd pt + 1, snd r) = Ok id.
Definition continues_at (prv : list (list N)) (l : list N) (a : N) : Prop := exists l', nthN prv a = Some l' /\ by_prefix l' l.

Lemma step_full env v arrays cb order remap s l s' : te_map env = false -> short l -> Forall short (bs_prv s) -> ngram_step env v arrays cb order remap s l = Ok s' ->
  exists m l' rest id, (m <= length (bs_prv s))%nat /\ skipn m (bs_prv s) = l' :: rest /\ bs_prv s' = l' :: rest /\ by_prefix l' l /\
    bs_ptrs s' = bs_ptrs s ++ repeat (bs_pointer s) m /\ bs_pointer s' = bs_pointer s + 1 /\ token_is env v l id /\
    cvb_push_back (ab_grams (bs_sab s)) id = Ok (ab_grams (bs_sab s')).
Proof.
  intros TM L HP E. unfold ngram_step in E. apply bind_inv in E. destruct E as ((r & c) & E1 & E). apply bind_inv in E. destruct E as (pt & E2 & E). apply bind_inv in E. destruct E as ((prv & ptrs) & E3 & E).
  destruct (advance_full l r c pt L E1 E2 _ _ _ _ _ HP E3) as (m & LM & A & A2 & D). destruct prv as [|l' rest]; [discriminate E|]. destruct D as [D|(l1 & rest1 & D & B)]; [discriminate D|]. injection D as <- <-.
  apply bind_inv in E. destruct E as (id & E4 & E). rewrite TM in E. cbn [andb bind] in E. apply bind_inv in E. destruct E as (g & E5 & E). apply bind_inv in E. destruct E as (rk & _ & E). apply bind_inv in E. destruct E as (k & _ & E).
  injection E as <-. cbn [bs_prv bs_ptrs bs_pointer bs_sab ab_grams]. exists m, l', rest, id. repeat (split; [assumption || (symmetry; assumption) || reflexivity|]). split; [exists r, c, pt; auto|exact E5].
Qed.

Lemma below_grow at_ c d : Forall (fun a => a <= c) at_ ->
  map (below at_) (range (c + 1)) ++ repeat (lenN at_) d = map (below at_) (range (c + N.of_nat d + 1)).
Proof.
  intros F. unfold range. replace (N.to_nat (c + N.of_nat d + 1)) with (N.to_nat (c + 1) + d)%nat by lia. rewrite seqN_app, map_app. f_equal. symmetry.
  apply map_const. intros j Hj. apply below_all. eapply Forall_impl; [|exact F]. cbn. intros a Ha. lia.
Qed.
Lemma sorted_snoc at_ c : StronglySorted N.le at_ -> Forall (fun a => a <= c) at_ -> StronglySorted N.le (at_ ++ [c]).
Proof.
  intros S F. induction S as [|a l S IH G]; [constructor; constructor|]. apply Forall_cons_iff in F. destruct F as [H F]. cbn [app]. constructor; [apply IH; exact F|].
  apply Forall_app. split; [exact G|]. constructor; [exact H|constructor].
Qed.
Lemma foldM_snoc {A S} (f : S -> A -> res S) l x s : foldM f (l ++ [x]) s = (s1 <- foldM f l s ;; f s1 x).
Proof.
  revert s. induction l as [|a l IH]; intros s; cbn [app foldM bind].
  - destruct (f s x); reflexivity.
  - destruct (f s a); cbn [bind]; [apply IH|reflexivity|reflexivity].
Qed.

Section Level.
Variables (env : tenv) (v : svt) (arrays : list sarr) (cb : scb) (order remap : N) (prv : list (list N)) (b0 : cvb).
Hypothesis TM : te_map env = false.
Hypothesis SP : Forall short prv.
Record linv (done : list (list N)) (at_ ids : list N) (c : N) (s : bstate) : Prop := {
  li_sorted : StronglySorted N.le at_;
  li_le : Forall (fun a => a <= c) at_;
  li_at : Forall2 (continues_at prv) done at_;
  li_tok : Forall2 (token_is env v) done ids;
  li_prv : bs_prv s = skipn (N.to_nat c) prv;
  li_c : c <= lenN prv;
  li_ptrs : bs_ptrs s = map (below at_) (range (c + 1));
  li_pointer : bs_pointer s = lenN done;
  li_ids : foldM cvb_push_back ids b0 = Ok (ab_grams (bs_sab s)) }.
Lemma F2_len {A B} (P : A -> B -> Prop) l l' : Forall2 P l l' -> lenN l = lenN l'.
Proof. intros F. induction F; [reflexivity|]. rewrite !lenN_cons. congruence. Qed.
Lemma linv_step done at_ ids c s l s' : linv done at_ ids c s -> short l -> ngram_step env v arrays cb order remap s l = Ok s' ->
  exists id c', linv (done ++ [l]) (at_ ++ [c']) (ids ++ [id]) c' s'.
Proof.
  intros [I1 I2 I3 I4 I5 I6 I7 I8 I9] L E. destruct (step_full _ _ _ _ _ _ _ _ _ TM L ltac:(rewrite I5; apply Forall_skipn; exact SP) E) as (m & l' & rest & id & LM & E1 & E2 & E3 & E4 & E5 & E6 & E7).
  set (c' := c + N.of_nat m). exists id, c'. rewrite I5 in *. rewrite skipn_length in LM.
  assert (NC : nthN prv c' = Some l').
  { rewrite skipn_skipn' in E1. replace (N.to_nat c + m)%nat with (N.to_nat c') in E1 by (unfold c'; lia). pose proof (nth_skipn prv 0 c') as K. rewrite E1 in K. rewrite N.add_0_r in K. symmetry. exact K. }
  assert (LC : Forall (fun a => a <= c') at_) by (eapply Forall_impl; [|exact I2]; cbn; intros a Ha; unfold c'; lia).
  constructor.
  - apply sorted_snoc; assumption.
  - apply Forall_app. split; [exact LC|]. constructor; [apply N.le_refl|constructor].
  - apply Forall2_app; [exact I3|]. constructor; [|constructor]. exists l'. auto.
  - apply Forall2_app; [exact I4|]. constructor; [exact E6|constructor].
  - rewrite E2, <- E1, skipn_skipn'. f_equal. unfold c'. lia.
  - apply nthN_lt in NC. lia.
  - rewrite E4, I7, I8, (F2_len _ _ _ I3), below_grow by exact I2. fold c'. apply map_ext_in. intros j Hj. unfold range in Hj. apply in_seqN in Hj. rewrite below_app.
    assert (Z : below [c'] j = 0). { unfold below. cbn [filter]. destruct (N.ltb_spec c' j); [lia|reflexivity]. } rewrite Z. lia.
  - rewrite E5, I8, lenN_app. reflexivity.
  - rewrite foldM_snoc, I9. cbn [bind]. exact E7.
Qed.
Lemma linv_fold rest : forall done at_ ids c s s', linv done at_ ids c s -> Forall short rest -> foldM (ngram_step env v arrays cb order remap) rest s = Ok s' ->
  exists at_' ids' c', linv (done ++ rest) at_' ids' c' s'.
Proof.
  induction rest as [|l rest IH]; intros done at_ ids c s s' I F E; cbn [foldM] in E.
  - injection E as <-. exists at_, ids, c. rewrite app_nil_r. exact I.
  - apply Forall_cons_iff in F. destruct F as [L F]. apply bind_inv in E. destruct E as (s1 & E1 & E). destruct (linv_step _ _ _ _ _ _ _ I L E1) as (id & c' & I').
    destruct (IH _ _ _ _ _ _ I' F E) as (a2 & i2 & c2 & J). exists a2, i2, c2. rewrite <- app_assoc in J. exact J.
Qed.
Lemma build_ngrams_full cur b ptrs b' : ab_grams b = b0 -> Forall short cur -> build_ngrams env v arrays cb order remap cur prv b = Ok (ptrs, b') ->
  exists at_ ids, StronglySorted N.le at_ /\ Forall2 (continues_at prv) cur at_ /\ Forall2 (token_is env v) cur ids /\
    ptrs = map (below at_) (range (lenN prv + 1)) /\ foldM cvb_push_back ids b0 = Ok (ab_grams b').
Proof.
  intros EB F E. unfold build_ngrams in E. apply bind_inv in E. destruct E as (s & E1 & E). injection E as <- <-.
  assert (I0 : linv [] [] [] 0 (mkbst prv [0] 0 b)).
  { constructor; cbn [bs_prv bs_ptrs bs_pointer bs_sab]; try constructor; try reflexivity; try apply N.le_0_l. cbn [foldM]. rewrite EB. reflexivity. }
  destruct (linv_fold cur _ _ _ _ _ _ I0 F E1) as (at_ & ids & c & [I1 I2 I3 I4 I5 I6 I7 I8 I9]). cbn [app] in *. exists at_, ids. split; [exact I1|]. split; [exact I3|]. split; [exact I4|]. split; [|exact I9].
  rewrite I7, I8, (F2_len _ _ _ I3), below_grow by exact I2. do 2 f_equal. rewrite I5, skipn_length. unfold lenN in *. lia.
Qed.
End Level.
