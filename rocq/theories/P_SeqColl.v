From Verif Require Import Prelude BitFacts M_Word P_Word M_Bits Spec P_Bits P_Builder M_CompactVector P_CompactVector P_MphTables M_Text P_Text2 M_SeqColl.
From Coq Require Import Permutation Sorting.Sorted.

(** pushing vs into a builder of width ceil_log2(M+1) *)
Lemma cv_push_holds vs M : lenN vs * 64 + 64 < 2 ^ 64 -> M < 2 ^ 64 - 1 -> Forall (fun v => v <= M) vs ->
  exists b b', cvb_new (lenN vs) (ceil_log2 (add64 M 1)) = Ok b /\ foldM cvb_push_back vs b = Ok b' /\ cv_holds (cv_of_builder b') vs.
Proof.
  intros Hn ML HF. rewrite add64_small by lia.
  destruct (N.eq_dec M 0) as [E0|E0].
  - rewrite E0. change (ceil_log2 (0 + 1)) with 0. unfold cvb_new.
    change (cv_width 0) with 1. change (64 <? 1) with false. cbn iota.
    rewrite mul64_small by lia. rewrite N.mul_1_r.
    assert (Z : Forall (fun v => v = 0) vs).
    { eapply Forall_impl; [|exact HF]. intros v Hv. cbn in Hv. lia. }
    pose proof (words_for_ge (lenN vs)).
    eexists.
    edestruct (push_zero_w0 vs (mkcvb (lenN vs) 1 (width_mask 0 0) 0 0 0 (repN 0 (words_for (lenN vs)))) 0) as (b' & E & R1 & R2 & R3 & R4 & R5);
      cbn [cb_width cb_mask cb_bits cb_size]; auto.
    + apply words_rep, pow2_pos.
    + rewrite lenN_rep. unfold words_for. dlia.
    + split; reflexivity.
    + rewrite lenN_rep. lia.
    + apply wval_rep0.
    + exists b'. split; [reflexivity|]. split; [exact E|]. exists 1, 0.
      cbn [cb_size cb_width cb_bits] in *. rewrite lenN_rep in R4. split.
      * unfold cv_of_builder. rewrite R2. repeat split; cbn [c_size c_width c_mask c_bits]; auto; try lia.
        rewrite R4. f_equal. lia.
      * intros i Hi. destruct (nthN_Some vs i Hi) as (v & Ev). rewrite Ev.
        rewrite Forall_forall in Z. rewrite (Z v) by (eapply nthN_In; eauto).
        unfold slot, field. rewrite N.div_0_l by (apply N.pow_nonzero; lia). reflexivity.
  - assert (W : 0 < ceil_log2 (M + 1) <= 64).
    { split.
      - destruct (N.eq_dec (ceil_log2 (M + 1)) 0) as [E|]; [|lia].
        pose proof (proj1 (ceil_log2_spec (M + 1) 0)). rewrite E in H. change (2 ^ 0) with 1 in H. lia.
      - apply ceil_log2_spec. lia. }
    assert (HW : M + 1 <= 2 ^ ceil_log2 (M + 1)) by (apply ceil_log2_spec; lia).
    destruct (cv_fill_roundtrip vs (ceil_log2 (M + 1)) W) as (b & V & E & R & S).
    + nia.
    + eapply Forall_impl; [|exact HF]. intros v Hv. cbn in Hv. lia.
    + destruct (cvb_new (lenN vs) (ceil_log2 (M + 1))) as [b0| |] eqn:E1; try discriminate. cbn [bind] in *.
      exists b0, b. split; [reflexivity|].
      assert (B0 : cb_width b0 <> 0).
      { unfold cvb_new in E1. unfold cv_width in E1. destruct (ceil_log2 (M + 1) =? 0) eqn:Z; [apply N.eqb_eq in Z; lia|].
        destruct (64 <? ceil_log2 (M + 1)); [discriminate|]. injection E1 as <-. cbn [cb_width]. lia. }
      unfold cvb_fill in E. destruct (N.eqb_spec (cb_width b0) 0); [contradiction|]. split; [exact E|].
      pose proof (cv_of_builder_rep _ _ _ _ R) as R'. exists (ceil_log2 (M + 1)), V. split; assumption.
Qed.

(** insertion sort on distinct first components *)
Lemma insert_fst_perm p l : Permutation (insert_fst p l) (p :: l).
Proof.
  induction l as [|q l IH]; cbn [insert_fst]; [reflexivity|]. destruct (fst p <? fst q); [reflexivity|].
  rewrite IH. apply perm_swap.
Qed.
Lemma sort_fst_perm l : Permutation (sort_fst l) l.
Proof. induction l as [|p l IH]; [reflexivity|]. cbn [sort_fst fold_right]. fold (sort_fst l). rewrite insert_fst_perm, IH. reflexivity. Qed.
Definition ltf (a b : N * N) : Prop := fst a < fst b.
Lemma insert_fst_sorted p l : ~ In (fst p) (map fst l) -> StronglySorted ltf l -> StronglySorted ltf (insert_fst p l).
Proof.
  intros HN HS. induction HS as [|q l HS IH HF]; cbn [insert_fst]; [repeat constructor|].
  cbn [map In] in HN. destruct (N.ltb_spec (fst p) (fst q)).
  - constructor; [constructor; assumption|]. constructor; [assumption|]. eapply Forall_impl; [|exact HF]. unfold ltf. intros; lia.
  - constructor; [apply IH; auto|]. apply (Permutation_Forall (Permutation_sym (insert_fst_perm p l))). constructor; [|assumption].
    unfold ltf. assert (fst p <> fst q) by auto. lia.
Qed.
Lemma sort_fst_sorted l : NoDup (map fst l) -> StronglySorted ltf (sort_fst l).
Proof.
  induction l as [|p l IH]; intros ND; [constructor|]. cbn [map] in ND. inversion ND; subst. cbn [sort_fst fold_right]. fold (sort_fst l).
  apply insert_fst_sorted; [|auto]. intros HI. apply (Permutation_in _ (Permutation_map fst (sort_fst_perm l))) in HI. contradiction.
Qed.
Lemma ss_nthN {A} (R : A -> A -> Prop) l : StronglySorted R l -> forall i j a b, i < j -> nthN l i = Some a -> nthN l j = Some b -> R a b.
Proof.
  induction 1 as [|x l S IH F]; intros i j a b Hij Ha Hb; [unfold nthN in Ha; destruct (N.to_nat i); discriminate|].
  rewrite nthN_cons in Hb. destruct (N.eqb_spec j 0) as [->|]; [lia|]. rewrite nthN_cons in Ha. destruct (N.eqb_spec i 0) as [->|].
  - injection Ha as ->. apply nthN_In in Hb. rewrite Forall_forall in F. apply F. assumption.
  - apply (IH (i - 1) (j - 1)); [lia|assumption|assumption].
Qed.
Lemma sort_fst_strict l : NoDup (map fst l) -> strictly_sorted (sort_fst l).
Proof. intros H. exact (ss_nthN _ _ (sort_fst_sorted l H)). Qed.

Lemma NoDup_app_comm_ {A} (l : list A) x : NoDup l -> ~ In x l -> NoDup (l ++ [x]).
Proof.
  intros H HN. apply (Permutation_NoDup (Permutation_cons_append l x)). constructor; assumption.
Qed.
(** the map after eating a list of values: the distinct values with their frequencies *)
Definition freq (v : N) (vs : list N) : N := lenN (filter (N.eqb v) vs).
Definition fmap_ok (m : list (N * N)) (vs : list N) : Prop :=
  NoDup (map fst m) /\ forall v f, In (v, f) m <-> In v vs /\ f = freq v vs.
Lemma freq_snoc v vs x : freq v (vs ++ [x]) = freq v vs + (if v =? x then 1 else 0).
Proof.
  unfold freq. rewrite filter_app, lenN_app. cbn [filter]. destruct (v =? x); reflexivity.
Qed.
Lemma freq_notin v vs : ~ In v vs -> freq v vs = 0.
Proof.
  unfold freq. induction vs as [|x vs IH]; intros H; [reflexivity|]. cbn [filter]. destruct (N.eqb_spec v x) as [->|]; [exfalso; apply H; left; reflexivity|].
  apply IH. intros K. apply H. right. assumption.
Qed.
Lemma eat_value_ok m vs x : fmap_ok m vs -> fmap_ok (eat_value m x) (vs ++ [x]).
Proof.
  intros [ND HM]. unfold eat_value. destruct (existsb (fun p => fst p =? x) m) eqn:E.
  - apply existsb_exists in E. destruct E as ([y f] & HI & E). cbn [fst] in E. apply N.eqb_eq in E. subst y. split.
    + rewrite map_map. replace (map (fun p => fst (if fst p =? x then (fst p, snd p + 1) else p)) m) with (map fst m); [assumption|].
      apply map_ext. intros p. destruct (fst p =? x); reflexivity.
    + intros v g. rewrite in_map_iff. split.
      * intros ([y k] & EQ & HI2). cbn [fst snd] in EQ. apply HM in HI2. destruct HI2 as [H1 ->].
        destruct (N.eqb_spec y x) as [E|]; injection EQ as <- <-; rewrite freq_snoc.
        -- rewrite E, N.eqb_refl. rewrite E in H1. split; [apply in_or_app; left; assumption|reflexivity].
        -- destruct (N.eqb_spec y x); [contradiction|]. split; [apply in_or_app; left; assumption|lia].
      * intros [H1 ->]. exists (v, freq v vs). assert (H2 : In v vs).
        { apply in_app_or in H1. destruct H1 as [|[->|[]]]; [assumption|]. apply HM in HI. apply HI. }
        cbn [fst snd]. rewrite freq_snoc. split; [|apply HM; auto]. destruct (v =? x); [reflexivity|]. rewrite N.add_0_r. reflexivity.
  - assert (HN : ~ In x vs).
    { intros HI. assert (In (x, freq x vs) m) by (apply HM; auto). rewrite <- not_true_iff_false in E. apply E. apply existsb_exists.
      exists (x, freq x vs). split; [assumption|apply N.eqb_refl]. }
    split.
    + rewrite map_app. cbn [map fst]. apply NoDup_app_comm_. assumption. intros HI. apply in_map_iff in HI. destruct HI as ([y f] & EQ & HI).
      cbn [fst] in EQ. subst y. apply HM in HI. apply HN. apply HI.
    + intros v f. rewrite in_app_iff, in_app_iff, freq_snoc. cbn [In]. split.
      * intros [HI|[HI|[]]].
        -- apply HM in HI. destruct HI as [H1 ->]. destruct (N.eqb_spec v x) as [->|]; [contradiction|]. split; [auto|lia].
        -- injection HI as <- <-. rewrite N.eqb_refl, freq_notin by assumption. auto.
      * intros [[H1|[->|[]]] ->].
        -- left. destruct (N.eqb_spec v x) as [->|]; [contradiction|]. rewrite N.add_0_r. apply HM. auto.
        -- right. left. rewrite N.eqb_refl, freq_notin by assumption. reflexivity.
Qed.

Lemma eat_all_ok vs : fmap_ok (fold_left eat_value vs []) vs.
Proof.
  assert (G : forall b a m, fmap_ok m a -> fmap_ok (fold_left eat_value b m) (a ++ b)).
  { induction b as [|x b IH]; intros a m H; cbn [fold_left]; [rewrite app_nil_r; assumption|].
    replace (a ++ x :: b) with ((a ++ [x]) ++ b) by (rewrite <- app_assoc; reflexivity). apply IH. apply eat_value_ok. assumption. }
  apply (G vs [] []). split; [constructor|]. intros v f. split; [intros []|intros [[] _]].
Qed.

(** what one dictionary of the collection knows about its values *)
Definition dict_ok (pairs : list (N * N)) (c : cv) (vs : list N) (sorted : list (N * N)) : Prop :=
  cv_holds c (map fst sorted) /\ NoDup (map fst sorted) /\ (forall v, In v (map fst sorted) <-> In v vs) /\ strictly_sorted pairs /\ Permutation pairs (combine (map fst sorted) (range (lenN sorted))).

Lemma fold_max_fst m : forall x, fold_left (fun x (v : N * N) => if x <? fst v then fst v else x) m x =
  fold_left (fun x v => if x <? v then v else x) (map fst m) x.
Proof. induction m as [|a m IH]; intros x; [reflexivity|]. cbn [fold_left map]. apply IH. Qed.

Lemma map_fst_combine {A B} (a : list A) (b : list B) : length a = length b -> map fst (combine a b) = a.
Proof. revert b. induction a as [|x a IH]; intros [|y b] H; cbn in *; try discriminate; [reflexivity|]. f_equal. apply IH. lia. Qed.

Lemma sc_add_ok b vs sorted : vs <> [] -> lenN vs < 2 ^ 57 -> Forall (fun v => v < 2 ^ 64 - 1) vs ->
  Permutation sorted (fold_left eat_value vs []) ->
  exists pairs c, sc_add b vs sorted = Ok (mkscb (sb_pairs b ++ [pairs]) (sb_seqs b ++ [c])) /\ dict_ok pairs c vs sorted.
Proof.
  intros NE HL HF HP. unfold sc_add. pose proof (eat_all_ok vs) as [ND HM]. set (m := fold_left eat_value vs []) in *.
  assert (HIN : forall v, In v (map fst m) <-> In v vs).
  { intros v. rewrite in_map_iff. split.
    - intros ([y f] & <- & HI). apply HM in HI. apply HI.
    - intros HI. exists (v, freq v vs). split; [reflexivity|]. apply HM. auto. }
  assert (HS : forall v, In v (map fst sorted) <-> In v vs).
  { intros v. rewrite <- HIN. split; apply Permutation_in; [|apply Permutation_sym]; apply Permutation_map; assumption. }
  assert (NDS : NoDup (map fst sorted)) by (eapply Permutation_NoDup; [apply Permutation_sym, Permutation_map; exact HP|assumption]).
  assert (LE : (length m <= length vs)%nat).
  { rewrite <- (map_length fst m). apply NoDup_incl_length; [assumption|]. intros v Hv. apply HIN. assumption. }
  assert (LS : lenN sorted = lenN m) by (unfold lenN; f_equal; apply Permutation_length; assumption).
  unfold sc_build_sequence. destruct m as [|p0 m'] eqn:Em.
  { exfalso. destruct vs as [|v vs]; [congruence|]. apply (proj2 (HIN v)). left. reflexivity. }
  rewrite <- Em in *. rewrite fold_max_fst. set (M := fold_left _ _ _).
  assert (ML : M < 2 ^ 64 - 1).
  { apply maxN_lt; [lia|]. apply Forall_forall. intros v Hv. apply HIN in Hv. rewrite Forall_forall in HF. apply HF. assumption. }
  destruct (cv_push_holds (map fst sorted) M) as (c0 & c1 & E0 & E1 & HC).
  - unfold lenN in *. rewrite map_length. lia.
  - assumption.
  - apply Forall_forall. intros v Hv. apply maxN_ge. apply (Permutation_in _ (Permutation_map fst HP)). assumption.
  - assert (LM : lenN (map fst sorted) = lenN m) by (rewrite <- LS; unfold lenN; rewrite map_length; reflexivity).
    rewrite LM in E0. rewrite E0. cbn [bind]. rewrite E1. cbn [bind]. eexists _, _. split; [reflexivity|].
    split; [exact HC|]. split; [assumption|]. split; [assumption|]. rewrite LS.
    assert (LR : length (map fst sorted) = length (range (lenN m))).
    { unfold range. rewrite length_seqN. unfold lenN in *. lia. }
    split; [|apply sort_fst_perm]. apply sort_fst_strict. rewrite map_fst_combine by assumption. assumption.
Qed.

Lemma nthN_combine_range {A} (l : list A) i a : In (a, i) (combine l (range (lenN l))) <-> nthN l i = Some a.
Proof.
  unfold range, lenN. rewrite Nat2N.id.
  assert (G : forall (l : list A) s, In (a, i) (combine l (seqN s (length l))) <-> s <= i /\ nthN l (i - s) = Some a).
  { clear l. induction l as [|x l IH]; intros s; cbn [length seqN combine In].
    - split; [intros []|]. intros [_ H]. unfold nthN in H. destruct (N.to_nat (i - s)); discriminate.
    - rewrite IH. rewrite nthN_cons. split.
      + intros [H|[H1 H2]].
        * injection H as -> ->. rewrite N.sub_diag. split; [lia|reflexivity].
        * destruct (N.eqb_spec (i - s) 0); [lia|]. split; [lia|]. rewrite <- H2. f_equal. lia.
      + intros [H1 H2]. destruct (N.eqb_spec (i - s) 0).
        * left. injection H2 as ->. f_equal. lia.
        * right. split; [lia|]. rewrite <- H2. f_equal. lia. }
  rewrite G, N.sub_0_r. split; [intros [_ H]; exact H|]. intros H. split; [lia|exact H].
Qed.

(** rank and access of one dictionary *)
Lemma dict_rank pairs c vs sorted v : dict_ok pairs c vs sorted -> lenN vs < 2 ^ 57 -> In v vs ->
  exists r, binary_search pairs (lenN pairs) v = Ok (Some r) /\ nthN (map fst sorted) r = Some v /\ r < lenN sorted /\ cv_get c r = Ok v.
Proof.
  intros (HC & ND & HIN & SS & PP) HL Hv.
  assert (LE : (length sorted <= length vs)%nat).
  { rewrite <- (map_length fst sorted). apply NoDup_incl_length; [assumption|]. intros x Hx. apply HIN. assumption. }
  assert (LM : lenN (map fst sorted) = lenN sorted) by (unfold lenN; rewrite map_length; reflexivity).
  apply HIN in Hv. apply In_nth_error in Hv. destruct Hv as (k & Hk).
  assert (Hr : nthN (map fst sorted) (N.of_nat k) = Some v) by (unfold nthN; rewrite Nat2N.id; assumption).
  assert (HI : In (v, N.of_nat k) pairs).
  { apply (Permutation_in _ (Permutation_sym PP)). rewrite <- LM. apply nthN_combine_range. assumption. }
  assert (LP : (length pairs <= length sorted)%nat).
  { apply Permutation_length in PP. rewrite combine_length, map_length in PP. lia. }
  destruct (binary_search_ok pairs v) as (r & E & Hr2).
  - unfold lenN in *. lia.
  - assumption.
  - destruct pairs as [|p0 ps]; [destruct HI|]. exists p0. split; [reflexivity|]. destruct HI as [->|HI]; [cbn [fst]; lia|].
    apply In_nth_error in HI. destruct HI as (j & Hj). pose proof (SS 0 (N.of_nat (S j)) p0 (v, N.of_nat k)) as S0. cbn [fst] in S0.
    assert (fst p0 < v); [|lia]. apply S0; [lia|reflexivity|]. unfold nthN. rewrite Nat2N.id. exact Hj.
  - rewrite E. destruct r as [r|].
    + exists r. split; [reflexivity|]. apply (Permutation_in _ PP) in Hr2. rewrite <- LM in Hr2. apply nthN_combine_range in Hr2.
      split; [assumption|]. split; [rewrite <- LM; eapply nthN_lt; eauto|]. eapply cv_holds_get; eauto.
    + exfalso. apply Hr2. apply in_map_iff. exists (v, N.of_nat k). auto.
Qed.

Lemma sc_add_all_ok : forall vss sorts b, Forall (fun vs => vs <> [] /\ lenN vs < 2 ^ 57 /\ Forall (fun v => v < 2 ^ 64 - 1) vs) vss ->
  Forall2 (fun vs s => Permutation s (fold_left eat_value vs [])) vss sorts ->
  exists ps cs, sc_add_all b vss sorts = Ok (mkscb (sb_pairs b ++ ps) (sb_seqs b ++ cs)) /\ length ps = length vss /\ length cs = length vss /\
    forall o vs s p c, nthN vss o = Some vs -> nthN sorts o = Some s -> nthN ps o = Some p -> nthN cs o = Some c -> dict_ok p c vs s.
Proof.
  induction vss as [|vs vss IH]; intros sorts b HF H2.
  - inversion H2; subst. exists [], []. rewrite !app_nil_r. split; [destruct b; reflexivity|]. split; [reflexivity|]. split; [reflexivity|].
    intros o vs s p c H. unfold nthN in H. destruct (N.to_nat o); discriminate.
  - inversion H2 as [|? s ? sorts' HP H2']; subst. inversion HF as [|? ? (A1 & A2 & A3) HF']; subst.
    destruct (sc_add_ok b vs s A1 A2 A3 HP) as (p & c & E & D). cbn [sc_add_all]. rewrite E. cbn [bind].
    destruct (IH sorts' (mkscb (sb_pairs b ++ [p]) (sb_seqs b ++ [c])) HF' H2') as (ps & cs & E2 & L1 & L2 & R).
    exists (p :: ps), (c :: cs). rewrite E2. cbn [sb_pairs sb_seqs]. rewrite <- !app_assoc. cbn [app length].
    split; [reflexivity|]. split; [lia|]. split; [lia|]. intros o vs1 s1 p1 c1 Q1 Q2 Q3 Q4. 
    rewrite nthN_cons in Q1. rewrite nthN_cons in Q2. rewrite nthN_cons in Q3. rewrite nthN_cons in Q4.
    destruct (o =? 0); [injection Q1 as <-; injection Q2 as <-; injection Q3 as <-; injection Q4 as <-; exact D|]. eapply R; eauto.
Qed.

(** the independent description of the map's content *)
Definition with_freq (vs : list N) : list (N * N) := map (fun v => (v, freq v vs)) (nodup N.eq_dec vs).
Lemma eat_with_freq vs : Permutation (with_freq vs) (fold_left eat_value vs []).
Proof.
  destruct (eat_all_ok vs) as [ND HM]. apply NoDup_Permutation.
  - unfold with_freq. apply FinFun.Injective_map_NoDup; [intros a b E; congruence|apply NoDup_nodup].
  - apply (NoDup_map_inv fst). assumption.
  - intros [v f]. rewrite HM. unfold with_freq. rewrite in_map_iff. split.
    + intros (w & E & HI). injection E as <- <-. apply nodup_In in HI. auto.
    + intros [HI ->]. exists v. split; [reflexivity|]. apply nodup_In. assumption.
Qed.
Lemma lenN_with_freq vs s : Permutation s (with_freq vs) -> lenN s = lenN (nodup N.eq_dec vs).
Proof. intros H. unfold lenN. f_equal. apply Permutation_length in H. rewrite H. unfold with_freq. apply map_length. Qed.

Lemma dict_absent pairs c vs sorted v : dict_ok pairs c vs sorted -> lenN vs < 2 ^ 57 -> ~ In v vs -> (exists u, In u vs /\ u < v) ->
  binary_search pairs (lenN pairs) v = Ok None.
Proof.
  intros (HC & ND & HIN & SS & PP) HL Hv (u & Hu & Hlt).
  assert (LE : (length sorted <= length vs)%nat).
  { rewrite <- (map_length fst sorted). apply NoDup_incl_length; [assumption|]. intros x Hx. apply HIN. assumption. }
  assert (MP : Permutation (map fst pairs) (map fst sorted)).
  { apply (Permutation_map fst) in PP. rewrite map_fst_combine in PP; [assumption|]. unfold range. rewrite length_seqN, map_length. unfold lenN. lia. }
  assert (LP : length pairs = length sorted) by (apply Permutation_length in MP; rewrite !map_length in MP; assumption).
  destruct (binary_search_ok pairs v) as (r & E & Hr2).
  - unfold lenN in *. lia.
  - assumption.
  - destruct pairs as [|p0 ps].
    + exfalso. apply HIN in Hu. apply (Permutation_in _ (Permutation_sym MP)) in Hu. destruct Hu.
    + exists p0. split; [reflexivity|]. apply HIN in Hu. apply (Permutation_in _ (Permutation_sym MP)) in Hu. cbn [map In] in Hu. destruct Hu as [->|Hu]; [lia|].
      apply in_map_iff in Hu. destruct Hu as ([u' k] & EQ & HI). cbn [fst] in EQ. subst u'.
      apply In_nth_error in HI. destruct HI as (j & Hj). pose proof (SS 0 (N.of_nat (S j)) p0 (u, k)) as S0. cbn [fst] in S0.
      assert (fst p0 < u); [|lia]. apply S0; [lia|reflexivity|]. unfold nthN. rewrite Nat2N.id. exact Hj.
  - rewrite E. destruct r as [r|]; [|reflexivity]. exfalso. apply Hv. apply HIN. apply (Permutation_in _ MP). apply in_map_iff. exists (v, r). auto.
Qed.
Lemma Forall2_len {A B} (R : A -> B -> Prop) l l' : Forall2 R l l' -> length l = length l'.
Proof. induction 1; cbn; congruence. Qed.
