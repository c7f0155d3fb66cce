(** * Proofs about fast_ef_sequence: build and find *)
From Verif Require Import Prelude BitFacts M_Word P_Word M_Bits Spec P_Bits P_Builder P_Cursor P_BitProg
  M_CompactVector P_CompactVector M_DArray P_DArray M_EF P_EF P_EF2 M_HashVec M_Mph P_Mph P_MphTables M_FastEF P_FastEF P_FastEF2.
From Coq Require Import Permutation.

Lemma nthN_nil {A} i : nthN (@nil A) i = None.
Proof. unfold nthN. destruct (N.to_nat i); reflexivity. Qed.

(** ** pointers *)
Lemma ptrs_le ptrs n i j x y : pointers_for ptrs n -> i <= j -> nthN ptrs i = Some x -> nthN ptrs j = Some y -> x <= y.
Proof. intros (_ & _ & _ & S). apply (sortedN_le ptrs S). Qed.
Lemma ptrs_le_n ptrs n i x : pointers_for ptrs n -> nthN ptrs i = Some x -> x <= n.
Proof. intros P H. pose proof (nthN_lt _ _ _ H). pose proof P as (_ & _ & L & _). apply (ptrs_le ptrs n i (lenN ptrs - 1)); auto. lia. Qed.
Lemma range_unique ptrs n b e b' e' k : pointers_for ptrs n -> is_range ptrs b e -> is_range ptrs b' e' ->
  b <= k < e -> b' <= k < e' -> b = b' /\ e = e'.
Proof.
  intros P (j & J1 & J2) (j' & J1' & J2') H H'. assert (j = j').
  { destruct (N.lt_trichotomy j j') as [L|[E|L]]; [|assumption|].
    - pose proof (ptrs_le ptrs n (j + 1) j' e b' P ltac:(lia) J2 J1'). lia.
    - pose proof (ptrs_le ptrs n (j' + 1) j e' b P ltac:(lia) J2' J1). lia. }
  subst j'. split; congruence.
Qed.

Lemma combine_app {A B} (l1 l2 : list A) (r1 r2 : list B) : length l1 = length r1 -> combine (l1 ++ l2) (r1 ++ r2) = combine l1 r1 ++ combine l2 r2.
Proof. revert r1. induction l1 as [|a l1 IH]; intros [|b r1] H; cbn in *; try discriminate; [reflexivity|]. f_equal. apply IH. lia. Qed.

(** ** the sampling trees of all long ranges *)
Definition sinv (vs : list N) (done : list (N * N)) (s : N * list N * list N * list N) : Prop :=
  let '(b, from, to, samp) := s in
  from = map fst (filter (fun r => 128 <=? snd r - fst r) done) /\ length from = length to /\ lenN from <= lenN samp <= b /\
  (to = [] \/ exists back, nthN to (lenN to - 1) = Some back /\ Forall (fun t => t <= back) to /\ back <= lenN samp) /\
  forall lo hi, In (lo, hi) done -> 128 <= hi - lo -> exists base, In (lo, base) (combine from to) /\
    tree_at vs samp base lo hi /\ base + 2 ^ height (hi - lo) <= lenN samp.

Lemma samp_step_ok vs done b from to samp e : sinv vs done (b, from, to, samp) -> b <= e -> e <= lenN vs -> lenN vs < 2 ^ 56 ->
  exists s', samp_step vs (b, from, to, samp) e = Ok s' /\ sinv vs (done ++ [(b, e)]) s' /\ fst (fst (fst s')) = e.
Proof.
  intros (I1 & I2 & I3 & I4 & I5) Hbe He Hn. unfold samp_step. rewrite sub64_small by lia. unfold sampling_threshold.
  destruct (N.leb_spec 128 (e - b)) as [L|L].
  - destruct (height_ok (e - b) L ltac:(lia)) as (HH & HA & HB). rewrite HH.
    assert (PR : (if b =? 0 then Ok 0 else rd vs (sub64 b 1)) = Ok (pv vs b)).
    { unfold pv. destruct (N.eqb_spec b 0); [reflexivity|]. rewrite sub64_small by lia.
      destruct (nthN_Some vs (b - 1) ltac:(lia)) as (x & Hx). rewrite Hx. apply rd_nthN. assumption. }
    rewrite PR. cbn [bind].
    destruct (fill_samplings_ok vs (samp ++ [pv vs b]) b e L He ltac:(lia)) as (samp' & E & S1 & S2 & S3). rewrite E. cbn [bind].
    rewrite lenN_app in S1, S2, S3. change (lenN [pv vs b]) with 1 in *.
    assert (PH : 64 * 2 ^ height (e - b) < e - b).
    { replace (64 * 2 ^ height (e - b)) with (2 ^ (6 + height (e - b))); [assumption|]. rewrite N.pow_add_r. reflexivity. }
    eexists. split; [reflexivity|]. split; [|reflexivity]. unfold sinv. split; [|split; [|split; [|split]]].
    + rewrite filter_app, map_app, <- I1. cbn [filter fst snd]. destruct (N.leb_spec 128 (e - b)); [reflexivity|lia].
    + rewrite !app_length. cbn [length]. lia.
    + rewrite lenN_app. change (lenN [b]) with 1. lia.
    + right. exists (lenN samp). split; [|split].
      * rewrite lenN_app. change (lenN [lenN samp]) with 1. rewrite nthN_app2 by lia. replace (lenN to + 1 - 1 - lenN to) with 0 by lia. reflexivity.
      * apply Forall_app. split; [|constructor; [lia|constructor]]. destruct I4 as [->|(back & _ & F & Hb)]; [constructor|].
        eapply Forall_impl; [|exact F]. intros t Ht. cbn in Ht. lia.
      * lia.
    + intros lo hi HI Hl. rewrite combine_app by assumption. cbn [combine]. apply in_app_or in HI. destruct HI as [HI|[HI|[]]].
      * destruct (I5 lo hi HI Hl) as (base & B1 & (B2 & B3) & B4). exists base. split; [apply in_or_app; left; assumption|].
        assert (KEEP : forall k, k < lenN samp -> nthN samp' k = nthN samp k).
        { intros k Hk. rewrite S2 by lia. apply nthN_app1. assumption. }
        split; [|lia]. pose proof (pow2_pos (height (hi - lo))). split.
        -- rewrite KEEP by lia. assumption.
        -- intros i Hi. rewrite KEEP by lia. apply B3. assumption.
      * injection HI as <- <-. exists (lenN samp). split; [apply in_or_app; right; left; reflexivity|]. split; [|lia]. split.
        -- rewrite S2 by lia. rewrite nthN_app2 by lia. rewrite N.sub_diag. reflexivity.
        -- intros i Hi. rewrite <- S3 by assumption. f_equal. lia.
  - eexists. split; [reflexivity|]. split; [|reflexivity]. unfold sinv. split; [|split; [|split; [|split]]].
    + rewrite filter_app, map_app, <- I1. cbn [filter fst snd]. destruct (N.leb_spec 128 (e - b)); [lia|]. cbn [map]. rewrite app_nil_r. reflexivity.
    + assumption.
    + lia.
    + assumption.
    + intros lo hi HI Hl. apply in_app_or in HI. destruct HI as [HI|[HI|[]]]; [apply I5; assumption|]. injection HI as <- <-. lia.
Qed.
Lemma samp_steps_ok vs : lenN vs < 2 ^ 56 -> forall rest done b from to samp, sinv vs done (b, from, to, samp) ->
  sortedN (b :: rest) -> Forall (fun p => p <= lenN vs) rest ->
  exists s', foldM (samp_step vs) rest (b, from, to, samp) = Ok s' /\ sinv vs (done ++ combine (b :: rest) rest) s'.
Proof.
  intros Hn. induction rest as [|e rest IH]; intros done b from to samp I S F.
  - eexists. split; [reflexivity|]. cbn [combine]. rewrite app_nil_r. exact I.
  - inversion F as [|? ? F1 F2]; subst. assert (b <= e) by (apply (S 0); reflexivity).
    destruct (samp_step_ok vs done b from to samp e I H F1 Hn) as ([[[b' from'] to'] samp'] & E & I' & EE). cbn [fst] in EE. subst b'.
    cbn [foldM]. rewrite E. cbn [bind]. destruct (IH _ _ _ _ _ I') as (s2 & E2 & I2).
    + intros i x y Hx Hy. apply (S (i + 1)); rewrite nthN_cons; destruct (N.eqb_spec (i + 1) 0); try lia.
      * replace (i + 1 - 1) with i by lia. assumption.
      * destruct (N.eqb_spec (i + 1 + 1) 0); [lia|]. replace (i + 1 + 1 - 1) with (i + 1) by lia. assumption.
    + assumption.
    + exists s2. split; [exact E2|]. rewrite <- app_assoc in I2. exact I2.
Qed.
Lemma In_ranges ptrs b e : is_range ptrs b e <-> In (b, e) (combine ptrs (tl ptrs)).
Proof.
  split.
  - intros (j & J1 & J2). destruct ptrs as [|p0 rest]; [rewrite nthN_nil in J1; discriminate|]. cbn [tl].
    rewrite nthN_cons in J2. destruct (N.eqb_spec (j + 1) 0); [lia|]. replace (j + 1 - 1) with j in J2 by lia. clear n.
    assert (G : forall l l' : list N, forall j, nthN l j = Some b -> nthN l' j = Some e -> In (b, e) (combine l l')).
    { clear. induction l as [|x l IH]; intros l' j H1 H2; [rewrite nthN_nil in H1; discriminate|].
      destruct l' as [|y l']; [rewrite nthN_nil in H2; discriminate|]. rewrite nthN_cons in H1, H2. cbn [combine].
      destruct (N.eqb_spec j 0); [left; congruence|right; eapply IH; eauto]. }
    eapply G; eauto.
  - intros H. apply In_nth_error in H. destruct H as (k & Hk). exists (N.of_nat k).
    assert (G : forall (l l' : list N) k, nth_error (combine l l') k = Some (b, e) -> nth_error l k = Some b /\ nth_error l' k = Some e).
    { clear. induction l as [|x l IH]; intros l' k H; [destruct k; discriminate|]. destruct l' as [|y l']; [destruct k; discriminate|].
      destruct k as [|k]; [cbn in *; injection H as -> ->; auto|]. cbn in *. apply IH. assumption. }
    apply G in Hk. destruct Hk as (K1 & K2). split; [unfold nthN; rewrite Nat2N.id; assumption|].
    destruct ptrs as [|p0 rest]; [destruct k; discriminate|]. cbn [tl] in K2. rewrite nthN_cons.
    destruct (N.eqb_spec (N.of_nat k + 1) 0); [lia|]. replace (N.of_nat k + 1 - 1) with (N.of_nat k) by lia. unfold nthN. rewrite Nat2N.id. assumption.
Qed.

Theorem fef_samplings_ok h order vs ptrs : pointers_for ptrs (lenN vs) -> lenN vs < 2 ^ 56 ->
  (long_starts 128 ptrs = [] \/ valid_order (hash_domain (lenN (long_starts 128 ptrs))) h (long_starts 128 ptrs) order) ->
  exists off samp, fef_samplings h order vs ptrs = Ok (off, samp) /\
    forall b e, is_range ptrs b e -> 128 <= e - b -> exists t base, off = Some t /\ umpht_lookup h t b = Ok base /\
      tree_at vs samp base b e /\ base < 2 ^ 56.
Proof.
  intros P Hn HV. pose proof P as (P0 & P1 & P2 & P3). unfold fef_samplings.
  destruct ptrs as [|p0 rest]; [change (lenN (@nil N)) with 0 in P1; lia|]. assert (p0 = 0) as -> by (change (Some p0 = Some 0) in P0; congruence).
  destruct (samp_steps_ok vs Hn rest [] 0 [] [] []) as ([[[b' from] to] samp] & E & I1 & I2 & I3 & I4 & I5).
  - unfold sinv. cbn [filter map]. split; [reflexivity|]. split; [reflexivity|]. change (lenN (@nil N)) with 0. split; [lia|]. split; [left; reflexivity|]. intros lo hi [].
  - exact P3.
  - apply Forall_forall. intros p Hp. apply In_nth_error in Hp. destruct Hp as (k & Hk). apply (ptrs_le_n (0 :: rest) (lenN vs) (N.of_nat k + 1)); [assumption|].
    rewrite nthN_cons. destruct (N.eqb_spec (N.of_nat k + 1) 0); [lia|]. replace (N.of_nat k + 1 - 1) with (N.of_nat k) by lia. unfold nthN. rewrite Nat2N.id. assumption.
  - cbn [app] in *. rewrite E. cbn [bind]. change (map fst (filter _ _)) with (long_starts 128 (0 :: rest)) in I1. rewrite <- I1 in HV.
    assert (LS : lenN samp <= lenN vs).
    { assert (B : forall rest b f t s s', foldM (samp_step vs) rest (b, f, t, s) = Ok s' -> Forall (fun p => p <= lenN vs) (b :: rest) -> fst (fst (fst s')) <= lenN vs).
      { clear. induction rest as [|e rest IH]; intros b f t s s' H F; [cbn in H; injection H as <-; inversion F; assumption|].
        cbn [foldM] in H. inversion F as [|? ? _ F']; subst. destruct (samp_step vs (b, f, t, s) e) as [[[[b1 f1] t1] s1]| |] eqn:E; cbn [bind] in H; try discriminate.
        assert (b1 = e). { unfold samp_step in E. destruct (_ <=? _); [|congruence].
          destruct (if b =? 0 then _ else _); cbn [bind] in E; try discriminate. destruct (fill_samplings _ _ _ _ _); cbn [bind] in E; try discriminate. congruence. }
        subst b1. eapply IH; eauto. }
      specialize (B _ _ _ _ _ _ E). cbn [fst] in B. assert (b' <= lenN vs); [|lia]. apply B. apply Forall_forall. intros p Hp. apply In_nth_error in Hp. destruct Hp as (k & Hk).
      apply (ptrs_le_n (0 :: rest) (lenN vs) (N.of_nat k)); [assumption|]. unfold nthN. rewrite Nat2N.id. assumption. }
    destruct from as [|f0 from'].
    + cbn [bind]. eexists. eexists. split; [reflexivity|]. intros b e R L. apply In_ranges in R. destruct (I5 b e R L) as (base & B1 & _). destruct B1.
    + destruct HV as [HV|HV]; [discriminate|]. destruct I4 as [->|(back & J1 & J2 & J3)]; [discriminate|].
      set (from := f0 :: from') in *. assert (HD : 0 < hash_domain (lenN from)).
      { unfold hash_domain. assert (0 < lenN from) by (unfold from; rewrite lenN_cons; lia). dlia. }
      destruct (umpht_build_ok h (hash_domain (lenN from)) order from to back HD HV I2 J1 J2) as (t & Et & RT).
      * lia.
      * assert (lenN to = lenN from) by (unfold lenN; lia). lia.
      * rewrite Et. cbn [bind]. eexists. eexists. split; [reflexivity|]. intros b e R L. apply In_ranges in R. destruct (I5 b e R L) as (base & B1 & B2 & B3).
        exists t, base. split; [reflexivity|]. split; [eapply umpht_lookup_in; eauto|]. split; [assumption|]. pose proof (pow2_pos (height (e - b))). lia.
Qed.

(** ** the values *)
Lemma pv_app vs x i : i <= lenN vs -> pv (vs ++ [x]) i = pv vs i.
Proof. intros H. unfold pv. destruct (N.eqb_spec i 0); [reflexivity|]. rewrite nthN_app1 by lia. reflexivity. Qed.

Lemma next_run_ok ptrs n : pointers_for ptrs n -> n < 2 ^ 64 -> forall fuel pi e, nthN ptrs pi = Some e -> e < n ->
  (N.to_nat (lenN ptrs - pi) < fuel)%nat ->
  exists pi' e', next_run fuel ptrs pi e = Ok (pi', e, e', e' - e) /\ pi < pi' /\ nthN ptrs (pi' - 1) = Some e /\ nthN ptrs pi' = Some e' /\ e < e'.
Proof.
  intros P Hn. induction fuel as [|fuel IH]; intros pi e He Hen Hf; [lia|].
  pose proof (nthN_lt _ _ _ He). pose proof P as (_ & _ & PL & _).
  assert (pi + 1 < lenN ptrs).
  { destruct (N.eq_dec pi (lenN ptrs - 1)) as [->|]; [|lia]. rewrite PL in He. injection He as ->. lia. }
  destruct (nthN_Some ptrs (pi + 1) H0) as (e1 & He1). cbn [next_run]. rewrite (proj2 (rd_nthN _ _ _) He1). cbn [bind].
  assert (e <= e1) by (apply (ptrs_le ptrs n pi (pi + 1)); auto; lia).
  pose proof (ptrs_le_n ptrs n _ _ P He1). rewrite sub64_small by lia.
  destruct (N.eqb_spec (e1 - e) 0) as [Z|Z].
  - assert (e1 = e) as -> by lia. destruct (IH (pi + 1) e He1 Hen ltac:(lia)) as (pi' & e' & E & A & B & C & D).
    exists pi', e'. split; [exact E|]. split; [lia|]. auto.
  - exists (pi + 1), e1. split; [reflexivity|]. split; [lia|]. replace (pi + 1 - 1) with pi by lia. split; [assumption|]. split; [assumption|lia].
Qed.

Definition vinv (ptrs : list N) (M : N) (done : list N) (s : fbs) : Prop :=
  lenN (b_vals s) = lenN done /\ 1 <= b_pi s /\ nthN ptrs (b_pi s - 1) = Some (b_start s) /\ nthN ptrs (b_pi s) = Some (b_end s) /\
  b_start s <= lenN done <= b_end s /\ b_run s = b_end s - b_start s /\ b_within s = lenN done - b_start s /\
  b_prev s = pv (b_vals s) (b_start s) /\ b_prev s <= (b_pi s - 1) * M /\ Forall (fun v => v <= b_pi s * M) (b_vals s) /\
  forall k x, nthN (b_vals s) k = Some x -> exists id lo hi, nthN done k = Some id /\ is_range ptrs lo hi /\ lo <= k < hi /\ x = id + pv (b_vals s) lo.

Lemma fef_value_ok ptrs n M done s v : pointers_for ptrs n -> n < 2 ^ 64 -> vinv ptrs M done s -> lenN done < n -> v <= M -> lenN ptrs * M < 2 ^ 64 ->
  exists s', fef_value ptrs s v = Ok s' /\ vinv ptrs M (done ++ [v]) s'.
Proof.
  intros P Hn I Hd Hv HM. unfold fef_value.
  assert (ST : exists s1, (if b_within s =? b_run s then
          ' (pi, start, end_, run) <- next_run (S (length ptrs)) ptrs (b_pi s) (b_end s) ;;
          back <- (if lenN (b_vals s) =? 0 then Ok 0 else rd (b_vals s) (lenN (b_vals s) - 1)) ;;
          Ok (mkfbs (b_vals s) back pi start end_ run 0)
        else Ok s) = Ok s1 /\ vinv ptrs M done s1 /\ lenN done < b_end s1).
  { destruct I as (I1 & I2 & I3 & I4 & I5 & I6 & I7 & I8 & I9 & I10 & I11).
    destruct (N.eqb_spec (b_within s) (b_run s)) as [E|E].
    - assert (ED : b_end s = lenN done) by lia. rewrite ED in *.
      destruct (next_run_ok ptrs n P Hn (S (length ptrs)) (b_pi s) (lenN done) I4 Hd) as (pi' & e' & EN & A & B & C & D).
      { unfold lenN. lia. }
      rewrite EN. cbn [bind].
      assert (BK : (if lenN (b_vals s) =? 0 then Ok 0 else rd (b_vals s) (lenN (b_vals s) - 1)) = Ok (pv (b_vals s) (lenN done))).
      { unfold pv. rewrite I1. destruct (N.eqb_spec (lenN done) 0); [reflexivity|].
        destruct (nthN_Some (b_vals s) (lenN done - 1) ltac:(lia)) as (x & Hx). rewrite Hx. apply rd_nthN. assumption. }
      rewrite BK. cbn [bind]. eexists. split; [reflexivity|].
      assert (MM : b_pi s * M <= (pi' - 1) * M) by (apply N.mul_le_mono_r; lia).
      assert (MM' : (pi' - 1) * M <= pi' * M) by (apply N.mul_le_mono_r; lia).
      unfold vinv. cbn [b_vals b_prev b_pi b_start b_end b_run b_within].
      split; [|lia]. split; [assumption|]. split; [lia|]. split; [assumption|]. split; [assumption|]. split; [lia|]. split; [reflexivity|].
      split; [lia|]. split; [reflexivity|]. split; [|split; [|assumption]].
      + unfold pv. destruct (lenN done =? 0); [lia|]. destruct (nthN (b_vals s) (lenN done - 1)) as [x|] eqn:Hx; [|lia].
        pose proof (Forall_nthN _ _ _ _ I10 Hx) as Hb. cbn in Hb. lia.
      + eapply Forall_impl; [|exact I10]. intros a Ha. cbn in Ha. lia.
    - exists s. split; [reflexivity|]. split; [|lia]. unfold vinv. auto 12. }
  destruct ST as (s1 & E1 & I1' & HE). rewrite E1. cbn [bind]. clear E1 I s.
  destruct I1' as (I1 & I2 & I3 & I4 & I5 & I6 & I7 & I8 & I9 & I10 & I11).
  pose proof (nthN_lt _ _ _ I4) as HP.
  assert (MB : v + b_prev s1 <= b_pi s1 * M).
  { replace (b_pi s1 * M) with ((b_pi s1 - 1) * M + M); [lia|]. replace (b_pi s1) with (b_pi s1 - 1 + 1) at 2 by lia. lia. }
  assert (MB2 : b_pi s1 * M <= lenN ptrs * M) by (apply N.mul_le_mono_r; lia).
  rewrite add64_small by lia. eexists. split; [reflexivity|]. unfold vinv. cbn [b_vals b_prev b_pi b_start b_end b_run b_within].
  rewrite !lenN_app. change (lenN [v]) with 1. change (lenN [v + b_prev s1]) with 1.
  split; [lia|]. split; [assumption|]. split; [assumption|]. split; [assumption|]. split; [lia|]. split; [assumption|]. split; [lia|].
  split; [rewrite pv_app by lia; assumption|]. split; [assumption|]. split; [apply Forall_app; split; [assumption|repeat constructor; assumption]|].
  intros k x Hx. destruct (N.eq_dec k (lenN (b_vals s1))) as [->|NK].
  - rewrite nthN_app2 in Hx by lia. rewrite N.sub_diag in Hx. injection Hx as <-.
    exists v, (b_start s1), (b_end s1). split; [rewrite nthN_app2 by lia; replace (lenN (b_vals s1) - lenN done) with 0 by lia; reflexivity|].
    split; [exists (b_pi s1 - 1); split; [assumption|]; replace (b_pi s1 - 1 + 1) with (b_pi s1) by lia; assumption|].
    split; [lia|]. rewrite pv_app by lia. rewrite I8. reflexivity.
  - assert (Hk : k < lenN (b_vals s1)) by (pose proof (nthN_lt _ _ _ Hx) as HL; rewrite lenN_app in HL; change (lenN [v + b_prev s1]) with 1 in HL; lia).
    rewrite nthN_app1 in Hx by assumption. destruct (I11 k x Hx) as (id & lo & hi & A & B & C & D).
    exists id, lo, hi. rewrite nthN_app1 by lia. split; [assumption|]. split; [assumption|]. split; [assumption|]. rewrite pv_app by lia. assumption.
Qed.
Lemma fef_values_fold ptrs n M : pointers_for ptrs n -> n < 2 ^ 64 -> lenN ptrs * M < 2 ^ 64 -> forall ids done s, vinv ptrs M done s ->
  lenN done + lenN ids <= n -> Forall (fun v => v <= M) ids ->
  exists s', foldM (fef_value ptrs) ids s = Ok s' /\ vinv ptrs M (done ++ ids) s'.
Proof.
  intros P Hn HM. induction ids as [|v ids IH]; intros done s I Hl HF.
  - exists s. split; [reflexivity|]. rewrite app_nil_r. assumption.
  - rewrite lenN_cons in Hl. inversion HF; subst. destruct (fef_value_ok ptrs n M done s v P Hn I ltac:(lia) H1 HM) as (s1 & E & I1).
    cbn [foldM]. rewrite E. cbn [bind]. destruct (IH (done ++ [v]) s1 I1) as (s2 & E2 & I2); [rewrite lenN_app; change (lenN [v]) with 1; lia|assumption|].
    exists s2. split; [exact E2|]. rewrite <- app_assoc in I2. exact I2.
Qed.

(** what the values are *)
Definition values_of (vs ids ptrs : list N) : Prop :=
  lenN vs = lenN ids /\ forall b e k id, is_range ptrs b e -> b <= k < e -> nthN ids k = Some id -> nthN vs k = Some (id + pv vs b).

Theorem fef_values_ok ids ptrs M : pointers_for ptrs (lenN ids) -> lenN ids < 2 ^ 64 -> lenN ptrs * M < 2 ^ 64 -> Forall (fun v => v <= M) ids ->
  exists vs, fef_values ids ptrs = Ok vs /\ values_of vs ids ptrs /\ Forall (fun v => v < 2 ^ 64) vs.
Proof.
  intros P Hn HM HF. pose proof P as (P0 & P1 & P2 & P3). destruct (nthN_Some ptrs 1 ltac:(lia)) as (p1 & Hp1).
  unfold fef_values. rewrite (proj2 (rd_nthN _ _ _) P0), (proj2 (rd_nthN _ _ _) Hp1). cbn [bind].
  pose proof (ptrs_le_n ptrs _ _ _ P Hp1).
  destruct (fef_values_fold ptrs (lenN ids) M P Hn HM ids [] (mkfbs [] 0 1 0 p1 (sub64 p1 0) 0)) as (s & E & I).
  - unfold vinv. cbn [b_vals b_prev b_pi b_start b_end b_run b_within]. change (lenN (@nil N)) with 0. rewrite sub64_small by lia.
    repeat (split; [solve [assumption|reflexivity|lia|constructor]|]). intros k x Hx. rewrite nthN_nil in Hx. discriminate.
  - change (lenN (@nil N)) with 0. lia.
  - assumption.
  - rewrite E. cbn [bind]. exists (b_vals s). split; [reflexivity|]. cbn [app] in I.
    destruct I as (I1 & I2 & I3 & I4 & I5 & I6 & I7 & I8 & I9 & I10 & I11). split; [split; [assumption|]|].
    + intros b e k id R Hk Hid. destruct (nthN_Some (b_vals s) k) as (x & Hx); [rewrite I1; eapply nthN_lt; eauto|].
      destruct (I11 k x Hx) as (id' & lo & hi & A & B & C & D). destruct (range_unique ptrs _ b e lo hi k P R B Hk C) as [-> ->].
      rewrite Hx. congruence.
    + eapply Forall_impl; [|exact I10]. intros a Ha. cbn in Ha. pose proof (nthN_lt _ _ _ I4).
      assert (b_pi s * M <= lenN ptrs * M) by (apply N.mul_le_mono_r; lia). lia.
Qed.

(** every index lies in a range *)
Lemma in_some_range ptrs n : pointers_for ptrs n -> forall k, k < n -> exists b e, is_range ptrs b e /\ b <= k < e.
Proof.
  intros P k Hk. pose proof P as (P0 & P1 & P2 & P3).
  assert (G : forall d, (d < length ptrs)%nat -> (exists b e, is_range ptrs b e /\ b <= k < e) \/
     (forall x, nthN ptrs (N.of_nat d) = Some x -> x <= k)).
  { induction d as [|d IH]; intros Hd.
    - right. intros x Hx. change (N.of_nat 0) with 0 in Hx. rewrite P0 in Hx. injection Hx as <-. lia.
    - destruct (IH ltac:(lia)) as [L|L]; [left; assumption|]. destruct (nthN_Some ptrs (N.of_nat d)) as (x & Hx); [unfold lenN; lia|].
      destruct (nthN_Some ptrs (N.of_nat (S d))) as (y & Hy); [unfold lenN; lia|]. specialize (L x Hx).
      destruct (N.lt_ge_cases k y) as [LT|GE].
      + left. exists x, y. split; [exists (N.of_nat d); split; [assumption|]; replace (N.of_nat d + 1) with (N.of_nat (S d)) by lia; assumption|lia].
      + right. intros z Hz. rewrite Hy in Hz. injection Hz as <-. assumption. }
  destruct (G (length ptrs - 1)%nat) as [L|L]; [unfold lenN in P1; lia|assumption|]. exfalso.
  specialize (L n). replace (N.of_nat (length ptrs - 1)) with (lenN ptrs - 1) in L by (unfold lenN; lia). specialize (L P2). lia.
Qed.
Lemma range_bounds ptrs n b e : pointers_for ptrs n -> is_range ptrs b e -> b <= e <= n.
Proof.
  intros P (j & J1 & J2). split; [|eapply ptrs_le_n; eauto]. apply (ptrs_le ptrs n j (j + 1)); auto. lia.
Qed.

Lemma values_sorted vs ids ptrs : pointers_for ptrs (lenN ids) -> sorted_in_ranges ids ptrs -> values_of vs ids ptrs -> sortedN vs.
Proof.
  intros P S (VL & V) k x y Hx Hy. pose proof (nthN_lt _ _ _ Hy) as Hk.
  destruct (in_some_range ptrs _ P (k + 1) ltac:(lia)) as (b & e & R & B).
  destruct (nthN_Some ids (k + 1) ltac:(lia)) as (i1 & H1). destruct (nthN_Some ids k ltac:(lia)) as (i0 & H0).
  rewrite (V b e (k + 1) i1 R B H1) in Hy. injection Hy as <-.
  destruct (N.le_gt_cases b k) as [L|L].
  - rewrite (V b e k i0 R ltac:(lia) H0) in Hx. injection Hx as <-.
    pose proof (S b e k i0 i1 R L ltac:(lia) H0 H1). lia.
  - assert (b = k + 1) as -> by lia. rewrite (pv_succ vs k x Hx). lia.
Qed.

(** ** build and find *)
Definition fef_rep (h : N -> triple) (f : fef) (ids ptrs vs : list N) : Prop :=
  f_size f = lenN ids /\ efc_rep (f_core f) vs /\ values_of vs ids ptrs /\ sortedN vs /\ pointers_for ptrs (lenN ids) /\ lenN vs < 2 ^ 56 /\
  (forall b e, is_range ptrs b e -> 128 <= e - b -> exists t base, f_off f = Some t /\ umpht_lookup h t b = Ok base /\
      tree_at vs (f_samp f) base b e /\ base < 2 ^ 56).

Theorem fef_build_ok h order ids ptrs M : pointers_for ptrs (lenN ids) -> sorted_in_ranges ids ptrs -> ids <> [] -> lenN ids < 2 ^ 56 ->
  Forall (fun v => v <= M) ids -> lenN ptrs * M < 2 ^ 64 ->
  (long_starts 128 ptrs = [] \/ valid_order (hash_domain (lenN (long_starts 128 ptrs))) h (long_starts 128 ptrs) order) ->
  exists f vs, fef_build h order ids ptrs = Ok f /\ fef_rep h f ids ptrs vs.
Proof.
  intros P S NE Hn HF HM HV. destruct (fef_values_ok ids ptrs M P ltac:(lia) HM HF) as (vs & E & V & V64).
  pose proof V as (VL & _). pose proof (values_sorted vs ids ptrs P S V) as SV.
  assert (L0 : 0 < lenN vs) by (rewrite VL; destruct ids; [congruence|]; rewrite lenN_cons; lia).
  unfold fef_build. rewrite E. cbn [bind]. rewrite sub64_small by lia.
  destruct (nthN_Some vs (lenN vs - 1) ltac:(lia)) as (u & Hu). rewrite (proj2 (rd_nthN _ _ _) Hu). cbn [bind].
  destruct (fef_samplings_ok h order vs ptrs) as (off & samp & ES & SA); [rewrite VL; assumption|lia|assumption|]. rewrite ES. cbn [bind].
  destruct (efc_build_ok vs u SV) as (c & EC & RC).
  - apply Forall_forall. intros v Hv. apply In_nth_error in Hv. destruct Hv as (k & Hk).
    assert (Hk' : nthN vs (N.of_nat k) = Some v) by (unfold nthN; rewrite Nat2N.id; assumption).
    apply (sortedN_le vs SV (N.of_nat k) (lenN vs - 1)); auto. pose proof (nthN_lt _ _ _ Hk'). lia.
  - exact (Forall_nthN _ _ _ _ V64 Hu).
  - lia.
  - intros ->. change (lenN (@nil N)) with 0 in L0. lia.
  - rewrite EC. cbn [bind]. eexists. exists vs. split; [reflexivity|]. unfold fef_rep. cbn [f_size f_core f_off f_samp].
    split; [assumption|]. split; [assumption|]. split; [assumption|]. split; [assumption|]. split; [assumption|]. split; [lia|]. exact SA.
Qed.

Lemma found_search vs ids ptrs b e id r : values_of vs ids ptrs -> is_range ptrs b e -> e <= lenN ids -> Forall (fun v => v < 2 ^ 64) vs -> pv vs b < 2 ^ 64 -> id < 2 ^ 64 ->
  found vs b e (add64 id (pv vs b)) r -> search_result ids b e id r.
Proof.
  intros (VL & V) R He HF HP Hid. assert (D : forall p, b <= p < e -> nthN vs p = Some (add64 id (pv vs b)) <-> nthN ids p = Some id).
  { intros p Hp. destruct (nthN_Some ids p ltac:(lia)) as (x & Hx). pose proof (V b e p x R Hp Hx) as HV. pose proof (Forall_nthN _ _ _ _ HF HV) as H64. cbn in H64.
    rewrite HV, Hx. split; intros X; injection X as X; f_equal.
    - destruct (N.lt_ge_cases (id + pv vs b) (2 ^ 64)) as [L|L]; [rewrite add64_small in X by assumption; lia|].
      exfalso. unfold add64 in X. rewrite w64_mod in X.
      assert (MW : (id + pv vs b) mod 2 ^ 64 = id + pv vs b - 2 ^ 64). { symmetry. apply (N.mod_unique _ _ 1); lia. } lia.
    - rewrite <- X. rewrite add64_small by assumption. reflexivity. }
  intros [[F1 F2]|[F1 F2]].
  - left. split; [assumption|]. apply D; assumption.
  - right. split; [assumption|]. intros p Hp Hx. apply (F2 p Hp). apply D; assumption.
Qed.

Theorem fef_find_ok h f ids ptrs vs b e id : fef_rep h f ids ptrs vs -> is_range ptrs b e -> b < e -> id < 2 ^ 64 ->
  exists r, fef_find h f (b, e) id = Ok r /\ search_result ids b e id r.
Proof.
  intros (F1 & RC & V & SV & P & Hn & SA) R Hbe Hid. pose proof V as (VL & _). pose proof (range_bounds ptrs _ b e P R) as B.
  pose proof RC as (VH & NH & _ & _ & _ & _ & _ & _ & _ & HF & _). pose proof (pv_lt vs HF b) as HP.
  assert (HA : add64 id (pv vs b) < 2 ^ 64) by (apply w64_lt).
  unfold fef_find. rewrite sub64_small by lia. unfold sampling_threshold. destruct (N.leb_spec 128 (e - b)) as [L|L].
  - destruct (SA b e R L) as (t & base & E1 & E2 & T & HB). rewrite E1, E2. cbn [bind]. pose proof T as (T1 & T2).
    rewrite (proj2 (rd_nthN _ _ _) T1). cbn [bind]. destruct (height_ok (e - b) L ltac:(lia)) as (HH & HA' & HH57). rewrite HH.
    pose proof (samp_descend_ok vs (f_samp f) base b e (add64 id (pv vs b)) SV L ltac:(lia) ltac:(lia) ltac:(lia) T (N.to_nat (height (e - b))) xH) as D.
    cbn [node] in D. destruct D as [(p & E & P1 & P2)|(l' & h' & E & P1 & P2 & P3 & P4)].
    + change (N.log2 1) with 0. lia.
    + rewrite E. cbn [bind]. exists p. split; [reflexivity|]. apply (found_search vs ids ptrs); auto; [lia|]. left. auto.
    + rewrite E. cbn [bind].
      destruct (bsearch_scan_ok (f_core f) vs (add64 id (pv vs b)) RC SV HA (S (N.to_nat (sub64 h' l'))) l' h' P2 ltac:(lia)) as (r & Er & Fr).
      { rewrite sub64_small by lia. lia. }
      exists r. split; [exact Er|]. apply (found_search vs ids ptrs); auto; lia.
  - assert (PR : (if b =? 0 then Ok 0 else fef_get f (sub64 b 1)) = Ok (pv vs b)).
    { unfold pv, fef_get. destruct (N.eqb_spec b 0); [reflexivity|]. rewrite sub64_small by lia.
      destruct (nthN_Some vs (b - 1) ltac:(lia)) as (x & Hx). rewrite Hx. apply (efc_get_ok _ vs); assumption. }
    rewrite PR. cbn [bind].
    destruct (bsearch_scan_ok (f_core f) vs (add64 id (pv vs b)) RC SV HA (S (N.to_nat (e - b))) b e Hbe ltac:(lia) ltac:(lia)) as (r & Er & Fr).
    exists r. split; [exact Er|]. apply (found_search vs ids ptrs); auto; lia.
Qed.
