(** * Properties C01-C04, C07-C09: packed vectors, bit buffers, word helpers, cursors *)
From Verif Require Import Prelude BitFacts M_Word P_Word M_Bits Spec P_Bits P_Builder P_Cursor
  M_CompactVector P_CompactVector P_BitProg P_DArray.

(** ** C01 *)

(** Filling a builder of the right size and converting it (both conversions the
    code has) gives a vector of the right size whose i-th element is the i-th
    value pushed; no access is out of bounds (the outcome is [Ok], not [UB]). *)
Theorem C01_fill_roundtrip : forall (vs : list N) (w : N),
  1 <= w <= 64 -> lenN vs * w + 64 < 2 ^ 64 -> Forall (fun v => v < 2 ^ w) vs ->
  exists b, (b0 <- cvb_new (lenN vs) w ;; cvb_fill b0 vs) = Ok b /\
    forall c, c = cv_of_builder b \/ c = cvb_build b ->
      c_size c = lenN vs /\ forall i v, nthN vs i = Some v -> cv_get c i = Ok v.
Proof.
  intros vs w Hw Hn HF. destruct (cv_fill_roundtrip vs w ltac:(lia) Hn HF) as (b & V & E & R & S).
  exists b. split; [exact E|]. intros c Hc.
  assert (R' : cv_rep c (lenN vs) w V).
  { destruct Hc as [-> | ->]; [apply cv_of_builder_rep|apply cvb_build_rep]; assumption. }
  split; [apply R'|]. intros i v Hv. pose proof (nthN_lt _ _ _ Hv). rewrite (cv_get_ok c (lenN vs) w V) by assumption.
  rewrite S in Hv by assumption. congruence.
Qed.

(** builder::back() and compact_vector::back() are the value pushed last *)
Theorem C01_back : forall (vs : list N) (v w : N) b,
  1 <= w <= 64 -> lenN (vs ++ [v]) * w + 64 < 2 ^ 64 -> Forall (fun v => v < 2 ^ w) (vs ++ [v]) ->
  (b0 <- cvb_new (lenN (vs ++ [v])) w ;; cvb_fill b0 (vs ++ [v])) = Ok b ->
  cvb_back b = v /\ cv_back (cv_of_builder b) = Ok v.
Proof.
  intros vs v w b Hw Hn HF E.
  destruct (C01_fill_roundtrip _ w Hw Hn HF) as (b' & E' & HC). rewrite E in E'. injection E' as <-.
  destruct (HC _ (or_introl eq_refl)) as [Hs Hg]. split.
  - destruct (cvb_new (lenN (vs ++ [v])) w) as [b0| |]; cbn [bind] in E; try discriminate.
    unfold cvb_fill in E. destruct (cb_width b0 =? 0); try discriminate.
    rewrite foldM_app in E. destruct (foldM cvb_push_back vs b0) as [b1| |]; cbn [bind foldM] in E; try discriminate.
    destruct (cvb_push_back b1 v) as [b2| |] eqn:E2; cbn [bind] in E; try discriminate. injection E as <-.
    unfold cvb_push_back in E2.
    repeat match type of E2 with
    | bind ?x _ = _ => destruct x as [?| |]; cbn [bind] in E2; try discriminate
    | context [let '(_, _) := ?x in _] => destruct x
    end.
    injection E2 as <-. reflexivity.
  - unfold cv_back. rewrite Hs. rewrite lenN_app, lenN_cons in *. change (lenN (@nil N)) with 0 in *.
    assert (lenN vs + (1 + 0) <= lenN vs * w + (1 + 0) * w).
    { rewrite <- N.mul_add_distr_r. apply N.le_trans with ((lenN vs + (1 + 0)) * 1); [lia|]. apply N.mul_le_mono_l. lia. }
    replace (sub64 (lenN vs + (1 + 0)) 1) with (lenN vs).
    + apply Hg. rewrite nthN_app2 by lia. replace (lenN vs - lenN vs) with 0 by lia. reflexivity.
    + rewrite N.mul_add_distr_r in Hn. unfold sub64. rewrite (w64_small (lenN vs + (1 + 0))), (w64_small 1) by lia.
      replace (lenN vs + (1 + 0) + (2 ^ 64 - 1)) with (lenN vs + 1 * 2 ^ 64) by lia.
      rewrite w64_mod, N.mod_add by lia. symmetry. apply N.mod_small. lia.
Qed.

(** [compact_vector::build(begin, n)], which chooses the width itself. *)
Theorem C01_build_roundtrip : forall vs : list N,
  lenN vs * 64 + 64 < 2 ^ 64 -> Forall (fun v => v < 2 ^ 64 - 1) vs ->
  exists c, cv_build vs = Ok c /\ c_size c = lenN vs /\
    forall i v, nthN vs i = Some v -> cv_get c i = Ok v.
Proof. exact cv_build_roundtrip. Qed.

(** The bound on the maximum is needed: [max + 1] wraps to 0. *)
Theorem C01_build_max_word_refuted :
  exists c, cv_build [5; 2 ^ 64 - 1] = Ok c /\ cv_get c 0 <> Ok 5.
Proof. eexists. split; [vm_compute; reflexivity|]. vm_compute. discriminate. Qed.

(** the fast accessor [access(i)] agrees with operator[] for widths up to 57,
    as long as its 8-byte load stays inside the vector *)
Theorem C01_access_agrees : forall (vs : list N) (w i v : N) b,
  1 <= w <= 57 -> lenN vs * w + 64 < 2 ^ 64 -> Forall (fun v => v < 2 ^ w) vs ->
  (b0 <- cvb_new (lenN vs) w ;; cvb_fill b0 vs) = Ok b ->
  nthN vs i = Some v -> i * w / 8 + 8 <= 8 * ((lenN vs * w + 63) / 64) ->
  cv_access (cv_of_builder b) i = Ok v.
Proof.
  intros vs w i v b Hw Hn HF E Hv Hb.
  destruct (cv_fill_roundtrip vs w ltac:(lia) Hn HF) as (b' & V & E' & R & S). rewrite E in E'. injection E' as <-.
  pose proof (nthN_lt _ _ _ Hv). rewrite (cv_access_ok _ (lenN vs) w V); try lia; try assumption.
  - rewrite S in Hv by assumption. congruence.
  - apply cv_of_builder_rep. assumption.
Qed.
(** ... and it reads past the end of the vector otherwise *)
Theorem C01_access_last_refuted :
  exists c, cv_build [1; 2; 3; 4; 5; 6; 7] = Ok c /\ cv_get c 6 = Ok 7 /\ cv_access c 6 = UB.
Proof. eexists. split; [vm_compute; reflexivity|]. split; vm_compute; reflexivity. Qed.

Example C01_example :
  exists b, (b0 <- cvb_new 5 13 ;; cvb_fill b0 [8191; 0; 77; 4096; 1]) = Ok b /\
    map (cv_get (cv_of_builder b)) [0; 1; 2; 3; 4] = map Ok [8191; 0; 77; 4096; 1].
Proof. eexists. split; vm_compute; reflexivity. Qed.

(** ** C02 *)
Theorem C02_set_history : forall (n w : N) (ops : list (N * N)),
  1 <= w <= 64 -> n * w + 64 < 2 ^ 64 ->
  Forall (fun o => fst o < n /\ snd o < 2 ^ w) ops ->
  exists b, (b0 <- cvb_new n w ;; foldM (fun b o => cvb_set b (fst o) (snd o)) ops b0) = Ok b /\
    forall j, j < n -> cvb_get b j = Ok (last_write ops j 0) /\
                       cv_get (cv_of_builder b) j = Ok (last_write ops j 0).
Proof.
  intros n w ops Hw Hn HF. destruct (cvb_new_ok n w ltac:(lia) Hn) as (b0 & E0 & R0 & C0). rewrite E0. cbn [bind].
  destruct (cvb_sets_ok ops b0 n w 0 R0 HF) as (b & V & E & R & S). exists b. split; [exact E|].
  intros j Hj. pose proof (S j Hj) as Sj.
  assert (Z : slot 0 w j = 0) by (unfold slot, field; rewrite N.div_0_l by (apply N.pow_nonzero; lia);
    apply N.mod_0_l, N.pow_nonzero; lia).
  rewrite Z in Sj. unfold last_write. rewrite <- Sj. split.
  - apply (cvb_get_ok b n w V); assumption.
  - apply (cv_get_ok _ n w V); [apply cv_of_builder_rep|]; assumption.
Qed.
(** builder::back() follows the writes to the last entry *)
Theorem C02_back : forall (n w : N) (ops : list (N * N)) b,
  1 <= w <= 64 -> 0 < n -> n < 2 ^ 64 ->
  (b0 <- cvb_new n w ;; foldM (fun b o => cvb_set b (fst o) (snd o)) ops b0) = Ok b ->
  cvb_back b = last_write ops (n - 1) 0.
Proof.
  intros n w ops b Hw Hn0 Hn E. unfold cvb_new in E. destruct (64 <? cv_width w); try discriminate. cbn [bind] in E.
  match type of E with foldM _ _ ?b0 = _ => assert (H0 : cb_size b0 = n /\ cb_back b0 = 0) by (split; reflexivity); revert E H0; generalize b0 end.
  unfold last_write. generalize 0 at 1 2. induction ops as [|[i v] ops IH]; intros z b0 E [H1 H2].
  - cbn in E. injection E as <-. exact H2.
  - cbn [foldM] in E. destruct (cvb_set b0 i v) as [b1| |] eqn:E1; cbn [fst snd] in E; rewrite ?E1 in E; cbn [bind] in E; try discriminate.
    cbn [fold_left fst snd]. apply (IH _ b1 E).
    unfold cvb_set in E1. destruct (store_field _ _ _ _ _) as [ws| |]; cbn [bind] in E1; try discriminate. injection E1 as <-.
    cbn [cb_size cb_back]. split; [exact H1|]. rewrite H1, H2.
    replace (sub64 n 1) with (n - 1); [reflexivity|].
    unfold sub64. rewrite (w64_small n), (w64_small 1) by lia.
    replace (n + (2 ^ 64 - 1)) with (n - 1 + 1 * 2 ^ 64) by lia.
    rewrite w64_mod, N.mod_add by lia. symmetry. apply N.mod_small. lia.
Qed.
Example C02_example :
  (b0 <- cvb_new 4 63 ;; b <- foldM (fun b o => cvb_set b (fst o) (snd o))
     [(2, 2 ^ 63 - 1); (1, 12345); (2, 6); (3, 2 ^ 62)] b0 ;;
   mapM (cvb_get b) [0; 1; 2; 3]) = Ok [0; 12345; 6; 2 ^ 62].
Proof. vm_compute. reflexivity. Qed.

(** ** C03: [c] is any vector produced by filling or by build(begin,n) *)
Theorem C03_iterator : forall (vs : list N) (c : cv) (pos k : N),
  (exists w b, 1 <= w <= 64 /\ lenN vs * w + 64 < 2 ^ 64 /\ Forall (fun v => v < 2 ^ w) vs /\
     (b0 <- cvb_new (lenN vs) w ;; cvb_fill b0 vs) = Ok b /\ (c = cv_of_builder b \/ c = cvb_build b))
  \/ (lenN vs * 64 + 64 < 2 ^ 64 /\ Forall (fun v => v < 2 ^ 64 - 1) vs /\ cv_build vs = Ok c) ->
  pos + k <= lenN vs ->
  cvit_take c (cvit_new c pos) (N.to_nat k) = Ok (slice vs pos k).
Proof.
  intros vs c pos k Hc Hk.
  assert (HH : cv_holds c vs).
  { destruct Hc as [(w & b & Hw & Hn & HF & E & Hc) | (Hn & HF & E)].
    - destruct (cv_fill_roundtrip vs w ltac:(lia) Hn HF) as (b' & V & E' & R & S). rewrite E in E'. injection E' as <-.
      exists w, V. split; [|exact S]. destruct Hc as [-> | ->]; [apply cv_of_builder_rep|apply cvb_build_rep]; assumption.
    - destruct (cv_build_holds vs Hn HF) as (c' & E' & H). congruence. }
  destruct HH as (w & V & R & S).
  rewrite (cvit_take_new c _ w V) by (try eassumption; lia). f_equal.
  apply nthN_ext. intros i. rewrite nthN_slice, nthN_map. unfold nthN at 1.
  destruct (N.ltb_spec i k).
  - rewrite nth_error_seqN by lia. cbn [option_map]. rewrite N2Nat.id. symmetry. apply S. lia.
  - rewrite (proj2 (nth_error_None _ _)) by (rewrite length_seqN; lia). reflexivity.
Qed.
(** the loop from begin(pos) to end() ends and visits the values from [pos] on *)
Theorem C03_loop : forall (vs : list N) (c : cv) (pos : N),
  (exists w b, 1 <= w <= 64 /\ lenN vs * w + 64 < 2 ^ 64 /\ Forall (fun v => v < 2 ^ w) vs /\
     (b0 <- cvb_new (lenN vs) w ;; cvb_fill b0 vs) = Ok b /\ (c = cv_of_builder b \/ c = cvb_build b))
  \/ (lenN vs * 64 + 64 < 2 ^ 64 /\ Forall (fun v => v < 2 ^ 64 - 1) vs /\ cv_build vs = Ok c) ->
  pos <= lenN vs ->
  cvit_loop (S (length vs)) c (cv_begin c pos) (cv_end c) = Ok (skipn (N.to_nat pos) vs).
Proof.
  intros vs c pos Hc Hk. pose proof (C03_iterator vs c pos (lenN vs - pos) Hc ltac:(lia)) as IT.
  assert (HH : cv_holds c vs).
  { destruct Hc as [(w & b & Hw & Hn & HF & E & Hc) | (Hn & HF & E)].
    - destruct (cv_fill_roundtrip vs w ltac:(lia) Hn HF) as (b' & V & E' & R & S). rewrite E in E'. injection E' as <-.
      exists w, V. split; [|exact S]. destruct Hc as [-> | ->]; [apply cv_of_builder_rep|apply cvb_build_rep]; assumption.
    - destruct (cv_build_holds vs Hn HF) as (c' & E' & H). congruence. }
  destruct HH as (w & V & R & S0).
  pose proof R as (H1 & H2 & H3 & H4 & H5 & H6 & H7 & H8). assert (pos * w <= lenN vs * w) by nia.
  unfold cv_begin, cv_end. rewrite (cvit_loop_take c (lenN vs) w V R (N.to_nat (lenN vs - pos)) _ pos).
  - rewrite IT. unfold slice. f_equal. apply firstn_all2. rewrite skipn_length. unfold lenN. lia.
  - lia.
  - unfold lenN. lia.
  - reflexivity.
  - exact H1.
  - unfold cvit_new. cbn [ci_block]. rewrite H2, mul64_small by lia. apply shr6.
  - unfold cvit_new. cbn [ci_shift]. rewrite H2, mul64_small by lia. apply land63.
Qed.
(** Dereferencing twice without incrementing does not give the same element. *)
Theorem C03_double_deref_refuted :
  exists c v1 v2 it1 it2, cv_build [1; 2; 3] = Ok c /\
    cvit_deref c (cvit_new c 0) = Ok (v1, it1) /\ cvit_deref c it1 = Ok (v2, it2) /\ v1 <> v2.
Proof.
  eexists. exists 1, 2. eexists. eexists. split; [vm_compute; reflexivity|].
  split; [vm_compute; reflexivity|]. split; [vm_compute; reflexivity|]. discriminate.
Qed.

(** ** C04 *)
Theorem C04_builder_history : forall p : bprog, bwf p ->
  exists b, brun p = Ok b /\
    let v := bv_build b in let l := bden p in
    v_size v = lenN l /\
    (forall i, i < lenN l -> bv_get v i = Ok (N.b2n (bit_at l i))) /\
    (forall pos len, len <= 64 -> pos + len <= lenN l ->
       bv_get_bits v pos len = Ok (num_of (slice l pos len))) /\
    (forall pos, pos < lenN l -> bv_get_word64 v pos = Ok (num_of (slice l pos 64))) /\
    (forall pos, pos / 8 + 8 <= 8 * ((lenN l + 63) / 64) ->
       bv_get_word56 v pos = Ok (num_of (slice l pos (64 - pos mod 8)))).
Proof.
  intros p W. destruct (brun_ok p W) as (b & E & R & L). exists b. split; [exact E|].
  pose proof (brep_build _ _ _ R) as V. cbn zeta. split; [apply V|]. split; [|split; [|split]].
  - intros i Hi. rewrite (bv_get_ok _ _ _ _ V Hi), tb_num_of. reflexivity.
  - intros pos len Hl Hp. rewrite (bv_get_bits_ok _ _ _ _ _ V Hl Hp), num_of_slice. reflexivity.
  - intros pos Hp. rewrite (bv_get_word64_ok _ _ _ _ V Hp), num_of_slice. reflexivity.
  - intros pos Hp. rewrite (bv_get_word56_ok _ _ _ _ V Hp), num_of_slice. reflexivity.
Qed.

Definition C04_prog : bprog :=
  BSetBits (BSet (BAppend (BAppendBits (BAppendBits (BNew 3 true) 5 60) 1000 20)
                          (BZeroExtend (BAppendBits (BNew 0 false) 1023 10) 70)) 2 false) 62 255 9.
Example C04_example : bwf C04_prog /\ lenN (bden C04_prog) = 163 /\ brun C04_prog <> UB.
Proof. split; [|split]; [cbv; repeat split; intros H; discriminate H|reflexivity|vm_compute; discriminate]. Qed.

(** append_bits after resize writes through a dangling pointer *)
Theorem C04_append_after_resize_refuted :
  (b <- bvb_append_bits (bvb_new 0 false) 7 3 ;; bvb_append_bits (bvb_resize b 200) 1 1) = UB.
Proof. reflexivity. Qed.

(** ** C07 *)
Theorem C07_popcount : forall x, x < 2 ^ 64 -> popcount x = lenN (ones_pos x 64).
Proof. exact popcount_correct. Qed.
Theorem C07_select_in_word : forall x k, x < 2 ^ 64 -> k < lenN (ones_pos x 64) ->
  exists p, select_in_word x k = Ok p /\ nthN (ones_pos x 64) k = Some p.
Proof. exact select_in_word_correct. Qed.
Example C07_example : select_in_word (2 ^ 63 + 2 ^ 40 + 12) 3 = Ok 63 /\ popcount (2 ^ 64 - 1) = 64.
Proof. split; vm_compute; reflexivity. Qed.

(** ** C08 *)
Theorem C08_msb : forall x, 0 < x -> 2 ^ msb x <= x < 2 ^ (msb x + 1).
Proof. intros x H. pose proof (msb_spec x H). exact H0. Qed.
Theorem C08_lsb : forall x r, lsb_opt x = Some r <->
  N.testbit x r = true /\ forall j, j < r -> N.testbit x j = false.
Proof.
  intros x r. split.
  - apply lsb_opt_spec.
  - intros [H1 H2]. destruct (lsb_opt x) as [q|] eqn:E.
    + apply lsb_opt_spec in E. destruct E as [E1 E2]. f_equal.
      destruct (N.lt_trichotomy q r) as [H|[H|H]]; [|assumption|].
      * rewrite H2 in E1 by assumption. discriminate.
      * rewrite E2 in H1 by assumption. discriminate.
    + apply lsb_opt_none in E. subst. rewrite N.bits_0 in H1. discriminate.
Qed.
Theorem C08_ceil_log2 : forall x k, 1 <= x -> (ceil_log2 x <= k <-> x <= 2 ^ k).
Proof. intros. apply ceil_log2_spec. Qed.
Theorem C08_floor_log2 : forall x k, 1 <= x -> (k <= floor_log2 x <-> 2 ^ k <= x).
Proof. exact floor_log2_spec. Qed.
(** ceil_div a d is the least q with a <= q * d; a zero divisor is an error *)
Theorem C08_ceil_div : forall a d, 1 <= d -> a + d < 2 ^ 64 ->
  exists q, ceil_div a d = Ok q /\ a <= q * d /\ forall q', a <= q' * d -> q <= q'.
Proof.
  intros a d Hd Ho. unfold ceil_div. destruct (N.eqb_spec d 0) as [|Hd0]; [lia|]. eexists. split; [reflexivity|].
  apply ceil_div_spec; try lia. unfold ceil_div. destruct (N.eqb_spec d 0); [lia|reflexivity].
Qed.
Theorem C08_predecessor1 : forall p b pos q, bwf p -> brun p = Ok b ->
  pos < lenN (bden p) -> q <= pos -> bit_at (bden p) q = true ->
  (forall j, q < j <= pos -> bit_at (bden p) j = false) ->
  bv_predecessor1 (bv_build b) pos = Ok q.
Proof.
  intros p b pos q W E Hp Hq H1 H0. destruct (brun_vrep p b W E) as [R L].
  apply (bv_predecessor1_ok _ _ _ pos q R); auto.
  - unfold words_for. dlia.
  - rewrite tb_num_of. assumption.
  - intros j Hj1 Hj2. rewrite tb_num_of. apply H0. lia.
Qed.
Example C08_example : exists b, brun C04_prog = Ok b /\ bv_predecessor1 (bv_build b) 160 = Ok 92.
Proof. eexists. split; vm_compute; reflexivity. Qed.

(** ** C09: any history of next()/skip(k) from any start *)
Theorem C09_cursor_history : forall p b pos ms out, bwf p -> brun p = Ok b ->
  pos < lenN (bden p) -> cspec (bden p) pos ms = Some out ->
  (it <- uit_new (bv_build b) pos ;; crun (bv_build b) it ms) = Ok out.
Proof.
  intros p b pos ms out W E Hp S. destruct (brun_vrep p b W E) as [R L].
  destruct (uit_new_ok _ _ _ pos R) as (it & E1 & A & _).
  { unfold words_for. dlia. }
  rewrite E1. cbn [bind]. eapply crun_ok; eauto.
Qed.
(** the special case of repeated next(): exactly the ones, in order *)
Theorem C09_enumerates : forall p b pos, bwf p -> brun p = Ok b -> pos < lenN (bden p) ->
  (it <- uit_new (bv_build b) pos ;;
   crun (bv_build b) it (repeat CNext (length (positions true (bden p) pos))))
  = Ok (positions true (bden p) pos).
Proof.
  intros p b pos W E Hp. apply (C09_cursor_history p b pos _ _ W E Hp).
  generalize (bden p) as l. intros l. clear. 
  assert (G : forall n pos, length (positions true l pos) = n ->
            cspec l pos (repeat CNext n) = Some (positions true l pos)).
  { induction n as [|n IH]; intros q Hq; cbn [repeat cspec].
    - destruct (positions true l q); [reflexivity|discriminate].
    - destruct (positions true l q) as [|x r] eqn:Ep; [discriminate|]. cbn [nthN]. rewrite nthN_0.
      assert (P : positions true l (x + 1) = r).
      { rewrite positions_true in *.
        assert (Hx : In x (fpos (N.testbit (num_of l)) q (lenN l))) by (rewrite Ep; left; reflexivity).
        assert (N0 : nthN (fpos (N.testbit (num_of l)) q (lenN l)) 0 = Some x) by (rewrite Ep; reflexivity).
        apply nthN_fpos in N0. destruct N0 as (B & T & L0).
        rewrite (fpos_split _ q x) in Ep by lia.
        destruct (fpos (N.testbit (num_of l)) q x) eqn:Eq0; [|rewrite lenN_cons in L0; lia].
        cbn [app] in Ep. rewrite (fpos_cons _ x), T in Ep by lia. cbn [app] in Ep. congruence. }
      rewrite IH, P; [reflexivity|]. rewrite P. cbn in Hq. lia. }
  apply G. reflexivity.
Qed.
(** skip0(k) from a fresh iterator: the k-th zero (0-based) at or after pos *)
Theorem C09_skip0 : forall p b pos k q, bwf p -> brun p = Ok b -> pos < lenN (bden p) ->
  nthN (positions false (bden p) pos) k = Some q ->
  exists it, (it <- uit_new (bv_build b) pos ;; uit_skip0 (bv_build b) it k) = Ok it /\ u_pos it = q.
Proof.
  intros p b pos k q W E Hp Hq. destruct (brun_vrep p b W E) as [R L].
  destruct (uit_new_ok _ _ _ pos R) as (it & E1 & A & Ep).
  { unfold words_for. dlia. }
  rewrite E1. cbn [bind]. eapply (uit_skip0_ok _ _ _ _ pos); eauto.
  - apply words_for_mul. assumption.
  - lia.
  - rewrite Ep. assert (X : lenN (bden p) <= 64 * words_for (lenN (bden p))) by apply words_for_ge.
    rewrite (fpos_split _ pos (lenN (bden p))) by lia.
    assert (Y : fpos (fun i => negb ((pos <=? i) && N.testbit (num_of (bden p)) i)) pos (lenN (bden p)) = positions false (bden p) pos).
    { rewrite positions_fpos. apply fpos_ext. intros i Hi. rewrite tb_num_of.
      destruct (N.leb_spec pos i); [|lia]. destruct (bit_at (bden p) i); reflexivity. }
    rewrite Y. rewrite nthN_app1; [assumption|]. eapply nthN_lt; eauto.
Qed.
Example C09_example : exists b, brun C04_prog = Ok b /\
  cspec (bden C04_prog) 4 [CNext; CSkip 3; CNext; CNext] = Some [5; 65; 65; 66] /\
  (it <- uit_new (bv_build b) 4 ;; crun (bv_build b) it [CNext; CSkip 3; CNext; CNext]) = Ok [5; 65; 65; 66].
Proof. eexists. split; [vm_compute; reflexivity|]. split; vm_compute; reflexivity. Qed.

Print Assumptions C01_fill_roundtrip.
Print Assumptions C01_build_roundtrip.
Print Assumptions C01_access_agrees.
Print Assumptions C01_back.
Print Assumptions C02_set_history.
Print Assumptions C02_back.
Print Assumptions C03_iterator.
Print Assumptions C03_loop.
Print Assumptions C04_builder_history.
Print Assumptions C07_popcount.
Print Assumptions C07_select_in_word.
Print Assumptions C08_predecessor1.
Print Assumptions C09_cursor_history.
Print Assumptions C09_enumerates.
Print Assumptions C09_skip0.
