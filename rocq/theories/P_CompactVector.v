(** * Proofs about compact_vector *)
From Verif Require Import Prelude BitFacts M_Word P_Word M_Bits Spec P_Bits P_Builder M_CompactVector.

(** slot [i] of the number [V] cut into fields of [w] bits *)
Definition slot (V w i : N) : N := field V (i * w) w.

Lemma slot_splice V w i j v : v < 2 ^ w -> 0 < w ->
  slot (splice V (i * w) v w) w j = if j =? i then v else slot V w j.
Proof.
  intros Hv Hw. apply tb_eq. intros k. unfold slot. rewrite tb_field, tb_splice by assumption.
  destruct (N.eqb_spec j i) as [->|Hne].
  - destruct (N.ltb_spec k w); cbn [andb].
    + destruct (N.leb_spec (i * w) (k + i * w)); [|lia]. destruct (N.ltb_spec (k + i * w) (i * w + w)); [|lia].
      cbn [andb]. f_equal. lia.
    + symmetry. apply (tb_lt v w); assumption.
  - rewrite tb_field. destruct (N.ltb_spec k w); cbn [andb]; [|reflexivity].
    destruct (N.leb_spec (i * w) (k + j * w)); destruct (N.ltb_spec (k + j * w) (i * w + w)); cbn [andb]; try reflexivity.
    exfalso. nia.
Qed.

(** builder with [n] slots of [w] bits holding the number V *)
Definition cvb_rep (b : cvb) (n w V : N) : Prop :=
  cb_size b = n /\ cb_width b = w /\ cb_mask b = N.ones w /\ 0 < w <= 64 /\
  n * w + 64 < 2 ^ 64 /\ words (cb_bits b) /\ lenN (cb_bits b) = words_for (n * w) /\
  wval (cb_bits b) = V.

Definition cv_rep (c : cv) (n w V : N) : Prop :=
  c_size c = n /\ c_width c = w /\ c_mask c = N.ones w /\ 0 < w <= 64 /\
  n * w + 64 < 2 ^ 64 /\ words (c_bits c) /\ lenN (c_bits c) = words_for (n * w) /\
  wval (c_bits c) = V.

Lemma slot_bound n w i : i < n -> i * w + w <= n * w.
Proof. nia. Qed.
Lemma words_for_ge n : n <= 64 * words_for n.
Proof. unfold words_for. dlia. Qed.

Lemma cvb_get_ok b n w V i : cvb_rep b n w V -> i < n -> cvb_get b i = Ok (slot V w i).
Proof.
  intros (H1 & H2 & H3 & H4 & H5 & H6 & H7 & H8) Hi. unfold cvb_get. rewrite H2, H3.
  pose proof (slot_bound n w i Hi). pose proof (words_for_ge (n * w)).
  rewrite mul64_small by lia. rewrite load_field_ok, H8; auto. rewrite H7. lia.
Qed.

Lemma cv_get_ok c n w V i : cv_rep c n w V -> i < n -> cv_get c i = Ok (slot V w i).
Proof.
  intros (H1 & H2 & H3 & H4 & H5 & H6 & H7 & H8) Hi. unfold cv_get. rewrite H2, H3.
  pose proof (slot_bound n w i Hi). pose proof (words_for_ge (n * w)).
  rewrite mul64_small by lia. rewrite load_field_ok, H8; auto. rewrite H7. lia.
Qed.

Lemma cvb_set_ok b n w V i v : cvb_rep b n w V -> i < n -> v < 2 ^ w ->
  exists b', cvb_set b i v = Ok b' /\ cvb_rep b' n w (splice V (i * w) v w).
Proof.
  intros (H1 & H2 & H3 & H4 & H5 & H6 & H7 & H8) Hi Hv. unfold cvb_set. rewrite H2, H3.
  pose proof (slot_bound n w i Hi). pose proof (words_for_ge (n * w)).
  rewrite mul64_small by lia.
  destruct (store_field_ok (cb_bits b) (i * w) v w) as (ws' & E & W & L & T); auto.
  { rewrite H7. lia. }
  rewrite E. cbn [bind]. eexists. split; [reflexivity|].
  repeat split; cbn [cb_size cb_width cb_mask cb_bits]; auto; try lia.
  apply tb_eq. intros k. rewrite T, tb_splice, H8 by assumption. reflexivity.
Qed.

(** push_back is a store at the cursor *)
Lemma cvb_push_store b v : cb_shift b < 64 -> 0 < cb_width b <= 64 -> cb_block b < 2 ^ 58 ->
  cvb_push_back b v =
  (ws <- store_field (cb_bits b) (64 * cb_block b + cb_shift b) (cb_mask b) v (cb_width b) ;;
   Ok (mkcvb (cb_size b) (cb_width b) (cb_mask b) v
        ((64 * cb_block b + cb_shift b + cb_width b) / 64)
        ((64 * cb_block b + cb_shift b + cb_width b) mod 64) ws)).
Proof.
  intros Hs Hw Hb. unfold cvb_push_back, store_field. rewrite shr6, land63.
  replace ((64 * cb_block b + cb_shift b) / 64) with (cb_block b) by dlia.
  replace ((64 * cb_block b + cb_shift b) mod 64) with (cb_shift b) by dlia.
  rewrite !shlU_ok by assumption. cbn [bind].
  destruct (upd (cb_bits b) (cb_block b) _) as [ws| |]; cbn [bind]; try reflexivity.
  destruct (upd ws (cb_block b) _) as [ws2| |]; cbn [bind]; try reflexivity.
  rewrite sub64_small by lia. destruct (N.ltb_spec (64 - cb_shift b) (cb_width b)).
  - rewrite !shrU_ok by lia. cbn [bind].
    destruct (upd ws2 (cb_block b + 1) _) as [ws3| |]; cbn [bind]; try reflexivity.
    destruct (upd ws3 (cb_block b + 1) _) as [ws4| |]; cbn [bind]; try reflexivity.
    rewrite sub64_wrap by lia.
    assert (A : add64 (2 ^ 64 + 0 - (64 - cb_shift b)) (cb_width b) = cb_shift b + cb_width b - 64).
    { unfold add64. rewrite w64_mod. symmetry. apply (N.mod_unique _ _ 1); lia. }
    rewrite A. destruct (N.eqb_spec (cb_shift b + cb_width b - 64) 64); [lia|].
    f_equal. f_equal; dlia.
  - cbn [bind]. rewrite add64_small by lia. destruct (N.eqb_spec (cb_shift b + cb_width b) 64).
    + f_equal. f_equal; dlia.
    + f_equal. f_equal; dlia.
Qed.

Definition at_cursor (b : cvb) (k w : N) : Prop :=
  cb_block b = k * w / 64 /\ cb_shift b = (k * w) mod 64.

Lemma cvb_push_ok b n w V k v : cvb_rep b n w V -> at_cursor b k w -> k < n -> v < 2 ^ w ->
  exists b', cvb_push_back b v = Ok b' /\ cvb_rep b' n w (splice V (k * w) v w) /\ at_cursor b' (k + 1) w.
Proof.
  intros (H1 & H2 & H3 & H4 & H5 & H6 & H7 & H8) [C1 C2] Hk Hv.
  pose proof (slot_bound n w k Hk). pose proof (words_for_ge (n * w)).
  rewrite cvb_push_store by (rewrite ?C1, ?C2, ?H2; try assumption; dlia).
  rewrite C1, C2, H2, H3. replace (64 * (k * w / 64) + (k * w) mod 64) with (k * w) by dlia.
  destruct (store_field_ok (cb_bits b) (k * w) v w) as (ws' & E & W & L & T); auto.
  { rewrite H7. lia. }
  rewrite E. cbn [bind]. eexists. split; [reflexivity|]. split.
  - repeat split; cbn [cb_size cb_width cb_mask cb_bits]; auto; try lia.
    apply tb_eq. intros i. rewrite T, tb_splice, H8 by assumption. reflexivity.
  - unfold at_cursor. cbn [cb_block cb_shift]. replace ((k + 1) * w) with (k * w + w) by lia. split; reflexivity.
Qed.

Lemma cvb_pushes_ok vs : forall b n w V k, cvb_rep b n w V -> at_cursor b k w ->
  k + lenN vs <= n -> Forall (fun v => v < 2 ^ w) vs ->
  exists b' V', foldM cvb_push_back vs b = Ok b' /\ cvb_rep b' n w V' /\ at_cursor b' (k + lenN vs) w /\
    forall j, slot V' w j = if (k <=? j) && (j <? k + lenN vs)
      then match nthN vs (j - k) with Some v => v | None => 0 end else slot V w j.
Proof.
  induction vs as [|v vs IH]; intros b n w V k HR HC Hk HF.
  - exists b, V. rewrite lenN_nil, N.add_0_r. repeat split; try apply HR; try apply HC.
    intros j. destruct (N.leb_spec k j); destruct (N.ltb_spec j k); try reflexivity; lia.
  - inversion HF as [|? ? Hv HF']; subst. rewrite lenN_cons in *.
    destruct (cvb_push_ok b n w V k v) as (b1 & E1 & R1 & C1); auto; [lia|].
    destruct (IH b1 n w _ (k + 1) R1 C1 ltac:(lia) HF') as (b2 & V2 & E2 & R2 & C2 & S2).
    exists b2, V2. cbn [foldM]. rewrite E1. cbn [bind]. rewrite E2. split; [reflexivity|].
    split; [assumption|]. replace (k + (1 + lenN vs)) with (k + 1 + lenN vs) by lia. split; [assumption|].
    intros j. rewrite S2. assert (0 < w) by (destruct HR as (_ & _ & _ & ? & _); lia).
    rewrite slot_splice by assumption. rewrite nthN_cons.
    destruct (N.eqb_spec j k) as [->|Hne].
    + destruct (N.leb_spec (k + 1) k); [lia|]. cbn [andb].
      destruct (N.leb_spec k k); [|lia]. destruct (N.ltb_spec k (k + 1 + lenN vs)); [|lia]. cbn [andb].
      rewrite N.sub_diag. reflexivity.
    + destruct (N.leb_spec (k + 1) j); destruct (N.leb_spec k j); try lia; cbn [andb]; [|reflexivity].
      destruct (N.ltb_spec j (k + 1 + lenN vs)); [|reflexivity].
      destruct (N.eqb_spec (j - k) 0); [lia|]. replace (j - k - 1) with (j - (k + 1)) by lia. reflexivity.
Qed.

Lemma cvb_new_ok n w : 0 < w <= 64 -> n * w + 64 < 2 ^ 64 ->
  exists b, cvb_new n w = Ok b /\ cvb_rep b n w 0 /\ at_cursor b 0 w.
Proof.
  intros Hw Hn. unfold cvb_new, cv_width. destruct (N.eqb_spec w 0); [lia|].
  destruct (N.ltb_spec 64 w); [lia|]. eexists. split; [reflexivity|].
  rewrite width_mask_ones by lia. rewrite mul64_small by lia. split.
  - repeat split; cbn [cb_size cb_width cb_mask cb_bits]; auto; try lia.
    + apply words_rep, pow2_pos. + apply lenN_rep. + apply wval_rep0.
  - split; reflexivity.
Qed.

Lemma cv_of_builder_rep b n w V : cvb_rep b n w V -> cv_rep (cv_of_builder b) n w V.
Proof.
  intros (H1 & H2 & H3 & H4 & H5 & H6 & H7 & H8). unfold cv_of_builder. rewrite H2.
  rewrite width_mask_ones by lia. repeat split; cbn [c_size c_width c_mask c_bits]; auto; lia.
Qed.
Lemma cvb_build_rep b n w V : cvb_rep b n w V -> cv_rep (cvb_build b) n w V.
Proof.
  intros (H1 & H2 & H3 & H4 & H5 & H6 & H7 & H8).
  repeat split; cbn [cvb_build c_size c_width c_mask c_bits]; auto; lia.
Qed.

(** round trip through fill *)
Theorem cv_fill_roundtrip vs w : 0 < w <= 64 -> lenN vs * w + 64 < 2 ^ 64 ->
  Forall (fun v => v < 2 ^ w) vs ->
  exists b V, (b <- cvb_new (lenN vs) w ;; cvb_fill b vs) = Ok b /\
    cvb_rep b (lenN vs) w V /\ forall i, i < lenN vs -> nthN vs i = Some (slot V w i).
Proof.
  intros Hw Hn HF. destruct (cvb_new_ok _ _ Hw Hn) as (b & E & R & C). rewrite E. cbn [bind].
  destruct (cvb_pushes_ok vs b _ w 0 0 R C ltac:(lia) HF) as (b' & V' & E' & R' & C' & S').
  exists b', V'. unfold cvb_fill. assert (cb_width b = w) by apply R. rewrite H.
  destruct (N.eqb_spec w 0); [lia|]. split; [exact E'|]. split; [exact R'|].
  intros i Hi. rewrite S'. destruct (N.leb_spec 0 i); [|lia]. destruct (N.ltb_spec i (0 + lenN vs)); [|lia].
  cbn [andb]. rewrite N.sub_0_r. destruct (nthN_Some vs i Hi) as (v & Ev). rewrite Ev. reflexivity.
Qed.

(** ** histories of set *)
Lemma cvb_sets_ok (ops : list (N * N)) : forall b n w V, cvb_rep b n w V ->
  Forall (fun o => fst o < n /\ snd o < 2 ^ w) ops ->
  exists b' V', foldM (fun b o => cvb_set b (fst o) (snd o)) ops b = Ok b' /\ cvb_rep b' n w V' /\
    forall j, j < n -> slot V' w j =
       fold_left (fun cur o => if fst o =? j then snd o else cur) ops (slot V w j).
Proof.
  induction ops as [|[i v] ops IH]; intros b n w V HR HF.
  - exists b, V. repeat split; try apply HR. 
  - inversion HF as [|? ? [Hi Hv] HF']; subst. cbn [fst snd] in *.
    destruct (cvb_set_ok b n w V i v HR Hi Hv) as (b1 & E1 & R1).
    destruct (IH b1 n w _ R1 HF') as (b2 & V2 & E2 & R2 & S2).
    exists b2, V2. cbn [foldM fst snd]. rewrite E1. cbn [bind]. split; [exact E2|]. split; [exact R2|].
    intros j Hj. rewrite S2 by assumption. cbn [fold_left fst snd].
    rewrite slot_splice by (try assumption; destruct HR as (_ & _ & _ & ? & _); lia).
    rewrite N.eqb_sym. reflexivity.
Qed.

(** ** choosing the width *)
Definition maxN (vs : list N) : N := fold_left (fun m v => if m <? v then v else m) vs 0.
Lemma maxN_ge_acc vs : forall m, m <= fold_left (fun m v => if m <? v then v else m) vs m.
Proof.
  induction vs as [|v vs IH]; intros m; cbn [fold_left]; [lia|].
  destruct (N.ltb_spec m v); [specialize (IH v); lia|apply IH].
Qed.
Lemma maxN_ge vs : forall m v, In v vs -> v <= fold_left (fun m v => if m <? v then v else m) vs m.
Proof.
  induction vs as [|x vs IH]; intros m v HI; [destruct HI|]; destruct HI as [-> | Hin]; cbn [fold_left].
  - destruct (N.ltb_spec m v); [apply maxN_ge_acc|]. pose proof (maxN_ge_acc vs m). lia.
  - apply IH. assumption.
Qed.
Lemma maxN_lt vs B : forall m, m < B -> Forall (fun v => v < B) vs -> fold_left (fun m v => if m <? v then v else m) vs m < B.
Proof.
  induction vs as [|x vs IH]; intros m Hm HF; cbn [fold_left]; [assumption|].
  inversion HF; subst. apply IH; [|assumption]. destruct (m <? x); assumption.
Qed.

Lemma push_zero_w0 vs : forall b k, Forall (fun v => v = 0) vs ->
  cb_width b = 1 -> cb_mask b = 0 -> words (cb_bits b) -> lenN (cb_bits b) < 2 ^ 58 ->
  at_cursor b k 1 -> k + lenN vs <= 64 * lenN (cb_bits b) -> wval (cb_bits b) = 0 ->
  exists b', foldM cvb_push_back vs b = Ok b' /\ cb_size b' = cb_size b /\ cb_width b' = 1 /\
     words (cb_bits b') /\ lenN (cb_bits b') = lenN (cb_bits b) /\ wval (cb_bits b') = 0.
Proof.
  induction vs as [|v vs IH]; intros b k HF W M Hw Hl [C1 C2] Hk HV.
  - exists b. repeat split; auto.
  - inversion HF; subst. rewrite lenN_cons in Hk. cbn [foldM]. rewrite N.mul_1_r in *.
    rewrite cvb_push_store by (rewrite ?C1, ?C2, ?W; try dlia). rewrite C1, C2, W, M.
    replace (64 * (k / 64) + k mod 64) with k by dlia.
    assert (ST : store_field (cb_bits b) k 0 0 1 = Ok (cb_bits b)).
    { unfold store_field. rewrite shr6, land63. rewrite upd_upd_k by dlia.
      destruct (N.ltb_spec (64 - k mod 64) 1); [exfalso; dlia|]. f_equal.
      assert (Z : N.lor (N.land (wd (cb_bits b) (k / 64)) (not64 (shl 0 (k mod 64)))) (shl 0 (k mod 64)) = wd (cb_bits b) (k / 64)).
      { assert (S0 : shl 0 (k mod 64) = 0) by (unfold shl; rewrite N.shiftl_0_l; reflexivity).
        rewrite S0, N.lor_0_r. apply tb_eq. intros i. rewrite N.land_spec, tb_not64, N.bits_0.
        destruct (N.ltb_spec i 64); [apply andb_true_r|]. rewrite andb_false_r.
        symmetry. apply (tb_lt _ 64); [apply wd_lt|]; assumption. }
      rewrite Z. apply nthN_ext. intros i. rewrite nthN_setN by dlia. destruct (N.eqb_spec i (k / 64)) as [->|]; [|reflexivity].
      symmetry. apply wd_nthN. dlia. }
    rewrite ST. cbn [bind].
    edestruct (IH (mkcvb (cb_size b) 1 0 0 ((k + 1) / 64) ((k + 1) mod 64) (cb_bits b)) (k + 1)) as (b' & E & R1 & R2 & R3 & R4 & R5);
      cbn [cb_width cb_mask cb_bits cb_size] in *; auto.
    + split; cbn [cb_block cb_shift]; rewrite N.mul_1_r; reflexivity.
    + lia.
    + exists b'. split; [exact E|]. repeat split; auto.
Qed.

(** [c] is a well-formed vector whose slots are [vs] *)
Definition cv_holds (c : cv) (vs : list N) : Prop :=
  exists w V, cv_rep c (lenN vs) w V /\ forall i, i < lenN vs -> nthN vs i = Some (slot V w i).

Lemma cv_holds_get c vs i v : cv_holds c vs -> nthN vs i = Some v -> cv_get c i = Ok v.
Proof.
  intros (w & V & R & S) H. pose proof (nthN_lt _ _ _ H) as Hi. rewrite (cv_get_ok c (lenN vs) w V) by assumption.
  rewrite S in H by assumption. congruence.
Qed.
Lemma cv_holds_size c vs : cv_holds c vs -> c_size c = lenN vs.
Proof. intros (w & V & R & S). apply R. Qed.

(** build(begin, n): round trip *)
Theorem cv_build_holds vs : lenN vs * 64 + 64 < 2 ^ 64 -> Forall (fun v => v < 2 ^ 64 - 1) vs ->
  exists c, cv_build vs = Ok c /\ cv_holds c vs.
Proof.
  intros Hn HF. unfold cv_build. fold (maxN vs). set (M := maxN vs).
  assert (ML : M < 2 ^ 64 - 1) by (apply maxN_lt; [lia|assumption]).
  rewrite add64_small by lia.
  destruct (N.eq_dec M 0) as [E0|E0].
  - rewrite E0. change (ceil_log2 (0 + 1)) with 0. unfold cvb_new. cbn [cv_width].
    change (cv_width 0) with 1. cbn [N.ltb]. change (64 <? 1) with false. cbn [bind].
    rewrite mul64_small by lia. rewrite N.mul_1_r. unfold cvb_fill. cbn [cb_width]. change (1 =? 0) with false. cbn iota.
    assert (Z : Forall (fun v => v = 0) vs).
    { apply Forall_forall. intros v Hin. pose proof (maxN_ge vs 0 v Hin). fold (maxN vs) in H. fold M in H. lia. }
    pose proof (words_for_ge (lenN vs)).
    edestruct (push_zero_w0 vs (mkcvb (lenN vs) 1 (width_mask 0 0) 0 0 0 (repN 0 (words_for (lenN vs)))) 0) as (b' & E & R1 & R2 & R3 & R4 & R5);
      cbn [cb_width cb_mask cb_bits cb_size]; auto.
    + apply words_rep, pow2_pos.
    + rewrite lenN_rep. unfold words_for. dlia.
    + split; reflexivity.
    + rewrite lenN_rep. lia.
    + apply wval_rep0.
    + rewrite E. cbn [bind]. eexists. split; [reflexivity|]. exists 1, 0.
      cbn [cb_size cb_width cb_bits] in *. rewrite lenN_rep in R4. split.
      * unfold cv_of_builder. rewrite R2. repeat split; cbn [c_size c_width c_mask c_bits]; auto; try lia.
        rewrite R4. f_equal. lia.
      * intros i Hi. destruct (nthN_Some vs i Hi) as (v & Ev). rewrite Ev.
        rewrite Forall_forall in Z. rewrite (Z v) by (eapply nthN_In; eauto).
        unfold slot, field. rewrite N.div_0_l by (apply N.pow_nonzero; lia). reflexivity.
  - assert (W : 0 < ceil_log2 (M + 1) <= 64).
    { split.
      - destruct (N.eq_dec (ceil_log2 (M + 1)) 0) as [E|]; [|lia].
        pose proof (proj1 (ceil_log2_spec (M + 1) 0)). rewrite E in H. change (2 ^ 0) with 1 in H. lia.
      - apply ceil_log2_spec. lia. }
    assert (HW : M + 1 <= 2 ^ ceil_log2 (M + 1)) by (apply ceil_log2_spec; lia).
    destruct (cv_fill_roundtrip vs (ceil_log2 (M + 1)) W) as (b & V & E & R & S).
    + nia.
    + apply Forall_forall. intros v Hin. pose proof (maxN_ge vs 0 v Hin). fold (maxN vs) in H. fold M in H. lia.
    + destruct (cvb_new (lenN vs) (ceil_log2 (M + 1))) as [b0| |]; try discriminate. cbn [bind] in *.
      rewrite E. cbn [bind]. pose proof (cv_of_builder_rep _ _ _ _ R) as R'.
      eexists. split; [reflexivity|]. exists (ceil_log2 (M + 1)), V. split; assumption.
Qed.

Theorem cv_build_roundtrip vs : lenN vs * 64 + 64 < 2 ^ 64 -> Forall (fun v => v < 2 ^ 64 - 1) vs ->
  exists c, cv_build vs = Ok c /\ c_size c = lenN vs /\
    forall i v, nthN vs i = Some v -> cv_get c i = Ok v.
Proof.
  intros Hn HF. destruct (cv_build_holds vs Hn HF) as (c & E & H). exists c. split; [assumption|].
  split; [apply cv_holds_size; assumption|]. intros i v Hv. eapply cv_holds_get; eauto.
Qed.

(** ** iterator *)
Lemma cvit_deref_ok c n w V it i : cv_rep c n w V -> i < n ->
  ci_block it = i * w / 64 -> ci_shift it = (i * w) mod 64 ->
  exists it', cvit_deref c it = Ok (slot V w i, it') /\
    ci_i it' = ci_i it /\ ci_block it' = (i + 1) * w / 64 /\ ci_shift it' = ((i + 1) * w) mod 64.
Proof.
  intros HR Hi C1 C2. pose proof HR as (H1 & H2 & H3 & H4 & H5 & H6 & H7 & H8).
  pose proof (slot_bound n w i Hi). pose proof (words_for_ge (n * w)).
  assert (LF : load_field (c_bits c) (i * w) (N.ones w) w = Ok (slot V w i)).
  { unfold slot. rewrite <- H8. apply load_field_ok; auto. rewrite H7. lia. }
  unfold load_field in LF. rewrite shr6, land63 in LF.
  assert (S64 : (i * w) mod 64 < 64) by dlia.
  unfold cvit_deref. rewrite C1, C2, H2, H3. rewrite add64_small by dlia.
  replace ((i + 1) * w) with (i * w + w) by lia.
  destruct (N.leb_spec ((i * w) mod 64 + w) 64).
  - destruct (rd (c_bits c) (i * w / 64)) as [x| |]; try discriminate. cbn [bind] in *.
    rewrite shrU_ok by assumption. cbn [bind]. injection LF as LF. rewrite LF.
    rewrite add64_small by dlia.
    destruct (N.eqb_spec ((i * w) mod 64 + w) 64); eexists; (split; [reflexivity|]); cbn [ci_i ci_block ci_shift]; repeat split; dlia.
  - rewrite sub64_small by lia.
    destruct (rd (c_bits c) (i * w / 64)) as [x| |]; try discriminate. cbn [bind] in *.
    rewrite shrU_ok by assumption. cbn [bind].
    destruct (rd (c_bits c) (i * w / 64 + 1)) as [y| |]; try discriminate. cbn [bind] in *.
    rewrite shlU_ok by dlia. cbn [bind]. injection LF as LF. rewrite LF.
    rewrite sub64_wrap by lia.
    assert (A : add64 (2 ^ 64 + 0 - (64 - (i * w) mod 64)) w = (i * w) mod 64 + w - 64).
    { unfold add64. rewrite w64_mod. symmetry. apply (N.mod_unique _ _ 1); lia. }
    rewrite A. destruct (N.eqb_spec ((i * w) mod 64 + w - 64) 64); [lia|].
    eexists. split; [reflexivity|]. cbn [ci_i ci_block ci_shift]. repeat split; dlia.
Qed.

Lemma cvit_take_ok c n w V : cv_rep c n w V -> forall k it i, i + N.of_nat k <= n ->
  ci_block it = i * w / 64 -> ci_shift it = (i * w) mod 64 ->
  cvit_take c it k = Ok (map (slot V w) (seqN i k)).
Proof.
  intros HR. induction k as [|k IH]; intros it i Hk C1 C2; [reflexivity|].
  cbn [cvit_take seqN map]. destruct (cvit_deref_ok c n w V it i HR ltac:(lia) C1 C2) as (it' & E & I1 & I2 & I3).
  rewrite E. cbn [bind]. rewrite (IH (cvit_incr it') (N.succ i)); [reflexivity|lia| |];
  unfold cvit_incr; cbn [ci_block ci_shift]; rewrite <- N.add_1_r; assumption.
Qed.

Theorem cvit_take_new c n w V i k : cv_rep c n w V -> i + N.of_nat k <= n ->
  cvit_take c (cvit_new c i) k = Ok (map (slot V w) (seqN i k)).
Proof.
  intros HR Hk. pose proof HR as (H1 & H2 & H3 & H4 & H5 & H6 & H7 & H8).
  assert (i * w <= n * w) by nia.
  apply (cvit_take_ok c n w V HR); auto; unfold cvit_new; cbn [ci_block ci_shift];
    rewrite H2, mul64_small by lia; [apply shr6|apply land63].
Qed.

Lemma cvit_loop_take c n w V : cv_rep c n w V -> forall k it i fuel en, i + N.of_nat k = n -> (k < fuel)%nat -> ci_i it = i -> ci_i en = n ->
  ci_block it = i * w / 64 -> ci_shift it = (i * w) mod 64 ->
  cvit_loop fuel c it en = cvit_take c it k.
Proof.
  intros HR. induction k as [|k IH]; intros it i fuel en Hk Hf HI HE C1 C2; (destruct fuel as [|fuel]; [lia|]); cbn [cvit_loop cvit_take]; unfold cvit_eq; rewrite HI, HE.
  - destruct (N.eqb_spec i n); [reflexivity|lia].
  - destruct (N.eqb_spec i n); [lia|]. destruct (cvit_deref_ok c n w V it i HR ltac:(lia) C1 C2) as (it' & E & I1 & I2 & I3).
    rewrite E. cbn [bind]. cbv beta iota. rewrite (IH (cvit_incr it') (i + 1) fuel en); [reflexivity|lia|lia| |exact HE| |]; unfold cvit_incr; cbn [ci_i ci_block ci_shift]; [lia|assumption|assumption].
Qed.

(** the "at least 57 bits" accessor *)
Lemma cv_access_ok c n w V i : cv_rep c n w V -> i < n -> w <= 57 ->
  (i * w) / 8 + 8 <= 8 * words_for (n * w) ->
  cv_access c i = Ok (slot V w i).
Proof.
  intros HR Hi Hw Hp. pose proof HR as (H1 & H2 & H3 & H4 & H5 & H6 & H7 & H8).
  pose proof (slot_bound n w i Hi).
  unfold cv_access. rewrite H2, H3, mul64_small, shr3, land7 by lia.
  rewrite load_u64_ok by (try assumption; rewrite H7; assumption). cbn [bind]. f_equal.
  apply tb_eq. intros k. unfold slot. rewrite N.land_spec, tb_shr64, tb_ones, !tb_field, H8.
  destruct (N.ltb_spec k w); [|apply andb_false_r]. rewrite andb_true_r. cbn [andb].
  destruct (N.ltb_spec (k + (i * w) mod 8) 64); [|exfalso; dlia]. cbn [andb]. f_equal. dlia.
Qed.
