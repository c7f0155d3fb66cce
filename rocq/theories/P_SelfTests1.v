(** * The self-check programs of the two vectors accept *)
From Verif Require Import Prelude BitFacts M_Word P_Word M_Bits Spec P_Bits M_CompactVector P_CompactVector M_HashVec P_HashVec P_HashVec2 M_DArray M_EF M_Mph M_FastEF M_Pef
  P_MphTables M_Save Spec_Save P_Typed P_Save M_SelfTests.

(** ** loops *)
Lemma foldM_seq_inv {S} (I : N -> S -> Prop) (f : S -> N -> res S) : forall k b s, I b s ->
  (forall i s, b <= i < b + N.of_nat k -> I i s -> exists s', f s i = Ok s' /\ I (i + 1) s') ->
  exists s', foldM f (seqN b k) s = Ok s' /\ I (b + N.of_nat k) s'.
Proof.
  induction k as [|k IH]; intros b s Hs H.
  - exists s. split; [reflexivity|]. rewrite N.add_0_r. exact Hs.
  - destruct (H b s ltac:(lia) Hs) as (s1 & E1 & I1). cbn [seqN foldM]. rewrite E1. cbn [bind].
    destruct (IH (N.succ b) s1) as (s2 & E2 & I2); [rewrite <- N.add_1_r; exact I1|intros i t Hi; apply H; lia|].
    exists s2. split; [exact E2|]. replace (b + N.of_nat (Datatypes.S k)) with (N.succ b + N.of_nat k) by lia. exact I2.
Qed.
Lemma foldM_range_inv {S} (I : N -> S -> Prop) (f : S -> N -> res S) n s : I 0 s ->
  (forall i s, i < n -> I i s -> exists s', f s i = Ok s' /\ I (i + 1) s') ->
  exists s', foldM f (range n) s = Ok s' /\ I n s'.
Proof.
  intros Hs H. unfold range. destruct (foldM_seq_inv I f (N.to_nat n) 0 s Hs) as (s' & E & J); [intros i t Hi; apply H; lia|].
  exists s'. split; [exact E|]. rewrite N2Nat.id in J. exact J.
Qed.
Lemma for_each_ok n body : (forall i, i < n -> body i = Ok tt) -> for_each n body = Ok tt.
Proof.
  intros H. unfold for_each. destruct (foldM_range_inv (fun _ (_ : unit) => True) (fun _ i => body i) n tt I) as ([] & E & _); [|exact E].
  intros i [] Hi _. exists tt. rewrite (H i Hi). auto.
Qed.
Lemma check_same x : check x x = Ok tt.
Proof. unfold check. rewrite N.eqb_refl. reflexivity. Qed.

(** ** compact_vector *)
Lemma check_iterated_ok c n w V : cv_rep c n w V -> forall k it i v, i + N.of_nat k <= n ->
  ci_block it = i * w / 64 -> ci_shift it = (i * w) mod 64 -> v = map (slot V w) (seqN i k) -> check_iterated c it v k = Ok tt.
Proof.
  intros HR. induction k as [|k IH]; intros it i v Hk C1 C2 ->; [reflexivity|].
  cbn [check_iterated seqN map]. destruct (cvit_deref_ok c n w V it i HR ltac:(lia) C1 C2) as (it' & E & I1 & I2 & I3).
  rewrite E. cbn [bind]. change (rd (slot V w i :: map (slot V w) (seqN (N.succ i) k)) 0) with (Ok (slot V w i)). cbn [bind tl]. rewrite check_same. cbn [bind].
  apply (IH (cvit_incr it') (N.succ i)); [lia| | |reflexivity]; unfold cvit_incr; cbn [ci_block ci_shift]; rewrite <- N.add_1_r; assumption.
Qed.
Lemma check_values_ok c v : cv_holds c v -> check_values c v = Ok tt.
Proof.
  intros (w & V & R & HS). unfold check_values. pose proof R as (H1 & H2 & _). rewrite H1.
  apply (check_iterated_ok c (lenN v) w V R _ _ 0).
  - lia.
  - unfold cvit_new. cbn [ci_block]. rewrite !N.mul_0_l. reflexivity.
  - unfold cvit_new. cbn [ci_shift]. rewrite !N.mul_0_l. reflexivity.
  - apply nthN_ext. intros i. rewrite nthN_map. destruct (N.lt_ge_cases i (lenN v)) as [L|L].
    + rewrite (HS i L). change (seqN 0 (N.to_nat (lenN v))) with (range (lenN v)). rewrite nthN_range by exact L. reflexivity.
    + rewrite nthN_None by exact L. rewrite nthN_None; [reflexivity|]. unfold lenN. rewrite length_seqN. unfold lenN in L. lia.
Qed.
Lemma check_gets_ok c v n : cv_holds c v -> n = lenN v -> for_each n (fun i => x <- cv_get c i ;; y <- rd v i ;; check x y) = Ok tt.
Proof.
  intros H ->. apply for_each_ok. intros i Hi. destruct (nthN_Some v i Hi) as (x & Hx).
  rewrite (cv_holds_get c v i x H Hx), (proj2 (rd_nthN _ _ _) Hx). cbn [bind]. apply check_same.
Qed.

Theorem test_compact_vector_ok n w draw : 0 < n -> 1 <= w <= 64 -> n * w + 64 < 2 ^ 64 -> (forall k, draw k <= 2 ^ (w - 1)) ->
  test_compact_vector n w draw = Ok 0.
Proof.
  intros Hn Hw HM HD. unfold test_compact_vector. destruct (N.ltb_spec 64 w) as [X|_]; [lia|]. destruct (N.eqb_spec n 0) as [X|_]; [lia|]. destruct (N.eqb_spec w 0) as [X|_]; [lia|].
  cbn [orb]. cbv zeta. set (v := map draw (range n)). assert (LV : lenN v = n) by (unfold v; rewrite lenN_map; apply lenN_range).
  assert (FV : Forall (fun x => x < 2 ^ w) v).
  { apply Forall_forall. intros x Hx. unfold v in Hx. apply in_map_iff in Hx. destruct Hx as (k & <- & _). specialize (HD k).
    assert (2 ^ (w - 1) < 2 ^ w) by (apply N.pow_lt_mono_r; lia). lia. }
  destruct (cv_fill_roundtrip v w ltac:(lia) ltac:(rewrite LV; exact HM) FV) as (b & V & E & R & HS). rewrite LV in *.
  apply bind_ok in E. destruct E as (b0 & E0 & E). rewrite E0. cbn [bind].
  assert (E' := E). unfold cvb_fill in E'. destruct (cb_width b0 =? 0); [discriminate|]. rewrite E'. cbn [bind].
  assert (HC : cv_holds (cv_of_builder b) v) by (exists w, V; rewrite LV; split; [apply cv_of_builder_rep; exact R|exact HS]).
  assert (HB : cv_holds (cvb_build b) v) by (exists w, V; rewrite LV; split; [apply cvb_build_rep; exact R|exact HS]).
  rewrite (check_gets_ok _ v n HC (eq_sym LV)). cbn [bind]. rewrite (cv_holds_size _ _ HC), LV, check_same. cbn [bind].
  rewrite (check_values_ok _ _ HC). cbn [bind].
  assert (G : exists c, foldM (fun c (_ : N) => filler_round n w v c) (range 10) (cv_of_builder b) = Ok c /\ cv_holds c v).
  { destruct (foldM_range_inv (fun _ c => cv_holds c v) (fun c (_ : N) => filler_round n w v c) 10 _ HC) as (c & Ec & Hc).
    - intros i c _ _. exists (cvb_build b). split; [|exact HB]. unfold filler_round. rewrite E0. cbn [bind]. rewrite E. cbn [bind]. rewrite (check_values_ok _ _ HB). reflexivity.
    - exists c. split; [exact Ec|exact Hc]. }
  destruct G as (c & Ec & Hc). rewrite Ec. cbn [bind].
  destruct (file_ok 0 save_cv load_cv c ltac:(reflexivity) (cv_ok _ (cv_holds_typed _ _ Hc))) as (_ & EL). rewrite EL. cbn [bind].
  rewrite (check_gets_ok c v _ Hc) by (apply cv_holds_size; exact Hc). cbn [bind]. rewrite (check_values_ok _ _ Hc). reflexivity.
Qed.

(** ** hash_compact_vector *)
Lemma hcv_loop_typed hb n keys values c0 c : t_hcv hb c0 ->
  foldM (fun c i => k <- rd keys i ;; v <- rd values i ;; hcv_set hb c i k v) (range n) c0 = Ok c -> t_hcv hb c.
Proof.
  intros T E. refine (foldM_inv (t_hcv hb) _ _ _ _ _ T E). clear. intros s i s' _ (T1 & T2 & T3 & T4 & T5) E0.
  apply bind_inv in E0. destruct E0 as (k & _ & E0). apply bind_inv in E0. destruct E0 as (v & _ & E0).
  destruct (hcv_set_typed _ _ _ _ _ _ E0) as (R1 & R2 & R3 & R4). unfold t_hcv. rewrite R1, R2, R3. destruct (R4 T4) as (F & L).
  split; [assumption|]. split; [assumption|]. split; [assumption|]. split; [assumption|]. unfold is_u64 in *. rewrite L. assumption.
Qed.
Lemma check_pairs_ok hb n c keys values : lenN keys = n -> lenN values = n ->
  (forall i k v, nthN keys i = Some k -> nthN values i = Some v -> hcv_get hb c i = Ok (k, v)) -> check_pairs hb n c keys values = Ok tt.
Proof.
  intros LK LV H. apply for_each_ok. intros i Hi. destruct (nthN_Some keys i ltac:(lia)) as (k & Hk). destruct (nthN_Some values i ltac:(lia)) as (v & Hv).
  rewrite (H i k v Hk Hv), (proj2 (rd_nthN _ _ _) Hk), (proj2 (rd_nthN _ _ _) Hv). cbn [bind]. rewrite check_same. cbn [bind]. apply check_same.
Qed.
Lemma trunc_lt hb x : trunc hb x < 2 ^ hb.
Proof. unfold trunc. rewrite N.land_ones. apply N.mod_lt. apply N.pow_nonzero. discriminate. Qed.

Theorem perf_test_ok hb n w draw : hb = 32 \/ hb = 64 -> 1 <= w <= 64 ->
  n * (hb + w) <= 2 ^ hb -> n * (hb + w) < 2 ^ 64 -> (forall k, draw k <= 2 ^ (w - 1)) -> perf_test hb n w draw = Ok 0.
Proof.
  intros TH HW H1 H2 HD. unfold perf_test. cbv zeta. set (keys := map (fun i => trunc hb (draw (2 * i))) (range n)). set (values := map (fun i => draw (2 * i + 1)) (range n)).
  assert (LK : lenN keys = n) by (unfold keys; rewrite lenN_map; apply lenN_range). assert (LV : lenN values = n) by (unfold values; rewrite lenN_map; apply lenN_range).
  assert (NK : forall i, i < n -> nthN keys i = Some (trunc hb (draw (2 * i)))) by (intros i Hi; unfold keys; rewrite nthN_map, nthN_range by exact Hi; reflexivity).
  assert (NV : forall i, i < n -> nthN values i = Some (draw (2 * i + 1))) by (intros i Hi; unfold values; rewrite nthN_map, nthN_range by exact Hi; reflexivity).
  assert (VW : forall k, draw k < 2 ^ w).
  { intros k. specialize (HD k). assert (2 ^ (w - 1) < 2 ^ w) by (apply N.pow_lt_mono_r; lia). lia. }
  assert (TN : n < 2 ^ 64) by (destruct TH as [-> | ->]; nia).
  set (f := fun i => (trunc hb (draw (2 * i)), draw (2 * i + 1))).
  destruct (hcv_in_order hb n w f TH HW H1 H2) as (c & E & G); [intros i _; split; [apply trunc_lt|apply VW]|].
  apply bind_inv in E. destruct E as (c0 & E0 & E). rewrite E0. cbn [bind].
  assert (Ec : foldM (fun c i => k <- rd keys i ;; v <- rd values i ;; hcv_set hb c i k v) (range n) c0 = Ok c).
  { rewrite <- E. apply P_MphTables.foldM_ext. intros s i Hi. apply In_seqN in Hi. rewrite (proj2 (rd_nthN _ _ _) (NK i ltac:(lia))), (proj2 (rd_nthN _ _ _) (NV i ltac:(lia))). reflexivity. }
  rewrite Ec. cbn [bind].
  assert (GET : forall i k v, nthN keys i = Some k -> nthN values i = Some v -> hcv_get hb c i = Ok (k, v)).
  { intros i k v Hk Hv. pose proof (nthN_lt _ _ _ Hk) as L. rewrite LK in L. rewrite (G i L). rewrite (NK i L) in Hk. rewrite (NV i L) in Hv. unfold f. congruence. }
  rewrite (check_pairs_ok hb n c keys values LK LV GET). cbn [bind].
  assert (T : t_hcv hb c) by (apply (hcv_loop_typed hb n keys values c0 c (hcv_new_typed _ _ _ _ TH TN E0) Ec)).
  destruct (file_ok 0 (save_hcv hb) (load_hcv hb) c ltac:(reflexivity) (hcv_ok hb _ TH T)) as (_ & EL). rewrite EL. cbn [bind].
  rewrite (check_pairs_ok hb n c keys values LK LV GET). reflexivity.
Qed.
