(** * Proofs about ef_sequence users: pointers, prefix sums, codewords *)
From Verif Require Import Prelude BitFacts M_Word P_Word M_Bits Spec P_Bits P_Builder P_Cursor
  M_CompactVector P_CompactVector P_BitProg M_DArray P_DArray M_EF P_EF.
From Coq Require Import Sorted.

Definition ef_rep (e : ef) (vs : list N) : Prop := efc_rep (ef_core e) vs /\ ef_size e = lenN vs.

Theorem ef_build_ok vs u z : sortedN vs -> Forall (fun v => v <= u) vs -> u < 2 ^ 64 -> lenN vs < 2 ^ 56 ->
  (vs = [] -> u < 2 ^ 62) -> exists e, ef_build vs u z = Ok e /\ ef_rep e vs.
Proof.
  intros HS HF Hu Hn H0. destruct (efc_build_ok vs u HS HF Hu Hn H0) as (c & E & R). unfold ef_build. rewrite E. cbn [bind].
  destruct z.
  - pose proof R as (VH & NH & Hl & Hn' & HN & VR & _). destruct (d_build_ok true _ _ _ VR HN) as (d & Ed & _).
    rewrite Ed. cbn [bind]. eexists. split; [reflexivity|]. split; [exact R|reflexivity].
  - cbn [bind]. eexists. split; [reflexivity|]. split; [exact R|reflexivity].
Qed.

Lemma ef_get_ok e vs i v : ef_rep e vs -> nthN vs i = Some v -> ef_get e i = Ok v.
Proof. intros [R _] H. apply (efc_get_ok _ vs); assumption. Qed.

Lemma ef_pair_ok e vs i a b : ef_rep e vs -> nthN vs i = Some a -> nthN vs (i + 1) = Some b -> ef_pair e i = Ok (a, b).
Proof.
  intros R Ha Hb. unfold ef_pair. rewrite (ef_get_ok e vs i a R Ha). cbn [bind].
  assert (lenN vs < 2 ^ 56) by (destruct R as [(VH & NH & _ & H & _) _]; exact H).
  apply nthN_lt in Hb as L. rewrite add64_small by lia. rewrite (ef_get_ok e vs (i + 1) b R Hb). reflexivity.
Qed.

Lemma ef_universe_ok e vs v : ef_rep e vs -> nthN vs (lenN vs - 1) = Some v -> ef_universe e = Ok v.
Proof.
  intros R H. unfold ef_universe. destruct R as [R S]. rewrite S. apply nthN_lt in H as L.
  assert (lenN vs < 2 ^ 56) by (destruct R as (VH & NH & _ & X & _); exact X).
  rewrite sub64_small by lia. apply (ef_get_ok e vs); [split|]; assumption.
Qed.

Theorem ptr_build_ok ps : sortedN ps -> ps <> [] -> Forall (fun p => p < 2 ^ 64) ps -> lenN ps < 2 ^ 56 ->
  exists e, ptr_build ps = Ok e /\ ef_rep e ps.
Proof.
  intros HS HN HF HL. unfold ptr_build. assert (0 < lenN ps) by (destruct ps; [congruence|rewrite lenN_cons; lia]).
  rewrite sub64_small by lia. destruct (nthN_Some ps (lenN ps - 1) ltac:(lia)) as (last & El).
  rewrite (proj2 (rd_nthN _ _ _) El). cbn [bind]. apply ef_build_ok; auto.
  - apply Forall_forall. intros x Hx. apply In_nth_error in Hx. destruct Hx as (k & Hk).
    assert (Hk' : nthN ps (N.of_nat k) = Some x) by (unfold nthN; rewrite Nat2N.id; assumption).
    apply (sortedN_le ps HS (N.of_nat k) (lenN ps - 1)); [apply nthN_lt in Hk'; lia|exact Hk'|exact El].
  - exact (Forall_nthN _ _ _ _ HF El).
  - congruence.
Qed.

(** ** prefix sums *)
Lemma sumN_app a b : sumN (a ++ b) = sumN a + sumN b.
Proof. unfold sumN. induction a as [|x a IH]; cbn [app fold_right]; [reflexivity|]. lia. Qed.
Lemma sumN_cons x a : sumN (x :: a) = x + sumN a. Proof. reflexivity. Qed.
Lemma sumN_firstn_le k l : sumN (firstn k l) <= sumN l.
Proof. revert k. induction l as [|x l IH]; intros k; destruct k; cbn [firstn]; rewrite ?sumN_cons; try lia; [cbn; lia|]. specialize (IH k). lia. Qed.
Lemma firstn_succ {A} (l : list A) i v : nthN l i = Some v -> firstn (N.to_nat (i + 1)) l = firstn (N.to_nat i) l ++ [v].
Proof.
  unfold nthN. replace (N.to_nat (i + 1)) with (S (N.to_nat i)) by lia. generalize (N.to_nat i). clear i.
  induction l as [|x l IH]; intros n H; destruct n; cbn in *; try discriminate; [congruence|]. f_equal. apply IH. assumption.
Qed.

Lemma nthN_prefix_sums vs : forall last i, last + sumN vs < 2 ^ 64 -> i < lenN vs ->
  nthN (prefix_sums last vs) i = Some (last + sumN (firstn (N.to_nat (i + 1)) vs)).
Proof.
  induction vs as [|v vs IH]; intros last i HB Hi; [rewrite lenN_nil in Hi; lia|].
  rewrite sumN_cons in HB. rewrite lenN_cons in Hi. cbn [prefix_sums]. rewrite nthN_cons, add64_small by lia.
  destruct (N.eqb_spec i 0) as [->|].
  - cbn [N.to_nat firstn]. change (N.to_nat (0 + 1)) with 1%nat. cbn [firstn]. rewrite sumN_cons. cbn. f_equal. lia.
  - rewrite IH by lia. replace (N.to_nat (i + 1)) with (S (N.to_nat i)) by lia. cbn [firstn]. rewrite sumN_cons.
    replace (i - 1 + 1) with i by lia. f_equal. lia.
Qed.
Lemma lenN_prefix_sums vs : forall last, lenN (prefix_sums last vs) = lenN vs.
Proof. induction vs as [|v vs IH]; intros last; [reflexivity|]. cbn [prefix_sums]. rewrite !lenN_cons, IH. reflexivity. Qed.

Theorem pss_build_ok vs order : vs <> [] -> sumN vs < 2 ^ 64 -> lenN vs < 2 ^ 56 ->
  exists p, pss_build vs order = Ok p /\ ps_size p = lenN vs /\ forall i v, nthN vs i = Some v -> pss_get p i = Ok v.
Proof.
  intros HN HB HL. unfold pss_build. rewrite lenN_prefix_sums.
  assert (0 < lenN vs) by (destruct vs; [congruence|rewrite lenN_cons; lia]).
  assert (NP : forall i, i < lenN vs -> nthN (prefix_sums 0 vs) i = Some (sumN (firstn (N.to_nat (i + 1)) vs))).
  { intros i Hi. rewrite nthN_prefix_sums by lia. reflexivity. }
  assert (SP : sortedN (prefix_sums 0 vs)).
  { intros i x y Hx Hy. pose proof (nthN_lt _ _ _ Hy) as Ly. rewrite lenN_prefix_sums in Ly.
    rewrite NP in Hx, Hy by lia. injection Hx as <-. injection Hy as <-.
    destruct (nthN_Some vs (i + 1) Ly) as (v & Hv). rewrite (firstn_succ vs (i + 1) v Hv), sumN_app. lia. }
  rewrite sub64_small by lia. rewrite (proj2 (rd_nthN _ _ _) (NP (lenN vs - 1) ltac:(lia))). cbn [bind].
  edestruct (ef_build_ok (prefix_sums 0 vs)) as (e & E & R); [exact SP| | | | |].
  5: { rewrite E. cbn [bind]. eexists. split; [reflexivity|]. split; [reflexivity|].
    intros i v Hv. unfold pss_get. cbn [ps_seq]. pose proof (nthN_lt _ _ _ Hv) as Hi.
    rewrite (ef_get_ok e _ i _ R (NP i Hi)). cbn [bind]. rewrite (firstn_succ vs i v Hv), sumN_app.
    pose proof (sumN_firstn_le (N.to_nat (i + 1)) vs) as SL. rewrite (firstn_succ vs i v Hv), sumN_app in SL.
    cbn [sumN fold_right] in *. rewrite N.add_0_r in *.
    destruct (N.eqb_spec i 0) as [->|].
    - cbn [bind]. change (firstn (N.to_nat 0) vs) with (@nil N) in *. cbn [sumN fold_right] in *. rewrite sub64_small by lia. f_equal. lia.
    - rewrite (sub64_small i 1) by lia. rewrite (ef_get_ok e _ (i - 1) _ R (NP (i - 1) ltac:(lia))). cbn [bind].
      replace (i - 1 + 1) with i by lia. rewrite sub64_small by lia. f_equal. lia. }
  - apply Forall_forall. intros x Hx. apply In_nth_error in Hx. destruct Hx as (k & Hk).
    assert (Hk' : nthN (prefix_sums 0 vs) (N.of_nat k) = Some x) by (unfold nthN; rewrite Nat2N.id; assumption).
    pose proof (nthN_lt _ _ _ Hk') as Lk. rewrite lenN_prefix_sums in Lk.
    apply (sortedN_le _ SP (N.of_nat k) (lenN vs - 1)); [lia|assumption|]. apply NP. lia.
  - pose proof (sumN_firstn_le (N.to_nat (lenN vs - 1 + 1)) vs). lia.
  - rewrite lenN_prefix_sums. assumption.
  - intros Z. exfalso. pose proof (lenN_prefix_sums vs 0) as LP. rewrite Z, lenN_nil in LP. lia.
Qed.

(** ** indexed codewords *)
Definition clen (v : N) : N := floor_log2 (v + 2).
Definition code (v : N) : list bool := bits_of (v + 2 - 2 ^ clen v) (clen v).
Definition codes (vs : list N) : list bool := concat (map code vs).
Fixpoint starts (k : N) (vs : list N) : list N :=
  match vs with [] => [] | v :: r => k :: starts (k + clen v) r end.
Definition clens (vs : list N) : N := sumN (map clen vs).

Lemma clen_spec v : v + 2 < 2 ^ 64 -> 1 <= clen v < 64 /\ 2 ^ clen v <= v + 2 < 2 ^ (clen v + 1).
Proof.
  intros H. unfold clen.
  assert (A : 1 <= floor_log2 (v + 2)) by (apply floor_log2_spec; [lia|change (2 ^ 1) with 2; lia]).
  assert (B : 2 ^ floor_log2 (v + 2) <= v + 2) by (apply floor_log2_spec; lia).
  assert (C : v + 2 < 2 ^ (floor_log2 (v + 2) + 1)).
  { destruct (N.lt_ge_cases (v + 2) (2 ^ (floor_log2 (v + 2) + 1))) as [|X]; [assumption|].
    apply floor_log2_spec in X; lia. }
  split; [|split; assumption]. split; [assumption|].
  apply N.pow_lt_mono_r_iff with (a := 2); [lia|]. apply N.le_lt_trans with (v + 2); [assumption|]. exact H.
Qed.
Lemma lenN_codes vs : lenN (codes vs) = clens vs.
Proof.
  unfold codes, clens. induction vs as [|v vs IH]; [reflexivity|]. cbn [map concat]. rewrite lenN_app, sumN_cons, IH.
  unfold code. rewrite lenN_bits_of. reflexivity.
Qed.
Lemma codes_app a b : codes (a ++ b) = codes a ++ codes b.
Proof. unfold codes. rewrite map_app, concat_app. reflexivity. Qed.
Lemma clens_app a b : clens (a ++ b) = clens a + clens b.
Proof. unfold clens. rewrite map_app, sumN_app. reflexivity. Qed.
Lemma starts_snoc a v : forall k, starts k (a ++ [v]) = starts k a ++ [k + clens a].
Proof.
  induction a as [|x a IH]; intros k; cbn [starts app].
  - unfold clens. cbn. rewrite N.add_0_r. reflexivity.
  - rewrite IH. unfold clens. cbn [map]. rewrite sumN_cons, N.add_assoc. reflexivity.
Qed.
Lemma nthN_starts vs i : forall k, i < lenN vs -> nthN (starts k vs) i = Some (k + clens (firstn (N.to_nat i) vs)).
Proof.
  revert i. induction vs as [|v vs IH]; intros i k Hi; [rewrite lenN_nil in Hi; lia|]. rewrite lenN_cons in Hi.
  cbn [starts]. rewrite nthN_cons. destruct (N.eqb_spec i 0) as [->|].
  - cbn. rewrite N.add_0_r. reflexivity.
  - rewrite IH by lia. replace (N.to_nat i) with (S (N.to_nat (i - 1))) by lia. cbn [firstn]. unfold clens. cbn [map].
    rewrite sumN_cons. f_equal. lia.
Qed.
Lemma lenN_starts vs : forall k, lenN (starts k vs) = lenN vs.
Proof. induction vs as [|v vs IH]; intros k; [reflexivity|]. cbn [starts]. rewrite !lenN_cons, IH. reflexivity. Qed.

(** positions in the index: the starts, then the total *)
Definition sall (vs : list N) : list N := starts 0 vs ++ [clens vs].
Lemma nthN_sall vs i : i <= lenN vs -> nthN (sall vs) i = Some (clens (firstn (N.to_nat i) vs)).
Proof.
  intros Hi. unfold sall. destruct (N.eq_dec i (lenN vs)) as [->|].
  - rewrite <- (lenN_starts vs 0) at 1. rewrite nthN_snoc. rewrite firstn_all2; [reflexivity|]. unfold lenN. lia.
  - rewrite nthN_app1 by (rewrite lenN_starts; lia). rewrite nthN_starts by lia. reflexivity.
Qed.
Lemma starts_sorted vs : Forall (fun v => v + 2 < 2 ^ 64) vs -> forall k,
  StronglySorted N.lt (starts k vs ++ [k + clens vs]) /\ (forall p, In p (starts k vs) -> k <= p < k + clens vs).
Proof.
  induction vs as [|v vs IH]; intros HF k; cbn [starts app].
  - split; [repeat constructor|]. intros p [].
  - inversion HF as [|? ? Hv HF']; subst. destruct (clen_spec v Hv) as [[C1 _] _].
    destruct (IH HF' (k + clen v)) as [S1 S2].
    assert (T : k + clens (v :: vs) = k + clen v + clens vs) by (unfold clens; cbn [map]; rewrite sumN_cons; lia).
    rewrite T. split.
    + constructor; [assumption|]. apply Forall_forall. intros p Hp. apply in_app_iff in Hp.
      destruct Hp as [Hp|[<-|[]]]; [apply S2 in Hp; lia|lia].
    + intros p [<-|Hp]; [lia|]. apply S2 in Hp. lia.
Qed.

Lemma bits_fold vs : forall acc, acc + clens vs < 2 ^ 64 -> Forall (fun v => v + 2 < 2 ^ 64) vs ->
  fold_left (fun b v => add64 b (floor_log2 (add64 v 2))) vs acc = acc + clens vs.
Proof.
  induction vs as [|v vs IH]; intros acc HB HF; cbn [fold_left].
  - unfold clens. cbn. lia.
  - inversion HF as [|? ? Hv HF']; subst. unfold clens in *. cbn [map] in *. rewrite sumN_cons in *.
    rewrite (add64_small v 2) by lia. fold (clen v). rewrite add64_small by lia. rewrite IH; [lia|lia|assumption].
Qed.

Definition icinv (N0 : N) (a : list N) (s : bvb * bvb * N) : Prop :=
  let '(cws, idx, pos) := s in
  brep cws (num_of (codes a)) N0 /\
  (exists V, brep idx V (N0 + 1) /\ forall i, N.testbit V i = true <-> In i (starts 0 a)) /\ pos = clens a.

Lemma splice_end l v len : v < 2 ^ len -> splice (num_of l) (lenN l) v len = num_of (l ++ bits_of v len).
Proof.
  intros Hv. apply num_eq. intros i. rewrite tb_splice by assumption. rewrite bit_at_app, bit_at_bits_of, tb_num_of.
  destruct (N.ltb_spec i (lenN l)).
  - destruct (N.leb_spec (lenN l) i); [lia|]. reflexivity.
  - destruct (N.leb_spec (lenN l) i); [|lia]. cbn [andb].
    destruct (N.ltb_spec i (lenN l + len)); destruct (N.ltb_spec (i - lenN l) len); try (exfalso; lia); [reflexivity|].
    apply bit_at_oob. assumption.
Qed.

Lemma cw_ok v : v + 2 < 2 ^ 64 -> shlU 1 (clen v) = Ok (2 ^ clen v) /\
  sub64 (v + 2) (2 ^ clen v) = v + 2 - 2 ^ clen v /\ v + 2 - 2 ^ clen v < 2 ^ clen v.
Proof.
  intros Hv. destruct (clen_spec v Hv) as [[C1 C2] [C3 C4]]. rewrite N.pow_add_r in C4. change (2 ^ 1) with 2 in C4.
  rewrite shlU_ok, shl1 by assumption. rewrite sub64_small by assumption. split; [reflexivity|]. split; [reflexivity|].
  revert C3 C4. generalize (2 ^ clen v). intros; lia.
Qed.

Lemma icw_loop_ok N0 : N0 + 65 < 2 ^ 63 -> forall b a s, icinv N0 a s -> clens (a ++ b) <= N0 ->
  Forall (fun v => v + 2 < 2 ^ 64) b ->
  exists s', foldM icw_step b s = Ok s' /\ icinv N0 (a ++ b) s'.
Proof.
  intros HN. induction b as [|v b IH]; intros a s I HL HF.
  - exists s. rewrite app_nil_r. split; [reflexivity|assumption].
  - inversion HF as [|? ? Hv HF']; subst.
    replace (a ++ v :: b) with ((a ++ [v]) ++ b) in * by (rewrite <- app_assoc; reflexivity).
    destruct s as [[cws idx] pos]. destruct I as (I1 & (V & I2 & I3) & I4). cbn [foldM icw_step].
    rewrite (add64_small v 2) by lia. fold (clen v). destruct (cw_ok v Hv) as (K1 & K2 & K3).
    destruct (clen_spec v Hv) as [[C1 C2] _].
    rewrite !clens_app in HL. assert (CV : clens [v] = clen v) by (unfold clens; cbn; lia). rewrite CV in HL.
    rewrite K1. cbn [bind]. rewrite K2.
    destruct (bvb_set_bits_rep cws _ _ pos (v + 2 - 2 ^ clen v) (clen v) I1) as (cws' & E1 & R1); [lia|assumption|lia|].
    rewrite E1. cbn [bind].
    destruct (bvb_set_rep idx V _ pos true I2) as (idx' & E2 & R2); [lia|]. rewrite E2. cbn [bind].
    apply IH; [|rewrite !clens_app, CV; assumption|assumption]. unfold icinv. split; [|split].
    + rewrite codes_app. replace (codes [v]) with (code v) by (unfold codes; cbn; rewrite app_nil_r; reflexivity).
      unfold code. rewrite <- splice_end by assumption. rewrite lenN_codes, <- I4. exact R1.
    + eexists. split; [exact R2|]. intros i. rewrite bvb_set_true_tb, starts_snoc, in_app_iff, orb_true_iff, I3, N.eqb_eq.
      rewrite N.add_0_l, I4. cbn [In]. split; intros [H|H]; auto. destruct H; auto. contradiction.
    + rewrite add64_small by lia. rewrite clens_app, CV, I4. reflexivity.
Qed.

Definition icw_rep (s : icw) (vs : list N) : Prop := exists VI,
  ic_size s = lenN vs /\ clens vs + 65 < 2 ^ 63 /\ Forall (fun v => v + 2 < 2 ^ 64) vs /\
  vrepl (ic_cw s) (codes vs) /\ vrep (ic_idx s) VI (clens vs + 1) /\
  fpos (N.testbit VI) 0 (clens vs + 1) = sall vs /\ darr_ok (sall vs) (ic_d1 s).

Theorem icw_build_ok vs : clens vs + 65 < 2 ^ 63 -> Forall (fun v => v + 2 < 2 ^ 64) vs ->
  exists s, icw_build vs = Ok s /\ icw_rep s vs.
Proof.
  intros HB HF. unfold icw_build. rewrite bits_fold by (try assumption; lia). rewrite N.add_0_l.
  rewrite add64_small by lia.
  destruct (icw_loop_ok (clens vs) HB vs [] (bvb_new (clens vs) false, bvb_new (clens vs + 1) false, 0)) as (s & E & I);
    [|cbn [app]; lia|assumption|].
  { split; [apply bvb_new0_rep|]. split; [|reflexivity]. exists 0. split; [apply bvb_new0_rep|].
    intros i. rewrite N.bits_0. cbn. split; [discriminate|contradiction]. }
  rewrite E. cbn [bind app] in *. destruct s as [[cws idx] pos]. destruct I as (I1 & (V & I2 & I3) & I4). subst pos.
  destruct (bvb_set_rep idx V _ (clens vs) true I2) as (idx' & E2 & R2); [lia|]. rewrite E2. cbn [bind].
  pose proof (brep_build _ _ _ R2) as VR.
  assert (FP : fpos (N.testbit (splice V (clens vs) (N.b2n true) 1)) 0 (clens vs + 1) = sall vs).
  { destruct (starts_sorted vs HF 0) as [S1 S2]. rewrite N.add_0_l in *.
    apply fpos_sorted; [assumption| |].
    - intros p Hp. apply in_app_iff in Hp. destruct Hp as [Hp|[<-|[]]]; [apply S2 in Hp; lia|lia].
    - intros i Hi. rewrite bvb_set_true_tb, orb_true_iff, N.eqb_eq, I3. unfold sall. rewrite in_app_iff. cbn [In].
      split; intros [H|H]; auto. destruct H; auto. contradiction. }
  destruct (d_build_ok1 _ _ _ VR ltac:(lia)) as (d & Ed & Dok). rewrite Ed. cbn [bind]. rewrite FP in Dok.
  eexists. split; [reflexivity|]. eexists. cbn [ic_size ic_cw ic_idx ic_d1].
  split; [reflexivity|]. split; [assumption|]. split; [assumption|]. split.
  - unfold vrepl. rewrite lenN_codes. apply brep_build. assumption.
  - split; [exact VR|]. split; [exact FP|assumption].
Qed.

Lemma fpos_after F a b i s r : nthN (fpos F a b) i = Some s -> nthN (fpos F (s + 1) b) r = nthN (fpos F a b) (i + 1 + r).
Proof.
  intros H. pose proof (nthN_fpos _ _ _ _ _ H) as (H1 & H2 & H3).
  replace (i + 1 + r) with (i + (1 + r)) by lia. rewrite <- (fpos_from F a b i s (1 + r) H).
  rewrite (fpos_cons F s), H2 by lia. cbn [app]. rewrite nthN_S by lia. f_equal. lia.
Qed.

Lemma icw_code s vs i v : icw_rep s vs -> nthN vs i = Some v ->
  let pos := clens (firstn (N.to_nat i) vs) in
  (cw <- bv_get_bits (ic_cw s) pos (clen v) ;; m <- shlU 1 (clen v) ;; Ok (sub64 (add64 cw m) 2)) = Ok v.
Proof.
  intros (VI & R1 & R2 & R3 & R4 & R5 & R6 & R7) Hv pos.
  assert (Hv2 : v + 2 < 2 ^ 64) by exact (Forall_nthN _ _ _ _ R3 Hv).
  destruct (clen_spec v Hv2) as [[C1 C2] [C3 C4]]. destruct (cw_ok v Hv2) as (K1 & K2 & K3).
  destruct (nthN_decomp _ _ _ Hv) as (a & c & Evs & La).
  assert (Ep : pos = clens a).
  { unfold pos. rewrite Evs, <- La. f_equal. unfold lenN. rewrite Nat2N.id, firstn_app, firstn_all, Nat.sub_diag. apply app_nil_r. }
  assert (CV : clens [v] = clen v) by (unfold clens; cbn; lia).
  assert (CT : clens vs = clens a + (clen v + clens c)).
  { rewrite Evs. change (v :: c) with ([v] ++ c). rewrite !clens_app, CV. reflexivity. }
  rewrite (bv_get_bits_ok _ _ _ _ _ R4) by (try lia; rewrite lenN_codes; lia). cbn [bind].
  rewrite <- num_of_slice, Evs. change (v :: c) with ([v] ++ c). rewrite !codes_app.
  replace (codes [v]) with (code v) by (unfold codes; cbn; rewrite app_nil_r; reflexivity).
  rewrite slice_mid' by (rewrite ?lenN_codes; unfold code; rewrite ?lenN_bits_of; auto).
  unfold code. rewrite num_bits_of by assumption. rewrite K1. cbn [bind].
  assert (ADD : add64 (v + 2 - 2 ^ clen v) (2 ^ clen v) = v + 2).
  { rewrite add64_small; revert C3 Hv2; generalize (2 ^ clen v); intros; lia. }
  rewrite ADD, sub64_small by lia. f_equal. lia.
Qed.

Lemma sall_succ vs i v : nthN vs i = Some v ->
  clens (firstn (N.to_nat (i + 1)) vs) = clens (firstn (N.to_nat i) vs) + clen v.
Proof. intros H. rewrite (firstn_succ vs i v H), clens_app. unfold clens at 2. cbn. lia. Qed.
Lemma clens_firstn_le k vs : clens (firstn k vs) <= clens vs.
Proof. unfold clens. rewrite <- firstn_map. apply sumN_firstn_le. Qed.

Theorem icw_get_ok s vs i v : icw_rep s vs -> nthN vs i = Some v -> icw_get s i = Ok v.
Proof.
  intros R Hv. pose proof R as (VI & R1 & R2 & R3 & R4 & R5 & R6 & R7).
  pose proof (nthN_lt _ _ _ Hv) as Hi. unfold icw_get.
  assert (P0 : nthN (sall vs) i = Some (clens (firstn (N.to_nat i) vs))) by (apply nthN_sall; lia).
  assert (P1 : nthN (sall vs) (i + 1) = Some (clens (firstn (N.to_nat i) vs) + clen v)).
  { rewrite nthN_sall by lia. rewrite (sall_succ vs i v Hv). reflexivity. }
  pose proof (clens_firstn_le (N.to_nat (i + 1)) vs) as CL. rewrite (sall_succ vs i v Hv) in CL.
  assert (Hv2 : v + 2 < 2 ^ 64) by exact (Forall_nthN _ _ _ _ R3 Hv).
  destruct (clen_spec v Hv2) as [[C1 C2] _].
  pose proof (icw_code s vs i v R Hv) as IC. cbv zeta in IC.
  set (pos := clens (firstn (N.to_nat i) vs)) in *.
  rewrite (d_select_ok1 _ _ _ _ i pos R5 ltac:(lia)) by (rewrite R6; assumption). cbn [bind].
  rewrite add64_small by lia. destruct (uit_new_ok _ _ _ (pos + 1) R5) as (en & E1 & A & _). { unfold words_for. dlia. }
  rewrite E1. cbn [bind].
  destruct (uit_next_ok _ _ _ en (pos + 1) (pos + clen v) R5) as (en' & E2 & _); auto.
  { unfold words_for. dlia. }
  { rewrite (fpos_after _ 0 _ i pos 0) by (rewrite R6; assumption). rewrite R6, N.add_0_r. assumption. }
  rewrite E2. cbn [bind]. rewrite sub64_small by lia. replace (pos + clen v - pos) with (clen v) by lia. exact IC.
Qed.

(** iteration *)
Lemma icw_iterate_ok s vs en : icw_rep s vs -> it_pos en = clens vs -> forall fuel i it,
  i <= lenN vs -> (N.to_nat (lenN vs - i) < fuel)%nat ->
  it_pos it = clens (firstn (N.to_nat i) vs) ->
  (exists VI, vrep (ic_idx s) VI (clens vs + 1) /\ fpos (N.testbit VI) 0 (clens vs + 1) = sall vs /\
     uit_at (ic_idx s) VI (it_it it) (clens (firstn (N.to_nat i) vs) + 1)) ->
  icw_iterate fuel s it en = Ok (skipn (N.to_nat i) vs).
Proof.
  intros R Een. induction fuel as [|fuel IH]; intros i it Hi Hf Hp (VI & R5 & R6 & A); [lia|].
  pose proof R as (_ & R1 & R2 & R3 & R4 & _ & _ & R7).
  cbn [icw_iterate]. unfold icit_eq. rewrite Een, Hp.
  destruct (N.eq_dec i (lenN vs)) as [->|Hne].
  - rewrite firstn_all2 by (unfold lenN; lia). rewrite N.eqb_refl. rewrite skipn_all2 by (unfold lenN; lia). reflexivity.
  - destruct (nthN_Some vs i ltac:(lia)) as (v & Hv).
    pose proof (clens_firstn_le (N.to_nat (i + 1)) vs) as CL. pose proof (sall_succ vs i v Hv) as SS. rewrite SS in CL.
    assert (Hv2 : v + 2 < 2 ^ 64) by exact (Forall_nthN _ _ _ _ R3 Hv).
    destruct (clen_spec v Hv2) as [[C1 C2] _].
    destruct (N.eqb_spec (clens (firstn (N.to_nat i) vs)) (clens vs)) as [X|_]; [lia|].
    assert (P0 : nthN (sall vs) i = Some (clens (firstn (N.to_nat i) vs))) by (apply nthN_sall; lia).
    assert (P1 : nthN (sall vs) (i + 1) = Some (clens (firstn (N.to_nat i) vs) + clen v)).
    { rewrite nthN_sall by lia. rewrite SS. reflexivity. }
    pose proof (icw_code s vs i v R Hv) as IC. cbv zeta in IC.
    unfold icit_deref. rewrite Hp. set (pos := clens (firstn (N.to_nat i) vs)) in *.
    destruct (uit_next_ok _ _ _ (it_it it) (pos + 1) (pos + clen v) R5) as (en' & E2 & U & _); auto.
    { unfold words_for. dlia. }
    { rewrite (fpos_after _ 0 _ i pos 0) by (rewrite R6; assumption). rewrite R6, N.add_0_r. assumption. }
    rewrite E2. cbn [bind]. rewrite sub64_small by lia. replace (pos + clen v - pos) with (clen v) by lia.
    destruct (bv_get_bits (ic_cw s) pos (clen v)) as [cw| |]; cbn [bind] in *; try discriminate.
    destruct (shlU 1 (clen v)) as [m| |]; cbn [bind] in *; try discriminate. injection IC as ->.
    rewrite (IH (i + 1)).
    + cbn [bind]. f_equal. destruct (nthN_decomp _ _ _ Hv) as (a & c & Evs & La). rewrite Evs.
      replace (N.to_nat (i + 1)) with (length a + 1)%nat by (unfold lenN in La; lia).
      replace (N.to_nat i) with (length a + 0)%nat by (unfold lenN in La; lia).
      rewrite !skipn_app, (skipn_all2 a (n:=length a + 1)), (skipn_all2 a (n:=length a + 0)) by lia. replace (length a + 1 - length a)%nat with 1%nat by lia.
      replace (length a + 0 - length a)%nat with 0%nat by lia. reflexivity.
    + lia.
    + lia.
    + unfold icit_incr. cbn [it_pos it_len]. rewrite SS, add64_small by lia. reflexivity.
    + exists VI. split; [assumption|]. split; [assumption|]. rewrite SS. unfold icit_incr. cbn [it_it]. exact U.
Qed.

Theorem icw_iter_all s vs : icw_rep s vs ->
  (b <- icw_begin s ;; e <- icw_end s ;; icw_iterate (S (length vs)) s b e) = Ok vs.
Proof.
  intros R. pose proof R as (VI & R1 & R2 & R3 & R4 & R5 & R6 & R7).
  unfold icw_begin, icw_end, icit_new.
  destruct (uit_new_ok _ _ _ 0 R5) as (u0 & E0 & A0 & _). { unfold words_for. dlia. }
  rewrite E0. cbn [bind].
  assert (N0 : nthN (sall vs) 0 = Some 0) by (rewrite nthN_sall by lia; reflexivity).
  destruct (uit_next_ok _ _ _ u0 0 0 R5) as (u1 & E1 & A1 & _); auto. { unfold words_for. dlia. } { rewrite R6. assumption. }
  rewrite E1. cbn [bind].
  assert (VS : v_size (ic_cw s) = clens vs) by (destruct R4 as (_ & _ & _ & _ & ->); apply lenN_codes). rewrite VS.
  destruct (uit_new_ok _ _ _ (clens vs) R5) as (u2 & E2 & A2 & _). { unfold words_for. dlia. }
  rewrite E2. cbn [bind].
  assert (NE : nthN (sall vs) (lenN vs) = Some (clens vs)).
  { rewrite nthN_sall by lia. rewrite firstn_all2 by (unfold lenN; lia). reflexivity. }
  destruct (uit_next_ok _ _ _ u2 (clens vs) (clens vs) R5) as (u3 & E3 & A3 & _); auto. { unfold words_for. dlia. }
  { rewrite (fpos_from _ 0 _ (lenN vs) (clens vs) 0) by (rewrite R6; assumption). rewrite R6, N.add_0_r. assumption. }
  rewrite E3. cbn [bind].
  rewrite (icw_iterate_ok s vs _ R) with (i := 0); auto.
  - lia.
  - unfold lenN. lia.
  - exists VI. split; [assumption|]. split; [assumption|]. exact A1.
Qed.
