(** * Proofs about the minimal perfect hash function and the tables built on it *)
From Verif Require Import Prelude BitFacts M_Word P_Word M_Bits Spec P_Bits P_Builder P_BitProg
  M_CompactVector P_CompactVector M_HashVec P_HashVec M_Mph.
From Coq Require Import Permutation.

Lemma nodes_bounds dom t n0 n1 n2 : mph_nodes dom t = Ok (n0, n1, n2) ->
  0 < dom /\ n0 < dom /\ dom <= n1 < 2 * dom /\ 2 * dom <= n2 < 3 * dom.
Proof.
  unfold mph_nodes. destruct (N.eqb_spec dom 0); [discriminate|]. destruct t as [[a b] c]. intros H. injection H as <- <- <-.
  assert (D : 0 < dom) by lia.
  pose proof (N.mod_upper_bound a dom). pose proof (N.mod_upper_bound b dom). pose proof (N.mod_upper_bound c dom). lia.
Qed.
Lemma mph_nodes_ok dom t : 0 < dom -> exists n0 n1 n2, mph_nodes dom t = Ok (n0, n1, n2).
Proof.
  intros H. unfold mph_nodes. destruct (N.eqb_spec dom 0); [lia|]. destruct t as [[a b] c]. eauto.
Qed.

Lemma perm2 (a b c d : N) : Permutation [a; b] [c; d] -> (a = c /\ b = d) \/ (a = d /\ b = c).
Proof. intros H. apply Permutation_length_2. assumption. Qed.
Lemma perm3 (v0 v1 v2 n0 n1 n2 : N) : Permutation [v0; v1; v2] [n0; n1; n2] ->
  (v0 = n0 /\ Permutation [v1; v2] [n1; n2]) \/ (v0 = n1 /\ Permutation [v1; v2] [n0; n2]) \/ (v0 = n2 /\ Permutation [v1; v2] [n0; n1]).
Proof.
  intros H. assert (I : In v0 [n0; n1; n2]) by (eapply Permutation_in; [exact H|left; reflexivity]).
  destruct I as [<- | [<- | [<- | []]]].
  - left. split; [reflexivity|]. eapply Permutation_cons_inv. exact H.
  - right. left. split; [reflexivity|]. apply (Permutation_cons_inv (a := n1)). rewrite H. apply perm_swap.
  - right. right. split; [reflexivity|]. apply (Permutation_cons_inv (a := n2)). rewrite H.
    apply (Permutation_app_comm [n0; n1] [n2]).
Qed.

(** the node chosen by the orientation is v0; the sum of any assignment does not depend on the order *)
Lemma edge_pick dom t e n0 n1 n2 : mph_nodes dom t = Ok (n0, n1, n2) -> edge_of dom t e ->
  (if orientation e =? 0 then n0 else if orientation e =? 1 then n1 else n2) = edge_v0 e /\ orientation e < 3 /\
  forall f : N -> N, f n0 + f n1 + f n2 = (let '(v0, v1, v2) := e in f v0 + f v1 + f v2).
Proof.
  intros EN EO. destruct (nodes_bounds _ _ _ _ _ EN) as (B0 & B1 & B2 & B3). unfold edge_of in EO. rewrite EN in EO.
  destruct e as [[v0 v1] v2]. cbn [edge_v0]. unfold orientation.
  destruct (perm3 _ _ _ _ _ _ EO) as [[-> P] | [[-> P] | [-> P]]]; apply perm2 in P; destruct P as [[-> ->] | [-> ->]].
  - destruct (N.ltb_spec n1 n0); [lia|]. destruct (N.ltb_spec n2 n0); [lia|]. cbn. repeat split; try reflexivity; intros; lia.
  - destruct (N.ltb_spec n1 n0); [lia|]. destruct (N.ltb_spec n2 n0); [lia|]. cbn. repeat split; try reflexivity; intros; lia.
  - destruct (N.ltb_spec n0 n1); [|lia]. destruct (N.ltb_spec n2 n1); [lia|]. cbn. repeat split; try reflexivity; intros; lia.
  - destruct (N.ltb_spec n0 n1); [|lia]. destruct (N.ltb_spec n2 n1); [lia|]. cbn. repeat split; try reflexivity; intros; lia.
  - destruct (N.ltb_spec n0 n2); [|lia]. destruct (N.ltb_spec n1 n2); [|lia]. cbn. repeat split; try reflexivity; intros; lia.
  - destruct (N.ltb_spec n0 n2); [|lia]. destruct (N.ltb_spec n1 n2); [|lia]. cbn. repeat split; try reflexivity; intros; lia.
Qed.
Lemma edge_in dom t e p : edge_of dom t e -> In p (edge_nodes e) -> p < 3 * dom.
Proof.
  intros EO HI. unfold edge_of in EO. destruct (mph_nodes dom t) as [[[n0 n1] n2]| |] eqn:EN; try contradiction.
  destruct (nodes_bounds _ _ _ _ _ EN) as (B0 & B1 & B2 & B3). destruct e as [[v0 v1] v2]. cbn [edge_nodes] in HI.
  apply (Permutation_in _ EO) in HI. destruct HI as [<- | [<- | [<- | []]]]; lia.
Qed.

(** ** the assignment loop *)
Definition nz (x : N) : bool := negb (x =? 0).
Definition good (bv : list N) (e : edge) : Prop :=
  let '(v0, v1, v2) := e in (wd bv v0 + wd bv v1 + wd bv v2) mod 3 = orientation e.
Definition ainv (dom : N) (done : list edge) (bv : list N) : Prop :=
  lenN bv = 3 * dom /\ (forall p, wd bv p <= 3) /\
  (forall p, wd bv p <> 0 <-> In p (map edge_v0 done)) /\
  (forall e, In e done -> good bv e) /\ lenN (filter nz bv) = lenN done.

Lemma filter_setN (bv : list N) p x : p < lenN bv -> wd bv p = 0 -> x <> 0 -> lenN (filter nz (setN bv p x)) = lenN (filter nz bv) + 1.
Proof.
  unfold setN, wd, lenN. intros Hp. assert (Hp' : (N.to_nat p < length bv)%nat) by lia. clear Hp. revert Hp'.
  generalize (N.to_nat p). clear p. induction bv as [|y bv IH]; intros p Hp H0 Hx; [cbn in Hp; lia|].
  destruct p as [|p]; cbn [set_nth filter nth] in *.
  - subst y. replace (nz x) with true by (unfold nz; destruct (N.eqb_spec x 0); [contradiction|reflexivity]). change (nz 0) with false. cbn [length]. lia.
  - cbn [length] in Hp. specialize (IH p ltac:(lia) H0 Hx). destruct (nz y); cbn [length]; lia.
Qed.

Lemma mph_assign_ok dom done e bv t : ainv dom done bv -> edge_of dom t e ->
  Forall (fun e' => ~ In (edge_v0 e) (edge_nodes e')) done ->
  exists bv', mph_assign bv e = Ok bv' /\ ainv dom (done ++ [e]) bv'.
Proof.
  intros (I1 & I2 & I3 & I4 & I5) EO HF.
  assert (R : forall p, In p (edge_nodes e) -> p < lenN bv) by (intros p Hp; rewrite I1; eapply edge_in; eauto).
  pose proof EO as EO'. unfold edge_of in EO'. destruct (mph_nodes dom t) as [[[n0 n1] n2]| |] eqn:EN; try contradiction.
  destruct (edge_pick _ _ _ _ _ _ EN EO) as (_ & OR & _).
  assert (ND : let '(v0, v1, v2) := e in v0 <> v1 /\ v0 <> v2).
  { destruct (nodes_bounds _ _ _ _ _ EN) as (B0 & B1 & B2 & B3). destruct e as [[v0 v1] v2].
    destruct (perm3 _ _ _ _ _ _ EO') as [[-> P] | [[-> P] | [-> P]]]; apply perm2 in P; destruct P as [[-> ->] | [-> ->]]; lia. }
  destruct e as [[v0 v1] v2]. cbn [edge_nodes edge_v0] in *. set (e := (v0, v1, v2)) in *.
  unfold mph_assign. unfold e at 1. cbv beta iota. fold e. rewrite (rd_wd bv v1) by (apply R; right; left; reflexivity).
  rewrite (rd_wd bv v2) by (apply R; right; right; left; reflexivity). cbn [bind].
  pose proof (I2 v1) as L1. pose proof (I2 v2) as L2.
  rewrite (add64_small (wd bv v1)) by lia.
  set (o := orientation e) in *. set (a := wd bv v1 + wd bv v2) in *.
  assert (X : add64 (sub64 o a) 9 = o + 9 - a).
  { destruct (N.le_gt_cases a o).
    - rewrite sub64_small by lia. rewrite add64_small by lia. lia.
    - rewrite sub64_wrap by lia. unfold add64. rewrite w64_mod. symmetry. apply (N.mod_unique _ _ 1); lia. }
  rewrite X. set (x := if (o + 9 - a) mod 3 =? 0 then 3 else (o + 9 - a) mod 3).
  assert (XB : 1 <= x <= 3 /\ (x + a) mod 3 = o).
  { unfold x. pose proof (N.mod_upper_bound (o + 9 - a) 3 ltac:(lia)). destruct (N.eqb_spec ((o + 9 - a) mod 3) 0).
    - split; [lia|]. dlia.
    - split; [lia|]. dlia. }
  rewrite wr_setN by (apply R; left; reflexivity). eexists. split; [reflexivity|].
  assert (LV0 : v0 < lenN bv) by (apply R; left; reflexivity).
  assert (W : forall p, wd (setN bv v0 x) p = if p =? v0 then x else wd bv p) by (intros; apply wd_setN; assumption).
  assert (Z0 : wd bv v0 = 0).
  { destruct (N.eq_dec (wd bv v0) 0) as [|NZ]; [assumption|]. apply I3 in NZ. apply in_map_iff in NZ. destruct NZ as (e' & Ee & He').
    exfalso. rewrite Forall_forall in HF. apply (HF e' He'). rewrite <- Ee. destruct e' as [[a0 a1] a2]. left. reflexivity. }
  split; [rewrite lenN_setN; assumption|]. split; [|split; [|split]].
  - intros p. rewrite W. destruct (p =? v0); [lia|apply I2].
  - intros p. rewrite W, map_app, in_app_iff. cbn [map In edge_v0 e]. destruct (N.eqb_spec p v0) as [->|NE].
    + split; [intros _; right; left; reflexivity|intros _; lia].
    + rewrite I3. split; [intros; left; assumption|]. intros [H|[H|[]]]; [assumption|congruence].
  - intros e' He'. apply in_app_iff in He'. destruct He' as [He'|[<-|[]]].
    + pose proof (I4 e' He') as G. rewrite Forall_forall in HF. specialize (HF e' He'). destruct e' as [[a0 a1] a2].
      cbn [edge_nodes In] in HF. unfold good in *. rewrite !W.
      destruct (N.eqb_spec a0 v0); [exfalso; auto|]. destruct (N.eqb_spec a1 v0); [exfalso; auto|].
      destruct (N.eqb_spec a2 v0); [exfalso; auto|]. assumption.
    + unfold good, e. rewrite !W, N.eqb_refl. destruct ND as [ND1 ND2].
      destruct (N.eqb_spec v1 v0); [congruence|]. destruct (N.eqb_spec v2 v0); [congruence|].
      rewrite <- N.add_assoc. fold a. apply XB.
  - rewrite filter_setN by (try assumption; lia). rewrite lenN_app, I5. reflexivity.
Qed.

Lemma mph_fold_ok dom : forall order done bv, ainv dom done bv ->
  Forall (fun e => exists t, edge_of dom t e) order ->
  ForallOrdPairs (fun ei ej => ~ In (edge_v0 ej) (edge_nodes ei)) (done ++ order) ->
  exists bv', foldM mph_assign order bv = Ok bv' /\ ainv dom (done ++ order) bv'.
Proof.
  induction order as [|e order IH]; intros done bv I HF HP.
  - exists bv. rewrite app_nil_r. split; [reflexivity|assumption].
  - inversion HF as [|? ? [t Ht] HF']; subst.
    destruct (mph_assign_ok dom done e bv t I Ht) as (bv1 & E1 & I1).
    { clear -HP. induction done as [|d done IH]; [constructor|]. inversion HP as [|? ? H1 H2]; subst. constructor; [|apply IH; assumption].
      rewrite Forall_forall in H1. apply H1. apply in_app_iff. right. left. reflexivity. }
    cbn [foldM]. rewrite E1. cbn [bind]. replace (done ++ e :: order) with ((done ++ [e]) ++ order) in * by (rewrite <- app_assoc; reflexivity).
    apply IH; assumption.
Qed.

(** ** rank *)
Lemma rank_le bv p : rank bv p <= lenN (filter nz bv).
Proof.
  unfold rank, lenN. generalize (N.to_nat p). clear p. intros p. fold nz.
  rewrite <- (firstn_skipn p bv) at 2. rewrite filter_app, app_length. lia.
Qed.
Lemma rank_succ bv p q : p < q -> p < lenN bv -> wd bv p <> 0 -> rank bv p + 1 <= rank bv q.
Proof.
  intros H1 H2 H3. unfold rank, lenN. fold nz. destruct (nthN_Some bv p H2) as (x & Hx).
  assert (wd bv p = x) by (rewrite (wd_nthN bv p H2) in Hx; congruence). subst x.
  assert (E : firstn (N.to_nat q) bv = firstn (N.to_nat p) bv ++ wd bv p :: firstn (N.to_nat q - S (N.to_nat p)) (skipn (S (N.to_nat p)) bv)).
  { clear -Hx H1. unfold nthN in Hx. assert (L : (N.to_nat p < N.to_nat q)%nat) by lia. revert Hx L.
    generalize (N.to_nat p) (N.to_nat q). generalize (wd bv p). clear. intros x. induction bv as [|y bv IH]; intros p q Hx L; [destruct p; discriminate|].
    destruct q as [|q]; [lia|]. destruct p as [|p]; cbn in *; [injection Hx as ->; f_equal; f_equal; lia|]. f_equal. apply IH; [assumption|lia]. }
  rewrite E, filter_app. cbn [filter]. unfold nz at 3. destruct (N.eqb_spec (wd bv p) 0); [contradiction|]. cbn [negb].
  rewrite app_length. cbn [length]. lia.
Qed.
Lemma rank_lt bv p : p < lenN bv -> wd bv p <> 0 -> rank bv p < lenN (filter nz bv).
Proof.
  intros H1 H2. pose proof (rank_succ bv p (lenN bv) H1 H1 H2). pose proof (rank_le bv (lenN bv)). lia.
Qed.
Lemma rank_inj bv p q : p < lenN bv -> q < lenN bv -> wd bv p <> 0 -> wd bv q <> 0 -> rank bv p = rank bv q -> p = q.
Proof.
  intros H1 H2 H3 H4 H. destruct (N.lt_trichotomy p q) as [L|[L|L]]; [|assumption|].
  - pose proof (rank_succ bv p q L H1 H3). lia.
  - pose proof (rank_succ bv q p L H2 H4). lia.
Qed.

(** ** the hash function *)
Definition mphf_ok {K} (m : mphf) (h : K -> triple) (keys : list K) : Prop :=
  exists ps, mapM (fun k => mph_lookup m (h k)) keys = Ok ps /\ Permutation ps (range (lenN keys)).

Lemma NoDup_range_perm (l : list N) n : NoDup l -> lenN l = n -> Forall (fun x => x < n) l -> Permutation l (range n).
Proof.
  intros ND L HF. apply NoDup_Permutation_bis; [assumption| |].
  - unfold range. rewrite length_seqN. unfold lenN in L. lia.
  - intros x Hx. rewrite Forall_forall in HF. apply HF in Hx. apply In_seqN. lia.
Qed.

Lemma mapM_ok' {A B} (f : A -> res B) (g : A -> B) l : (forall a, In a l -> f a = Ok (g a)) -> mapM f l = Ok (map g l).
Proof.
  induction l as [|a l IH]; intros H; [reflexivity|]. cbn [mapM map]. rewrite H by (left; reflexivity). cbn [bind].
  rewrite IH by (intros; apply H; right; assumption). reflexivity.
Qed.

Lemma FOP_NoDup order : ForallOrdPairs (fun ei ej => ~ In (edge_v0 ej) (edge_nodes ei)) order -> NoDup (map edge_v0 order).
Proof.
  induction 1 as [|e l H1 H2 IH]; cbn [map]; constructor; [|assumption].
  intros HI. apply in_map_iff in HI. destruct HI as (e' & E & He'). rewrite Forall_forall in H1. apply (H1 e' He').
  rewrite E. destruct e as [[v0 v1] v2]. left. reflexivity.
Qed.

Theorem mph_build_ok {K} dom (h : K -> triple) keys order : 0 < dom -> valid_order dom h keys order ->
  exists m, mph_build (lenN keys) dom order = Ok m /\ mphf_ok m h keys /\ m_n m = lenN keys /\
    forall t, exists p, mph_lookup m t = Ok p /\ p <= lenN keys.
Proof.
  intros HD [(keys' & PK & F2) HP].
  assert (HE : Forall (fun e => exists t, edge_of dom t e) order).
  { clear -F2. induction F2; constructor; eauto. }
  destruct (mph_fold_ok dom order [] (repN 0 (3 * dom))) as (bv & E & I1 & I2 & I3 & I4 & I5); [|assumption|assumption|].
  { assert (Z : forall p, wd (repN 0 (3 * dom)) p = 0) by (intros; unfold wd, repN; apply nth_repeat).
    split; [apply lenN_rep|]. split; [intros; rewrite Z; lia|]. split; [intros; rewrite Z; cbn; split; [congruence|contradiction]|].
    split; [intros e []|]. unfold repN. clear. induction (N.to_nat (3 * dom)); [reflexivity|exact IHn]. }
  unfold mph_build. rewrite E. cbn [bind app] in *. set (m := mkmphf (lenN keys) dom bv). exists m. split; [reflexivity|].
  assert (LO : lenN order = lenN keys).
  { unfold lenN. rewrite (Permutation_length PK). f_equal. clear -F2. induction F2; cbn; congruence. }
  assert (LK : forall k e, edge_of dom (h k) e -> In e order -> mph_lookup m (h k) = Ok (rank bv (edge_v0 e))).
  { intros k e EO He. destruct (mph_nodes_ok dom (h k) HD) as (n0 & n1 & n2 & EN).
    destruct (edge_pick _ _ _ _ _ _ EN EO) as (PV & OR & SM). destruct (nodes_bounds _ _ _ _ _ EN) as (_ & B1 & B2 & B3).
    unfold mph_lookup. cbn [m m_dom m_bv]. rewrite EN. cbn [bind]. rewrite !rd_wd by (rewrite I1; lia). cbn [bind].
    rewrite (SM (wd bv)). pose proof (I4 e He) as G. destruct e as [[v0 v1] v2]. cbn [good] in G. rewrite G, PV. reflexivity. }
  assert (V0 : forall e, In e order -> edge_v0 e < lenN bv /\ wd bv (edge_v0 e) <> 0).
  { intros e He. split; [|apply I3, in_map; assumption]. rewrite Forall_forall in HE. destruct (HE e He) as (t & Ht).
    rewrite I1. eapply edge_in; [exact Ht|]. destruct e as [[v0 v1] v2]. left. reflexivity. }
  split; [|split; [reflexivity|]].
  - (* positions along keys' *)
    set (pos := fun k => match mph_lookup m (h k) with Ok p => p | _ => 0 end).
    assert (GEN : forall ks es, Forall2 (fun k e => edge_of dom (h k) e) ks es -> (forall e, In e es -> In e order) ->
      map pos ks = map (fun e => rank bv (edge_v0 e)) es /\ forall k, In k ks -> mph_lookup m (h k) = Ok (pos k)).
    { induction 1 as [|k e ks es EO F IH]; intros SUB; [split; [reflexivity|intros k []]|].
      destruct IH as [IH1 IH2]; [intros; apply SUB; right; assumption|].
      pose proof (LK k e EO (SUB e (or_introl eq_refl))) as L. cbn [map]. split.
      - f_equal; [unfold pos; rewrite L; reflexivity|assumption].
      - intros k' [<-|HI]; [unfold pos; rewrite L; reflexivity|apply IH2; assumption]. }
    destruct (GEN keys' order F2 (fun e H => H)) as [MP PO]. exists (map pos keys). split.
    + apply mapM_ok'. intros k Hk. apply PO. eapply Permutation_in; eassumption.
    + rewrite (Permutation_map pos PK), MP. apply NoDup_range_perm.
      * assert (NDV : NoDup (map edge_v0 order)) by (apply FOP_NoDup; assumption).
        rewrite <- (map_map edge_v0 (rank bv)). assert (V1 : forall p, In p (map edge_v0 order) -> p < lenN bv /\ wd bv p <> 0).
        { intros p Hp. apply in_map_iff in Hp. destruct Hp as (e & <- & He). apply V0. assumption. }
        clear -NDV V1. induction NDV as [|p l H1 H2 IH]; cbn [map]; constructor.
        -- intros HI. apply in_map_iff in HI. destruct HI as (q & Eq & Hq). destruct (V1 p (or_introl eq_refl)) as [A1 A2].
           destruct (V1 q (or_intror Hq)) as [B1 B2]. apply rank_inj in Eq; try assumption. subst. contradiction.
        -- apply IH. intros q Hq. apply V1. right. assumption.
      * rewrite lenN_map. assumption.
      * apply Forall_map, Forall_forall. intros e He. destruct (V0 e He) as [A1 A2]. rewrite <- LO, <- I5. apply rank_lt; assumption.
  - intros t. destruct (mph_nodes_ok dom t HD) as (n0 & n1 & n2 & EN). destruct (nodes_bounds _ _ _ _ _ EN) as (_ & B1 & B2 & B3).
    unfold mph_lookup. cbn [m m_dom m_bv]. rewrite EN. cbn [bind]. rewrite !rd_wd by (rewrite I1; lia). cbn [bind].
    eexists. split; [reflexivity|]. rewrite <- LO, <- I5. apply rank_le.
Qed.
