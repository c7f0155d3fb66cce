(** * Properties C10-C12, C36: select index, Elias-Fano, variable-length codes, range pointers *)
From Verif Require Import Prelude BitFacts M_Word P_Word M_Bits Spec P_Bits P_Builder P_Cursor
  M_CompactVector P_CompactVector P_BitProg M_DArray P_DArray M_EF P_EF P_EF2.
From Coq Require Import Sorted.

(** ** C10: [neg = false] is darray1 (ones), [neg = true] is darray0 (zeros) *)
Theorem C10_select : forall (p : bprog) (b : bvb) (neg : bool),
  bwf p -> lenN (bden p) < 2 ^ 63 -> brun p = Ok b ->
  exists d, d_build neg (bv_build b) = Ok d /\
    d_pos d = lenN (positions (negb neg) (bden p) 0) /\
    forall i q, nthN (positions (negb neg) (bden p) 0) i = Some q ->
      d_select neg d (bv_build b) i = Ok q.
Proof.
  intros p b neg W L E. destruct (brun_vrep p b W E) as [R _].
  assert (EP : positions (negb neg) (bden p) 0 = fpos (fun i => xorb neg (N.testbit (num_of (bden p)) i)) 0 (lenN (bden p))).
  { rewrite positions_fpos. apply fpos_ext. intros i Hi. rewrite tb_num_of. destruct neg; destruct (bit_at (bden p) i); reflexivity. }
  destruct (d_build_ok neg _ _ _ R L) as (d & Ed & D). exists d. split; [exact Ed|]. rewrite EP. split; [apply D|].
  intros i q Hq. apply (d_select_ok neg d _ _ _ i q R); [lia|exact D|exact Hq].
Qed.
Definition C10_prog : bprog :=
  BAppendBits (BZeroExtend (BAppendBits (BNew 0 false) 0xF0F1 40) 300) 0x8001 16.
Example C10_example :
  bwf C10_prog /\ lenN (bden C10_prog) < 2 ^ 63 /\
  (b <- brun C10_prog ;; d1 <- d_build false (bv_build b) ;; d0 <- d_build true (bv_build b) ;;
   a <- mapM (d_select false d1 (bv_build b)) [0; 1; 8; 9; 10] ;;
   c <- mapM (d_select true d0 (bv_build b)) [0; 6; 7; 200] ;; Ok (a, c, d_pos d1)) =
    Ok ([0; 4; 15; 340; 355], [1; 11; 16; 209], 11).
Proof. split; [vm_compute; intuition congruence|]. split; vm_compute; reflexivity. Qed.

(** ** C11 *)
Lemma sortedN_Sorted vs : Sorted N.le vs <-> sortedN vs.
Proof.
  split.
  - induction 1 as [|a l HS IH HR]; intros i x y Hx Hy.
    + apply nthN_lt in Hx. rewrite lenN_nil in Hx. lia.
    + rewrite nthN_cons in Hx, Hy. destruct (N.eqb_spec i 0) as [->|].
      * destruct HR as [|b l HR]; [discriminate|]. cbn in Hx, Hy. injection Hx as <-. injection Hy as <-. exact HR.
      * destruct (N.eqb_spec (i + 1) 0); [lia|]. apply (IH (i - 1)); [assumption|].
        replace (i - 1 + 1) with (i + 1 - 1) by lia. assumption.
  - induction vs as [|a l IH]; intros H; constructor.
    + apply IH. intros i x y Hx Hy. apply (H (i + 1)); rewrite nthN_cons.
      * destruct (N.eqb_spec (i + 1) 0); [lia|]. replace (i + 1 - 1) with i by lia. assumption.
      * destruct (N.eqb_spec (i + 1 + 1) 0); [lia|]. replace (i + 1 + 1 - 1) with (i + 1) by lia. assumption.
    + destruct l as [|b l]; constructor. apply (H 0); reflexivity.
Qed.

(** build(begin, n, u) on a non-decreasing sequence bounded by u: every element by
    operator[], every adjacent pair, every run by the iterator, universe() = last. *)
Theorem C11_roundtrip : forall (vs : list N) (u : N) (index_on_zeros : bool),
  Sorted N.le vs -> Forall (fun v => v <= u) vs -> u < 2 ^ 64 -> lenN vs < 2 ^ 56 ->
  (vs = [] -> u < 2 ^ 62) ->
  exists e, ef_build vs u index_on_zeros = Ok e /\ ef_size e = lenN vs /\
    (forall i v, nthN vs i = Some v -> ef_get e i = Ok v) /\
    (forall i a b, nthN vs i = Some a -> nthN vs (i + 1) = Some b -> ef_pair e i = Ok (a, b)) /\
    (forall i k, i < lenN vs -> i + k <= lenN vs ->
       (it <- efit_new (ef_core e) i ;; efit_take (ef_core e) it (N.to_nat k)) = Ok (slice vs i k)) /\
    (forall v, nthN vs (lenN vs - 1) = Some v -> ef_universe e = Ok v).
Proof.
  intros vs u z HS HF Hu Hn H0. apply sortedN_Sorted in HS.
  destruct (ef_build_ok vs u z HS HF Hu Hn H0) as (e & E & R). exists e. split; [exact E|].
  split; [apply R|]. split; [intros; eapply ef_get_ok; eassumption|].
  split; [intros; eapply ef_pair_ok; eassumption|]. split; [|intros; eapply ef_universe_ok; eassumption].
  intros i k Hi Hk. destruct R as [R _]. destruct (efit_new_ok _ vs i R Hi) as (it & Ei & A). rewrite Ei. cbn [bind].
  rewrite (efit_take_ok _ vs R (N.to_nat k) it i A) by lia. rewrite N2Nat.id. reflexivity.
Qed.

(** a sequence that is not non-decreasing is rejected with an exception *)
Theorem C11_unsorted_rejected : forall (vs : list N) (u : N) (index_on_zeros : bool),
  ~ Sorted N.le vs -> Forall (fun v => v <= u) vs -> u < 2 ^ 64 -> lenN vs < 2 ^ 56 ->
  ef_build vs u index_on_zeros = Throw.
Proof.
  intros vs u z HS HF Hu Hn. unfold ef_build. rewrite efc_build_throw; auto. intros X. apply HS, sortedN_Sorted. exact X.
Qed.
Example C11_example :
  (e <- ef_build [3; 3; 17; 1000; 123456789; 123456789] 123456800 true ;;
   a <- mapM (ef_get e) (range 6) ;; it <- efit_new (ef_core e) 2 ;; b <- efit_take (ef_core e) it 3 ;;
   p <- ef_pair e 1 ;; Ok (a, b, p)) =
  Ok ([3; 3; 17; 1000; 123456789; 123456789], [17; 1000; 123456789], (3, 17)).
Proof. vm_compute. reflexivity. Qed.
Example C11_example_throw : ef_build [3; 2; 17] 20 false = Throw.
Proof. vm_compute. reflexivity. Qed.

(** ** C12 *)
Theorem C12_prefix_summed : forall (vs : list N) (order : N),
  vs <> [] -> sumN vs < 2 ^ 64 -> lenN vs < 2 ^ 56 ->
  exists p, pss_build vs order = Ok p /\ ps_size p = lenN vs /\
    forall i v, nthN vs i = Some v -> pss_get p i = Ok v.
Proof. exact pss_build_ok. Qed.

(** [63 * n] bounds the total code length *)
Theorem C12_codewords : forall vs : list N,
  Forall (fun v => v < 2 ^ 64 - 2) vs -> 63 * lenN vs + 65 < 2 ^ 63 ->
  exists s, icw_build vs = Ok s /\ ic_size s = lenN vs /\
    (forall i v, nthN vs i = Some v -> icw_get s i = Ok v) /\
    (b <- icw_begin s ;; e <- icw_end s ;; icw_iterate (S (length vs)) s b e) = Ok vs.
Proof.
  intros vs HF HL.
  assert (HF' : Forall (fun v => v + 2 < 2 ^ 64) vs) by (eapply Forall_impl; [|exact HF]; cbn; intros; lia).
  assert (HC : clens vs <= 63 * lenN vs).
  { clear HL HF. induction HF' as [|v l Hv HF IH]; [cbn; lia|]. unfold clens in *. cbn [map]. rewrite sumN_cons, lenN_cons.
    destruct (clen_spec v Hv) as [[_ C] _]. lia. }
  destruct (icw_build_ok vs ltac:(lia) HF') as (s & E & R). exists s. split; [exact E|].
  split; [destruct R as (VI & R1 & _); exact R1|]. split; [intros; eapply icw_get_ok; eassumption|apply icw_iter_all; exact R].
Qed.
Example C12_example :
  (s <- icw_build [0; 5; 2 ^ 64 - 3; 0; 1; 7] ;; a <- mapM (icw_get s) (range 6) ;;
   p <- pss_build [0; 5; 2 ^ 63; 0; 1; 7] 1 ;; b <- mapM (pss_get p) (range 6) ;; Ok (a, b)) =
  Ok ([0; 5; 2 ^ 64 - 3; 0; 1; 7], [0; 5; 2 ^ 63; 0; 1; 7]).
Proof. vm_compute. reflexivity. Qed.

(** operator* moves the iterator and operator++ only records the move: incrementing a new iterator without dereferencing it does
    nothing, and dereferencing twice does not give the same value *)
Theorem C12_increment_alone_refuted : forall s it, icw_begin s = Ok it -> it_pos it < 2 ^ 64 -> icit_incr it = it.
Proof.
  intros s it E L. unfold icw_begin, icit_new in E. apply bind_ok in E. destruct E as (e & _ & E). apply bind_ok in E. destruct E as ([p e'] & _ & E). injection E as <-.
  unfold icit_incr. cbn [it_pos it_len it_it] in *. rewrite add64_small by lia. rewrite N.add_0_r. reflexivity.
Qed.
Theorem C12_double_deref_refuted : exists s it it1 it2 v1 v2, icw_build [1; 2; 3] = Ok s /\ icw_begin s = Ok it /\
  icit_deref s it = Ok (v1, it1) /\ icit_deref s it1 = Ok (v2, it2) /\ v1 = 1 /\ v2 <> 1.
Proof.
  eexists _, _, _, _, _, _. split; [vm_compute; reflexivity|]. split; [vm_compute; reflexivity|]. split; [vm_compute; reflexivity|]. split; [vm_compute; reflexivity|]. split; [reflexivity|discriminate].
Qed.

(** ** C36: pointers 0, s0, s0+s1, ... for range sizes s0, s1, ... *)
Definition boundaries (sizes : list N) : list N :=
  map (fun k => sumN (firstn k sizes)) (seq 0 (S (length sizes))).
Theorem C36_ranges : forall sizes : list N,
  sumN sizes < 2 ^ 64 -> lenN sizes + 1 < 2 ^ 56 ->
  exists e, ptr_build (boundaries sizes) = Ok e /\ ef_size e = lenN sizes + 1 /\
    forall i s, nthN sizes i = Some s ->
      ptr_range e i = Ok (sumN (firstn (N.to_nat i) sizes), sumN (firstn (N.to_nat i) sizes) + s).
Proof.
  intros sizes HS HL.
  assert (LB : lenN (boundaries sizes) = lenN sizes + 1) by (unfold boundaries, lenN; rewrite map_length, seq_length; lia).
  assert (NB : forall i, i <= lenN sizes -> nthN (boundaries sizes) i = Some (sumN (firstn (N.to_nat i) sizes))).
  { intros i Hi. unfold nthN, boundaries. apply map_nth_error with (f := fun k => sumN (firstn k sizes)).
    rewrite (nth_error_nth' _ 0%nat) by (rewrite seq_length; unfold lenN in Hi; lia).
    rewrite seq_nth by (unfold lenN in Hi; lia). reflexivity. }
  destruct (ptr_build_ok (boundaries sizes)) as (e & E & R).
  - intros i x y Hx Hy. pose proof (nthN_lt _ _ _ Hy) as Ly. rewrite LB in Ly. rewrite NB in Hx, Hy by lia.
    injection Hx as <-. injection Hy as <-. destruct (nthN_Some sizes i ltac:(lia)) as (v & Hv).
    rewrite (firstn_succ _ _ _ Hv), sumN_app. lia.
  - unfold boundaries. discriminate.
  - unfold boundaries. apply Forall_map, Forall_forall. intros k _. pose proof (sumN_firstn_le k sizes). lia.
  - rewrite LB. exact HL.
  - exists e. split; [exact E|]. split; [destruct R as [_ ->]; exact LB|]. intros i s Hs. pose proof (nthN_lt _ _ _ Hs) as Hi.
    unfold ptr_range. rewrite (ef_pair_ok e _ i _ _ R (NB i ltac:(lia)) (NB (i + 1) ltac:(lia))).
    rewrite (firstn_succ _ _ _ Hs), sumN_app, sumN_cons. unfold sumN at 4. cbn. rewrite N.add_0_r. reflexivity.
Qed.
Example C36_example :
  (e <- ptr_build (boundaries [3; 0; 70; 1]) ;; mapM (ptr_range e) (range 4)) = Ok [(0, 3); (3, 3); (3, 73); (73, 74)].
Proof. vm_compute. reflexivity. Qed.

Print Assumptions C10_select.
Print Assumptions C11_roundtrip.
Print Assumptions C11_unsorted_rejected.
Print Assumptions C12_prefix_summed.
Print Assumptions C12_codewords.
Print Assumptions C12_increment_alone_refuted.
Print Assumptions C12_double_deref_refuted.
Print Assumptions C36_ranges.
