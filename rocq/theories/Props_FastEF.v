(** * Properties C14, C15: the search structure of a trie level *)
From Verif Require Import Prelude BitFacts M_Word P_Word M_Bits Spec P_Bits P_Builder P_Cursor P_BitProg
  M_CompactVector P_CompactVector M_DArray P_DArray M_EF P_EF P_EF2 M_HashVec M_Mph P_Mph P_MphTables M_FastEF P_FastEF P_FastEF2 P_FastEF3 P_FastEF4 P_FastEF5.
From Coq Require Import Permutation.

(** ** C14 *)
(** ids: the word ids of a level; ptrs: the pointers of the level above.  [h], [order]: the hash
    function and the peeling order of the table of the ranges with 128 elements or more.
    On every non-empty range, find() answers exactly where the id is, or that it is not there;
    operator[] gives the id plus the last value of the previous range. *)
Theorem C14_find : forall (h : N -> triple) (order : list edge) (ids ptrs : list N) (M : N),
  pointers_for ptrs (lenN ids) -> sorted_in_ranges ids ptrs -> ids <> [] ->
  lenN ids < 2 ^ 56 -> Forall (fun v => v <= M) ids -> lenN ptrs * M < 2 ^ 64 ->
  (long_starts 128 ptrs = [] \/ valid_order (hash_domain (lenN (long_starts 128 ptrs))) h (long_starts 128 ptrs) order) ->
  exists f, fef_build h order ids ptrs = Ok f /\ f_size f = lenN ids /\
    (forall b e id, is_range ptrs b e -> b < e -> id < 2 ^ 64 ->
       exists r, fef_find h f (b, e) id = Ok r /\ search_result ids b e id r) /\
    (forall b e k id, is_range ptrs b e -> b <= k < e -> nthN ids k = Some id ->
       exists prev, (if b =? 0 then prev = 0 else fef_get f (b - 1) = Ok prev) /\ fef_get f k = Ok (id + prev)).
Proof.
  intros h order ids ptrs M P S NE Hn HF HM HV. destruct (fef_build_ok h order ids ptrs M P S NE Hn HF HM HV) as (f & vs & E & R).
  exists f. split; [exact E|]. split; [apply R|]. split; [intros; eapply fef_find_ok; eauto|].
  intros b e k id HR Hk Hid. pose proof R as (_ & RC & V & _). pose proof V as (VL & V2).
  pose proof (range_bounds ptrs _ b e P HR) as B. exists (pv vs b). split.
  - unfold pv. destruct (N.eqb_spec b 0); [reflexivity|]. destruct (nthN_Some vs (b - 1) ltac:(lia)) as (x & Hx). rewrite Hx.
    apply (efc_get_ok _ vs); assumption.
  - apply (efc_get_ok _ vs); [assumption|]. apply (V2 b e); assumption.
Qed.

(** a present id is found where it is, when the ids of a range are distinct *)
Theorem C14_find_present : forall (h : N -> triple) (order : list edge) (ids ptrs : list N) (M : N),
  pointers_for ptrs (lenN ids) -> sorted_in_ranges ids ptrs -> ids <> [] ->
  lenN ids < 2 ^ 56 -> Forall (fun v => v <= M) ids -> lenN ptrs * M < 2 ^ 64 ->
  (long_starts 128 ptrs = [] \/ valid_order (hash_domain (lenN (long_starts 128 ptrs))) h (long_starts 128 ptrs) order) ->
  exists f, fef_build h order ids ptrs = Ok f /\
    forall b e k id, is_range ptrs b e -> b <= k < e -> nthN ids k = Some id ->
      (forall p, b <= p < e -> nthN ids p = Some id -> p = k) -> fef_find h f (b, e) id = Ok k.
Proof.
  intros h order ids ptrs M P S NE Hn HF HM HV. destruct (C14_find h order ids ptrs M P S NE Hn HF HM HV) as (f & E & _ & F & _).
  exists f. split; [exact E|]. intros b e k id R Hk Hid U.
  assert (id < 2 ^ 64). { pose proof (Forall_nthN _ _ _ _ HF Hid) as X. cbn in X. destruct P as (_ & L & _). nia. }
  destruct (F b e id R ltac:(lia) H) as (r & Er & [[A1 A2]|[A1 A2]]); rewrite Er.
  - f_equal. apply U; assumption.
  - exfalso. exact (A2 k Hk Hid).
Qed.

(** instances: a short one; one with a range of 300 elements, which goes through the sampling tree *)
Definition h1 (x : N) : triple := (x, x, x).
Example C14_example_hyps : pointers_for [0; 3; 3; 5] 5 /\ sorted_in_ranges [2; 5; 9; 1; 4] [0; 3; 3; 5] /\ long_starts 128 [0; 3; 3; 5] = [].
Proof.
  split; [|split; [|reflexivity]].
  - split; [reflexivity|]. split; [vm_compute; discriminate|]. split; [reflexivity|]. intros i x y Hx Hy.
    pose proof (nthN_lt _ _ _ Hy) as L. change (lenN [0; 3; 3; 5]) with 4 in L.
    assert (C : i = 0 \/ i = 1 \/ i = 2) by lia. destruct C as [->|[->| ->]]; vm_compute in Hx, Hy; injection Hx as <-; injection Hy as <-; discriminate.
  - intros b e k x y (j & J1 & J2) Hb He Hx Hy. pose proof (nthN_lt _ _ _ Hy) as L. change (lenN [2; 5; 9; 1; 4]) with 5 in L.
    assert (C : k = 0 \/ k = 1 \/ k = 2 \/ k = 3) by lia. destruct C as [->|[->|[->| ->]]]; vm_compute in Hx, Hy; injection Hx as <-; injection Hy as <-; try discriminate.
    exfalso. pose proof (nthN_lt _ _ _ J2) as LJ. change (lenN [0; 3; 3; 5]) with 4 in LJ.
    assert (D : j = 0 \/ j = 1 \/ j = 2) by lia. destruct D as [->|[->| ->]]; vm_compute in J1, J2; injection J1 as <-; injection J2 as <-; lia.
Qed.
Example C14_example :
  (f <- fef_build h1 [] [2; 5; 9; 1; 4] [0; 3; 3; 5] ;;
   a <- mapM (fef_find h1 f (0, 3)) [2; 5; 9; 1; 4; 0; 100] ;; b <- mapM (fef_find h1 f (3, 5)) [2; 5; 9; 1; 4] ;; Ok (a, b)) =
  Ok ([0; 1; 2; not_found; not_found; not_found; not_found], [not_found; not_found; not_found; 3; 4]).
Proof. vm_compute. reflexivity. Qed.
Example C14_example_long_hyp :
  long_starts 128 [0; 2; 302] = [2] /\ valid_order (hash_domain (lenN [2])) h1 [2] [(0, 1, 2)].
Proof. split; [reflexivity|]. split; [exists [2]; split; [apply Permutation_refl|repeat constructor]|repeat constructor]. Qed.
Example C14_example_long :
  (f <- fef_build h1 [(0, 1, 2)] (5 :: 8 :: map (fun i => 3 * i) (range 300)) [0; 2; 302] ;;
   mapM (fef_find h1 f (2, 302)) [0; 1; 3; 300; 450; 451; 897; 898; 1000000]) =
  Ok [2; not_found; 3; 102; 152; not_found; 301; not_found; not_found].
Proof. vm_compute. reflexivity. Qed.

(** with exactly two long ranges no table of the long ranges can be built (see C19): construction
    of the sequence never ends *)
Theorem C14_two_long_ranges_refuted : forall (h : N -> triple) (order : list edge) (ptrs : list N),
  lenN (long_starts 128 ptrs) = 2 ->
  ~ valid_order (hash_domain (lenN (long_starts 128 ptrs))) h (long_starts 128 ptrs) order.
Proof.
  intros h order ptrs H. destruct (long_starts 128 ptrs) as [|k1 [|k2 [|k3 r]]]; try discriminate H;
    [|exfalso; rewrite !lenN_cons in H; lia].
  intros [(keys' & P & F) O]. change (hash_domain (lenN [k1; k2])) with 1 in F.
  assert (EV : forall k e, edge_of 1 (h k) e -> Permutation (edge_nodes e) [0; 1; 2]).
  { intros k [[a b] c] HE. unfold edge_of, mph_nodes in HE. change (1 =? 0) with false in HE. cbn iota in HE.
    destruct (h k) as [[x y] z]. rewrite !N.mod_1_r in HE. exact HE. }
  apply Permutation_length in P. destruct keys' as [|x [|y [|z l]]]; try discriminate P.
  inversion F as [|? e1 ? ? H1 F1]; subst. inversion F1 as [|? e2 ? ? H2 F2]; subst. inversion F2; subst.
  inversion O as [|? ? O1 O2]; subst. inversion O1 as [|? ? N1 _]; subst. apply N1.
  apply EV in H1. apply EV in H2. apply (Permutation_in _ (Permutation_sym H1)). apply (Permutation_in _ H2).
  destruct e2 as [[a b] c]. left. reflexivity.
Qed.

(** ** C15 *)
(** On an empty range nothing can be present, yet find() answers a position of a later
    range, ... *)
Theorem C15_empty_range_false_positive_refuted : exists f,
  fef_build h1 [] [1; 2; 1; 3] [0; 2; 2; 4] = Ok f /\ is_range [0; 2; 2; 4] 2 2 /\
  fef_find h1 f (2, 2) 3 = Ok 3 /\ ~ search_result [1; 2; 1; 3] 2 2 3 3.
Proof.
  eexists. split; [vm_compute; reflexivity|]. split; [exists 1; split; reflexivity|]. split; [vm_compute; reflexivity|].
  intros [[H _]|[H _]]; [lia|discriminate H].
Qed.
(** ... or reads past the end of the bit vector, at the end of the level *)
Theorem C15_empty_range_read_past_end_refuted : exists f,
  fef_build h1 [] [1; 2] [0; 2; 2] = Ok f /\ is_range [0; 2; 2] 2 2 /\ fef_find h1 f (2, 2) 1 = UB.
Proof.
  eexists. split; [vm_compute; reflexivity|]. split; [exists 1; split; reflexivity|]. vm_compute. reflexivity.
Qed.

(** What find answers on an empty range: with [base] the value before the range, the search is for [id + base] in the values of
    the ranges after it.  If some later value is not smaller, the answer is not_found or a position after the range that holds that value;
    it is not_found exactly if no later value is [id + base] or the first one falls in the same bucket of [2 ^ l] values.
    (Missing, because it is false: that the answer is not_found; and the case of an [id + base] above all values, where the
    end of the bit vector may be passed.) *)
Theorem C15_empty_range_partial : forall (h : N -> triple) (order : list edge) (ids ptrs : list N) (M : N),
  pointers_for ptrs (lenN ids) -> sorted_in_ranges ids ptrs -> ids <> [] ->
  lenN ids < 2 ^ 56 -> Forall (fun v => v <= M) ids -> lenN ptrs * M < 2 ^ 64 ->
  (long_starts 128 ptrs = [] \/ valid_order (hash_domain (lenN (long_starts 128 ptrs))) h (long_starts 128 ptrs) order) ->
  exists f l, fef_build h order ids ptrs = Ok f /\
    forall b id base q y, is_range ptrs b b -> (if b =? 0 then base = 0 else fef_get f (b - 1) = Ok base) ->
      b <= q < lenN ids -> fef_get f q = Ok y -> id + base <= y ->
      exists r, fef_find h f (b, b) id = Ok r /\
        (r = not_found \/ b < r < lenN ids /\ fef_get f r = Ok (id + base)) /\
        (r = not_found <-> forall p first, b < p < lenN ids -> fef_get f p = Ok (id + base) -> fef_get f b = Ok first -> first / 2 ^ l = (id + base) / 2 ^ l).
Proof.
  intros h order ids ptrs M P S NE Hn HF HM HV. destruct (fef_build_ok h order ids ptrs M P S NE Hn HF HM HV) as (f & vs & E & R).
  exists f, (e_l (f_core f)). split; [exact E|]. intros b id base q y HR HB Hq Hy Hle. pose proof R as (_ & RC & V & _). pose proof V as (VL & _).
  assert (GET : forall i x, i < lenN ids -> (fef_get f i = Ok x <-> nthN vs i = Some x)).
  { intros i x Hi. unfold fef_get. destruct (nthN_Some vs i ltac:(lia)) as (z & Hz). rewrite (efc_get_ok _ vs i z RC Hz), Hz. split; congruence. }
  assert (EB : base = pv vs b).
  { unfold pv. destruct (N.eqb_spec b 0); [assumption|]. apply GET in HB; [|lia]. rewrite HB. reflexivity. }
  subst base. destruct (fef_find_empty h f ids ptrs vs b id q y R HR ltac:(lia) ltac:(apply GET; [lia|assumption]) Hle) as (r & Er & [(A1 & A2 & A3)|(A1 & A2)]).
  - pose proof (nthN_lt _ _ _ A2) as Lr. exists r. split; [exact Er|]. split; [right; split; [lia|apply GET; [lia|assumption]]|]. split; intros H.
    + exfalso. subst r. unfold not_found in Lr. lia.
    + exfalso. destruct (nthN_Some vs b ltac:(lia)) as (v & Hv). specialize (A3 v Hv).
      specialize (H r v ltac:(lia) ltac:(apply GET; [lia|assumption]) ltac:(apply GET; [lia|assumption])). lia.
  - exists r. split; [exact Er|]. split; [left; exact A1|]. split; [|intros _; exact A1]. intros _ p first Hp G1 G2. apply (A2 p first); [lia|apply GET; [lia|assumption]|apply GET; [lia|assumption]].
Qed.
(** Every case: for any 64-bit id, with [w] the 64-bit sum of the id and the value before the range, find reads past the end
    of the bit vector exactly if all the values from the range on are in earlier buckets than [w] (so always, if the empty
    range is at the end of the level); otherwise it answers not_found or a position after the range that holds [w]. *)
Theorem C15_empty_range_exact : forall (h : N -> triple) (order : list edge) (ids ptrs : list N) (M : N),
  pointers_for ptrs (lenN ids) -> sorted_in_ranges ids ptrs -> ids <> [] ->
  lenN ids < 2 ^ 56 -> Forall (fun v => v <= M) ids -> lenN ptrs * M < 2 ^ 64 ->
  (long_starts 128 ptrs = [] \/ valid_order (hash_domain (lenN (long_starts 128 ptrs))) h (long_starts 128 ptrs) order) ->
  exists f l, fef_build h order ids ptrs = Ok f /\
    forall b id base, is_range ptrs b b -> (if b =? 0 then base = 0 else fef_get f (b - 1) = Ok base) ->
      let w := (id + base) mod 2 ^ 64 in
      (fef_find h f (b, b) id = UB <-> forall p y, b <= p < lenN ids -> fef_get f p = Ok y -> y / 2 ^ l < w / 2 ^ l) /\
      fef_find h f (b, b) id <> Throw /\
      forall r, fef_find h f (b, b) id = Ok r ->
        (r = not_found \/ b < r < lenN ids /\ fef_get f r = Ok w) /\
        (r = not_found <-> forall p first, b < p < lenN ids -> fef_get f p = Ok w -> fef_get f b = Ok first -> first / 2 ^ l = w / 2 ^ l).
Proof.
  intros h order ids ptrs M P S NE Hn HF HM HV. destruct (fef_build_ok h order ids ptrs M P S NE Hn HF HM HV) as (f & vs & E & R).
  exists f, (e_l (f_core f)). split; [exact E|]. intros b id base HR HB w. pose proof R as (_ & RC & V & _). pose proof V as (VL & _). pose proof (range_bounds ptrs _ b b P HR) as BB.
  assert (GET : forall i x, i < lenN ids -> (fef_get f i = Ok x <-> nthN vs i = Some x)).
  { intros i x Hi. unfold fef_get. destruct (nthN_Some vs i ltac:(lia)) as (z & Hz). rewrite (efc_get_ok _ vs i z RC Hz), Hz. split; congruence. }
  assert (EB : base = pv vs b).
  { unfold pv. destruct (N.eqb_spec b 0); [assumption|]. apply GET in HB; [|lia]. rewrite HB. reflexivity. }
  assert (EW : add64 id (pv vs b) = w) by (unfold w; rewrite EB; unfold add64; apply w64_mod).
  destruct (fef_find_empty_any h f ids ptrs vs b id R HR) as [((q & y & Q1 & Q2 & Q3) & r & Er & D)|(D & Er)]; rewrite EW in *; rewrite Er.
  - split; [|split].
    + split; [discriminate|]. intros H. exfalso. pose proof (nthN_lt _ _ _ Q2). specialize (H q y ltac:(lia) ltac:(apply GET; [lia|assumption])). lia.
    + discriminate.
    + intros r' X. injection X as <-. destruct D as [(A1 & A2 & A3)|(A1 & A2)].
      * pose proof (nthN_lt _ _ _ A2) as Lr. split; [right; split; [lia|apply GET; [lia|assumption]]|]. split; intros H.
        -- exfalso. subst r. unfold not_found in Lr. lia.
        -- exfalso. destruct (nthN_Some vs b ltac:(lia)) as (v & Hv). specialize (A3 v Hv).
           specialize (H r v ltac:(lia) ltac:(apply GET; [lia|assumption]) ltac:(apply GET; [lia|assumption])). lia.
      * split; [left; exact A1|]. split; [|intros _; exact A1]. intros _ p first Hp G1 G2. apply (A2 p first); [lia|apply GET; [lia|assumption]|apply GET; [lia|assumption]].
  - split; [|split; [discriminate|intros r X; discriminate]]. split; [|reflexivity]. intros _ p y Hp G. apply (D p y); [lia|]. apply GET; [lia|exact G].
Qed.
Print Assumptions C15_empty_range_exact.
(** an instance: in the empty range (2, 2) the ids 0 to 3 are searched as the values 2 to 5; 3 and 5 are stored after it, and only 5 is found *)
Example C15_example : exists f, fef_build h1 [] [1; 2; 1; 3] [0; 2; 2; 4] = Ok f /\
  map (fun i => fef_get f i) [0; 1; 2; 3] = [Ok 1; Ok 2; Ok 3; Ok 5] /\
  map (fun id => fef_find h1 f (2, 2) id) [0; 1; 2; 3] = [Ok not_found; Ok not_found; Ok not_found; Ok 3].
Proof. eexists. split; [vm_compute; reflexivity|]. split; vm_compute; reflexivity. Qed.
Print Assumptions C15_empty_range_partial.

Print Assumptions C14_find.
Print Assumptions C14_find_present.
Print Assumptions C14_two_long_ranges_refuted.
Print Assumptions C15_empty_range_false_positive_refuted.
Print Assumptions C15_empty_range_read_past_end_refuted.
