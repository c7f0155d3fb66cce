(** * Properties C19, C20, C21: minimal perfect hashing and the tables on top of it

    [K] is the type of keys, [h] the hasher composed with the client's adaptor:
    an arbitrary function.  [order] is what a successful run of the external
    hypergraph sorter returned ([valid_order], M_Mph.v); the sizes of the graph
    are those the constructor computes ([hash_domain]). *)
From Verif Require Import Prelude BitFacts M_Word P_Word M_Bits Spec P_Bits P_Builder P_BitProg
  M_CompactVector P_CompactVector M_HashVec P_HashVec M_Mph P_Mph P_MphTables P_MphPast.
From Coq Require Import Permutation.

Lemma hash_domain_pos n : 0 < n -> 0 < hash_domain n.
Proof. intros. unfold hash_domain. dlia. Qed.

(** ** C19 *)
(** One-to-one onto 0..n-1; any other key at most n; nothing undefined. *)
Theorem C19_bijection : forall (K : Type) (h : K -> triple) (keys : list K) (order : list edge),
  keys <> [] -> valid_order (hash_domain (lenN keys)) h keys order ->
  exists m, mph_build (lenN keys) (hash_domain (lenN keys)) order = Ok m /\
    (forall k, In k keys -> exists p, mph_lookup m (h k) = Ok p /\ p < lenN keys) /\
    (forall i j ki kj p, nth_error keys i = Some ki -> nth_error keys j = Some kj ->
       mph_lookup m (h ki) = Ok p -> mph_lookup m (h kj) = Ok p -> i = j) /\
    (forall p, p < lenN keys -> exists k, In k keys /\ mph_lookup m (h k) = Ok p) /\
    (forall t, exists p, mph_lookup m t = Ok p /\ p <= lenN keys).
Proof.
  intros K h keys order NE HV. assert (D : 0 < hash_domain (lenN keys)).
  { apply hash_domain_pos. destruct keys; [congruence|]. rewrite lenN_cons. lia. }
  destruct (mph_build_ok _ h keys order D HV) as (m & E & MO & Mn & MA). exists m. split; [exact E|].
  destruct (mphf_pos m h keys MO) as (pos & PO & PP).
  assert (ND : NoDup (map pos keys)) by (eapply Permutation_NoDup; [apply Permutation_sym, PP|apply NoDup_range]).
  split; [|split; [|split; [|exact MA]]].
  - intros k Hk. exists (pos k). split; [apply PO; assumption|].
    assert (I : In (pos k) (range (lenN keys))) by (eapply Permutation_in; [exact PP|apply in_map; assumption]).
    apply In_seqN in I. lia.
  - intros i j ki kj p Hi Hj Li Lj. rewrite PO in Li by (eapply nth_error_In; eauto). rewrite PO in Lj by (eapply nth_error_In; eauto).
    assert (EI : nth_error (map pos keys) i = Some p) by (rewrite nth_error_map, Hi; cbn; congruence).
    assert (EJ : nth_error (map pos keys) j = Some p) by (rewrite nth_error_map, Hj; cbn; congruence).
    rewrite NoDup_nth_error in ND. apply ND; [|congruence]. apply nth_error_Some. congruence.
  - intros p Hp. assert (I : In p (map pos keys)).
    { apply (Permutation_in _ (Permutation_sym PP)). apply In_seqN. lia. }
    apply in_map_iff in I. destruct I as (k & <- & Hk). exists k. split; [assumption|]. apply PO. assumption.
Qed.

(** The constructor's loop never ends on two keys: the graph has three nodes and no
    hash function gives a peelable order ... *)
Theorem C19_two_keys_refuted : forall (K : Type) (h : K -> triple) (k1 k2 : K) (order : list edge),
  ~ valid_order (hash_domain (lenN [k1; k2])) h [k1; k2] order.
Proof.
  intros K h k1 k2 order [(keys' & P & F) O]. change (hash_domain (lenN [k1; k2])) with 1 in F.
  assert (EV : forall k e, edge_of 1 (h k) e -> Permutation (edge_nodes e) [0; 1; 2]).
  { intros k [[a b] c] H. unfold edge_of, mph_nodes in H. change (1 =? 0) with false in H. cbn iota in H.
    destruct (h k) as [[x y] z]. rewrite !N.mod_1_r in H. exact H. }
  apply Permutation_length in P. destruct keys' as [|x [|y [|z l]]]; try discriminate P.
  inversion F as [|? e1 ? ? H1 F1]; subst. inversion F1 as [|? e2 ? ? H2 F2]; subst. inversion F2; subst.
  inversion O as [|? ? O1 O2]; subst. inversion O1 as [|? ? N1 _]; subst. apply N1.
  apply EV in H1. apply EV in H2. apply (Permutation_in _ (Permutation_sym H1)). apply (Permutation_in _ H2).
  destruct e2 as [[a b] c]. left. reflexivity.
Qed.
(** ... and with no keys every lookup divides by zero. *)
Theorem C19_no_keys_refuted : forall order t m, mph_build 0 (hash_domain 0) order = Ok m -> mph_lookup m t = UB.
Proof.
  intros order t m H. unfold mph_build in H. destruct (foldM _ _ _) as [bv| |]; cbn [bind] in H; try discriminate.
  injection H as <-. reflexivity.
Qed.

(** a concrete instance: three keys, a two-per-part graph *)
Definition ex_h (k : N) : triple :=
  if k =? 10 then (0, 1, 0) else if k =? 20 then (1, 1, 0) else if k =? 30 then (1, 0, 0) else (k / 2, 0, k).
Definition ex_order : list edge := [(3, 0, 4); (1, 3, 4); (2, 1, 4)].
Example ex_valid : valid_order (hash_domain (lenN [10; 20; 30])) ex_h [10; 20; 30] ex_order.
Proof.
  change (hash_domain (lenN [10; 20; 30])) with 2. split.
  - exists [10; 20; 30]. split; [apply Permutation_refl|].
    constructor; [|constructor; [|constructor; [|constructor]]]; unfold edge_of; cbn.
    + apply perm_swap.
    + apply Permutation_refl.
    + apply perm_swap.
  - repeat constructor; cbn; intros H; repeat (destruct H as [H|H]; [discriminate|]); destruct H.
Qed.
Example C19_example :
  (m <- mph_build 3 (hash_domain 3) ex_order ;; mapM (fun k => mph_lookup m (ex_h k)) [10; 20; 30]) = Ok [2; 0; 1].
Proof. vm_compute. reflexivity. Qed.

(** ** C20 *)
(** the compact vector of values a client hands to the builder *)
Definition packed (w : N) (vs : list N) : res cv :=
  b <- cvb_new (lenN vs) w ;; b <- cvb_fill b vs ;; Ok (cv_of_builder b).
Lemma packed_holds w vs : 1 <= w <= 64 -> lenN vs * w + 64 < 2 ^ 64 -> Forall (fun v => v < 2 ^ w) vs ->
  exists c, packed w vs = Ok c /\ cv_holds c vs /\ c_width c = w.
Proof.
  intros H1 H2 H3. destruct (cv_fill_roundtrip vs w ltac:(lia) H2 H3) as (b & V & E & R & S). unfold packed.
  destruct (cvb_new (lenN vs) w) as [b0| |]; try discriminate. cbn [bind] in *. rewrite E. cbn [bind].
  eexists. split; [reflexivity|]. split; [exists w, V; split; [apply cv_of_builder_rep; assumption|assumption]|]. cbn. apply R.
Qed.

Theorem C20_single : forall (K : Type) (hb : N) (h : K -> triple) (keys : list K) (vs : list N) (w : N) (order : list edge),
  keys <> [] -> valid_order (hash_domain (lenN keys)) h keys order -> length keys = length vs ->
  (hb = 64 /\ 1 <= w <= 64) \/ (hb = 32 /\ (1 <= w <= 32 \/ w = 64)) ->
  lenN keys * (hb + w) <= 2 ^ hb -> lenN keys * (hb + w) + 64 < 2 ^ 64 -> Forall (fun v => v < 2 ^ w) vs ->
  exists t, (vals <- packed w vs ;; svt_build hb h (hash_domain (lenN keys)) order keys vals) = Ok t /\
    (forall k v, In (k, v) (combine keys vs) -> svt_lookup hb h t k = Ok v) /\
    (* C21 *)
    (forall g, mph_lookup (sv_h t) (h g) = Ok (lenN keys) \/
       exists k v, In (k, v) (combine keys vs) /\ svt_lookup hb h t g = Ok (if mix hb (h k) =? mix hb (h g) then v else not_found)).
Proof.
  intros K hb h keys vs w order NE HV HL HB H1 H2 HF.
  assert (D : 0 < hash_domain (lenN keys)) by (apply hash_domain_pos; destruct keys; [congruence|]; rewrite lenN_cons; lia).
  assert (LL : lenN vs = lenN keys) by (unfold lenN; lia).
  destruct (packed_holds w vs) as (c & Ec & HC & HW); [lia|nia|assumption|]. rewrite Ec. cbn [bind].
  destruct (svt_build_ok hb h (hash_domain (lenN keys)) order keys c vs D HV HC HL) as (t & Et & R); rewrite ?HW; try lia.
  exists t. split; [exact Et|]. split; [intros; eapply svt_lookup_in; eauto|]. intros g. apply (svt_lookup_any hb h t keys vs g R).
Qed.

Theorem C20_double : forall (K : Type) (hb : N) (h : K -> triple) (keys : list K) (vs1 vs2 : list N) (w1 w2 : N) (order : list edge),
  keys <> [] -> valid_order (hash_domain (lenN keys)) h keys order -> length keys = length vs1 -> length keys = length vs2 ->
  hb = 32 \/ hb = 64 -> 1 <= w1 <= 64 -> 1 <= w2 <= 64 -> lenN keys * (64 + w1 + w2) + 64 < 2 ^ 64 ->
  Forall (fun v => v < 2 ^ w1) vs1 -> Forall (fun v => v < 2 ^ w2) vs2 ->
  exists t, (vals1 <- packed w1 vs1 ;; vals2 <- packed w2 vs2 ;;
             dvt_build hb h (hash_domain (lenN keys)) order keys vals1 vals2) = Ok t /\
    (forall k x y, In (k, (x, y)) (combine keys (combine vs1 vs2)) ->
       dvt_lookup_pair hb h t k = Ok (x, y) /\ dvt_lookup hb h t k = Ok x) /\
    (* C21 *)
    (forall g, mph_lookup (dv_h t) (h g) = Ok (lenN keys) \/
       exists k x y, In (k, (x, y)) (combine keys (combine vs1 vs2)) /\
         dvt_lookup_pair hb h t g = Ok (if mix hb (h k) =? mix hb (h g) then (x, y) else (not_found, not_found)) /\
         dvt_lookup hb h t g = Ok (if mix hb (h k) =? mix hb (h g) then x else not_found)).
Proof.
  intros K hb h keys vs1 vs2 w1 w2 order NE HV HL1 HL2 HB HW1 HW2 HN HF1 HF2.
  assert (D : 0 < hash_domain (lenN keys)) by (apply hash_domain_pos; destruct keys; [congruence|]; rewrite lenN_cons; lia).
  assert (LL1 : lenN vs1 = lenN keys) by (unfold lenN; lia). assert (LL2 : lenN vs2 = lenN keys) by (unfold lenN; lia).
  destruct (packed_holds w1 vs1) as (c1 & Ec1 & HC1 & HX1); [lia|nia|assumption|]. rewrite Ec1. cbn [bind].
  destruct (packed_holds w2 vs2) as (c2 & Ec2 & HC2 & HX2); [lia|nia|assumption|]. rewrite Ec2. cbn [bind].
  destruct (dvt_build_ok hb h (hash_domain (lenN keys)) order keys c1 c2 vs1 vs2 D HV HC1 HC2 HL1 HL2) as (t & Et & R); rewrite ?HX1, ?HX2; try lia.
  exists t. split; [exact Et|]. split; [intros; eapply dvt_lookup_in; eauto|]. intros g. apply (dvt_lookup_any hb h t keys _ g R).
Qed.

Theorem C20_uint : forall (h : N -> triple) (from to : list N) (back : N) (order : list edge),
  from <> [] -> valid_order (hash_domain (lenN from)) h from order -> length from = length to ->
  nthN to (lenN to - 1) = Some back -> Forall (fun v => v <= back) to -> back < 2 ^ 64 - 1 -> lenN to * 64 + 64 < 2 ^ 64 ->
  exists t, umpht_build h (hash_domain (lenN from)) order from to = Ok t /\
    forall x v, In (x, v) (combine from to) -> umpht_lookup h t x = Ok v.
Proof.
  intros h from to back order NE HV HL HB HF HM HN.
  assert (D : 0 < hash_domain (lenN from)) by (apply hash_domain_pos; destruct from; [congruence|]; rewrite lenN_cons; lia).
  destruct (umpht_build_ok h _ order from to back D HV HL HB HF HM HN) as (t & E & R). exists t. split; [exact E|].
  intros x v HI. apply (umpht_lookup_in h t from to x v R HI).
Qed.
Example C20_example :
  (vals <- packed 7 [100; 7; 55] ;; t <- svt_build 64 ex_h 2 ex_order [10; 20; 30] vals ;; mapM (svt_lookup 64 ex_h t) [30; 10; 20]) = Ok [55; 100; 7] /\
  (vals1 <- packed 7 [100; 7; 55] ;; vals2 <- packed 33 [2 ^ 33 - 1; 0; 9] ;;
   t <- dvt_build 64 ex_h 2 ex_order [10; 20; 30] vals1 vals2 ;; mapM (dvt_lookup_pair 64 ex_h t) [30; 10; 20]) = Ok [(55, 9); (100, 2 ^ 33 - 1); (7, 0)] /\
  (t <- umpht_build ex_h 2 ex_order [10; 20; 30] [0; 4; 9] ;; mapM (umpht_lookup ex_h t) [30; 10; 20]) = Ok [9; 0; 4].
Proof. vm_compute. auto. Qed.

(** ** C21 *)
(** A key that was not inserted, whose fingerprint differs from those of all the keys
    and which does not hash past the last slot, is reported not_found. *)
Theorem C21_reject_partial : forall (K : Type) (hb : N) (h : K -> triple) (keys : list K) (vs : list N) (w : N) (order : list edge),
  keys <> [] -> valid_order (hash_domain (lenN keys)) h keys order -> length keys = length vs ->
  (hb = 64 /\ 1 <= w <= 64) \/ (hb = 32 /\ (1 <= w <= 32 \/ w = 64)) ->
  lenN keys * (hb + w) <= 2 ^ hb -> lenN keys * (hb + w) + 64 < 2 ^ 64 -> Forall (fun v => v < 2 ^ w) vs ->
  exists t, (vals <- packed w vs ;; svt_build hb h (hash_domain (lenN keys)) order keys vals) = Ok t /\
    forall g, mph_lookup (sv_h t) (h g) <> Ok (lenN keys) -> (forall k, In k keys -> mix hb (h k) <> mix hb (h g)) ->
      svt_lookup hb h t g = Ok not_found.
Proof.
  intros K hb h keys vs w order NE HV HL HB H1 H2 HF.
  destruct (C20_single K hb h keys vs w order NE HV HL HB H1 H2 HF) as (t & E & _ & A). exists t. split; [exact E|].
  intros g NR NF. destruct (A g) as [B|(k & v & HI & B)]; [contradiction|]. rewrite B.
  destruct (N.eqb_spec (mix hb (h k)) (mix hb (h g))) as [X|X]; [|reflexivity]. exfalso. apply (NF k); [eapply in_combine_l; eauto|assumption].
Qed.
Theorem C21_reject_pair_partial : forall (K : Type) (hb : N) (h : K -> triple) (keys : list K) (vs1 vs2 : list N) (w1 w2 : N) (order : list edge),
  keys <> [] -> valid_order (hash_domain (lenN keys)) h keys order -> length keys = length vs1 -> length keys = length vs2 ->
  hb = 32 \/ hb = 64 -> 1 <= w1 <= 64 -> 1 <= w2 <= 64 -> lenN keys * (64 + w1 + w2) + 64 < 2 ^ 64 ->
  Forall (fun v => v < 2 ^ w1) vs1 -> Forall (fun v => v < 2 ^ w2) vs2 ->
  exists t, (vals1 <- packed w1 vs1 ;; vals2 <- packed w2 vs2 ;;
             dvt_build hb h (hash_domain (lenN keys)) order keys vals1 vals2) = Ok t /\
    forall g, mph_lookup (dv_h t) (h g) <> Ok (lenN keys) -> (forall k, In k keys -> mix hb (h k) <> mix hb (h g)) ->
      dvt_lookup_pair hb h t g = Ok (not_found, not_found) /\ dvt_lookup hb h t g = Ok not_found.
Proof.
  intros K hb h keys vs1 vs2 w1 w2 order NE HV HL1 HL2 HB HW1 HW2 HN HF1 HF2.
  destruct (C20_double K hb h keys vs1 vs2 w1 w2 order NE HV HL1 HL2 HB HW1 HW2 HN HF1 HF2) as (t & E & _ & A). exists t. split; [exact E|].
  intros g NR NF. destruct (A g) as [B|(k & x & y & HI & B1 & B2)]; [contradiction|]. rewrite B1, B2.
  destruct (N.eqb_spec (mix hb (h k)) (mix hb (h g))) as [X|X]; [|auto]. exfalso. apply (NF k); [eapply in_combine_l; eauto|assumption].
Qed.
(** Without the bound on the rank the claim fails: a key that was not inserted can hash
    to slot n, past the last one, and the table reads outside its storage. *)
Theorem C21_past_the_end_refuted : exists g, ~ In g [10; 20; 30] /\
  (vals <- packed 64 [100; 7; 55] ;; t <- svt_build 64 ex_h 2 ex_order [10; 20; 30] vals ;; svt_lookup 64 ex_h t g) = UB /\
  (vals1 <- packed 64 [100; 7; 55] ;; vals2 <- packed 64 [1; 2; 3] ;;
   t <- dvt_build 64 ex_h 2 ex_order [10; 20; 30] vals1 vals2 ;; dvt_lookup_pair 64 ex_h t g) = UB.
Proof. exists 1. split; [intros [H|[H|[H|[]]]]; discriminate|]. vm_compute. auto. Qed.
(** What a lookup does for every key, inserted or not: it reads past the end of the table exactly if the hash function answers the
    number of keys, and otherwise it compares with the fingerprint of the inserted key that has the same rank. *)
Theorem C21_lookup_exact : forall (K : Type) (hb : N) (h : K -> triple) (keys : list K) (vs : list N) (w : N) (order : list edge),
  keys <> [] -> valid_order (hash_domain (lenN keys)) h keys order -> length keys = length vs ->
  (hb = 64 /\ 1 <= w <= 64) \/ (hb = 32 /\ (1 <= w <= 32 \/ w = 64)) ->
  lenN keys * (hb + w) < 2 ^ hb -> lenN keys * (hb + w) + 64 < 2 ^ 64 -> Forall (fun v => v < 2 ^ w) vs ->
  exists t, (vals <- packed w vs ;; svt_build hb h (hash_domain (lenN keys)) order keys vals) = Ok t /\
    forall g,
      (svt_lookup hb h t g = UB <-> mph_lookup (sv_h t) (h g) = Ok (lenN keys)) /\
      (svt_lookup hb h t g <> UB -> exists k v, In (k, v) (combine keys vs) /\ mph_lookup (sv_h t) (h g) = mph_lookup (sv_h t) (h k) /\
         svt_lookup hb h t g = Ok (if mix hb (h k) =? mix hb (h g) then v else not_found)).
Proof.
  intros K hb h keys vs w order NE HV HL HB H1 H2 HF.
  assert (D : 0 < hash_domain (lenN keys)) by (apply hash_domain_pos; destruct keys; [congruence|]; rewrite lenN_cons; lia).
  assert (LL : lenN vs = lenN keys) by (unfold lenN; lia).
  destruct (packed_holds w vs) as (c & Ec & HC & HW); [lia|nia|assumption|]. rewrite Ec. cbn [bind].
  destruct (svt_build_ok hb h (hash_domain (lenN keys)) order keys c vs D HV HC HL) as (t & Et & R); rewrite ?HW; try lia.
  exists t. split; [exact Et|]. destruct (cv_holds_width _ _ HC) as (_ & _ & HS).
  assert (CS : c_size c = lenN keys) by (unfold lenN in *; lia).
  assert (PA : hcv_get hb (sv_data t) (lenN keys) = UB).
  { rewrite <- CS. apply (svt_build_past _ _ _ _ _ _ _ Et); [destruct HB as [[-> _]|[-> _]]; auto|rewrite CS, HW; exact H1]. }
  intros g. destruct (svt_lookup_past hb h t keys vs g R PA) as [(A & B)|(k & v & A & B & C & E)].
  - split; [split; auto|]. intros X. contradiction.
  - split; [split; intros X; [rewrite E in X; discriminate X|contradiction]|]. intros _. exists k, v. auto.
Qed.
Theorem C21_lookup_pair_exact : forall (K : Type) (hb : N) (h : K -> triple) (keys : list K) (vs1 vs2 : list N) (w1 w2 : N) (order : list edge),
  keys <> [] -> valid_order (hash_domain (lenN keys)) h keys order -> length keys = length vs1 -> length keys = length vs2 ->
  hb = 32 \/ hb = 64 -> 1 <= w1 <= 64 -> 1 <= w2 <= 64 -> lenN keys * (64 + w1 + w2) + 64 < 2 ^ 64 ->
  Forall (fun v => v < 2 ^ w1) vs1 -> Forall (fun v => v < 2 ^ w2) vs2 ->
  exists t, (vals1 <- packed w1 vs1 ;; vals2 <- packed w2 vs2 ;;
             dvt_build hb h (hash_domain (lenN keys)) order keys vals1 vals2) = Ok t /\
    forall g,
      (dvt_lookup_pair hb h t g = UB <-> mph_lookup (dv_h t) (h g) = Ok (lenN keys)) /\
      (dvt_lookup hb h t g = UB <-> mph_lookup (dv_h t) (h g) = Ok (lenN keys)) /\
      (mph_lookup (dv_h t) (h g) <> Ok (lenN keys) -> exists k x y, In (k, (x, y)) (combine keys (combine vs1 vs2)) /\ mph_lookup (dv_h t) (h g) = mph_lookup (dv_h t) (h k) /\
         dvt_lookup_pair hb h t g = Ok (if mix hb (h k) =? mix hb (h g) then (x, y) else (not_found, not_found)) /\
         dvt_lookup hb h t g = Ok (if mix hb (h k) =? mix hb (h g) then x else not_found)).
Proof.
  intros K hb h keys vs1 vs2 w1 w2 order NE HV HL1 HL2 HB HW1 HW2 HN HF1 HF2.
  assert (D : 0 < hash_domain (lenN keys)) by (apply hash_domain_pos; destruct keys; [congruence|]; rewrite lenN_cons; lia).
  assert (LL1 : lenN vs1 = lenN keys) by (unfold lenN; lia). assert (LL2 : lenN vs2 = lenN keys) by (unfold lenN; lia).
  destruct (packed_holds w1 vs1) as (c1 & Ec1 & HC1 & HX1); [lia|nia|assumption|]. rewrite Ec1. cbn [bind].
  destruct (packed_holds w2 vs2) as (c2 & Ec2 & HC2 & HX2); [lia|nia|assumption|]. rewrite Ec2. cbn [bind].
  destruct (dvt_build_ok hb h (hash_domain (lenN keys)) order keys c1 c2 vs1 vs2 D HV HC1 HC2 HL1 HL2) as (t & Et & R); rewrite ?HX1, ?HX2; try lia.
  exists t. split; [exact Et|].
  assert (PA : ct_get (dv_data t) (lenN keys) = UB) by (apply (dvt_build_past _ _ _ _ _ _ _ _ Et); rewrite ?HX1, ?HX2; lia).
  intros g. destruct (dvt_lookup_past hb h t keys _ g R PA) as [(A & B1 & B2)|(k & x & y & A & B & C & E1 & E2)].
  - split; [split; auto|]. split; [split; auto|]. intros X. contradiction.
  - split; [split; intros X; [rewrite E1 in X; discriminate X|contradiction]|]. split; [split; intros X; [rewrite E2 in X; discriminate X|contradiction]|].
    intros _. exists k, x, y. auto.
Qed.
Example C21_example :
  (vals <- packed 7 [100; 7; 55] ;; t <- svt_build 64 ex_h 2 ex_order [10; 20; 30] vals ;;
   p <- mph_lookup (sv_h t) (ex_h 6) ;; r <- svt_lookup 64 ex_h t 6 ;; Ok (p, r)) = Ok (1, not_found).
Proof. vm_compute. reflexivity. Qed.

Print Assumptions C19_bijection.
Print Assumptions C19_two_keys_refuted.
Print Assumptions C20_single.
Print Assumptions C20_double.
Print Assumptions C20_uint.
Print Assumptions C21_reject_partial.
Print Assumptions C21_reject_pair_partial.
Print Assumptions C21_past_the_end_refuted.
Print Assumptions C21_lookup_exact.
Print Assumptions C21_lookup_pair_exact.
