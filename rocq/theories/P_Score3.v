(** * Proofs about the scoring state: what a call of score may depend on *)
From Coq Require Import Floats.SpecFloat.
From Verif Require Import Prelude M_Word BitFacts M_Score Spec_Katz P_Score1 P_Score2.

(** results related by R *)
Definition rrel {A B} (R : A -> B -> Prop) (x : res A) (y : res B) : Prop :=
  match x, y with Ok a, Ok b => R a b | UB, UB => True | Throw, Throw => True | _, _ => False end.
Lemma rrel_bind {A B A' B'} (R : A -> B -> Prop) (R' : A' -> B' -> Prop) x y f g :
  rrel R x y -> (forall a b, R a b -> rrel R' (f a) (g b)) -> rrel R' (bind x f) (bind y g).
Proof. destruct x, y; cbn; intros H F; try contradiction; auto. Qed.
Lemma rrel_eq {A} (x : res A) : rrel eq x x. Proof. destruct x; cbn; auto. Qed.
Lemma rrel_eq_of {A} (x y : res A) : x = y -> rrel eq x y. Proof. intros ->. apply rrel_eq. Qed.

Section SIM.
Context {W R : Type}.
Variable n : N.
Hypothesis Hn : 2 <= n <= 8.
(** two states that agree on the last j words and on everything else score may read *)
Record sim (j : N) (s t : pstate W) : Prop := mksim {
  sm_cap : cb_capacity (ps_words s) = n /\ cb_capacity (ps_words t) = n;
  sm_data : lenN (cb_data (ps_words s)) = n /\ lenN (cb_data (ps_words t)) = n;
  sm_end : cb_end (ps_words s) = cb_end (ps_words t) /\ cb_end (ps_words s) < n;
  sm_begin : cb_begin (ps_words s) = cb_begin (ps_words t) /\ cb_begin (ps_words s) < n;
  sm_words : forall i, i < j -> i < n -> nthN (cb_data (ps_words s)) (cpos n (cb_end (ps_words s)) i) = nthN (cb_data (ps_words t)) (cpos n (cb_end (ps_words s)) i);
  sm_len : ps_length s = ps_length t /\ ps_length s <= j /\ ps_length s <= n - 1;
  sm_oov : ps_oovs s = ps_oovs t;
  sm_pos : ps_pos s = 0 /\ ps_pos t = 0;
  sm_curr : lenN (ps_curr s) = 8 /\ lenN (ps_curr t) = 8;
  sm_prev : lenN (ps_prev s) = 8 /\ lenN (ps_prev t) = 8;
  sm_back : forall i, i < ps_length s -> nthN (ps_prev s) i = nthN (ps_prev t) i }.

(** words pushed *)
Lemma push_sim j s t w : sim j s t -> exists c d, cb_push (ps_words s) w = Ok c /\ cb_push (ps_words t) w = Ok d /\
  cb_capacity c = n /\ cb_capacity d = n /\ lenN (cb_data c) = n /\ lenN (cb_data d) = n /\
  cb_end c = cb_end d /\ cb_end c < n /\ cb_begin c = cb_begin d /\ cb_begin c < n /\
  forall i, i < j + 1 -> i < n -> nthN (cb_data c) (cpos n (cb_end c) i) = nthN (cb_data d) (cpos n (cb_end c) i).
Proof.
  intros [[C1 C2] [D1 D2] [E1 E2] [B1 B2] HW _ _ _ _ _ _]. unfold cb_push. rewrite !wr_setN by lia. cbn [bind].
  do 2 eexists. split; [reflexivity|]. split; [reflexivity|]. cbn [cb_capacity cb_data cb_end cb_begin].
  unfold cb_fall_back. rewrite C1, C2, <- E1, <- B1. rewrite !(add64_small _ 1) by lia. rewrite !lenN_setN.
  set (e := cb_end (ps_words s)) in *. set (e' := if e + 1 =? n then 0 else e + 1).
  assert (E' : e' < n) by (unfold e'; destruct (N.eqb_spec (e + 1) n); lia).
  split; [reflexivity|]. split; [reflexivity|]. split; [assumption|]. split; [assumption|]. split; [reflexivity|]. split; [assumption|].
  split; [reflexivity|]. split.
  { destruct (e' =? _); [|assumption]. destruct (N.eqb_spec (cb_begin (ps_words s) + 1) n); lia. }
  intros i Hj Hi. rewrite !nthN_setN by lia. destruct (N.eqb_spec (cpos n e' i) e); [reflexivity|].
  destruct (N.eq_dec i 0) as [->|Hz].
  - exfalso. apply n0. unfold cpos, e'. destruct (N.eqb_spec (e + 1) n); destruct (N.leb_spec (0 + 1) (e + 1)); cbn -[N.add N.sub]; try lia. destruct (N.leb_spec (0 + 1) 0); lia.
  - assert (Ci : cpos n e' i = cpos n e (i - 1)).
    { unfold cpos, e'. destruct (N.eqb_spec (e + 1) n); destruct (N.leb_spec (i - 1 + 1) e);
      try (destruct (N.leb_spec (i + 1) 0)); try destruct (N.leb_spec (i + 1) (e + 1)); lia. }
    rewrite Ci. apply HW; lia.
Qed.

Variable probe : N -> W -> R -> res (option (F * option F * R)).
(** the back-off is missing for the highest order, and only there *)
Hypothesis Hprobe : forall k w r p b r', probe k w r = Ok (Some (p, b, r')) -> (b = None <-> k = n - 1).

(** loop states that agree: k contexts matched *)
Record lsim (j k : N) (a b : sl W R) : Prop := mklsim {
  ls_m1 : sl_m1 a = k + 1 /\ sl_m1 b = k + 1;
  ls_it : sl_it a = sl_it b /\ (k + 1 < n -> sl_it a = cpos n (cb_end (ps_words (sl_st a))) (k + 1));
  ls_r : sl_r a = sl_r b;
  ls_prob : sl_prob a = sl_prob b;
  ls_lml : sl_lml a = sl_lml b /\ sl_lml a <= k + 1 /\ sl_lml a <= n - 1;
  ls_k : k <= ps_length (sl_st a);
  ls_cap : cb_capacity (ps_words (sl_st a)) = n /\ cb_capacity (ps_words (sl_st b)) = n;
  ls_data : lenN (cb_data (ps_words (sl_st a))) = n /\ lenN (cb_data (ps_words (sl_st b))) = n;
  ls_end : cb_end (ps_words (sl_st a)) = cb_end (ps_words (sl_st b)) /\ cb_end (ps_words (sl_st a)) < n;
  ls_begin : cb_begin (ps_words (sl_st a)) = cb_begin (ps_words (sl_st b)) /\ cb_begin (ps_words (sl_st a)) < n;
  ls_words : forall i, i < j + 1 -> i < n -> nthN (cb_data (ps_words (sl_st a))) (cpos n (cb_end (ps_words (sl_st a))) i) = nthN (cb_data (ps_words (sl_st b))) (cpos n (cb_end (ps_words (sl_st a))) i);
  ls_len : ps_length (sl_st a) = ps_length (sl_st b) /\ ps_length (sl_st a) <= j /\ ps_length (sl_st a) <= n - 1;
  ls_oov : ps_oovs (sl_st a) = ps_oovs (sl_st b);
  ls_pos : ps_pos (sl_st a) = ps_pos (sl_st b) /\ ps_pos (sl_st a) <= k + 1;
  ls_curr : lenN (ps_curr (sl_st a)) = 8 /\ lenN (ps_curr (sl_st b)) = 8;
  ls_prev : lenN (ps_prev (sl_st a)) = 8 /\ lenN (ps_prev (sl_st b)) = 8;
  ls_back : forall i, i < ps_length (sl_st a) -> nthN (ps_prev (sl_st a)) i = nthN (ps_prev (sl_st b)) i;
  ls_cback : forall i, i < k + 1 -> i < n - 1 -> nthN (ps_curr (sl_st a)) i = nthN (ps_curr (sl_st b)) i }.

Definition osim (j k : N) (x y : sl W R + sl W R) : Prop :=
  match x, y with inl a, inl b => lsim j (k + 1) a b /\ ps_pos (sl_st a) = k + 1 | inr a, inr b => lsim j k a b | _, _ => False end.
Lemma round_sim j k a b : lsim j k a b -> ps_pos (sl_st a) = k -> rrel (osim j k) (score_round probe a) (score_round probe b).
Proof.
  intros L Hp. pose proof L as [[M1 M2] [I1 I2] Hr Hpr [L1 L2] Hk [C1 C2] [D1 D2] [E1 E2] [B1 B2] HW [N1 [N2 N3]] HO [P1 P2] [U1 U2] [V1 V2] HB HC].
  unfold score_round. rewrite M1, M2, <- N1. destruct (N.leb_spec (k + 1) (ps_length (sl_st a))) as [Hl|Hl]; cbn [negb]; [|exact L].
  cbn [ps_advance ps_words]. rewrite <- I1, I2 by lia. unfold ri_deref.
  set (e := cb_end (ps_words (sl_st a))) in *.
  assert (RD : rd (cb_data (ps_words (sl_st a))) (cpos n e (k + 1)) = rd (cb_data (ps_words (sl_st b))) (cpos n e (k + 1))).
  { specialize (HW (k + 1) ltac:(lia) ltac:(lia)). unfold rd. rewrite D1, D2. unfold nthN in HW. rewrite HW. reflexivity. }
  rewrite RD. destruct (rd (cb_data (ps_words (sl_st b))) (cpos n e (k + 1))) as [w| |]; cbn [bind]; try exact I. rewrite <- Hr.
  destruct (probe (k + 1) w (sl_r a)) as [[[[p bk] r']|]| |] eqn:EP; cbn [bind]; try exact I.
  - pose proof (Hprobe _ _ _ _ _ _ EP) as HX. destruct bk as [bo|].
    + assert (K1 : k + 1 <> n - 1) by (intro Z; apply HX in Z; discriminate).
      unfold ps_add_backoff. cbn [ps_pos ps_curr ps_advance ps_words ps_length ps_oovs ps_prev]. rewrite <- P1, Hp, (add64_small k 1) by lia.
      rewrite !wr_setN by lia. cbn [bind rrel osim sl_st ps_pos]. split; [|reflexivity].
      constructor; cbn [sl_m1 sl_it sl_r sl_prob sl_lml sl_st ps_length ps_words ps_oovs ps_pos ps_curr ps_prev]; auto.
      * rewrite (add64_small (k + 1) 1) by lia. split; lia.
      * split; [unfold ri_next; rewrite C1, C2; reflexivity|]. intro Hk2. fold e. unfold ri_next. rewrite C1. unfold cpos.
        destruct (N.leb_spec (k + 1 + 1) e); destruct (N.leb_spec (k + 1 + 1 + 1) e); try lia;
        match goal with |- context [?x =? 0] => destruct (N.eqb_spec x 0) end; rewrite sub64_small by lia; lia.
      * assert (LL : N.land (k + 1 + 1) 255 = k + 2).
        { change 255 with (N.ones 8). rewrite N.land_ones. rewrite N.mod_small; lia. }
        rewrite LL. destruct L2 as [L2 L3]. rewrite <- L1. destruct (ftrue bo); repeat split; lia.
      * split; [reflexivity|lia].
      * rewrite !lenN_setN. auto.
      * intros i Hi Hi2. rewrite !nthN_setN by lia. destruct (N.eqb_spec i (k + 1)); [reflexivity|apply HC; lia].
    + assert (K1 : k + 1 = n - 1) by (apply HX; reflexivity). cbn [bind rrel osim sl_st ps_pos ps_advance]. split; [|rewrite Hp, (add64_small k 1) by lia; reflexivity].
      constructor; cbn [sl_m1 sl_it sl_r sl_prob sl_lml sl_st ps_length ps_words ps_oovs ps_pos ps_curr ps_prev ps_advance]; auto.
      * rewrite (add64_small (k + 1) 1) by lia. split; lia.
      * split; [unfold ri_next; rewrite C1, C2; reflexivity|]. intro Hk2. lia.
      * destruct L2 as [L2 L3]. repeat split; lia.
      * rewrite <- ?P1, ?Hp, ?(add64_small k 1) by lia. split; [reflexivity|lia].
      * intros i Hi Hi2. apply HC; lia.
  - cbn [rrel osim]. constructor; cbn [sl_m1 sl_it sl_r sl_prob sl_lml sl_st ps_length ps_words ps_oovs ps_pos ps_curr ps_prev ps_advance]; auto.
    rewrite <- P1, Hp, (add64_small k 1) by lia. split; [reflexivity|lia].
Qed.
Lemma loop_sim j : forall fuel k a b, lsim j k a b -> ps_pos (sl_st a) = k ->
  rrel (fun x y => exists k', lsim j k' x y) (loop fuel (score_round probe) a) (loop fuel (score_round probe) b).
Proof.
  induction fuel as [|fuel IH]; intros k a b L Hp; cbn [loop]; [exact I|].
  pose proof (round_sim j k a b L Hp) as H. destruct (score_round probe a) as [[a'|a']| |], (score_round probe b) as [[b'|b']| |]; cbn [rrel osim bind] in *; try contradiction; try exact I.
  - destruct H as [H1 H2]. apply (IH (k + 1)); assumption.
  - exists k. exact H.
Qed.

Variable unk : F.
Variable found : option (F * F * R).
Lemma score_sim j s t w : sim j s t ->
  rrel (fun x y => fst (fst x) = fst (fst y) /\ snd x = snd y /\ sim (j + 1) (snd (fst x)) (snd (fst y)))
    (score_with unk found probe s w) (score_with unk found probe t w).
Proof.
  intro S. destruct (push_sim j s t w S) as (c & d & EC & ED & C1 & C2 & D1 & D2 & E1 & E2 & B1 & B2 & HW).
  pose proof S as [_ _ _ _ _ [N1 [N2 N3]] HO [P1 P2] [U1 U2] [V1 V2] HB].
  unfold score_with, ps_add_word. rewrite EC, ED. cbn [bind].
  assert (FIN : forall m1 prob lml oov s1 t1,
    cb_capacity (ps_words s1) = n -> cb_capacity (ps_words t1) = n -> lenN (cb_data (ps_words s1)) = n -> lenN (cb_data (ps_words t1)) = n ->
    cb_end (ps_words s1) = cb_end (ps_words t1) -> cb_end (ps_words s1) < n -> cb_begin (ps_words s1) = cb_begin (ps_words t1) -> cb_begin (ps_words s1) < n ->
    (forall i, i < j + 1 -> i < n -> nthN (cb_data (ps_words s1)) (cpos n (cb_end (ps_words s1)) i) = nthN (cb_data (ps_words t1)) (cpos n (cb_end (ps_words s1)) i)) ->
    ps_length s1 = ps_length t1 -> ps_length s1 <= n - 1 -> ps_oovs s1 = ps_oovs t1 ->
    lenN (ps_curr s1) = 8 -> lenN (ps_curr t1) = 8 -> lenN (ps_prev s1) = 8 -> lenN (ps_prev t1) = 8 ->
    (forall i, i < ps_length s1 -> nthN (ps_prev s1) i = nthN (ps_prev t1) i) ->
    lml <= j + 1 -> lml <= n - 1 -> (forall i, i < lml -> nthN (ps_curr s1) i = nthN (ps_curr t1) i) ->
    rrel (fun x y => fst (fst x) = fst (fst y) /\ snd x = snd y /\ sim (j + 1) (snd (fst x)) (snd (fst y)))
     (prob0 <- foldM (fun p i => b <- ps_backoff s1 i ;; Ok (fadd p b)) (seqN (m1 - 1) (N.to_nat (ps_length s1 - (m1 - 1)))) prob ;;
      Ok (prob0, ps_finalize (mkpst lml (ps_words s1) (ps_oovs s1) (ps_pos s1) (ps_curr s1) (ps_prev s1)), oov : bool))
     (prob0 <- foldM (fun p i => b <- ps_backoff t1 i ;; Ok (fadd p b)) (seqN (m1 - 1) (N.to_nat (ps_length t1 - (m1 - 1)))) prob ;;
      Ok (prob0, ps_finalize (mkpst lml (ps_words t1) (ps_oovs t1) (ps_pos t1) (ps_curr t1) (ps_prev t1)), oov))).
  { intros m1 prob lml oov s1 t1 X1 X2 X3 X4 X5 X6 X7 X8 X9 X10 X11 X12 X13 X14 X15 X16 X17 X18 X19 X20.
    assert (FE : foldM (fun p i => b <- ps_backoff s1 i ;; Ok (fadd p b)) (seqN (m1 - 1) (N.to_nat (ps_length s1 - (m1 - 1)))) prob =
                 foldM (fun p i => b <- ps_backoff t1 i ;; Ok (fadd p b)) (seqN (m1 - 1) (N.to_nat (ps_length t1 - (m1 - 1)))) prob).
    { rewrite <- X10. assert (G : forall l, (forall i, In i l -> i < ps_length s1) -> forall p, foldM (fun p i => b <- ps_backoff s1 i ;; Ok (fadd p b)) l p = foldM (fun p i => b <- ps_backoff t1 i ;; Ok (fadd p b)) l p).
      { induction l as [|i l IH]; intros Hl p; [reflexivity|]. cbn [foldM].
        assert (EQ : ps_backoff s1 i = ps_backoff t1 i). { unfold ps_backoff, rd. specialize (X17 i (Hl i (or_introl eq_refl))). unfold nthN in X17. rewrite X15, X16, X17. reflexivity. }
        rewrite EQ. destruct (b <- ps_backoff t1 i ;; Ok (fadd p b)); cbn [bind]; [apply IH; intros; apply Hl; right; assumption|reflexivity|reflexivity]. }
      apply G. intros i Hi. apply In_seqN in Hi. lia. }
    rewrite FE. clear FE. destruct (foldM _ _ prob) as [x| |]; cbn [bind rrel]; try exact I. cbn [fst snd]. split; [reflexivity|]. split; [reflexivity|].
    constructor; cbn [ps_finalize ps_length ps_words ps_oovs ps_pos ps_curr ps_prev]; auto. }
  destruct found as [[[prob0 backoff] r0]|].
  - unfold ps_add_backoff at 1 2. cbn [ps_pos ps_curr]. rewrite P1, P2, !wr_setN by lia. cbn [bind ps_words ps_length ps_oovs ps_pos ps_curr ps_prev].
    rewrite <- N1.
    set (s0 := mkpst (ps_length s) c (ps_oovs s) 0 (setN (ps_curr s) 0 (Some backoff)) (ps_prev s)).
    set (t0 := mkpst (ps_length s) d (ps_oovs t) 0 (setN (ps_curr t) 0 (Some backoff)) (ps_prev t)).
    assert (L0 : lsim j 0 (mksl 1 (ri_next c (cb_rbegin c)) r0 prob0 (if ftrue backoff then 1 else 0) s0)
                        (mksl 1 (ri_next d (cb_rbegin d)) r0 prob0 (if ftrue backoff then 1 else 0) t0)).
    { constructor; cbn [sl_m1 sl_it sl_r sl_prob sl_lml sl_st ps_length ps_words ps_oovs ps_pos ps_curr ps_prev s0 t0]; auto.
      - split; [unfold ri_next, cb_rbegin, ri_next; rewrite C1, C2, E1; reflexivity|]. intro Hk. rewrite N.add_0_l. unfold cb_rbegin, ri_next. rewrite C1. unfold cpos.
        destruct (N.eqb_spec (cb_end c) 0); [rewrite (sub64_small n 1) by lia|rewrite (sub64_small (cb_end c) 1) by lia].
        + destruct (N.eqb_spec (n - 1) 0); [lia|]. rewrite sub64_small by lia. destruct (N.leb_spec (1 + 1) (cb_end c)); lia.
        + destruct (N.eqb_spec (cb_end c - 1) 0); rewrite sub64_small by lia; destruct (N.leb_spec (1 + 1) (cb_end c)); lia.
      - destruct (ftrue backoff); repeat split; lia.
      - lia.
      - split; lia.
      - rewrite !lenN_setN. auto.
      - intros i Hi Hi2. rewrite !nthN_setN by lia. replace (i =? 0) with true by (symmetry; apply N.eqb_eq; lia). reflexivity. }
    pose proof (loop_sim j (N.to_nat (ps_length s) + 2) 0 _ _ L0 eq_refl) as LS. revert LS.
    set (la := loop _ _ (mksl 1 _ r0 prob0 _ s0)). set (lb := loop _ _ (mksl 1 _ r0 prob0 _ t0)). intro LS.
    destruct la as [a| |], lb as [b| |]; cbn [rrel bind] in *; try contradiction; try exact I.
    destruct LS as (k' & [[M1 M2] [I1 I2] Hr Hpr [L1 L2] Hk [Ca1 Ca2] [Da1 Da2] [Ea1 Ea2] [Ba1 Ba2] HWa [Na1 [Na2 Na3]] HOa [Pa1 Pa2] [Ua1 Ua2] [Va1 Va2] HBa HCa]).
    rewrite M1, M2, <- Hpr, <- L1. apply FIN; auto; try lia. intros i Hi. apply HCa; lia.
  - unfold ps_add_backoff. cbn [ps_pos ps_curr ps_words ps_length ps_oovs ps_prev]. rewrite P1, P2, !wr_setN by lia. cbn [bind ps_words ps_length ps_oovs ps_pos ps_curr ps_prev].
    rewrite <- N1.
    apply (FIN 1 unk 0 true (mkpst (ps_length s) c (add64 (ps_oovs s) 1) 0 (setN (ps_curr s) 0 (Some fzero)) (ps_prev s)) (mkpst (ps_length s) d (add64 (ps_oovs t) 1) 0 (setN (ps_curr t) 0 (Some fzero)) (ps_prev t)));
      cbn [ps_words ps_length ps_oovs ps_pos ps_curr ps_prev]; rewrite ?lenN_setN; auto; try lia.
    rewrite HO. reflexivity.
Qed.

(** every state is reached with the window and arrays well formed *)
Definition wf (s : pstate W) : Prop := sim n s s.
Lemma sim_le j j' s t : sim j s t -> ps_length s <= j' <= j -> sim j' s t.
Proof using Hn. clear - Hn. intros [? ? ? ? ? [? [? ?]] ? ? ? ? ?] HJ. constructor; auto. - intros. apply sm_words0; lia. - lia. Qed.
Lemma sim_refl j s : wf s -> ps_length s <= j -> sim j s s.
Proof using Hn. clear - Hn. intros [? ? ? ? ? [? [? ?]] ? ? ? ? ?] HJ. constructor; auto. Qed.
Lemma score_wf s w x s' o : wf s -> score_with unk found probe s w = Ok (x, s', o) -> wf s'.
Proof.
  intros Hw E. pose proof (score_sim n s s w Hw) as H. rewrite E in H. cbn in H. destruct H as (_ & _ & H).
  apply (sim_le (n + 1)); [exact H|]. destruct H as [_ _ _ _ _ [? [? ?]] _ _ _ _ _]. lia.
Qed.
Lemma fill_ok {A} (a : list A) k v : k <= lenN a -> exists a', fill a k v = Ok a' /\ lenN a' = lenN a /\ (forall i, i < k -> nthN a' i = Some v).
Proof using Type.
  clear. intro H. unfold fill, range.
  assert (G : forall m s a, s + N.of_nat m <= lenN a -> exists a', foldM (fun a i => wr a i v) (seqN s m) a = Ok a' /\ lenN a' = lenN a /\ (forall i, i < s + N.of_nat m -> s <= i -> nthN a' i = Some v) /\ (forall i, i < s -> nthN a' i = nthN a i)).
  { clear a H. induction m as [|m IH]; intros s a H; cbn [seqN foldM].
    - exists a. split; [reflexivity|]. split; [reflexivity|]. split; [intros; lia|reflexivity].
    - rewrite wr_setN by lia. cbn [bind]. destruct (IH (N.succ s) (setN a s v)) as (a' & E & L & P1 & P2); [rewrite lenN_setN; lia|].
      exists a'. rewrite lenN_setN in L. split; [exact E|]. split; [exact L|]. split.
      + intros i H1 H2. destruct (N.eq_dec i s) as [->|]; [|apply P1; lia]. rewrite P2 by lia. rewrite nthN_setN by lia. rewrite N.eqb_refl. reflexivity.
      + intros i Hi. rewrite P2 by lia. rewrite nthN_setN by lia. destruct (N.eqb_spec i s); [lia|reflexivity]. }
  destruct (G (N.to_nat k) 0 a ltac:(lia)) as (a' & E & L & P1 & _). exists a'. split; [exact E|]. split; [exact L|]. intros i Hi. apply P1; lia.
Qed.
(** a new state, and a re-initialised one *)
Lemma new_ok w0 : exists s, ps_new w0 n = Ok s /\ wf s /\ ps_length s = 0 /\ ps_oovs s = 0.
Proof using Hn. clear - Hn.
  unfold ps_new. destruct (fill_ok (repN (@None F) 8) (n - 1) (Some fone)) as (a & E & L & _); [rewrite lenN_rep; lia|]. rewrite lenN_rep in L.
  rewrite E. cbn [bind]. eexists. split; [reflexivity|]. split; [|split; reflexivity].
  constructor; cbn [ps_words ps_length ps_oovs ps_pos ps_curr ps_prev cb_new cb_capacity cb_data cb_end cb_begin]; rewrite ?lenN_rep; auto; try lia.
Qed.
Lemma init_sim s t : wf s -> wf t -> exists s' t', ps_init s = Ok s' /\ ps_init t = Ok t' /\ sim 0 s' t'.
Proof using Hn. clear - Hn.
  intros [C1 D1 E1 B1 _ [_ [_ N1]] _ P1 U1 V1 _] [C2 D2 E2 B2 _ [_ [_ N2]] _ P2 U2 V2 _]. unfold ps_init.
  destruct (fill_ok (ps_prev s) (ps_length s) (Some fzero)) as (a & Ea & La & _); [lia|].
  destruct (fill_ok (ps_prev t) (ps_length t) (Some fzero)) as (b & Eb & Lb & _); [lia|].
  rewrite Ea, Eb. cbn [bind]. do 2 eexists. split; [reflexivity|]. split; [reflexivity|].
  constructor; cbn [ps_words ps_length ps_oovs ps_pos ps_curr ps_prev cb_init cb_capacity cb_data cb_end cb_begin]; try lia; try tauto.
Qed.
Lemma init_wf s : wf s -> exists s', ps_init s = Ok s' /\ wf s' /\ ps_length s' = 0 /\ ps_oovs s' = 0.
Proof using Hn. clear - Hn.
  intro Hw. destruct (init_sim s s Hw Hw) as (s' & t' & E1 & E2 & S). exists s'. split; [exact E1|]. rewrite E1 in E2. injection E2 as <-.
  split; [|split; [destruct S as [_ _ _ _ _ [_ [? _]] _ _ _ _ _]; lia|]].
  - destruct S. constructor; auto. intuition lia.
  - unfold ps_init in E1. destruct (fill _ _ _); [|discriminate|discriminate]. injection E1 as <-. reflexivity.
Qed.
End SIM.
(** a well-formed state of length 0 represents the empty context *)
Lemma wf_rep {V W} (M : list V -> option (F * F)) n (s : pstate W) : 2 <= n <= 8 -> wf n s -> ps_length s = 0 -> st_rep M n s [] [].
Proof.
  intros Hn [[C1 _] [D1 _] [_ E1] [_ B1] _ [_ [_ N1]] _ [P1 _] [U1 _] [V1 _] _] L.
  constructor; auto; rewrite ?L; try (change (lenN (@nil V)) with 0); try lia; [|reflexivity].
  constructor; rewrite ?C1; auto; try lia. change (lenN (@nil W)) with 0. lia.
Qed.
