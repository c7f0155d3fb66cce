(** * Proofs about the tables built on the minimal perfect hash function *)
From Verif Require Import Prelude BitFacts M_Word P_Word M_Bits Spec P_Bits P_Builder P_BitProg
  M_CompactVector P_CompactVector M_HashVec P_HashVec M_Mph P_Mph.
From Coq Require Import Permutation.

Lemma cv_holds_take c vs : cv_holds c vs -> cvit_take c (cvit_new c 0) (length vs) = Ok vs.
Proof.
  intros (w & V & R & S). rewrite (cvit_take_new c (lenN vs) w V) by (try assumption; unfold lenN; lia). f_equal.
  apply nthN_ext. intros i. rewrite nthN_map. destruct (N.lt_ge_cases i (lenN vs)) as [L|L].
  - unfold nthN at 1. rewrite nth_error_seqN by (unfold lenN in L; lia). cbn [option_map]. rewrite N2Nat.id. symmetry. apply S. assumption.
  - rewrite (nthN_None vs) by assumption. rewrite nthN_None; [reflexivity|]. unfold lenN in *. rewrite length_seqN. lia.
Qed.
Lemma cv_holds_width c vs : cv_holds c vs -> 1 <= c_width c <= 64 /\ Forall (fun v => v < 2 ^ c_width c) vs /\ c_size c = lenN vs.
Proof.
  intros (w & V & R & S). destruct R as (R1 & R2 & R3 & R4 & _). rewrite R2. split; [lia|]. split; [|assumption].
  apply Forall_forall. intros v Hv. apply In_nth_error in Hv. destruct Hv as (k & Hk).
  assert (Hk' : nthN vs (N.of_nat k) = Some v) by (unfold nthN; rewrite Nat2N.id; assumption).
  rewrite S in Hk' by (eapply nthN_lt; eauto). injection Hk' as <-. unfold slot. apply field_lt.
Qed.

(** folding over (index, value) with keys read by index = folding over (key, value) *)
Lemma fold_index {A B S} (F : S -> A -> B -> res S) : forall (ks : list A) (vs : list B) (pre : list A) d,
  length ks = length vs ->
  foldM (fun d iv => k <- rd (pre ++ ks) (fst iv) ;; F d k (snd iv)) (combine (seqN (lenN pre) (length vs)) vs) d =
  foldM (fun d kv => F d (fst kv) (snd kv)) (combine ks vs) d.
Proof.
  induction ks as [|k ks IH]; intros vs pre d HL; destruct vs as [|v vs]; cbn [length] in HL; try discriminate; [reflexivity|].
  cbn [length seqN combine foldM fst snd].
  assert (R : rd (pre ++ k :: ks) (lenN pre) = Ok k).
  { apply rd_nthN. rewrite nthN_app2 by lia. rewrite N.sub_diag. reflexivity. }
  rewrite R. cbn [bind]. destruct (F d k v) as [d'| |]; cbn [bind]; try reflexivity.
  specialize (IH vs (pre ++ [k]) d' ltac:(lia)). rewrite <- app_assoc in IH. cbn [app] in IH.
  rewrite lenN_app in IH. rewrite <- IH. change (lenN [k]) with 1. replace (N.succ (lenN pre)) with (lenN pre + 1) by lia. reflexivity.
Qed.

Lemma foldM_map {A B S} (f : S -> B -> res S) (g : A -> B) l : forall s, foldM f (map g l) s = foldM (fun s a => f s (g a)) l s.
Proof. induction l as [|a l IH]; intros s; [reflexivity|]. cbn [map foldM]. destruct (f s (g a)); cbn [bind]; auto. Qed.
Lemma foldM_ext {A S} (f g : S -> A -> res S) l : (forall s a, In a l -> f s a = g s a) -> forall s, foldM f l s = foldM g l s.
Proof.
  induction l as [|a l IH]; intros H s; [reflexivity|]. cbn [foldM]. rewrite H by (left; reflexivity).
  destruct (g s a); cbn [bind]; auto. apply IH. intros; apply H; right; assumption.
Qed.

Lemma last_set_notin {A} ops j (init : A) : ~ In j (map fst ops) -> last_set ops j init = init.
Proof.
  unfold last_set. revert init. induction ops as [|[i a] ops IH]; intros init H; [reflexivity|]. cbn [fold_left fst snd map In] in *.
  destruct (N.eqb_spec i j) as [->|]; [exfalso; auto|]. apply IH. auto.
Qed.
Lemma last_set_in {A} ops j (a init : A) : NoDup (map fst ops) -> In (j, a) ops -> last_set ops j init = a.
Proof.
  unfold last_set. revert init. induction ops as [|[i b] ops IH]; intros init ND HI; [destruct HI|]. cbn [map fst] in ND.
  inversion ND as [|? ? N1 N2]; subst. cbn [fold_left fst snd]. destruct HI as [E|HI].
  - injection E as -> ->. rewrite N.eqb_refl. apply (last_set_notin ops j a). assumption.
  - apply IH; assumption.
Qed.

(** histories of set() on the two slot arrays *)
Lemma hcv_sets_ok hb n w : forall ops c f, hrep hb c n w f ->
  Forall (fun o => fst o < n /\ fst (snd o) < 2 ^ hb /\ snd (snd o) < 2 ^ w) ops ->
  exists c', foldM (fun c o => hcv_set hb c (fst o) (fst (snd o)) (snd (snd o))) ops c = Ok c' /\
    hrep hb c' n w (fun j => last_set ops j (f j)).
Proof.
  induction ops as [|[i [k v]] ops IH]; intros c f R HF.
  - exists c. split; [reflexivity|]. exact R.
  - inversion HF as [|? ? [A1 [A2 A3]] HF']; subst. cbn [fst snd] in *.
    destruct (hcv_set_ok hb c n w f i k v R A1 A2 A3) as (c1 & E1 & R1). cbn [foldM fst snd]. rewrite E1. cbn [bind].
    destruct (IH c1 _ R1 HF') as (c2 & E2 & T). exists c2. split; [exact E2|].
    destruct T as (T1 & T2 & T3 & T4 & T5 & T6 & T7 & T8). repeat (split; [assumption|]).
    intros j Hj. specialize (T8 j Hj). unfold last_set in *. cbn [fold_left fst snd]. rewrite (N.eqb_sym i j). exact T8.
Qed.
Lemma ctb_sets_ok n w1 w2 w3 : forall ops b f, ctb_rep b n w1 w2 w3 f ->
  Forall (fun o : N * (N * N * N) => fst o < n /\ (let '(x, y, z) := snd o in x < 2 ^ w1 /\ y < 2 ^ w2 /\ z < 2 ^ w3)) ops ->
  exists b', foldM (fun b o => ctb_set b (fst o) (snd o)) ops b = Ok b' /\
    forall j, j < n -> ct_get (ctb_build b') j = Ok (last_set ops j (f j)).
Proof.
  induction ops as [|[i [[x y] z]] ops IH]; intros b f R HF.
  - exists b. split; [reflexivity|]. intros j Hj. cbn. apply (ct_get_ok b n w1 w2 w3 f); assumption.
  - inversion HF as [|? ? [A1 A2] HF']; subst. cbn [fst snd] in *. destruct A2 as (A2 & A3 & A4).
    destruct (ctb_set_ok b n w1 w2 w3 f i x y z R A1 A2 A3 A4) as (b1 & E1 & R1). cbn [foldM fst snd]. rewrite E1. cbn [bind].
    destruct (IH b1 _ R1 HF') as (b2 & E2 & T). exists b2. split; [exact E2|]. intros j Hj. rewrite T by assumption.
    unfold last_set. cbn [fold_left fst snd]. rewrite (N.eqb_sym j i). reflexivity.
Qed.

(** positions of the keys as a function *)
Lemma mphf_pos {K} m (h : K -> triple) keys : mphf_ok m h keys -> exists pos : K -> N,
  (forall k, In k keys -> mph_lookup m (h k) = Ok (pos k)) /\ Permutation (map pos keys) (range (lenN keys)).
Proof.
  intros (ps & E & P). exists (fun k => match mph_lookup m (h k) with Ok p => p | _ => 0 end).
  assert (G : forall ks qs, mapM (fun k => mph_lookup m (h k)) ks = Ok qs ->
    qs = map (fun k => match mph_lookup m (h k) with Ok p => p | _ => 0 end) ks /\
    forall k, In k ks -> mph_lookup m (h k) = Ok (match mph_lookup m (h k) with Ok p => p | _ => 0 end)).
  { clear. induction ks as [|k ks IH]; intros qs H; cbn [mapM] in H.
    - injection H as <-. split; [reflexivity|intros k []].
    - destruct (mph_lookup m (h k)) as [p| |] eqn:E; cbn [bind] in H; try discriminate.
      destruct (mapM _ ks) as [qs'| |] eqn:E'; cbn [bind] in H; try discriminate. injection H as <-.
      destruct (IH qs' eq_refl) as [-> IH2]. cbn [map]. rewrite E. split; [reflexivity|].
      intros k' [<-|HI]; [rewrite E; reflexivity|apply IH2; assumption]. }
  destruct (G keys ps E) as [-> G2]. split; assumption.
Qed.
Lemma NoDup_range n : NoDup (range n).
Proof.
  unfold range. generalize (N.to_nat n). intros k. generalize 0. induction k as [|k IH]; intros s; cbn [seqN]; constructor; [|apply IH].
  intros H. apply In_seqN in H. lia.
Qed.
Lemma map_combine_fst {A B C} (g : A -> C) : forall (l : list A) (l' : list B), length l = length l' ->
  map (fun p => g (fst p)) (combine l l') = map g l.
Proof. induction l as [|a l IH]; intros l' H; destruct l'; cbn in *; try discriminate; [reflexivity|]. f_equal. apply IH. lia. Qed.

Definition fkey {K} (hb : N) (h : K -> triple) (k : K) : N := mix hb (h k).
Lemma mix_lt hb t : mix hb t < 2 ^ hb.
Proof. destruct t as [[a b] c]. apply trunc_lt. Qed.

(** every slot below n belongs to a key *)
Lemma slot_key {K B} (pos : K -> N) keys (vs : list B) n p : Permutation (map pos keys) (range n) -> length keys = length vs -> p < n ->
  exists k v, In (k, v) (combine keys vs) /\ pos k = p.
Proof.
  intros P HL Hp. assert (I : In p (map pos keys)).
  { apply (Permutation_in _ (Permutation_sym P)). apply In_seqN. lia. }
  rewrite <- (map_combine_fst pos keys vs HL) in I. apply in_map_iff in I. destruct I as ([k v] & E & I). exists k, v. auto.
Qed.
Lemma slot_last {K A} (pos : K -> N) (f : K * A -> A) keys (vs : list A) n k v init : Permutation (map pos keys) (range n) ->
  length keys = length vs -> In (k, v) (combine keys vs) ->
  last_set (map (fun kv => (pos (fst kv), f kv)) (combine keys vs)) (pos k) init = f (k, v).
Proof.
  intros P HL HI. apply last_set_in.
  - rewrite map_map. cbn [fst]. rewrite (map_combine_fst pos keys vs HL).
    eapply Permutation_NoDup; [apply Permutation_sym, P|apply NoDup_range].
  - apply in_map_iff. exists (k, v). auto.
Qed.
Lemma slot_last' {K A B} (pos : K -> N) (f : K * B -> A) keys (vs : list B) n k v init : Permutation (map pos keys) (range n) ->
  length keys = length vs -> In (k, v) (combine keys vs) ->
  last_set (map (fun kv => (pos (fst kv), f kv)) (combine keys vs)) (pos k) init = f (k, v).
Proof.
  intros P HL HI. apply last_set_in.
  - rewrite map_map. cbn [fst]. rewrite (map_combine_fst pos keys vs HL).
    eapply Permutation_NoDup; [apply Permutation_sym, P|apply NoDup_range].
  - apply in_map_iff. exists (k, v). auto.
Qed.

(** ** single_valued_mpht *)
Definition svt_rep {K} (hb : N) (h : K -> triple) (t : svt) (keys : list K) (vs : list N) : Prop :=
  length keys = length vs /\ m_n (sv_h t) = lenN keys /\
  (forall tr, exists p, mph_lookup (sv_h t) tr = Ok p /\ p <= lenN keys) /\
  exists pos : K -> N, (forall k, In k keys -> mph_lookup (sv_h t) (h k) = Ok (pos k)) /\
    Permutation (map pos keys) (range (lenN keys)) /\
    forall k v, In (k, v) (combine keys vs) -> hcv_get hb (sv_data t) (pos k) = Ok (mix hb (h k), v).

Theorem svt_build_ok {K} hb (h : K -> triple) dom order keys vals vs :
  0 < dom -> valid_order dom h keys order -> cv_holds vals vs -> length keys = length vs ->
  (hb = 64 \/ (hb = 32 /\ (c_width vals <= 32 \/ c_width vals = 64))) ->
  lenN keys * (hb + c_width vals) <= 2 ^ hb -> lenN keys * (hb + c_width vals) < 2 ^ 64 ->
  exists t, svt_build hb h dom order keys vals = Ok t /\ svt_rep hb h t keys vs.
Proof.
  intros HD HV HC HL HB H1 H2. destruct (cv_holds_width _ _ HC) as (W1 & W2 & W3). set (w := c_width vals) in *.
  assert (LK : c_size vals = lenN keys) by (rewrite W3; unfold lenN; lia).
  assert (HB' : hbok hb w) by (unfold hbok; destruct HB as [-> | [-> ?]]; [left|right]; lia).
  unfold svt_build. fold w. rewrite LK. destruct (hrep_new hb (lenN keys) w HB' H1 H2) as (c0 & E0 & R0). rewrite E0. cbn [bind].
  destruct (mph_build_ok dom h keys order HD HV) as (m & Em & MO & Mn & MA). rewrite Em. cbn [bind].
  replace (N.to_nat (lenN keys)) with (length vs) by (unfold lenN; lia). rewrite (cv_holds_take vals vs HC). cbn [bind].
  destruct (mphf_pos m h keys MO) as (pos & PO & PP).
  unfold range at 1. replace (N.to_nat (lenN vs)) with (length vs) by (unfold lenN; lia).
  pose proof (fold_index (fun d k v => pos <- mph_lookup m (h k) ;; hcv_set hb d pos (mix hb (h k)) v) keys vs [] c0 HL) as FI.
  cbn [app] in FI. change (lenN (@nil K)) with 0 in FI. rewrite FI. clear FI.
  set (ops := map (fun kv : K * N => (pos (fst kv), (mix hb (h (fst kv)), snd kv))) (combine keys vs)).
  assert (FE : foldM (fun d kv => pos <- mph_lookup m (h (fst kv)) ;; hcv_set hb d pos (mix hb (h (fst kv))) (snd kv)) (combine keys vs) c0 =
               foldM (fun c o => hcv_set hb c (fst o) (fst (snd o)) (snd (snd o))) ops c0).
  { unfold ops. rewrite foldM_map. apply foldM_ext. intros s [k v] HI. cbn [fst snd]. rewrite PO by (eapply in_combine_l; eauto). reflexivity. }
  rewrite FE. assert (HPOS : forall k, In k keys -> pos k < lenN keys).
  { intros k Hk. assert (I : In (pos k) (range (lenN keys))) by (eapply Permutation_in; [exact PP|apply in_map; assumption]).
    apply In_seqN in I. lia. }
  destruct (hcv_sets_ok hb (lenN keys) w ops c0 _ R0) as (c & Ec & R).
  { unfold ops. apply Forall_map, Forall_forall. intros [k v] HI. cbn [fst snd]. split; [apply HPOS; eapply in_combine_l; eauto|].
    split; [apply mix_lt|]. rewrite Forall_forall in W2. apply W2. eapply in_combine_r; eauto. }
  rewrite Ec. cbn [bind]. eexists. split; [reflexivity|]. unfold svt_rep. cbn [sv_h sv_data].
  split; [assumption|]. split; [assumption|]. split; [assumption|]. exists pos. split; [assumption|]. split; [assumption|].
  intros k v HI. rewrite (hcv_get_ok hb c _ w _ (pos k) R) by (apply HPOS; eapply in_combine_l; eauto). f_equal.
  unfold ops. rewrite (slot_last' pos (fun kv => (mix hb (h (fst kv)), snd kv)) keys vs (lenN keys) k v (0, 0) PP HL HI). reflexivity.
Qed.

Lemma svt_lookup_in {K} hb (h : K -> triple) t keys vs k v : svt_rep hb h t keys vs -> In (k, v) (combine keys vs) ->
  svt_lookup hb h t k = Ok v.
Proof.
  intros (HL & HN & HA & pos & PO & PP & G) HI. unfold svt_lookup. rewrite PO by (eapply in_combine_l; eauto). cbn [bind].
  rewrite (G k v HI). cbn [bind]. rewrite N.eqb_refl. reflexivity.
Qed.
Lemma svt_lookup_any {K} hb (h : K -> triple) t keys vs g : svt_rep hb h t keys vs ->
  mph_lookup (sv_h t) (h g) = Ok (lenN keys) \/
  exists k v, In (k, v) (combine keys vs) /\ svt_lookup hb h t g = Ok (if mix hb (h k) =? mix hb (h g) then v else not_found).
Proof.
  intros (HL & HN & HA & pos & PO & PP & G). destruct (HA (h g)) as (p & Ep & Hp).
  destruct (N.eq_dec p (lenN keys)) as [->|NE]; [left; assumption|right].
  destruct (slot_key pos keys vs (lenN keys) p PP HL ltac:(lia)) as (k & v & HI & Ek). exists k, v. split; [assumption|].
  unfold svt_lookup. rewrite Ep. cbn [bind]. rewrite <- Ek, (G k v HI). reflexivity.
Qed.

(** ** double_valued_mpht *)
Definition dvt_rep {K} (hb : N) (h : K -> triple) (t : dvt) (keys : list K) (vs : list (N * N)) : Prop :=
  length keys = length vs /\ m_n (dv_h t) = lenN keys /\
  (forall tr, exists p, mph_lookup (dv_h t) tr = Ok p /\ p <= lenN keys) /\
  exists pos : K -> N, (forall k, In k keys -> mph_lookup (dv_h t) (h k) = Ok (pos k)) /\
    Permutation (map pos keys) (range (lenN keys)) /\
    forall k x y, In (k, (x, y)) (combine keys vs) -> ct_get (dv_data t) (pos k) = Ok (mix hb (h k), x, y).

Theorem dvt_build_ok {K} hb (h : K -> triple) dom order keys vals1 vals2 vs1 vs2 :
  0 < dom -> valid_order dom h keys order -> cv_holds vals1 vs1 -> cv_holds vals2 vs2 ->
  length keys = length vs1 -> length keys = length vs2 -> hb <= 64 ->
  lenN keys * (64 + c_width vals1 + c_width vals2) + 64 < 2 ^ 64 ->
  exists t, dvt_build hb h dom order keys vals1 vals2 = Ok t /\ dvt_rep hb h t keys (combine vs1 vs2).
Proof.
  intros HD HV HC1 HC2 HL1 HL2 HB H2.
  destruct (cv_holds_width _ _ HC1) as (W1 & W2 & W3). set (w1 := c_width vals1) in *.
  destruct (cv_holds_width _ _ HC2) as (X1 & X2 & X3). set (w2 := c_width vals2) in *.
  assert (HL : length keys = length (combine vs1 vs2)) by (rewrite combine_length; lia).
  unfold dvt_build. fold w1 w2.
  destruct (mph_build_ok dom h keys order HD HV) as (m & Em & MO & Mn & MA). rewrite Em. cbn [bind].
  destruct (ctb_new_ok (lenN keys) 64 w1 w2 ltac:(lia) W1 X1 H2) as (b0 & E0 & R0). rewrite E0. cbn [bind].
  pose proof (cv_holds_take vals1 vs1 HC1) as T1. rewrite <- HL1 in T1. rewrite T1. cbn [bind].
  pose proof (cv_holds_take vals2 vs2 HC2) as T2. rewrite <- HL2 in T2. rewrite T2. cbn [bind].
  destruct (mphf_pos m h keys MO) as (pos & PO & PP).
  set (ops := map (fun kv : K * (N * N) => (pos (fst kv), (mix hb (h (fst kv)), fst (snd kv), snd (snd kv)))) (combine keys (combine vs1 vs2))).
  match goal with |- context [foldM ?f ?l b0] => assert (FE : foldM f l b0 = foldM (fun b o => ctb_set b (fst o) (snd o)) ops b0) end.
  { unfold ops. rewrite foldM_map. apply foldM_ext. intros s [k [x y]] HI. cbn [fst snd]. rewrite PO by (eapply in_combine_l; eauto). reflexivity. }
  rewrite FE. assert (HPOS : forall k, In k keys -> pos k < lenN keys).
  { intros k Hk. assert (I : In (pos k) (range (lenN keys))) by (eapply Permutation_in; [exact PP|apply in_map; assumption]).
    apply In_seqN in I. lia. }
  destruct (ctb_sets_ok (lenN keys) 64 w1 w2 ops b0 _ R0) as (b & Eb & G).
  { unfold ops. apply Forall_map, Forall_forall. intros [k [x y]] HI. cbn [fst snd]. split; [apply HPOS; eapply in_combine_l; eauto|].
    apply in_combine_r in HI. split; [eapply lt_pow2_le; [apply mix_lt|assumption]|]. rewrite Forall_forall in W2, X2. split; [apply W2|apply X2].
    - eapply in_combine_l; eauto.
    - eapply in_combine_r; eauto. }
  rewrite Eb. cbn [bind]. eexists. split; [reflexivity|]. unfold dvt_rep. cbn [dv_h dv_data].
  split; [assumption|]. split; [assumption|]. split; [assumption|]. exists pos. split; [assumption|]. split; [assumption|].
  intros k x y HI. rewrite G by (apply HPOS; eapply in_combine_l; eauto). f_equal. unfold ops.
  rewrite (slot_last' pos (fun kv => (mix hb (h (fst kv)), fst (snd kv), snd (snd kv))) keys _ (lenN keys) k (x, y) _ PP HL HI). reflexivity.
Qed.

Lemma dvt_lookup_in {K} hb (h : K -> triple) t keys vs k x y : dvt_rep hb h t keys vs -> In (k, (x, y)) (combine keys vs) ->
  dvt_lookup_pair hb h t k = Ok (x, y) /\ dvt_lookup hb h t k = Ok x.
Proof.
  intros (HL & HN & HA & pos & PO & PP & G) HI. unfold dvt_lookup_pair, dvt_lookup. rewrite PO by (eapply in_combine_l; eauto). cbn [bind].
  rewrite (G k x y HI). cbn [bind]. rewrite N.eqb_refl. auto.
Qed.
Lemma dvt_lookup_any {K} hb (h : K -> triple) t keys vs g : dvt_rep hb h t keys vs ->
  mph_lookup (dv_h t) (h g) = Ok (lenN keys) \/
  exists k x y, In (k, (x, y)) (combine keys vs) /\
    dvt_lookup_pair hb h t g = Ok (if mix hb (h k) =? mix hb (h g) then (x, y) else (not_found, not_found)) /\
    dvt_lookup hb h t g = Ok (if mix hb (h k) =? mix hb (h g) then x else not_found).
Proof.
  intros (HL & HN & HA & pos & PO & PP & G). destruct (HA (h g)) as (p & Ep & Hp).
  destruct (N.eq_dec p (lenN keys)) as [->|NE]; [left; assumption|right].
  destruct (slot_key pos keys vs (lenN keys) p PP HL ltac:(lia)) as (k & [x y] & HI & Ek). exists k, x, y. split; [assumption|].
  unfold dvt_lookup_pair, dvt_lookup. rewrite Ep. cbn [bind]. rewrite <- Ek, (G k x y HI). auto.
Qed.


(** ** uint_mpht *)
Lemma store_zero ws k : words ws -> k < 64 * lenN ws -> store_field ws k 0 0 1 = Ok ws.
Proof.
  intros Hw Hk. unfold store_field. rewrite shr6, land63. rewrite upd_upd_k by dlia.
  destruct (N.ltb_spec (64 - k mod 64) 1); [exfalso; dlia|]. f_equal.
  assert (Z : N.lor (N.land (wd ws (k / 64)) (not64 (shl 0 (k mod 64)))) (shl 0 (k mod 64)) = wd ws (k / 64)).
  { assert (S0 : shl 0 (k mod 64) = 0) by (unfold shl; rewrite N.shiftl_0_l; reflexivity).
    rewrite S0, N.lor_0_r. apply tb_eq. intros i. rewrite N.land_spec, tb_not64, N.bits_0.
    destruct (N.ltb_spec i 64); [apply andb_true_r|]. rewrite andb_false_r.
    symmetry. apply (tb_lt _ 64); [apply wd_lt|]; assumption. }
  rewrite Z. apply nthN_ext. intros i. rewrite nthN_setN by dlia. destruct (N.eqb_spec i (k / 64)) as [->|]; [|reflexivity].
  symmetry. apply wd_nthN. dlia.
Qed.

(** set() calls on a width-0 builder (one bit per slot, mask 0) with value 0 *)
Lemma cvb_sets_zero n : forall (ops : list (N * N)) b, n + 64 < 2 ^ 64 -> Forall (fun o => fst o < n /\ snd o = 0) ops ->
  cb_size b = n -> cb_width b = 1 -> cb_mask b = 0 -> cb_bits b = repN 0 (words_for n) ->
  exists b', foldM (fun b o => cvb_set b (fst o) (snd o)) ops b = Ok b' /\
    cb_size b' = n /\ cb_width b' = 1 /\ cb_bits b' = repN 0 (words_for n).
Proof.
  induction ops as [|[i v] ops IH]; intros b HN HF S W M B; [exists b; auto|].
  inversion HF as [|? ? [A1 A2] HF']; subst. cbn [fst snd] in *. subst v. cbn [foldM fst snd].
  unfold cvb_set at 1. rewrite W, M, B. rewrite mul64_small by lia. rewrite N.mul_1_r.
  rewrite store_zero; [| apply words_rep, pow2_pos | rewrite lenN_rep; pose proof (words_for_ge (cb_size b)); lia]. cbn [bind].
  destruct (IH (mkcvb (cb_size b) 1 0 (if i =? sub64 (cb_size b) 1 then 0 else cb_back b) (cb_block b) (cb_shift b) (repN 0 (words_for (cb_size b)))))
    as (b' & E & R1 & R2 & R3); cbn [cb_size cb_width cb_mask cb_bits]; auto.
Qed.

Definition umpht_rep (h : N -> triple) (t : uit_t) (from to : list N) : Prop :=
  exists pos : N -> N, (forall k, In k from -> mph_lookup (ut_h t) (h k) = Ok (pos k)) /\
    Permutation (map pos from) (range (lenN from)) /\
    forall k v, In (k, v) (combine from to) -> cv_get (ut_values t) (pos k) = Ok v.

Theorem umpht_build_ok (h : N -> triple) dom order from to back :
  0 < dom -> valid_order dom h from order -> length from = length to -> nthN to (lenN to - 1) = Some back ->
  Forall (fun v => v <= back) to -> back < 2 ^ 64 - 1 -> lenN to * 64 + 64 < 2 ^ 64 ->
  exists t, umpht_build h dom order from to = Ok t /\ umpht_rep h t from to.
Proof.
  intros HD HV HL HB HF HM HN. unfold umpht_build.
  destruct (mph_build_ok dom h from order HD HV) as (m & Em & MO & Mn & MA). rewrite Em. cbn [bind].
  assert (LP : 0 < lenN to) by (pose proof (nthN_lt _ _ _ HB); lia).
  rewrite sub64_small by lia. rewrite (proj2 (rd_nthN _ _ _) HB). cbn [bind]. rewrite add64_small by lia.
  destruct (mphf_pos m h from MO) as (pos & PO & PP).
  assert (HPOS : forall k, In k from -> pos k < lenN to).
  { intros k Hk. assert (I : In (pos k) (range (lenN from))) by (eapply Permutation_in; [exact PP|apply in_map; assumption]).
    apply In_seqN in I. unfold lenN in *. lia. }
  set (ops := map (fun kv : N * N => (pos (fst kv), snd kv)) (combine from to)).
  assert (FE : forall b, foldM (fun b it => x <- rd from (fst it) ;; pos <- mph_lookup m (h x) ;; cvb_set b pos (snd it)) (combine (range (lenN to)) to) b
    = foldM (fun b o => cvb_set b (fst o) (snd o)) ops b).
  { intros b. unfold range. replace (N.to_nat (lenN to)) with (length to) by (unfold lenN; lia).
    pose proof (fold_index (fun d k v => pos <- mph_lookup m (h k) ;; cvb_set d pos v) from to [] b HL) as FI.
    cbn [app] in FI. change (lenN (@nil N)) with 0 in FI. rewrite FI. clear FI.
    unfold ops. rewrite foldM_map. apply foldM_ext. intros s [k v] HI. cbn [fst snd]. rewrite PO by (eapply in_combine_l; eauto). reflexivity. }
  destruct (N.eq_dec back 0) as [->|NZ].
  - change (ceil_log2 (0 + 1)) with 0. unfold cvb_new. change (cv_width 0) with 1. change (64 <? 1) with false. cbn [bind].
    rewrite mul64_small by lia. rewrite N.mul_1_r. rewrite FE.
    edestruct (cvb_sets_zero (lenN to) ops) as (b & Eb & R1 & R2 & R3); [lia| | | | | |].
    { unfold ops. apply Forall_map, Forall_forall. intros [k v] HI. cbn [fst snd]. split; [apply HPOS; eapply in_combine_l; eauto|].
      rewrite Forall_forall in HF. apply in_combine_r in HI. specialize (HF v HI). lia. }
    5: { rewrite Eb. cbn [bind]. eexists. split; [reflexivity|]. exists pos. cbn [ut_h ut_values]. split; [assumption|]. split; [assumption|].
      intros k v HI. assert (v = 0) as ->. { rewrite Forall_forall in HF. apply in_combine_r in HI. specialize (HF v HI). lia. }
      rewrite (cv_get_ok _ (lenN to) 1 0); [| |apply HPOS; eapply in_combine_l; eauto].
      - unfold slot, field. rewrite N.div_0_l by (apply N.pow_nonzero; lia). reflexivity.
      - unfold cv_of_builder. rewrite R1, R2, R3. repeat split; cbn [c_size c_width c_mask c_bits]; auto; try lia.
        + apply words_rep, pow2_pos.
        + rewrite lenN_rep. f_equal. lia.
        + apply wval_rep0. }
    all: reflexivity.
  - assert (W : 0 < ceil_log2 (back + 1) <= 64).
    { split.
      - destruct (N.eq_dec (ceil_log2 (back + 1)) 0) as [E|]; [|lia].
        pose proof (proj1 (ceil_log2_spec (back + 1) 0)). rewrite E in H. change (2 ^ 0) with 1 in H. lia.
      - apply ceil_log2_spec. lia. }
    assert (HW : back + 1 <= 2 ^ ceil_log2 (back + 1)) by (apply ceil_log2_spec; lia).
    set (w := ceil_log2 (back + 1)) in *. clearbody w.
    destruct (cvb_new_ok (lenN to) w W) as (b0 & E0 & R0 & _); [nia|]. rewrite E0. cbn [bind]. rewrite FE.
    destruct (cvb_sets_ok ops b0 _ _ _ R0) as (b & V & Eb & R & G).
    { unfold ops. apply Forall_map, Forall_forall. intros [k v] HI. cbn [fst snd]. split; [apply HPOS; eapply in_combine_l; eauto|].
      rewrite Forall_forall in HF. apply in_combine_r in HI. specialize (HF v HI). lia. }
    rewrite Eb. cbn [bind]. eexists. split; [reflexivity|]. exists pos. cbn [ut_h ut_values]. split; [assumption|]. split; [assumption|].
    intros k v HI. rewrite (cv_get_ok _ _ _ _ _ (cv_of_builder_rep _ _ _ _ R)) by (apply HPOS; eapply in_combine_l; eauto).
    rewrite G by (apply HPOS; eapply in_combine_l; eauto). f_equal.
    pose proof (slot_last' pos (fun kv : N * N => snd kv) from to (lenN from) k v (slot 0 w (pos k)) PP HL HI) as L. exact L.
Qed.
Lemma umpht_lookup_in h t from to x v : umpht_rep h t from to -> In (x, v) (combine from to) -> umpht_lookup h t x = Ok v.
Proof. intros (pos & PO & PP & G) HI. unfold umpht_lookup. rewrite PO by (eapply in_combine_l; eauto). cbn [bind]. apply G. assumption. Qed.
