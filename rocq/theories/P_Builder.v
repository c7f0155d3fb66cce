(** * Proofs about bit_vector_builder *)
From Verif Require Import Prelude BitFacts M_Word P_Word M_Bits Spec P_Bits.

(** ** builder representation: [b] holds the [n] bits of [V] *)
Definition brep (b : bvb) (V n : N) : Prop :=
  words (b_bits b) /\ lenN (b_bits b) = words_for n /\ wval (b_bits b) = V /\
  V < 2 ^ n /\ b_size b = n /\ (n = 0 \/ b_cur b = true).

(* the same content, forgetting the builder's cursor *)
Definition vrep (v : bv) (V n : N) : Prop :=
  words (v_bits v) /\ lenN (v_bits v) = words_for n /\ wval (v_bits v) = V /\
  V < 2 ^ n /\ v_size v = n.

Lemma brep_build b V n : brep b V n -> vrep (bv_build b) V n.
Proof. intros (H1 & H2 & H3 & H4 & H5 & _). repeat split; assumption. Qed.

Lemma words_app ws ws' : words ws -> words ws' -> words (ws ++ ws').
Proof. intros. apply Forall_app. split; assumption. Qed.
Lemma words_rep w n : w < 2 ^ 64 -> words (repN w n).
Proof. intros. apply Forall_rep. assumption. Qed.

Lemma wval_app ws ws' : words ws -> words ws' ->
  wval (ws ++ ws') = N.lor (wval ws) (N.shiftl (wval ws') (64 * lenN ws)).
Proof.
  intros H H'. apply tb_eq. intros i. rewrite N.lor_spec, tb_shl.
  rewrite wval_tb by (apply words_app; assumption). rewrite wd_app.
  destruct (N.ltb_spec (i / 64) (lenN ws)).
  - rewrite (wval_tb ws) by assumption. destruct (N.leb_spec (64 * lenN ws) i); [dlia|]. bt.
  - rewrite (tb_lt (wval ws) (64 * lenN ws)) by (try apply wval_lt; try assumption; dlia).
    destruct (N.leb_spec (64 * lenN ws) i); [|dlia]. cbn [andb orb].
    rewrite wval_tb by assumption. f_equal; [f_equal; dlia|dlia].
Qed.

Lemma bvb_new0_rep n : brep (bvb_new n false) 0 n.
Proof.
  unfold bvb_new. cbn [andb]. rewrite andb_false_r.
  split; [|split; [|split; [|split; [|split]]]]; cbn [b_bits b_size b_cur].
  - apply words_rep. apply pow2_pos.
  - apply lenN_rep.
  - apply wval_rep0.
  - apply pow2_pos.
  - reflexivity.
  - destruct (N.eqb_spec n 0); auto.
Qed.

Lemma removelast_rep {A} (a : A) n : removelast (repeat a (S n)) = repeat a n.
Proof. induction n; cbn [repeat removelast] in *; [reflexivity|]. f_equal. exact IHn. Qed.
Lemma last_rep {A} (a d : A) n : last (repeat a (S n)) d = a.
Proof. induction n; [reflexivity|]. cbn [repeat last] in *. exact IHn. Qed.

Lemma wval_rep_ones k : wval (repN (N.ones 64) k) = N.ones (64 * k).
Proof.
  apply tb_eq. intros i. rewrite wval_tb by (apply words_rep, ones_lt). rewrite tb_ones.
  destruct (N.lt_ge_cases (i / 64) k).
  - assert (wd (repN (N.ones 64) k) (i / 64) = N.ones 64) as ->.
    { assert (Some (wd (repN (N.ones 64) k) (i / 64)) = Some (N.ones 64)) as E; [|congruence].
      rewrite <- wd_nthN by (rewrite lenN_rep; assumption). apply nthN_rep. assumption. }
    rewrite tb_ones. destruct (N.ltb_spec (i mod 64) 64); destruct (N.ltb_spec i (64 * k)); try reflexivity; dlia.
  - rewrite wd_oob by (rewrite lenN_rep; assumption). rewrite N.bits_0.
    destruct (N.ltb_spec i (64 * k)); [dlia|reflexivity].
Qed.

Lemma bvb_new1_rep n : brep (bvb_new n true) (N.ones n) n.
Proof.
  unfold bvb_new. cbn [andb]. rewrite land63.
  destruct (N.eqb_spec n 0) as [->|Hn]; cbn [negb andb].
  { repeat split; cbn; try constructor; reflexivity. }
  destruct (N.eqb_spec (n mod 64) 0) as [E|E]; cbn [negb].
  - repeat split; cbn [b_bits b_size b_cur]; auto.
    + apply words_rep, ones_lt.
    + apply lenN_rep.
    + rewrite wval_rep_ones. f_equal. unfold words_for. dlia.
    + apply ones_lt.
  - unfold repN at 1 2. unfold words_for.
    set (k := (n + 63) / 64 - 1). replace (N.to_nat ((n + 63) / 64)) with (S (N.to_nat k)) by dlia.
    rewrite removelast_rep, last_rep. fold (repN (N.ones 64) k).
    assert (W : shr (N.ones 64) (64 - n mod 64) = N.ones (n mod 64)).
    { apply tb_eq. intros i. rewrite tb_shr64, !tb_ones.
      destruct (N.ltb_spec (i + (64 - n mod 64)) 64); destruct (N.ltb_spec i (n mod 64)); try reflexivity; dlia. }
    rewrite W.
    assert (L : N.ones (n mod 64) < 2 ^ 64) by (eapply lt_pow2_le; [apply ones_lt|dlia]).
    repeat split; cbn [b_bits b_size b_cur]; auto.
    + apply words_app; [apply words_rep, ones_lt|]. constructor; [exact L|constructor].
    + rewrite lenN_app, lenN_rep. unfold words_for. rewrite lenN_cons, lenN_nil. dlia.
    + rewrite wval_app; [|apply words_rep, ones_lt|constructor; [exact L|constructor]].
      rewrite lenN_rep, wval_rep_ones. cbn [wval]. rewrite N.shiftl_0_l, N.lor_0_r.
      apply tb_eq. intros i. rewrite N.lor_spec, tb_shl, !tb_ones.
      destruct (N.ltb_spec i (64 * k)); destruct (N.ltb_spec i n); destruct (N.leb_spec (64 * k) i);
       destruct (N.ltb_spec (i - 64 * k) (n mod 64)); try reflexivity; dlia.
    + apply ones_lt.
Qed.

Lemma bvb_zero_extend_rep b V n k : brep b V n -> n + k + 64 < 2 ^ 64 ->
  brep (bvb_zero_extend b k) V (n + k).
Proof.
  intros (H1 & H2 & H3 & H4 & H5 & H6) Hs. unfold bvb_zero_extend. rewrite H5, H2.
  assert (words_for n <= words_for (n + k)) by (unfold words_for; dlia).
  rewrite sub64_small; [|assumption|unfold words_for; dlia].
  assert (V < 2 ^ (n + k)) by (eapply lt_pow2_le; [exact H4|lia]).
  destruct (N.eqb_spec (words_for (n + k) - words_for n) 0).
  - repeat split; cbn [b_bits b_size b_cur]; auto. lia.
    destruct H6; [|auto]. left. subst n. unfold words_for in *. dlia.
  - repeat split; cbn [b_bits b_size b_cur]; auto.
    + apply words_app; [assumption|apply words_rep, pow2_pos].
    + rewrite lenN_app, lenN_rep. lia.
    + rewrite wval_app by (try apply words_rep; try apply pow2_pos; assumption).
      rewrite wval_rep0, N.shiftl_0_l, N.lor_0_r. assumption.
Qed.

(** number obtained by overwriting [len] bits at [pos] with those of [v] *)
Definition splice (V pos v len : N) : N :=
  N.lor (N.ldiff V (N.shiftl (N.ones len) pos)) (N.shiftl v pos).
Lemma tb_splice V pos v len i : v < 2 ^ len ->
  N.testbit (splice V pos v len) i =
  if (pos <=? i) && (i <? pos + len) then N.testbit v (i - pos) else N.testbit V i.
Proof.
  intros Hv. unfold splice. rewrite N.lor_spec, N.ldiff_spec, !tb_shl, tb_ones.
  destruct (N.leb_spec pos i); cbn [andb].
  - destruct (N.ltb_spec (i - pos) len); destruct (N.ltb_spec i (pos + len)); try (exfalso; lia); bt.
    rewrite (tb_lt v len) by (assumption || lia). bt.
  - bt.
Qed.

Lemma bvb_set_bits_rep b V n pos v len :
  brep b V n -> len <= 64 -> v < 2 ^ len -> pos + len <= n ->
  exists b', bvb_set_bits b pos v len = Ok b' /\ brep b' (splice V pos v len) n.
Proof.
  intros (H1 & H2 & H3 & H4 & H5 & H6) Hl Hv Hp. unfold bvb_set_bits.
  destruct (N.eqb_spec len 0) as [->|Hl0].
  { exists b. split; [reflexivity|]. repeat split; auto.
    - rewrite H3. apply tb_eq. intros i. rewrite tb_splice by assumption.
      destruct (N.leb_spec pos i); destruct (N.ltb_spec i (pos + 0)); try reflexivity. lia.
    - apply lt_pow2_tb. intros i Hi. rewrite tb_splice by assumption.
      destruct (N.leb_spec pos i); destruct (N.ltb_spec i (pos + 0)); try (exfalso; lia); cbn [andb];
      eapply tb_lt; eauto. }
  assert (M : (if len =? 64 then N.ones 64 else sub64 (shl 1 len) 1) = N.ones len).
  { destruct (N.eqb_spec len 64) as [->|]; [reflexivity|]. apply shl1_sub1. lia. }
  rewrite M.
  destruct (store_field_ok (b_bits b) pos v len) as (ws' & E & W & L & T); auto.
  { lia. } { rewrite H2. unfold words_for. dlia. }
  rewrite E. cbn [bind]. eexists. split; [reflexivity|].
  assert (X : wval ws' = splice V pos v len).
  { apply tb_eq. intros i. rewrite T, tb_splice, H3 by assumption. reflexivity. }
  repeat split; cbn [b_bits b_size b_cur]; auto; try congruence.
  apply lt_pow2_tb. intros i Hi. rewrite tb_splice by assumption.
  destruct (N.leb_spec pos i); destruct (N.ltb_spec i (pos + len)); try (exfalso; lia); cbn [andb];
  eapply tb_lt; eauto.
Qed.

Lemma bvb_set_rep b V n pos bt0 :
  brep b V n -> pos < n ->
  exists b', bvb_set b pos bt0 = Ok b' /\ brep b' (splice V pos (N.b2n bt0) 1) n.
Proof.
  intros (H1 & H2 & H3 & H4 & H5 & H6) Hp. unfold bvb_set. rewrite shr6, land63.
  assert (B : pos / 64 < lenN (b_bits b)) by (rewrite H2; unfold words_for; dlia).
  rewrite upd_upd_k by assumption. eexists. split; [reflexivity|].
  assert (WL : wd (b_bits b) (pos / 64) < 2 ^ 64) by (apply wd_lt, H1).
  assert (Hv : N.b2n bt0 < 2 ^ 1) by (destruct bt0; reflexivity).
  assert (X : wval (setN (b_bits b) (pos / 64)
     (N.lor (N.land (wd (b_bits b) (pos / 64)) (not64 (shl 1 (pos mod 64)))) (shl (N.b2n bt0) (pos mod 64))))
     = splice V pos (N.b2n bt0) 1).
  { apply tb_eq. intros i. rewrite wval_setN_tb; auto; [|apply masked_lt; [assumption|apply shl_lt]].
    rewrite tb_splice by assumption. rewrite N.lor_spec, N.land_spec, tb_not64, !tb_shl64, wd_tb by assumption.
    change 1 with (N.ones 1) at 1. rewrite tb_ones, H3.
    destruct (N.eqb_spec (i / 64) (pos / 64)) as [E2|E2].
    - assert (I : i = 64 * (pos / 64) + i mod 64) by dlia.
      rewrite <- I. destruct (N.ltb_spec (i mod 64) 64); [|exfalso; dlia]. cbn [andb].
      destruct (N.leb_spec (pos mod 64) (i mod 64)); destruct (N.leb_spec pos i); try (exfalso; dlia); cbn [andb].
      + replace (i mod 64 - pos mod 64) with (i - pos) by dlia.
        destruct (N.ltb_spec (i - pos) 1); destruct (N.ltb_spec i (pos + 1)); try (exfalso; lia); bt.
        rewrite (tb_lt (N.b2n bt0) 1) by (assumption || lia). bt.
      + bt.
    - destruct (N.leb_spec pos i); destruct (N.ltb_spec i (pos + 1)); try reflexivity.
      exfalso. apply E2. f_equal. lia. }
  repeat split; cbn [b_bits b_size b_cur]; auto.
  - apply words_setN; [assumption|]. apply masked_lt; [assumption|apply shl_lt].
  - rewrite lenN_setN. assumption.
  - apply lt_pow2_tb. intros i Hi. rewrite tb_splice by assumption.
    destruct (N.leb_spec pos i); destruct (N.ltb_spec i (pos + 1)); try (exfalso; lia); cbn [andb];
    eapply tb_lt; eauto.
Qed.

Lemma bvb_append_bits_rep b V n v len :
  brep b V n -> len <= 64 -> v < 2 ^ len -> n + 64 < 2 ^ 64 ->
  exists b', bvb_append_bits b v len = Ok b' /\ brep b' (N.lor V (N.shiftl v n)) (n + len).
Proof.
  intros (H1 & H2 & H3 & H4 & H5 & H6) Hl Hv Hs. unfold bvb_append_bits. rewrite H5, land63.
  destruct (N.eqb_spec len 0) as [->|Hl0].
  { exists b. split; [reflexivity|]. assert (v = 0) by (change (2 ^ 0) with 1 in Hv; lia). subst v.
    rewrite N.shiftl_0_l, N.lor_0_r, N.add_0_r. repeat split; auto. }
  assert (X : N.lor V (N.shiftl v n) < 2 ^ (n + len)).
  { apply lor_lt; [eapply lt_pow2_le; [exact H4|lia]|]. rewrite N.shiftl_mul_pow2, N.pow_add_r.
    pose proof (pow2_pos n). nia. }
  destruct (N.eqb_spec (n mod 64) 0) as [E|E].
  - eexists. split; [reflexivity|].
    assert (words [v]) by (constructor; [eapply lt_pow2_le; [exact Hv|lia]|constructor]).
    repeat split; cbn [b_bits b_size b_cur]; auto.
    + apply words_app; assumption.
    + rewrite lenN_app, H2, lenN_cons, lenN_nil. unfold words_for. dlia.
    + rewrite wval_app by assumption. cbn [wval]. rewrite N.shiftl_0_l, N.lor_0_r, H3, H2.
      do 2 f_equal. unfold words_for. dlia.
  - destruct H6 as [-> | ->]; [vm_compute in E; congruence|].
    assert (LB : 0 < lenN (b_bits b)) by (rewrite H2; unfold words_for; dlia).
    assert (LB2 : lenN (b_bits b) < 2 ^ 64) by (rewrite H2; unfold words_for; dlia).
    rewrite sub64_small by lia. rewrite upd_ok by lia. cbn [bind].
    set (k := lenN (b_bits b) - 1).
    assert (K : k = n / 64) by (subst k; rewrite H2; unfold words_for; dlia).
    assert (WL : wd (b_bits b) k < 2 ^ 64) by (apply wd_lt, H1).
    assert (A : N.lor (wd (b_bits b) k) (shl v (n mod 64)) < 2 ^ 64) by (apply lor_lt; [assumption|apply shl_lt]).
    assert (T : forall i, N.testbit (wval (setN (b_bits b) k (N.lor (wd (b_bits b) k) (shl v (n mod 64))))) i
       = N.testbit V i || ((i <? 64 * (k + 1)) && ((n <=? i) && N.testbit v (i - n)))).
    { intros i. rewrite wval_setN_tb; auto; [|lia]. rewrite N.lor_spec, tb_shl64, wd_tb by assumption. rewrite H3.
      destruct (N.eqb_spec (i / 64) k) as [E2|E2].
      - assert (I : i = 64 * k + i mod 64) by dlia. rewrite <- I.
        destruct (N.ltb_spec (i mod 64) 64); [|exfalso; dlia]. cbn [andb].
        destruct (N.ltb_spec i (64 * (k + 1))); [|lia]. cbn [andb]. f_equal.
        destruct (N.leb_spec (n mod 64) (i mod 64)); destruct (N.leb_spec n i); try (exfalso; dlia); cbn [andb]; try reflexivity.
        f_equal. dlia.
      - destruct (N.ltb_spec i (64 * (k + 1))); cbn [andb]; [|bt].
        destruct (N.leb_spec n i); cbn [andb]; [dlia|bt]. }
    destruct (N.ltb_spec (64 - n mod 64) len) as [L|L].
    + assert (V2 : shr v (64 - n mod 64) < 2 ^ 64) by (apply shr_lt; eapply lt_pow2_le; [exact Hv|lia]).
      assert (W2 : words [shr v (64 - n mod 64)]) by (constructor; [exact V2|constructor]).
      eexists. split; [reflexivity|]. repeat split; cbn [b_bits b_size b_cur]; auto.
      * apply words_app; [apply words_setN|]; auto.
      * rewrite lenN_app, lenN_setN, H2, lenN_cons, lenN_nil. unfold words_for. dlia.
      * rewrite wval_app by (auto; apply words_setN; auto). apply tb_eq. intros i.
        rewrite !N.lor_spec, !tb_shl, T, lenN_setN. cbn [wval]. rewrite N.shiftl_0_l, N.lor_0_r.
        rewrite <- orb_assoc. f_equal.
        replace (64 * lenN (b_bits b)) with (64 * (k + 1)) by lia.
        rewrite tb_shr64.
        destruct (N.ltb_spec i (64 * (k + 1))); destruct (N.leb_spec (64 * (k + 1)) i); try (exfalso; lia); cbn [andb]; [bt|].
        destruct (N.leb_spec n i); [|dlia]. cbn [andb orb]. f_equal. dlia.
    + eexists. split; [reflexivity|]. repeat split; cbn [b_bits b_size b_cur]; auto.
      * apply words_setN; auto.
      * rewrite lenN_setN, H2. unfold words_for. dlia.
      * apply tb_eq. intros i. rewrite T, N.lor_spec, tb_shl. f_equal.
        destruct (N.leb_spec n i); cbn [andb]; [|bt].
        destruct (N.ltb_spec i (64 * (k + 1))); [reflexivity|]. cbn [andb].
        symmetry. apply (tb_lt v len); [assumption|dlia].
Qed.

(** ** append *)
Lemma wval_cons_tb w r i : w < 2 ^ 64 ->
  N.testbit (wval (w :: r)) i = if i <? 64 then N.testbit w i else N.testbit (wval r) (i - 64).
Proof.
  intros H. cbn [wval]. rewrite N.lor_spec, tb_shl. destruct (N.ltb_spec i 64).
  - destruct (N.leb_spec 64 i); [lia|]. bt.
  - rewrite (tb_lt w 64) by assumption. destruct (N.leb_spec 64 i); [|lia]. reflexivity.
Qed.

Lemma append_loop_ok rhs : forall ws cur shift,
  rhs <> [] -> words ws -> words rhs -> 0 < shift < 64 -> lenN ws < 2 ^ 64 ->
  cur + lenN rhs <= lenN ws ->
  (forall i, 64 * (cur + 1) <= i -> N.testbit (wval ws) i = false) ->
  (forall i, 64 * lenN ws <= 64 * cur + shift + i -> N.testbit (wval rhs) i = false) ->
  exists ws', append_loop ws rhs cur shift = Ok ws' /\ words ws' /\ lenN ws' = lenN ws /\
    forall i, N.testbit (wval ws') i =
      N.testbit (wval ws) i || ((64 * cur + shift <=? i) && N.testbit (wval rhs) (i - (64 * cur + shift))).
Proof.
  induction rhs as [|w rest IH]; intros ws cur shift Hne Hws Hrhs Hsh HL Hlen Hz Hfit; [congruence|].
  inversion Hrhs as [|? ? Hw Hrest]; subst.
  rewrite lenN_cons in Hlen.
  assert (WL : wd ws cur < 2 ^ 64) by (apply wd_lt, Hws).
  assert (A : N.lor (wd ws cur) (shl w shift) < 2 ^ 64) by (apply lor_lt; [assumption|apply shl_lt]).
  assert (SR : shr w (64 - shift) < 2 ^ 64) by (apply shr_lt; assumption).
  assert (T1 : forall i, N.testbit (wval (setN ws cur (N.lor (wd ws cur) (shl w shift)))) i
     = N.testbit (wval ws) i || ((i <? 64 * (cur + 1)) && ((64 * cur + shift <=? i) && N.testbit w (i - (64 * cur + shift))))).
  { intros i. rewrite wval_setN_tb by (auto; lia). rewrite N.lor_spec, tb_shl64, wd_tb by assumption.
    destruct (N.eqb_spec (i / 64) cur) as [E|E].
    - assert (I : i = 64 * cur + i mod 64) by dlia. rewrite <- I.
      destruct (N.ltb_spec (i mod 64) 64); [|exfalso; dlia].
      destruct (N.ltb_spec i (64 * (cur + 1))); [|exfalso; lia]. cbn [andb]. f_equal.
      destruct (N.leb_spec shift (i mod 64)); destruct (N.leb_spec (64 * cur + shift) i); try (exfalso; lia); cbn [andb]; [|reflexivity].
      f_equal. lia.
    - destruct (N.ltb_spec i (64 * (cur + 1))); cbn [andb]; [|bt].
      destruct (N.leb_spec (64 * cur + shift) i); cbn [andb]; [exfalso; dlia|bt]. }
  assert (T2 : forall ws2 i, (cur + 1 < lenN ws) ->
     ws2 = setN (setN ws cur (N.lor (wd ws cur) (shl w shift))) (cur + 1) (shr w (64 - shift)) ->
     N.testbit (wval ws2) i = N.testbit (wval ws) i || ((64 * cur + shift <=? i) && N.testbit w (i - (64 * cur + shift)))).
  { intros ws2 i Hc ->. rewrite wval_setN_tb by (auto; try apply words_setN; auto; rewrite ?lenN_setN; lia).
    rewrite T1. destruct (N.eqb_spec (i / 64) (cur + 1)) as [E|E].
    - rewrite (Hz i) by dlia. rewrite tb_shr64. destruct (N.leb_spec (64 * cur + shift) i); [|exfalso; dlia].
      cbn [orb andb]. f_equal. dlia.
    - destruct (N.ltb_spec i (64 * (cur + 1))); cbn [andb]; [reflexivity|].
      rewrite (tb_lt w 64 (i - (64 * cur + shift))) by (auto; dlia). bt. }
  destruct rest as [|w2 rest].
  - cbn [append_loop]. rewrite upd_ok by lia. cbn [bind]. rewrite lenN_setN.
    rewrite sub64_small by lia.
    assert (WV : wval [w] = w) by (cbn [wval]; rewrite N.shiftl_0_l, N.lor_0_r; reflexivity).
    rewrite WV in *.
    destruct (N.ltb_spec cur (lenN ws - 1)).
    + rewrite wr_setN by (rewrite lenN_setN; lia). eexists. split; [reflexivity|].
      split; [|split].
      * repeat apply words_setN; auto.
      * rewrite !lenN_setN. reflexivity.
      * intros i. apply T2; [lia|reflexivity].
    + eexists. split; [reflexivity|]. split; [|split].
      * apply words_setN; auto.
      * rewrite lenN_setN. reflexivity.
      * intros i. rewrite T1. f_equal. destruct (N.ltb_spec i (64 * (cur + 1))); [reflexivity|].
        destruct (N.leb_spec (64 * cur + shift) i); [|reflexivity]. cbn [andb]. symmetry. apply Hfit. lia.
  - rewrite lenN_cons in Hlen.
    cbn [append_loop]. rewrite upd_ok by lia. cbn [bind].
    rewrite wr_setN by (rewrite lenN_setN; lia). cbn [bind].
    set (ws2 := setN (setN ws cur (N.lor (wd ws cur) (shl w shift))) (cur + 1) (shr w (64 - shift))).
    assert (L2 : lenN ws2 = lenN ws) by (subst ws2; rewrite !lenN_setN; reflexivity).
    assert (W2 : words ws2) by (subst ws2; repeat apply words_setN; auto).
    specialize (fun i => T2 ws2 i ltac:(lia) eq_refl) as T2'.
    destruct (IH ws2 (cur + 1) shift) as (ws' & E & W' & L' & T'); auto.
    + congruence.
    + lia.
    + rewrite L2, lenN_cons. lia.
    + intros i Hi. rewrite T2', Hz by lia. rewrite (tb_lt w 64 (i - (64 * cur + shift))) by (auto; lia). bt.
    + intros i Hi. rewrite L2 in Hi. specialize (Hfit (i + 64)). rewrite wval_cons_tb in Hfit by assumption.
      destruct (N.ltb_spec (i + 64) 64); [lia|]. replace (i + 64 - 64) with i in Hfit by lia. apply Hfit. lia.
    + exists ws'. split; [exact E|]. split; [assumption|]. split; [congruence|].
      intros i. rewrite T', T2'. rewrite (wval_cons_tb w) by assumption. rewrite <- orb_assoc. f_equal.
      destruct (N.leb_spec (64 * cur + shift) i); cbn [andb].
      * destruct (N.ltb_spec (i - (64 * cur + shift)) 64).
        -- destruct (N.leb_spec (64 * (cur + 1) + shift) i); [exfalso; lia|]. bt.
        -- rewrite (tb_lt w 64 (i - (64 * cur + shift))) by (auto; lia).
           destruct (N.leb_spec (64 * (cur + 1) + shift) i); [|exfalso; lia]. cbn [orb andb].
           f_equal. lia.
      * destruct (N.leb_spec (64 * (cur + 1) + shift) i); [exfalso; lia|]. reflexivity.
Qed.

Lemma copy_at_ok rhs : forall ws pos,
  words ws -> words rhs -> pos + lenN rhs <= lenN ws ->
  (forall i, 64 * pos <= i -> N.testbit (wval ws) i = false) ->
  exists ws', copy_at ws rhs pos = Ok ws' /\ words ws' /\ lenN ws' = lenN ws /\
    forall i, N.testbit (wval ws') i =
      N.testbit (wval ws) i || ((64 * pos <=? i) && N.testbit (wval rhs) (i - 64 * pos)).
Proof.
  induction rhs as [|w r IH]; intros ws pos Hws Hr HL Hz.
  - exists ws. repeat split; auto. intros i. cbn [wval]. rewrite N.bits_0. bt.
  - inversion Hr as [|? ? Hw Hr']; subst. rewrite lenN_cons in HL. cbn [copy_at].
    rewrite wr_setN by lia. cbn [bind].
    assert (T1 : forall i, N.testbit (wval (setN ws pos w)) i
      = N.testbit (wval ws) i || ((64 * pos <=? i) && ((i <? 64 * (pos + 1)) && N.testbit w (i - 64 * pos)))).
    { intros i. rewrite wval_setN_tb by (auto; lia). destruct (N.eqb_spec (i / 64) pos) as [E|E].
      - rewrite Hz by dlia. destruct (N.leb_spec (64 * pos) i); [|exfalso; dlia].
        destruct (N.ltb_spec i (64 * (pos + 1))); [|exfalso; dlia]. cbn [andb orb]. f_equal. dlia.
      - destruct (N.leb_spec (64 * pos) i); destruct (N.ltb_spec i (64 * (pos + 1))); cbn [andb]; try bt. exfalso; dlia. }
    destruct (IH (setN ws pos w) (pos + 1)) as (ws' & E & W' & L' & T'); auto.
    + apply words_setN; auto.
    + rewrite lenN_setN. lia.
    + intros i Hi. rewrite T1, Hz by lia. destruct (N.ltb_spec i (64 * (pos + 1))); [lia|]. bt.
    + exists ws'. split; [exact E|]. split; [auto|]. split; [rewrite L', lenN_setN; reflexivity|].
      intros i. rewrite T', T1, wval_cons_tb by assumption. rewrite <- orb_assoc. f_equal.
      destruct (N.leb_spec (64 * pos) i); cbn [andb].
      * destruct (N.ltb_spec i (64 * (pos + 1))); destruct (N.ltb_spec (i - 64 * pos) 64); try (exfalso; lia).
        -- destruct (N.leb_spec (64 * (pos + 1)) i); [exfalso; lia|]. bt.
        -- destruct (N.leb_spec (64 * (pos + 1)) i); [|exfalso; lia]. cbn [andb orb]. f_equal. lia.
      * destruct (N.leb_spec (64 * (pos + 1)) i); [exfalso; lia|]. reflexivity.
Qed.

Lemma vec_resize_grow ws k : lenN ws <= k -> vec_resize ws k = ws ++ repN 0 (k - lenN ws).
Proof.
  intros H. unfold vec_resize. rewrite firstn_all2; [reflexivity|]. unfold lenN in H. lia.
Qed.

Lemma bvb_append_rep b V n r R m :
  brep b V n -> brep r R m -> n + m + 64 < 2 ^ 64 ->
  exists b', bvb_append b r = Ok b' /\ brep b' (N.lor V (N.shiftl R n)) (n + m).
Proof.
  intros (H1 & H2 & H3 & H4 & H5 & H6) (R1 & R2 & R3 & R4 & R5 & R6) Hs.
  unfold bvb_append. rewrite H5, R5.
  destruct (N.eqb_spec m 0) as [->|Hm].
  { exists b. split; [reflexivity|]. assert (R = 0) by (change (2 ^ 0) with 1 in R4; lia). subst R.
    rewrite H, N.shiftl_0_l, N.lor_0_r, N.add_0_r. repeat split; auto. }
  assert (X : N.lor V (N.shiftl R n) < 2 ^ (n + m)).
  { apply lor_lt; [eapply lt_pow2_le; [exact H4|lia]|]. rewrite N.shiftl_mul_pow2, N.pow_add_r.
    pose proof (pow2_pos n). nia. }
  assert (G : lenN (b_bits b) <= words_for (n + m)) by (rewrite H2; unfold words_for; dlia).
  rewrite vec_resize_grow by assumption.
  set (ws := b_bits b ++ repN 0 (words_for (n + m) - lenN (b_bits b))).
  assert (W : words ws) by (apply words_app; [assumption|apply words_rep, pow2_pos]).
  assert (WV : wval ws = V).
  { subst ws. rewrite wval_app by (try apply words_rep; try apply pow2_pos; assumption).
    rewrite wval_rep0, N.shiftl_0_l, N.lor_0_r. assumption. }
  assert (WL : lenN ws = words_for (n + m)) by (subst ws; rewrite lenN_app, lenN_rep; lia).
  assert (TV : forall i, n <= i -> N.testbit V i = false) by (intros; eapply tb_lt; eauto).
  assert (TR : forall i, m <= i -> N.testbit R i = false) by (intros; eapply tb_lt; eauto).
  assert (WF : words_for (n + m) < 2 ^ 64) by (unfold words_for; dlia).
  destruct (N.eqb_spec (n mod 64) 0) as [E|E].
  - destruct (copy_at_ok (b_bits r) ws (lenN (b_bits b))) as (ws' & E' & W' & L' & T'); auto.
    + rewrite R2, WL, H2. unfold words_for. dlia.
    + intros i Hi. rewrite WV. apply TV. rewrite H2 in Hi. unfold words_for in Hi. dlia.
    + rewrite E'. cbn [bind]. eexists. split; [reflexivity|]. repeat split; cbn [b_bits b_size b_cur]; auto.
      * congruence.
      * apply tb_eq. intros i. rewrite T', WV, N.lor_spec, tb_shl, R3.
        replace (64 * lenN (b_bits b)) with n; [reflexivity|]. rewrite H2. unfold words_for. dlia.
  - assert (P0 : 0 < lenN (b_bits b)) by (rewrite H2; unfold words_for; dlia).
    rewrite sub64_small by lia.
    assert (PN : 64 * (lenN (b_bits b) - 1) + n mod 64 = n) by (rewrite H2; unfold words_for; dlia).
    destruct (append_loop_ok (b_bits r) ws (lenN (b_bits b) - 1) (n mod 64)) as (ws' & E' & W' & L' & T'); auto.
    + intros Z. rewrite Z, lenN_nil in R2. unfold words_for in R2. dlia.
    + dlia.
    + lia.
    + rewrite R2, WL, H2. unfold words_for. dlia.
    + intros i Hi. rewrite WV. apply TV. dlia.
    + intros i Hi. rewrite R3. apply TR. rewrite PN in Hi. rewrite WL in Hi. unfold words_for in Hi. dlia.
    + rewrite E'. cbn [bind]. eexists. split; [reflexivity|]. repeat split; cbn [b_bits b_size b_cur]; auto.
      * congruence.
      * apply tb_eq. intros i. rewrite T', WV, N.lor_spec, tb_shl, R3, PN. reflexivity.
Qed.

(** ** readers *)
Lemma bv_get_ok v V n i : vrep v V n -> i < n -> bv_get v i = Ok (N.b2n (N.testbit V i)).
Proof.
  intros (H1 & H2 & H3 & H4 & H5) Hi. unfold bv_get. rewrite shr6, land63.
  rewrite rd_wd by (rewrite H2; unfold words_for; dlia). cbn [bind]. f_equal.
  apply tb_eq. intros j. rewrite N.land_spec, tb_shr64, wd_tb by assumption. rewrite H3.
  change 1 with (N.ones 1). rewrite tb_ones.
  destruct (N.ltb_spec j 1).
  - assert (j = 0) by lia. subst j. rewrite N.add_0_l.
    destruct (N.ltb_spec (i mod 64) 64); [|exfalso; dlia]. rewrite andb_true_r. cbn [andb].
    replace (64 * (i / 64) + i mod 64) with i by dlia. destruct (N.testbit V i); reflexivity.
  - rewrite andb_false_r. symmetry. apply (tb_lt _ 1); [|assumption]. destruct (N.testbit V i); reflexivity.
Qed.

Lemma bv_get_bits_ok v V n pos len : vrep v V n -> len <= 64 -> pos + len <= n ->
  bv_get_bits v pos len = Ok (field V pos len).
Proof.
  intros (H1 & H2 & H3 & H4 & H5) Hl Hp. unfold bv_get_bits.
  destruct (N.eqb_spec len 0) as [->|].
  - f_equal. unfold field. rewrite N.pow_0_r, N.mod_1_r. reflexivity.
  - rewrite width_mask_ones by assumption. rewrite <- H3.
    apply load_field_ok; [assumption|lia|]. rewrite H2. unfold words_for. dlia.
Qed.

Lemma bv_get_word64_ok v V n pos : vrep v V n -> pos < n ->
  bv_get_word64 v pos = Ok (field V pos 64).
Proof.
  intros (H1 & H2 & H3 & H4 & H5) Hp. unfold bv_get_word64. rewrite get_word64_ok, H3; auto.
  rewrite H2. unfold words_for. dlia.
Qed.

Lemma load_u64_ok ws off : words ws -> off + 8 <= 8 * lenN ws ->
  load_u64 ws off = Ok (field (wval ws) (8 * off) 64).
Proof.
  intros Hw Ho. unfold load_u64. rewrite rd_wd by dlia. cbn [bind].
  destruct (N.eqb_spec (8 * (off mod 8)) 0) as [E|E].
  - f_equal. apply tb_eq. intros i. rewrite tb_field, wd_tb by assumption. f_equal. f_equal. dlia.
  - rewrite rd_wd by dlia. cbn [bind]. f_equal. apply tb_eq. intros i.
    rewrite tb_field, N.lor_spec, tb_shr64, tb_shl64, !wd_tb by assumption.
    destruct (N.ltb_spec i 64); cbn [andb].
    + destruct (N.ltb_spec (i + 8 * (off mod 8)) 64); cbn [andb].
      * destruct (N.leb_spec (64 - 8 * (off mod 8)) i); [exfalso; lia|]. cbn [andb]. rewrite orb_false_r.
        f_equal. dlia.
      * destruct (N.leb_spec (64 - 8 * (off mod 8)) i); [|exfalso; lia]. cbn [andb orb].
        destruct (N.ltb_spec (i - (64 - 8 * (off mod 8))) 64); [|exfalso; dlia]. cbn [andb]. f_equal. dlia.
    + destruct (N.ltb_spec (i + 8 * (off mod 8)) 64); [exfalso; lia|]. reflexivity.
Qed.

(** the unsafe reader returns the 64 - pos mod 8 bits from [pos] on, zero extended *)
Lemma bv_get_word56_ok v V n pos : vrep v V n -> pos / 8 + 8 <= 8 * words_for n ->
  bv_get_word56 v pos = Ok (field V pos (64 - pos mod 8)).
Proof.
  intros (H1 & H2 & H3 & H4 & H5) Hp. unfold bv_get_word56. rewrite shr3, land7.
  rewrite load_u64_ok by (rewrite ?H2; assumption). cbn [bind]. f_equal. apply tb_eq. intros i.
  rewrite tb_shr64, !tb_field, H3.
  destruct (N.ltb_spec (i + pos mod 8) 64); destruct (N.ltb_spec i (64 - pos mod 8)); try (exfalso; lia); cbn [andb]; [|reflexivity].
  f_equal. dlia.
Qed.

