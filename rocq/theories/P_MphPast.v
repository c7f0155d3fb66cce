(** * Reading a hash table past its last slot

    The minimal perfect hash function can answer the number of keys for a key that was not inserted (C21); the slot read then is
    the first one past the end of hash_compact_vector's words. *)
From Verif Require Import Prelude BitFacts M_Word M_Bits M_CompactVector M_HashVec M_Mph P_HashVec P_MphTables P_Typed P_Stats4 P_Bits.

Lemma updh_len hb ws i f ws' : updh hb ws i f = Ok ws' -> lenN ws' = lenN ws.
Proof.
  unfold updh, upd. intros H. apply bind_inv in H. destruct H as (w & _ & H). apply wr_inv in H. destruct H as (_ & ->). apply lenN_setN.
Qed.
Ltac upds H := match type of H with
  | bind (updh _ ?ws _ _) _ = _ => let w := fresh "w" in let E := fresh "E" in apply bind_inv in H; destruct H as (w & E & H); apply updh_len in E; upds H
  | _ => idtac end.
Lemma hcv_set_shape hb c i k v c' : hcv_set hb c i k v = Ok c' -> lenN (h_bits c') = lenN (h_bits c) /\ h_width c' = h_width c.
Proof.
  unfold hcv_set. intros H. apply bind_inv in H. destruct H as (ws & E & H). injection H as <-. cbn [h_bits h_width]. split; [|reflexivity].
  destruct (negb _).
  - cbv zeta in E. upds E. destruct (_ <? _); [|injection E as <-; congruence]. upds E. destruct (_ && _); [|injection E as <-; congruence].
    upds E. apply updh_len in E. congruence.
  - upds E. destruct (_ && _); [|injection E as <-; congruence]. upds E. apply updh_len in E. congruence.
Qed.
Lemma hcv_new_shape hb n w c : hcv_new hb n w = Ok c -> n * (hb + w) < 2 ^ 64 -> lenN (h_bits c) = (n * (hb + w) + (hb - 1)) / hb /\ h_width c = w.
Proof.
  unfold hcv_new. destruct (w =? 0); [discriminate|]. destruct (64 <? w); [discriminate|]. intros H HN. injection H as <-. cbn [h_bits h_width].
  rewrite lenN_rep, mul64_small by assumption. auto.
Qed.
Lemma hcv_get_past hb c n w : hb = 32 \/ hb = 64 -> n * (hb + w) < 2 ^ hb -> lenN (h_bits c) = (n * (hb + w) + (hb - 1)) / hb -> h_width c = w ->
  hcv_get hb c n = UB.
Proof.
  intros HB HN HL HW. unfold hcv_get. rewrite HW.
  assert (L64 : n * (hb + w) < 2 ^ 64) by (destruct HB as [-> | ->]; [|assumption]; eapply N.lt_trans; [exact HN|reflexivity]).
  rewrite mul64_small by assumption. set (p := n * (hb + w)) in *.
  assert (T : trunc hb p = p) by (unfold trunc; rewrite N.land_ones; apply N.mod_small; assumption). rewrite T.
  assert (S : N.land p (hb - 1) = p mod hb).
  { destruct HB as [-> | ->]; [change (32 - 1) with (N.ones 5)|change (64 - 1) with (N.ones 6)]; rewrite N.land_ones; reflexivity. }
  rewrite S. assert (HP : 0 < hb) by (destruct HB; lia).
  assert (P : forall j, (if p mod hb =? 0 then p / hb else p / hb + 1) <= j -> rd (h_bits c) j = UB).
  { intros j Hj. unfold rd. destruct (N.ltb_spec j (lenN (h_bits c))) as [L|L]; [|reflexivity]. exfalso. rewrite HL in L.
    destruct HB as [-> | ->]; destruct (N.eqb_spec (p mod 32) 0), (N.eqb_spec (p mod 64) 0); dlia. }
  destruct (N.eqb_spec (p mod hb) 0) as [Z|Z]; cbn [negb].
  - rewrite (P _ (N.le_refl _)). reflexivity.
  - destruct (rd (h_bits c) (p / hb)) as [x| |] eqn:E; cbn [bind]; [|reflexivity|unfold rd in E; destruct (_ <? _); [destruct (nth_error _ _)|]; discriminate].
    rewrite (P _ (N.le_refl _)). reflexivity.
Qed.

Lemma svt_build_shape {K} hb (h : K -> triple) dom order keys vals t : svt_build hb h dom order keys vals = Ok t -> c_size vals * (hb + c_width vals) < 2 ^ 64 ->
  lenN (h_bits (sv_data t)) = (c_size vals * (hb + c_width vals) + (hb - 1)) / hb /\ h_width (sv_data t) = c_width vals.
Proof.
  unfold svt_build. intros H HN. apply bind_inv in H. destruct H as (d & E1 & H). apply bind_inv in H. destruct H as (m & _ & H).
  apply bind_inv in H. destruct H as (vs & _ & H). apply bind_inv in H. destruct H as (d' & E2 & H). injection H as <-. cbn [sv_data].
  apply (foldM_inv (fun d => lenN (h_bits d) = (c_size vals * (hb + c_width vals) + (hb - 1)) / hb /\ h_width d = c_width vals)) in E2; [exact E2| |apply hcv_new_shape; assumption].
  intros s [i v] s' _ (I1 & I2) E. apply bind_inv in E. destruct E as (k & _ & E). apply bind_inv in E. destruct E as (p & _ & E).
  apply hcv_set_shape in E. destruct E as (S1 & S2). split; congruence.
Qed.
(** the slot after the last one *)
Theorem svt_build_past {K} hb (h : K -> triple) dom order keys vals t : svt_build hb h dom order keys vals = Ok t -> hb = 32 \/ hb = 64 ->
  c_size vals * (hb + c_width vals) < 2 ^ hb -> hcv_get hb (sv_data t) (c_size vals) = UB.
Proof.
  intros E HB HN. assert (L64 : c_size vals * (hb + c_width vals) < 2 ^ 64) by (destruct HB as [-> | ->]; [|assumption]; eapply N.lt_trans; [exact HN|reflexivity]).
  destruct (svt_build_shape _ _ _ _ _ _ _ E L64) as (S1 & S2). apply (hcv_get_past hb _ _ (c_width vals)); assumption.
Qed.
(** the answer of a lookup, whatever key is looked up *)
Theorem svt_lookup_past {K} hb (h : K -> triple) t keys vs g : svt_rep hb h t keys vs -> hcv_get hb (sv_data t) (lenN keys) = UB ->
  mph_lookup (sv_h t) (h g) = Ok (lenN keys) /\ svt_lookup hb h t g = UB \/
  exists k v, In (k, v) (combine keys vs) /\ mph_lookup (sv_h t) (h g) = mph_lookup (sv_h t) (h k) /\ mph_lookup (sv_h t) (h g) <> Ok (lenN keys) /\
    svt_lookup hb h t g = Ok (if mix hb (h k) =? mix hb (h g) then v else not_found).
Proof.
  intros (HL & HN & HA & pos & PO & PP & G) PA. destruct (HA (h g)) as (p & Ep & Hp). destruct (N.eq_dec p (lenN keys)) as [->|NE].
  - left. split; [assumption|]. unfold svt_lookup. rewrite Ep. cbn [bind]. rewrite PA. reflexivity.
  - right. destruct (slot_key pos keys vs (lenN keys) p PP HL ltac:(lia)) as (k & v & HI & Ek). exists k, v. split; [assumption|].
    split; [rewrite (PO k) by (eapply in_combine_l; eauto); congruence|]. split; [congruence|].
    unfold svt_lookup. rewrite Ep. cbn [bind]. rewrite <- Ek, (G k v HI). reflexivity.
Qed.

(** ** double_valued_mpht *)
Lemma upd_len ws i f ws' : upd ws i f = Ok ws' -> lenN ws' = lenN ws.
Proof.
  unfold upd. intros H. apply bind_inv in H. destruct H as (w & _ & H). apply wr_inv in H. destruct H as (_ & ->). apply lenN_setN.
Qed.
Lemma store_field_len ws pos mask v len ws' : store_field ws pos mask v len = Ok ws' -> lenN ws' = lenN ws.
Proof.
  unfold store_field. intros H. apply bind_inv in H. destruct H as (w1 & E1 & H). apply bind_inv in H. destruct H as (w2 & E2 & H).
  apply upd_len in E1, E2. destruct (_ <? _); [|injection H as <-; congruence].
  apply bind_inv in H. destruct H as (ms & _ & H). apply bind_inv in H. destruct H as (vs & _ & H). apply bind_inv in H. destruct H as (w3 & E3 & H).
  apply upd_len in E3, H. congruence.
Qed.
Lemma bvb_set_bits_len b pos x len b' : bvb_set_bits b pos x len = Ok b' -> lenN (b_bits b') = lenN (b_bits b).
Proof.
  unfold bvb_set_bits. destruct (len =? 0); [intros [= <-]; reflexivity|]. intros H. apply bind_inv in H. destruct H as (ws & E & H). injection H as <-.
  cbn [b_bits]. eapply store_field_len; eassumption.
Qed.
Lemma ctb_set_shape b i t b' : ctb_set b i t = Ok b' -> lenN (b_bits (tb_bits b')) = lenN (b_bits (tb_bits b)) /\ tb_w1 b' = tb_w1 b /\ tb_w2 b' = tb_w2 b /\ tb_w3 b' = tb_w3 b.
Proof.
  unfold ctb_set. destruct t as [[x y] z]. intros H. apply bind_inv in H. destruct H as (b1 & E1 & H). apply bind_inv in H. destruct H as (b2 & E2 & H).
  apply bind_inv in H. destruct H as (b3 & E3 & H). injection H as <-. cbn [tb_bits tb_w1 tb_w2 tb_w3]. apply bvb_set_bits_len in E1, E2, E3. split; [congruence|auto].
Qed.
Lemma get_word64_past ws p : p < 2 ^ 64 -> lenN ws <= p / 64 -> get_word64 ws p = UB.
Proof.
  intros HP HL. unfold get_word64. rewrite shr6. assert (R : rd ws (p / 64) = UB) by (unfold rd; destruct (N.ltb_spec (p / 64) (lenN ws)); [lia|reflexivity]).
  rewrite R. reflexivity.
Qed.
Lemma ct_get_past c n : n * (64 + t_w2 c + t_w3 c) + 64 < 2 ^ 64 -> t_w1 c = 64 -> 1 <= t_w2 c -> lenN (v_bits (t_bits c)) = words_for (n * (64 + t_w2 c + t_w3 c)) ->
  n = 0 \/ 64 + t_w2 c + t_w3 c < 2 ^ 64 -> ct_get c n = UB.
Proof.
  intros HN W1 W2 HL HW. assert (HW' : 64 + t_w2 c + t_w3 c < 2 ^ 64 \/ n = 0) by (destruct HW; auto). clear HW. unfold ct_get. rewrite W1.
  assert (P : mul64 n (add64 (add64 64 (t_w2 c)) (t_w3 c)) = n * (64 + t_w2 c + t_w3 c)).
  { destruct HW' as [HW| ->]; [|reflexivity]. rewrite (add64_small 64) by lia. rewrite add64_small by assumption. apply mul64_small. lia. }
  rewrite P. clear P. set (p := n * (64 + t_w2 c + t_w3 c)) in *. unfold bit_get_bits at 1. cbn [bit_new bi_avail].
  change (0 <? 64) with true. cbv iota. unfold bit_fill at 1. cbn [bit_new bi_pos]. unfold bv_get_word64 at 1.
  destruct (get_word64 (v_bits (t_bits c)) p) as [x| |] eqn:E; cbn [bind]; [|reflexivity|].
  - change (64 =? 64) with true. cbv iota beta. cbn [bind bi_pos bi_buf bi_avail]. unfold bit_get_bits at 1. cbn [bi_avail bi_pos].
    change (sub64 64 64) with 0. destruct (N.ltb_spec 0 (t_w2 c)); [|lia]. unfold bit_fill at 1. cbn [bi_pos]. unfold bv_get_word64.
    rewrite get_word64_past; [reflexivity|lia|]. rewrite HL. unfold words_for. dlia.
  - exfalso. unfold get_word64, rd in E. destruct (_ <? _); [destruct (nth_error _ _); cbn [bind] in E|]; [|discriminate E|discriminate E].
    destruct (_ && _); [|discriminate E]. destruct (_ <? _); [destruct (nth_error _ _); cbn [bind] in E|]; discriminate E.
Qed.
Lemma dvt_build_shape {K} hb (h : K -> triple) dom order keys v1 v2 t : dvt_build hb h dom order keys v1 v2 = Ok t -> 1 <= c_width v1 <= 64 -> 1 <= c_width v2 <= 64 ->
  lenN keys * (64 + c_width v1 + c_width v2) < 2 ^ 64 ->
  lenN (v_bits (t_bits (dv_data t))) = words_for (lenN keys * (64 + c_width v1 + c_width v2)) /\ t_w1 (dv_data t) = 64 /\ t_w2 (dv_data t) = c_width v1 /\ t_w3 (dv_data t) = c_width v2.
Proof.
  unfold dvt_build. intros H W1 W2 HN. apply bind_inv in H. destruct H as (m & _ & H). apply bind_inv in H. destruct H as (d & E1 & H).
  apply bind_inv in H. destruct H as (vs1 & _ & H). apply bind_inv in H. destruct H as (vs2 & _ & H). apply bind_inv in H. destruct H as (d' & E2 & H).
  injection H as <-. cbn [dv_data ctb_build t_bits t_w1 t_w2 t_w3 bv_build v_bits].
  apply (foldM_inv (fun d => lenN (b_bits (tb_bits d)) = words_for (lenN keys * (64 + c_width v1 + c_width v2)) /\ tb_w1 d = 64 /\ tb_w2 d = c_width v1 /\ tb_w3 d = c_width v2)) in E2; [exact E2| |].
  - intros s [k [x y]] s' _ (I1 & I2 & I3 & I4) E. apply bind_inv in E. destruct E as (p & _ & E). apply ctb_set_shape in E. destruct E as (S1 & S2 & S3 & S4).
    repeat split; congruence.
  - unfold ctb_new, ct_width in E1. destruct (N.eqb_spec (c_width v1) 0); [lia|]. destruct (N.eqb_spec (c_width v2) 0); [lia|]. change (64 =? 0) with false in E1. cbv iota zeta in E1.
    destruct (_ || _); [discriminate E1|]. injection E1 as <-. cbn [tb_bits tb_w1 tb_w2 tb_w3 bvb_new b_bits]. rewrite andb_false_l, andb_false_r, lenN_rep.
    rewrite (add64_small 64) by lia. rewrite add64_small by lia. rewrite mul64_small by assumption. auto.
Qed.
Theorem dvt_build_past {K} hb (h : K -> triple) dom order keys v1 v2 t : dvt_build hb h dom order keys v1 v2 = Ok t -> 1 <= c_width v1 <= 64 -> 1 <= c_width v2 <= 64 ->
  lenN keys * (64 + c_width v1 + c_width v2) + 64 < 2 ^ 64 -> ct_get (dv_data t) (lenN keys) = UB.
Proof.
  intros E W1 W2 HN. destruct (dvt_build_shape _ _ _ _ _ _ _ _ E W1 W2 ltac:(lia)) as (S1 & S2 & S3 & S4).
  apply ct_get_past; rewrite ?S3, ?S4; try assumption; try lia.
Qed.
Theorem dvt_lookup_past {K} hb (h : K -> triple) t keys vs g : dvt_rep hb h t keys vs -> ct_get (dv_data t) (lenN keys) = UB ->
  mph_lookup (dv_h t) (h g) = Ok (lenN keys) /\ dvt_lookup_pair hb h t g = UB /\ dvt_lookup hb h t g = UB \/
  exists k x y, In (k, (x, y)) (combine keys vs) /\ mph_lookup (dv_h t) (h g) = mph_lookup (dv_h t) (h k) /\ mph_lookup (dv_h t) (h g) <> Ok (lenN keys) /\
    dvt_lookup_pair hb h t g = Ok (if mix hb (h k) =? mix hb (h g) then (x, y) else (not_found, not_found)) /\
    dvt_lookup hb h t g = Ok (if mix hb (h k) =? mix hb (h g) then x else not_found).
Proof.
  intros (HL & HN & HA & pos & PO & PP & G) PA. destruct (HA (h g)) as (p & Ep & Hp). destruct (N.eq_dec p (lenN keys)) as [->|NE].
  - left. split; [assumption|]. unfold dvt_lookup_pair, dvt_lookup. rewrite Ep. cbn [bind]. rewrite PA. auto.
  - right. destruct (slot_key pos keys vs (lenN keys) p PP HL ltac:(lia)) as (k & [x y] & HI & Ek). exists k, x, y. split; [assumption|].
    split; [rewrite (PO k) by (eapply in_combine_l; eauto); congruence|]. split; [congruence|].
    unfold dvt_lookup_pair, dvt_lookup. rewrite Ep. cbn [bind]. rewrite <- Ek, (G k x y HI). cbn [bind]. destruct (_ =? _); auto.
Qed.
