(** * Proofs for compact_elias_fano: reading one partition *)
From Verif Require Import Prelude BitFacts M_Word P_Word M_Bits Spec P_Bits P_Builder P_Cursor P_BitProg P_EF P_HashVec P_CompactVector
  M_CompactVector M_Codes Spec_Codes P_Codes M_FastEF M_Pef P_Pef1.
From Coq Require Import Sorting.Sorted.

(** the high part, kept folded for the arithmetic *)
Definition hp (l y : N) : N := y / 2 ^ l.
Lemma hp_mono l x y : x <= y -> hp l x <= hp l y.
Proof. intros. unfold hp. apply N.div_le_mono; [apply N.pow_nonzero; lia|assumption]. Qed.
Lemma hp_lt l x y : hp l x < hp l y -> x < y.
Proof. intros H. destruct (N.lt_ge_cases x y); [assumption|]. pose proof (hp_mono l y x ltac:(lia)). lia. Qed.

Lemma word56_ok v V n x pos lb : vrep v V n -> x < 2 ^ 64 -> lb <= 57 -> pos + lb <= n ->
  exists w, word56 v [x] pos = Ok w /\ N.land w (N.ones lb) = field V pos lb.
Proof.
  intros (H1 & H2 & H3 & H4 & H5) Hx Hl Hp. unfold word56, bv_get_word56. cbn [v_bits]. rewrite shr3, land7.
  assert (WS : words (v_bits v ++ [x])) by (apply Forall_app; split; [exact H1|constructor; [exact Hx|constructor]]).
  pose proof (words_for_ge n) as WG.
  rewrite load_u64_ok by (try exact WS; rewrite lenN_app, H2; change (lenN [x]) with 1; dlia). cbn [bind]. eexists. split; [reflexivity|].
  apply tb_eq. intros k. rewrite N.land_spec, tb_shr64, tb_ones, !tb_field.
  destruct (N.ltb_spec k lb); [|apply andb_false_r]. rewrite andb_true_r. cbn [andb].
  destruct (N.ltb_spec (k + pos mod 8) 64); [|exfalso; dlia]. cbn [andb].
  rewrite <- H3. replace (k + pos mod 8 + 8 * (pos / 8)) with (k + pos) by dlia.
  rewrite (wval_app (v_bits v) [x] H1 ltac:(constructor; [exact Hx|constructor])). rewrite N.lor_spec, tb_shl, H2.
  destruct (N.leb_spec (64 * words_for n) (k + pos)); [exfalso; lia|]. cbn [andb]. apply orb_false_r.
Qed.

(** the first index whose element satisfies a monotone predicate *)
Lemma split_first (f : N -> bool) vs : (forall x y, x <= y -> f x = true -> f y = true) -> sortedN vs ->
  exists c, c <= lenN vs /\ forall j y, nthN vs j = Some y -> f y = (c <=? j).
Proof.
  intros M. induction vs as [|v vs IH]; intros S.
  - exists 0. split; [lia|]. intros j y H. unfold nthN in H. destruct (N.to_nat j); discriminate.
  - destruct (f v) eqn:E.
    + exists 0. split; [lia|]. intros j y H. rewrite (M v y); [symmetry; apply N.leb_le; lia| |exact E]. apply (sortedN_le _ S 0 j); [lia|reflexivity|exact H].
    + destruct IH as (c & C1 & C2).
      { intros i x y Hx Hy. assert (G : forall k z, nthN vs k = Some z -> nthN (v :: vs) (k + 1) = Some z).
        { intros k z Hz. rewrite nthN_cons. destruct (N.eqb_spec (k + 1) 0); [lia|]. replace (k + 1 - 1) with k by lia. exact Hz. }
        apply (S (i + 1)); apply G; assumption. }
      exists (c + 1). split; [rewrite lenN_cons; lia|]. intros j y H. rewrite nthN_cons in H. destruct (N.eqb_spec j 0) as [->|].
      * injection H as <-. rewrite E. symmetry. apply N.leb_gt. lia.
      * rewrite (C2 _ _ H). destruct (N.leb_spec c (j - 1)); destruct (N.leb_spec (c + 1) j); (reflexivity || (exfalso; lia)).
Qed.

Lemma fpos_count F a b : lenN (fpos F a b) + lenN (fpos (fun i => negb (F i)) a b) = b - a.
Proof.
  unfold fpos. assert (G : forall l : list N, lenN (filter F l) + lenN (filter (fun i => negb (F i)) l) = lenN l).
  { induction l as [|x l IH]; [reflexivity|]. cbn [filter]. destruct (F x); cbn [negb]; rewrite !lenN_cons; lia. }
  rewrite G. unfold lenN. rewrite length_seqN. lia.
Qed.

Section Read.
Variable v : bv.
Variables l1 l2 : list bool.
Variable u : N.
Variable vs : list N.
Variable x0 : N.
Hypothesis R : vrepl v (l1 ++ cef_code u vs ++ l2).
Hypothesis Hn : 0 < lenN vs <= 128.
Hypothesis Hu : u < 2 ^ 57.
Hypothesis HS : sortedN vs.
Hypothesis HF : Forall (fun x => x < u) vs.
Hypothesis Hx0 : x0 < 2 ^ 64.
Hypothesis HT : lenN (l1 ++ cef_code u vs ++ l2) < 2 ^ 62.

Notation n := (lenN vs).
Notation lb := (clb u (lenN vs)).
Notation hl := (chl u (lenN vs)).
Notation B := (lenN l1).
Notation V := (num_of (l1 ++ cef_code u vs ++ l2)).
Notation NN := (lenN (l1 ++ cef_code u vs ++ l2)).
Notation O := (cof_of (lenN l1) u (lenN vs)).

Definition qpos (i y : N) : N := B + hp lb y + i + 1.

Lemma NN_eq : NN = B + hl + n * lb + lenN l2.
Proof. rewrite !lenN_app, lenN_cef_code. lia. Qed.
Lemma WF : 64 * words_for NN < 2 ^ 64.
Proof. unfold words_for. dlia. Qed.
Lemma hl_eq : hl = n + hp lb u + 2.
Proof. reflexivity. Qed.
Lemma lb_le : lb <= 56.
Proof. apply clb_bound; [lia|exact Hu]. Qed.
Lemma hpu : hp lb u <= 256.
Proof. pose proof (proj2 (clb_bound u n ltac:(lia) Hu)) as E. fold (hp lb u) in E. lia. Qed.
Lemma val_lt i y : nthN vs i = Some y -> y < u.
Proof. intros H. eapply Forall_forall in HF; [exact HF|eapply nthN_In; exact H]. Qed.
Lemma qpos_lt i y : nthN vs i = Some y -> qpos i y + 1 <= B + hl.
Proof. intros H. pose proof (val_lt _ _ H). pose proof (nthN_lt _ _ _ H). unfold qpos. rewrite hl_eq. pose proof (hp_mono lb y u ltac:(lia)). lia. Qed.

Lemma high_bits : fpos (N.testbit V) B (B + hl) = map (N.add B) (hpos lb 1 vs).
Proof.
  replace (fpos (N.testbit V) B (B + hl)) with (fpos (N.testbit V) (0 + B) (hl + B)) by (f_equal; lia).
  rewrite fpos_shift. f_equal. apply fpos_sorted.
  - apply hpos_incr. exact HS.
  - intros p Hp. apply In_nth_error in Hp. destruct Hp as (k & Hk).
    assert (E : nthN (hpos lb 1 vs) (N.of_nat k) = Some p) by (unfold nthN; rewrite Nat2N.id; exact Hk).
    rewrite nthN_hpos in E. destruct (nthN vs (N.of_nat k)) as [y|] eqn:Ey; [|discriminate]. cbn [option_map] in E. injection E as <-.
    pose proof (qpos_lt _ _ Ey) as Q. unfold qpos in Q. fold (hp lb y). lia.
  - intros i Hi. unfold cef_code. rewrite <- app_assoc, tb_num_of, bit_at_app. destruct (N.ltb_spec (B + i) B); [lia|].
    replace (B + i - B) with i by lia. rewrite bit_at_app, lenN_highs. destruct (N.ltb_spec i hl); [|lia].
    rewrite bit_highs. destruct (N.ltb_spec i hl); [|lia]. cbn [andb]. rewrite existsb_exists. split.
    + intros (z & Z1 & Z2). apply N.eqb_eq in Z2. subst. exact Z1.
    + intros Z. exists i. split; [exact Z|apply N.eqb_refl].
Qed.

Lemma nth_high i y : nthN vs i = Some y -> nthN (fpos (N.testbit V) B (B + hl)) i = Some (qpos i y).
Proof.
  intros H. rewrite high_bits, nthN_map, nthN_hpos, H. cbn [option_map]. f_equal. unfold qpos. fold (hp lb y). lia.
Qed.

(** [p] is a place from where the next one is that of element [i] *)
Definition before (p i : N) : Prop := B <= p <= B + hl /\ lenN (fpos (N.testbit V) B p) = i.

Lemma before_nth p i k y : before p i -> nthN vs (i + k) = Some y -> nthN (fpos (N.testbit V) p NN) k = Some (qpos (i + k) y).
Proof.
  intros (H1 & H2) Hy. pose proof (nth_high _ _ Hy) as E. rewrite (fpos_split _ B p (B + hl)) in E by lia.
  rewrite nthN_app2 in E by lia. rewrite H2 in E. replace (i + k - i) with k in E by lia.
  rewrite (fpos_split _ p (B + hl) NN) by (rewrite ?NN_eq; lia). rewrite nthN_app1 by (apply nthN_lt in E; exact E). exact E.
Qed.
Lemma before_start : before B 0.
Proof. split; [lia|]. rewrite fpos_empty by lia. reflexivity. Qed.
Lemma before_at i y : nthN vs i = Some y -> before (qpos i y) i.
Proof.
  intros H. pose proof (qpos_lt _ _ H). destruct (nthN_fpos _ _ _ _ _ (nth_high _ _ H)) as (Q1 & Q2 & Q3). split; [lia|exact Q3].
Qed.
Lemma before_after i y : nthN vs i = Some y -> before (qpos i y + 1) (i + 1).
Proof.
  intros H. pose proof (qpos_lt _ _ H). destruct (nthN_fpos _ _ _ _ _ (nth_high _ _ H)) as (Q1 & Q2 & Q3). split; [lia|].
  rewrite (fpos_split _ B (qpos i y)) by lia. rewrite lenN_app, Q3. f_equal.
  rewrite fpos_cons, Q2 by lia. rewrite fpos_empty by lia. reflexivity.
Qed.

(** the place of the zero that precedes the elements of high part at least [k] *)
Lemma zero_at k : k <= hp lb u -> exists c, c <= n /\ (forall j y, nthN vs j = Some y -> (k <=? hp lb y) = (c <=? j)) /\
  before (B + c + k) c /\ N.testbit V (B + c + k) = false.
Proof.
  intros Hk. destruct (split_first (fun y => k <=? hp lb y) vs) as (c & C1 & C2).
  { intros x y L E. apply N.leb_le in E. apply N.leb_le. pose proof (hp_mono lb x y L). lia. }
  { exact HS. }
  exists c. split; [exact C1|]. split; [exact C2|].
  assert (Q : B + c + k < B + hl) by (rewrite hl_eq; lia).
  assert (LT : forall j y, nthN vs j = Some y -> if c <=? j then B + c + k < qpos j y else qpos j y < B + c + k).
  { intros j y Hy. pose proof (C2 _ _ Hy) as E. unfold qpos. destruct (N.leb_spec c j); [apply N.leb_le in E|apply N.leb_gt in E]; lia. }
  split.
  - split; [lia|]. pose proof (fpos_split (N.testbit V) B (B + c + k) (B + hl) ltac:(lia) ltac:(lia)) as SP.
    assert (LN : lenN (fpos (N.testbit V) B (B + hl)) = n) by (rewrite high_bits, lenN_map, lenN_hpos; reflexivity).
    destruct (N.lt_trichotomy (lenN (fpos (N.testbit V) B (B + c + k))) c) as [L|[E|L]]; [exfalso|exact E|exfalso].
    + set (m := lenN (fpos (N.testbit V) B (B + c + k))) in *. destruct (nthN_Some vs m ltac:(lia)) as (y & Hy).
      pose proof (LT m y Hy) as X. destruct (N.leb_spec c m); [lia|]. pose proof (nth_high m y Hy) as E. rewrite SP, nthN_app2 in E by (unfold m; lia).
      apply nthN_In, In_fpos in E. lia.
    + destruct (N.lt_ge_cases c n) as [Lc|Lc].
      * destruct (nthN_Some vs c Lc) as (y & Hy). pose proof (LT c y Hy) as X. rewrite N.leb_refl in X. pose proof (nth_high c y Hy) as E.
        rewrite SP, nthN_app1 in E by lia. apply nthN_In, In_fpos in E. lia.
      * rewrite SP, lenN_app in LN. lia.
  - destruct (N.testbit V (B + c + k)) eqn:E; [exfalso|reflexivity].
    assert (I : In (B + c + k) (fpos (N.testbit V) B (B + hl))) by (apply In_fpos; split; [lia|exact E]).
    rewrite high_bits in I. apply In_nth_error in I. destruct I as (m & Hm).
    assert (Z : nthN (map (N.add B) (hpos lb 1 vs)) (N.of_nat m) = Some (B + c + k)) by (unfold nthN; rewrite Nat2N.id; exact Hm).
    rewrite nthN_map, nthN_hpos in Z. destruct (nthN vs (N.of_nat m)) as [y|] eqn:Ey; [|discriminate]. cbn [option_map] in Z. injection Z as Z. fold (hp lb y) in Z.
    pose proof (LT _ _ Ey) as X. unfold qpos in X. destruct (c <=? N.of_nat m); lia.
Qed.

(** ** the low bits and the value *)
Lemma low_ok i y : nthN vs i = Some y -> cen_low v [x0] O i = Ok (y mod 2 ^ lb).
Proof.
  intros H. unfold cen_low. cbn [of_lo of_lb of_mask cof_of]. pose proof lb_le. pose proof (nthN_lt _ _ _ H) as L.
  destruct (word56_ok v V NN x0 (B + hl + i * lb) lb R Hx0 ltac:(lia)) as (w & E & W). { rewrite NN_eq. nia. }
  rewrite E. cbn [bind]. rewrite W. f_equal. rewrite <- (lows_field lb vs i y H).
  unfold cef_code. rewrite <- app_assoc. apply tb_eq. intros k. rewrite !tb_field. destruct (N.ltb_spec k lb); [|reflexivity]. cbn [andb].
  rewrite !tb_num_of, bit_at_app. destruct (N.ltb_spec (k + (B + hl + i * lb)) B); [lia|].
  rewrite bit_at_app, lenN_highs. destruct (N.ltb_spec (k + (B + hl + i * lb) - B) hl); [lia|].
  rewrite bit_at_app, lenN_lows. replace (k + (B + hl + i * lb) - B - hl) with (k + i * lb) by lia.
  destruct (N.ltb_spec (k + i * lb) (n * lb)); [reflexivity|]. exfalso. nia.
Qed.

Lemma join_ok i y : nthN vs i = Some y -> cen_join O (qpos i y) i (y mod 2 ^ lb) = y.
Proof.
  intros H. unfold cen_join. cbn [of_ho of_lb cof_of]. pose proof (val_lt _ _ H). pose proof lb_le. pose proof NN_eq. pose proof (qpos_lt _ _ H) as Q.
  unfold qpos in *. rewrite (sub64_small _ B) by lia. rewrite (sub64_small _ i) by lia. rewrite (sub64_small _ 1) by lia.
  replace (B + hp lb y + i + 1 - B - i - 1) with (hp lb y) by lia. apply lor_join; lia.
Qed.

(** ** the enumerator *)
Definition cst (c : cen) (i : N) : Prop := ce_of c = O /\ ce_pos c = i /\
  ((exists it, nthN vs i = Some (ce_val c) /\ ce_hi c = Some it /\ uit_at v V it (qpos i (ce_val c) + 1) /\ u_pos it = qpos i (ce_val c)) \/
   (i = n /\ ce_val c = u)).

Lemma cen_new_ok : exists c, cen_new B u n = Ok c /\ cst c n.
Proof. unfold cen_new. rewrite cof_new_ok by assumption. cbn [bind]. eexists. split; [reflexivity|]. split; [reflexivity|]. split; [reflexivity|]. right. split; reflexivity. Qed.

(** reading the element that the cursor has in front of it *)
Lemma next_ok it p i y : uit_at v V it p -> before p i -> nthN vs i = Some y ->
  exists it', uit_next v it = Ok (qpos i y, it') /\ uit_at v V it' (qpos i y + 1) /\ u_pos it' = qpos i y.
Proof.
  intros U H Hy. apply (uit_next_ok v V NN it p (qpos i y) R WF U). replace i with (i + 0) by lia. apply before_nth; [exact H|]. rewrite N.add_0_r. exact Hy.
Qed.

Lemma nexts_ok k : forall it i y z, uit_at v V it (qpos i y + 1) -> nthN vs i = Some y -> nthN vs (i + 1 + N.of_nat k) = Some z ->
  exists it', uit_nexts (S k) v it = Ok it' /\ uit_at v V it' (qpos (i + 1 + N.of_nat k) z + 1) /\ u_pos it' = qpos (i + 1 + N.of_nat k) z.
Proof.
  induction k as [|k IH]; intros it i y z U Hy Hz.
  - replace (i + 1 + N.of_nat 0) with (i + 1) in * by lia. destruct (next_ok it _ _ z U (before_after _ _ Hy) Hz) as (it' & E & U' & P).
    exists it'. cbn [uit_nexts]. rewrite E. cbn [bind]. cbv beta iota. auto.
  - destruct (nthN_Some vs (i + 1)) as (y1 & Hy1); [apply nthN_lt in Hz; lia|].
    destruct (next_ok it _ _ y1 U (before_after _ _ Hy) Hy1) as (it1 & E1 & U1 & P1).
    replace (i + 1 + N.of_nat (S k)) with (i + 1 + 1 + N.of_nat k) in * by lia.
    destruct (IH it1 (i + 1) y1 z U1 Hy1 Hz) as (it' & E & U' & P). exists it'.
    change (uit_nexts (S (S k)) v it) with (' (_, i) <- uit_next v it ;; uit_nexts (S k) v i). rewrite E1. cbn [bind]. cbv beta iota. auto.
Qed.

Lemma cen_slow_move_ok c i p : cst c i -> p <= n -> exists c', cen_slow_move v [x0] c p = Ok c' /\ cst c' p.
Proof.
  intros (C1 & C2 & C3) Hp. unfold cen_slow_move. rewrite C1. cbn [of_n of_u cof_of of_p1o of_ho].
  destruct (N.eqb_spec p n) as [->|E].
  { eexists. split; [reflexivity|]. split; [reflexivity|]. split; [reflexivity|]. right. split; reflexivity. }
  destruct (nthN_Some vs p ltac:(lia)) as (y & Hy). rewrite C2. pose proof NN_eq as NE.
  assert (ST : exists it s q j, (if (i <? p) && (shr (sub64 p i) log_sampling1 =? 0) then he <- hi_of c ;; Ok (he, sub64 (sub64 p i) 1)
     else hp0 <- cen_pointer v [x0] O B (shr p log_sampling1) ;; he <- uit_new v (B + hp0) ;; Ok (he, sub64 p (shl (shr p log_sampling1) log_sampling1))) = Ok (it, s)
     /\ uit_at v V it q /\ before q j /\ j + s = p).
  { assert (Z : shr p log_sampling1 = 0) by (rewrite shr_div; unfold log_sampling1; apply N.div_small; change (2 ^ 8) with 256; lia).
    rewrite Z. change (shl 0 log_sampling1) with 0.
    destruct (N.ltb_spec i p) as [L|L]; cbn [andb].
    - rewrite sub64_small by lia. assert (Z2 : shr (p - i) log_sampling1 = 0) by (rewrite shr_div; unfold log_sampling1; apply N.div_small; change (2 ^ 8) with 256; lia).
      rewrite Z2. cbn [N.eqb]. destruct C3 as [(it & T1 & T2 & T3 & T4)|(T1 & _)]; [|lia]. unfold hi_of. rewrite T2. cbn [bind].
      exists it, (sub64 (p - i) 1), (qpos i (ce_val c) + 1), (i + 1). rewrite sub64_small by lia. split; [reflexivity|]. split; [exact T3|].
      split; [apply before_after; exact T1|lia].
    - unfold cen_pointer. cbn [N.eqb bind]. rewrite N.add_0_r.
      destruct (uit_new_ok v V NN B R) as (it & E1 & E2 & E3). { unfold words_for. rewrite NE. rewrite hl_eq. dlia. }
      rewrite E1. cbn [bind]. exists it, (sub64 p 0), B, 0. rewrite sub64_small by lia. split; [reflexivity|]. split; [exact E2|]. split; [apply before_start|lia]. }
  destruct ST as (it & s & q & j & E1 & U & BF & J). rewrite E1. cbn [bind]. cbv beta iota.
  destruct (uit_skip_ok v V NN it q s (qpos p y) R WF U) as (it2 & E2 & U2 & P2).
  { rewrite <- J. apply before_nth; [exact BF|]. rewrite J. exact Hy. }
  rewrite E2. cbn [bind]. destruct (next_ok it2 (qpos p y) p y U2 (before_at _ _ Hy) Hy) as (it3 & E3 & U3 & P3). rewrite E3. cbn [bind]. cbv beta iota.
  rewrite (low_ok p y Hy). cbn [bind]. rewrite join_ok by exact Hy. eexists. split; [reflexivity|]. split; [reflexivity|]. split; [reflexivity|].
  left. exists it3. cbn [ce_val ce_hi]. auto.
Qed.

Lemma cen_move_ok c i p : cst c i -> p <= n -> exists c', cen_move v [x0] c p = Ok c' /\ cst c' p.
Proof.
  intros C Hp. pose proof C as (C1 & C2 & C3). unfold cen_move. rewrite C2. destruct (N.eqb_spec p i) as [->|E].
  { exists c. split; [reflexivity|exact C]. }
  destruct (N.ltb_spec i p) as [L|L]; cbn [andb].
  2: { destruct (cen_slow_move_ok c i p C Hp) as (c' & E' & C'). exists c'. auto. }
  rewrite sub64_small by lia. destruct (N.leb_spec (p - i) pef_linear) as [L8|L8].
  2: { destruct (cen_slow_move_ok c i p C Hp) as (c' & E' & C'). exists c'. auto. }
  rewrite C1. cbn [of_n of_u cof_of]. destruct (N.eqb_spec p n) as [->|E'].
  { eexists. split; [reflexivity|]. split; [reflexivity|]. split; [reflexivity|]. right. split; reflexivity. }
  destruct C3 as [(it & T1 & T2 & T3 & T4)|(T1 & _)]; [|lia]. unfold hi_of. rewrite T2. cbn [bind].
  destruct (nthN_Some vs p ltac:(lia)) as (y & Hy).
  replace (N.to_nat (p - i)) with (S (N.to_nat (p - i - 1))) by lia.
  assert (PE : i + 1 + N.of_nat (N.to_nat (p - i - 1)) = p) by lia.
  destruct (nexts_ok (N.to_nat (p - i - 1)) it i (ce_val c) y T3 T1) as (it' & E2 & U2 & P2). { rewrite PE. exact Hy. }
  rewrite E2. cbn [bind]. rewrite PE in *. rewrite (low_ok p y Hy). cbn [bind]. rewrite P2, join_ok by exact Hy.
  eexists. split; [reflexivity|]. split; [reflexivity|]. split; [reflexivity|]. left. exists it'. cbn [ce_val ce_hi]. auto.
Qed.

Lemma cen_next_ok c i : cst c i -> i < n -> exists c', cen_next v [x0] c = Ok c' /\ cst c' (i + 1).
Proof.
  intros (C1 & C2 & C3) Hi. unfold cen_next. rewrite C1, C2. cbn [of_n of_u cof_of]. destruct C3 as [(it & T1 & T2 & T3 & T4)|(T1 & _)]; [|lia].
  destruct (N.ltb_spec (i + 1) n) as [L|L].
  - destruct (nthN_Some vs (i + 1) L) as (y & Hy). unfold hi_of. rewrite T2. cbn [bind].
    destruct (next_ok it _ _ y T3 (before_after _ _ T1) Hy) as (it' & E & U & P). rewrite E. cbn [bind]. cbv beta iota. rewrite (low_ok _ y Hy). cbn [bind].
    rewrite join_ok by exact Hy. eexists. split; [reflexivity|]. split; [reflexivity|]. split; [reflexivity|]. left. exists it'. cbn [ce_val ce_hi]. auto.
  - eexists. split; [reflexivity|]. split; [reflexivity|]. split; [reflexivity|]. right. cbn [ce_val]. split; [lia|reflexivity].
Qed.

(** ** next_geq *)
(** [j] is the first index whose element is at least [x] *)
Definition first_geq (x j : N) : Prop :=
  (exists y, nthN vs j = Some y /\ x <= y) /\ forall k z, k < j -> nthN vs k = Some z -> z < x.

Definition nrd_at (p i : N) (r : uit * N * N) : Prop :=
  let '(it, hb, lo) := r in uit_at v V it p /\ before p i /\ hb = B + i + 1 /\ lo = B + hl + i * lb.

Lemma nrd_next_ok p i r y : nrd_at p i r -> nthN vs i = Some y ->
  exists r', nrd_next v [x0] O r = Ok (y, r') /\ nrd_at (qpos i y + 1) (i + 1) r' /\ u_pos (fst (fst r')) = qpos i y.
Proof.
  destruct r as [[it hb] lo]. intros (U & BF & -> & ->) Hy. unfold nrd_next. destruct (next_ok it p i y U BF Hy) as (it' & E & U' & P).
  rewrite E. cbn [bind]. cbv beta iota. pose proof (low_ok i y Hy) as L. unfold cen_low in L. cbn [of_lo of_lb of_mask cof_of] in *.
  destruct (word56 v [x0] (B + hl + i * lb)) as [w| |]; cbn [bind] in *; try discriminate. injection L as L. rewrite L.
  pose proof (val_lt _ _ Hy). pose proof lb_le. pose proof NN_eq. pose proof (qpos_lt _ _ Hy) as Q.
  rewrite sub64_small by (unfold qpos in *; lia). replace (qpos i y - (B + i + 1)) with (hp lb y) by (unfold qpos; lia).
  unfold hp at 1. rewrite lor_join by lia. eexists. split; [reflexivity|]. cbn [fst]. split; [|exact P].
  unfold nrd_at. split; [exact U'|]. split; [apply before_after; exact Hy|]. split; lia.
Qed.

Lemma geq_linear_ok x (LST : exists y, nthN vs (n - 1) = Some y /\ x <= y) : forall fuel p i r,
  nrd_at p (i + 1) r -> i < n -> (forall k z, k <= i -> nthN vs k = Some z -> z < x) -> (N.to_nat (n - i) < fuel)%nat ->
  exists j y it, geq_linear fuel v [x0] O r i x = Ok (j, y, it) /\ first_geq x j /\ nthN vs j = Some y /\
    uit_at v V it (qpos j y + 1) /\ u_pos it = qpos j y.
Proof.
  induction fuel as [|fuel IH]; intros p i r Hr Hi Hb Hf; [lia|]. cbn [geq_linear of_n of_u cof_of].
  destruct (N.ltb_spec (i + 1) n) as [L|L].
  - destruct (nthN_Some vs (i + 1) L) as (y & Hy). destruct (nrd_next_ok p (i + 1) r y Hr Hy) as (r' & E & Hr' & P). rewrite E. cbn [bind]. cbv beta iota.
    destruct (N.ltb_spec y x) as [Lx|Lx].
    + apply (IH (qpos (i + 1) y + 1)); [exact Hr'|lia| |lia]. intros k z Hk Hz. destruct (N.eq_dec k (i + 1)) as [->|]; [congruence|apply (Hb k); [lia|exact Hz]].
    + destruct r' as [[it hb] lo]. destruct Hr' as (U & _). exists (i + 1), y, it. cbn [fst] in *. split; [reflexivity|]. split; [|auto].
      split; [exists y; auto|]. intros k z Hk Hz. apply (Hb k); [lia|exact Hz].
  - exfalso. destruct LST as (y & Hy & Ly). pose proof (Hb (n - 1) y ltac:(lia) Hy). lia.
Qed.

Lemma geq_scan_ok x (LST : exists y, nthN vs (n - 1) = Some y /\ x <= y) : forall fuel p i r,
  nrd_at p i r -> i <= n -> (forall k z, k < i -> nthN vs k = Some z -> z < x) -> (N.to_nat (n - i) < fuel)%nat ->
  exists j y it, geq_scan fuel v [x0] O r i x = Ok (j, y, it) /\ first_geq x j /\ nthN vs j = Some y /\
    uit_at v V it (qpos j y + 1) /\ u_pos it = qpos j y.
Proof.
  induction fuel as [|fuel IH]; intros p i r Hr Hi Hb Hf; [lia|]. cbn [geq_scan of_n of_u cof_of].
  destruct (N.eqb_spec i n) as [->|L].
  - exfalso. destruct LST as (y & Hy & Ly). pose proof (Hb (n - 1) y ltac:(lia) Hy). lia.
  - destruct (nthN_Some vs i ltac:(lia)) as (y & Hy). destruct (nrd_next_ok p i r y Hr Hy) as (r' & E & Hr' & P). rewrite E. cbn [bind]. cbv beta iota.
    destruct (N.leb_spec x y) as [Lx|Lx].
    + destruct r' as [[it hb] lo]. destruct Hr' as (U & _). exists i, y, it. cbn [fst] in *. split; [reflexivity|]. split; [|auto].
      split; [exists y; auto|]. exact Hb.
    + apply (IH (qpos i y + 1)); [exact Hr'|lia| |lia]. intros k z Hk Hz. destruct (N.eq_dec k i) as [->|]; [congruence|apply (Hb k); [lia|exact Hz]].
Qed.

Lemma cen_slow_next_geq_ok c i x : cst c i -> (ce_val c < x -> hp lb (ce_val c) < hp lb x) -> (exists y, nthN vs (n - 1) = Some y /\ x <= y) ->
  exists c' j, cen_slow_next_geq v [x0] c x = Ok c' /\ cst c' j /\ first_geq x j.
Proof.
  intros (C1 & C2 & C3) HD LST. pose proof LST as (yl & Hyl & Lyl). pose proof (val_lt _ _ Hyl) as Lu.
  unfold cen_slow_next_geq. rewrite C1. cbn [of_u of_lb of_n cof_of of_p0o of_ho]. destruct (N.leb_spec u x); [lia|].
  rewrite (shr_div x), (shr_div (ce_val c)). fold (hp lb x) (hp lb (ce_val c)). pose proof hpu as HU. pose proof NN_eq as NQ. pose proof hl_eq as HQ.
  assert (HX : hp lb x <= hp lb u) by (apply hp_mono; lia).
  destruct (zero_at (hp lb x) HX) as (m & M1 & M2 & (M3 & M4) & M5).
  assert (ST : exists it s, (if (ce_val c <? x) && (shr (sub64 (hp lb x) (hp lb (ce_val c))) log_sampling0 =? 0) then he <- hi_of c ;; Ok (he, sub64 (hp lb x) (hp lb (ce_val c)))
     else hp0 <- cen_pointer v [x0] O B (shr (hp lb x) log_sampling0) ;; he <- uit_new v (B + hp0) ;; Ok (he, sub64 (hp lb x) (shl (shr (hp lb x) log_sampling0) log_sampling0))) = Ok (it, s)
     /\ exists it', uit_skip0 v it s = Ok it' /\ u_pos it' = B + m + hp lb x /\ uit_at v V it' (B + m + hp lb x)).
  { assert (Z : shr (hp lb x) log_sampling0 = 0) by (rewrite shr_div; unfold log_sampling0; apply N.div_small; change (2 ^ 9) with 512; lia).
    rewrite Z. change (shl 0 log_sampling0) with 0.
    assert (QW : B + m + hp lb x < 64 * words_for NN) by (pose proof (words_for_ge NN); lia).
    destruct (N.ltb_spec (ce_val c) x) as [L|L]; cbn [andb].
    - destruct C3 as [(it & T1 & T2 & T3 & T4)|(T1 & T2)]; [|exfalso; lia].
      pose proof (hp_mono lb (ce_val c) x ltac:(lia)) as HM. rewrite sub64_small by lia.
      assert (Z2 : shr (hp lb x - hp lb (ce_val c)) log_sampling0 = 0) by (rewrite shr_div; unfold log_sampling0; apply N.div_small; change (2 ^ 9) with 512; lia).
      rewrite Z2. cbn [N.eqb]. unfold hi_of. rewrite T2. cbn [bind]. eexists. eexists. split; [reflexivity|].
      specialize (HD L). pose proof (M2 _ _ T1) as E. assert (EF : (hp lb x <=? hp lb (ce_val c)) = false) by (apply N.leb_gt; exact HD).
      rewrite EF in E. symmetry in E. apply N.leb_gt in E.
      destruct (before_after _ _ T1) as (BA1 & BA2).
      assert (PQ : qpos i (ce_val c) + 1 <= B + m + hp lb x) by (unfold qpos; lia).
      apply (uit_skip0_at v V NN it (qpos i (ce_val c) + 1) _ (B + m + hp lb x) R WF T3); [lia| |exact PQ].
      rewrite T4. set (F := fun k => negb ((qpos i (ce_val c) + 1 <=? k) && N.testbit V k)).
      assert (FE : F (B + m + hp lb x) = true) by (unfold F; rewrite M5, andb_false_r; reflexivity).
      rewrite <- (nthN_fpos_intro F (qpos i (ce_val c)) (64 * words_for NN) (B + m + hp lb x)) by (try exact FE; lia). f_equal.
      pose proof (fpos_count F (qpos i (ce_val c)) (B + m + hp lb x)) as SC.
      rewrite (fpos_split (fun k => negb (F k)) _ (qpos i (ce_val c) + 1)) in SC by lia.
      rewrite (fpos_none (fun k => negb (F k)) (qpos i (ce_val c))) in SC.
      2: { intros k Hk. unfold F. rewrite negb_involutive. destruct (N.leb_spec (qpos i (ce_val c) + 1) k); [lia|reflexivity]. }
      rewrite (fpos_ext (fun k => negb (F k)) (N.testbit V)) in SC.
      2: { intros k Hk. unfold F. rewrite negb_involutive. destruct (N.leb_spec (qpos i (ce_val c) + 1) k); [reflexivity|lia]. }
      rewrite (fpos_split _ B (qpos i (ce_val c) + 1)) in M4 by lia. rewrite lenN_app, BA2 in M4. cbn [app] in SC. unfold qpos in *. lia.
    - unfold cen_pointer. cbn [N.eqb bind]. rewrite N.add_0_r.
      destruct (uit_new_ok v V NN B R) as (it & E1 & E2 & E3). { unfold words_for. dlia. }
      rewrite E1. cbn [bind]. eexists. eexists. split; [reflexivity|]. rewrite sub64_small by lia. rewrite N.sub_0_r.
      apply (uit_skip0_at v V NN it B (hp lb x) (B + m + hp lb x) R WF E2); [lia| |lia].
      rewrite E3. set (F := fun i => negb ((B <=? i) && N.testbit V i)).
      assert (FE : F (B + m + hp lb x) = true) by (unfold F; rewrite M5, andb_false_r; reflexivity).
      rewrite <- (nthN_fpos_intro F B (64 * words_for NN) (B + m + hp lb x)) by (try exact FE; lia). f_equal.
      pose proof (fpos_count F B (B + m + hp lb x)) as SC.
      rewrite (fpos_ext (fun i => negb (F i)) (N.testbit V)) in SC.
      + rewrite M4 in SC. lia.
      + intros k Hk. unfold F. rewrite negb_involutive. destruct (N.leb_spec B k); [reflexivity|lia]. }
  destruct ST as (it & s & E1 & it' & E2 & P2 & U2). rewrite E1. cbn [bind]. cbv beta iota. rewrite E2. cbn [bind]. rewrite P2.
  rewrite (sub64_small _ B) by lia. rewrite (sub64_small _ (hp lb x)) by lia. replace (B + m + hp lb x - B - hp lb x) with m by lia.
  destruct (geq_scan_ok x LST (S (S (N.to_nat n))) (B + m + hp lb x) m (nrd_new O it' m)) as (j & y & it2 & E3 & FG & Hj & U3 & P3).
  - unfold nrd_new, nrd_at. cbn [of_ho of_lo of_lb cof_of]. split; [exact U2|]. split; [split; [lia|exact M4]|]. split; reflexivity.
  - exact M1.
  - intros k z Hk Hz. pose proof (M2 _ _ Hz) as E. destruct (N.leb_spec m k); [lia|]. apply N.leb_gt in E. apply (hp_lt lb); exact E.
  - lia.
  - rewrite E3. cbn [bind]. cbv beta iota. eexists. exists j. split; [reflexivity|]. split; [|exact FG].
    split; [reflexivity|]. split; [reflexivity|]. left. exists it2. cbn [ce_val ce_hi]. auto.
Qed.

Lemma cen_next_geq_ok c i x : cst c i -> (exists y, nthN vs (n - 1) = Some y /\ x <= y) ->
  exists c' j, cen_next_geq v [x0] c x = Ok c' /\ cst c' j /\ (x = ce_val c -> j = i /\ i < n) /\ (x <> ce_val c -> first_geq x j).
Proof.
  intros C LST. pose proof C as (C1 & C2 & C3). pose proof LST as (yl & Hyl & Lyl). pose proof (val_lt _ _ Hyl) as Lu. unfold cen_next_geq.
  destruct (N.eqb_spec x (ce_val c)) as [E|E].
  { exists c, i. split; [reflexivity|]. split; [exact C|]. split; [|intros D; contradiction]. intros _. split; [reflexivity|].
    destruct C3 as [(it & T1 & _)|(T1 & T2)]; [apply nthN_lt in T1; exact T1|exfalso; lia]. }
  rewrite C1. cbn [of_lb of_n cof_of]. rewrite !shr_div. fold (hp lb x) (hp lb (ce_val c)).
  assert (G : forall c' j, cst c' j /\ first_geq x j -> cst c' j /\ (x = ce_val c -> j = i /\ i < n) /\ (x <> ce_val c -> first_geq x j)).
  { intros c' j (G1 & G2). split; [exact G1|]. split; [intros; contradiction|intros _; exact G2]. }
  destruct ((ce_val c <? x) && (sub64 (hp lb x) (hp lb (ce_val c)) <=? pef_linear)) eqn:T.
  - apply andb_true_iff in T. destruct T as [T _]. apply N.ltb_lt in T.
    destruct C3 as [(it & T1 & T2 & T3 & T4)|(T1 & T2)]; [|exfalso; lia]. unfold hi_of. rewrite T2. cbn [bind]. rewrite C2.
    pose proof (nthN_lt _ _ _ T1) as Li.
    destruct (geq_linear_ok x LST (S (S (N.to_nat n))) (qpos i (ce_val c) + 1) i (nrd_new O it (i + 1))) as (j & y & it2 & E3 & FG & Hj & U3 & P3).
    + unfold nrd_new, nrd_at. cbn [of_ho of_lo of_lb cof_of]. split; [exact T3|]. split; [apply before_after; exact T1|]. split; lia.
    + exact Li.
    + intros k z Hk Hz. pose proof (sortedN_le vs HS k i z (ce_val c) Hk Hz T1). lia.
    + lia.
    + rewrite E3. cbn [bind]. cbv beta iota. eexists. exists j. split; [reflexivity|]. apply G. split; [|exact FG].
      split; [reflexivity|]. split; [reflexivity|]. left. exists it2. cbn [ce_val ce_hi]. auto.
  - destruct (cen_slow_next_geq_ok c i x C) as (c' & j & E' & CC).
    + intros L. apply andb_false_iff in T. destruct T as [T|T]; [apply N.ltb_ge in T; lia|]. apply N.leb_gt in T. unfold pef_linear in T.
      pose proof hpu. pose proof (hp_mono lb x u ltac:(lia)). pose proof (hp_mono lb (ce_val c) x ltac:(lia)). rewrite sub64_small in T by lia. lia.
    + exact LST.
    + exists c', j. split; [exact E'|]. apply G. exact CC.
Qed.
End Read.
