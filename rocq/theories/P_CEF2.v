(** * Proofs for compact_elias_fano: reading any number of values, with the sampled pointers *)
From Verif Require Import Prelude BitFacts M_Word P_Word M_Bits Spec P_Bits P_Builder P_Cursor P_BitProg P_EF P_HashVec P_CompactVector
  M_CompactVector M_Codes Spec_Codes P_Codes M_FastEF M_Pef M_CEF P_Pef1.
From Verif Require P_Pef2.
Notation hp := P_Pef2.hp. Notation hp_mono := P_Pef2.hp_mono. Notation hp_lt := P_Pef2.hp_lt. Notation word56_ok := P_Pef2.word56_ok.
Notation split_first := P_Pef2.split_first. Notation fpos_count := P_Pef2.fpos_count.

Section Read.
Variable v : bv.
Variables l1 l2 : list bool.
Variable u : N.
Variable vs : list N.
Variable x0 : N.
Hypothesis R : vrepl v (l1 ++ cef_code u vs ++ l2).
Hypothesis Hn : 0 < lenN vs < 2 ^ 40.
Hypothesis Hu : u < 2 ^ 57.
Hypothesis HS : sortedN vs.
Hypothesis HF : Forall (fun x => x < u) vs.
Hypothesis Hx0 : x0 < 2 ^ 64.
Hypothesis HT : lenN (l1 ++ cef_code u vs ++ l2) < 2 ^ 62.

Notation n := (lenN vs).
Notation lb := (clb u (lenN vs)).
Notation hl := (chl u (lenN vs)).
Notation B := (lenN l1).
Notation V := (num_of (l1 ++ cef_code u vs ++ l2)).
Notation NN := (lenN (l1 ++ cef_code u vs ++ l2)).
(** the offsets: only what is read matters *)
Variable O : cof.
Hypothesis On : of_n O = n.
Hypothesis Ou : of_u O = u.
Hypothesis Olb : of_lb O = lb.
Hypothesis Omask : of_mask O = N.ones lb.
Hypothesis Oho : of_ho O = B.
Hypothesis Olo : of_lo O = B + hl.

Definition qpos (i y : N) : N := B + hp lb y + i + 1.

Lemma NN_eq : NN = B + hl + n * lb + lenN l2.
Proof. rewrite !lenN_app, lenN_cef_code. lia. Qed.
Lemma WF : 64 * words_for NN < 2 ^ 64.
Proof. unfold words_for. dlia. Qed.
Lemma hl_eq : hl = n + hp lb u + 2.
Proof. reflexivity. Qed.
Lemma lb_le : lb <= 56.
Proof. apply clb_bound; [lia|exact Hu]. Qed.
Lemma hpu : hp lb u < 2 ^ 41.
Proof. pose proof (proj2 (clb_bound u n ltac:(lia) Hu)) as E. fold (hp lb u) in E. change (2 ^ 41) with (2 * 2 ^ 40). lia. Qed.
Lemma val_lt i y : nthN vs i = Some y -> y < u.
Proof. intros H. eapply Forall_forall in HF; [exact HF|eapply nthN_In; exact H]. Qed.
Lemma qpos_lt i y : nthN vs i = Some y -> qpos i y + 1 <= B + hl.
Proof. intros H. pose proof (val_lt _ _ H). pose proof (nthN_lt _ _ _ H). unfold qpos. rewrite hl_eq. pose proof (hp_mono lb y u ltac:(lia)). lia. Qed.

Lemma high_bits : fpos (N.testbit V) B (B + hl) = map (N.add B) (hpos lb 1 vs).
Proof.
  replace (fpos (N.testbit V) B (B + hl)) with (fpos (N.testbit V) (0 + B) (hl + B)) by (f_equal; lia).
  rewrite fpos_shift. f_equal. apply fpos_sorted.
  - apply hpos_incr. exact HS.
  - intros p Hp. apply In_nth_error in Hp. destruct Hp as (k & Hk).
    assert (E : nthN (hpos lb 1 vs) (N.of_nat k) = Some p) by (unfold nthN; rewrite Nat2N.id; exact Hk).
    rewrite nthN_hpos in E. destruct (nthN vs (N.of_nat k)) as [y|] eqn:Ey; [|discriminate]. cbn [option_map] in E. injection E as <-.
    pose proof (qpos_lt _ _ Ey) as Q. unfold qpos in Q. fold (hp lb y). lia.
  - intros i Hi. unfold cef_code. rewrite <- app_assoc, tb_num_of, bit_at_app. destruct (N.ltb_spec (B + i) B); [lia|].
    replace (B + i - B) with i by lia. rewrite bit_at_app, lenN_highs. destruct (N.ltb_spec i hl); [|lia].
    rewrite bit_highs. destruct (N.ltb_spec i hl); [|lia]. cbn [andb]. rewrite existsb_exists. split.
    + intros (z & Z1 & Z2). apply N.eqb_eq in Z2. subst. exact Z1.
    + intros Z. exists i. split; [exact Z|apply N.eqb_refl].
Qed.

Lemma nth_high i y : nthN vs i = Some y -> nthN (fpos (N.testbit V) B (B + hl)) i = Some (qpos i y).
Proof.
  intros H. rewrite high_bits, nthN_map, nthN_hpos, H. cbn [option_map]. f_equal. unfold qpos. fold (hp lb y). lia.
Qed.

(** [p] is a place from where the next one is that of element [i] *)
Definition before (p i : N) : Prop := B <= p <= B + hl /\ lenN (fpos (N.testbit V) B p) = i.

Lemma before_nth p i k y : before p i -> nthN vs (i + k) = Some y -> nthN (fpos (N.testbit V) p NN) k = Some (qpos (i + k) y).
Proof.
  intros (H1 & H2) Hy. pose proof (nth_high _ _ Hy) as E. rewrite (fpos_split _ B p (B + hl)) in E by lia.
  rewrite nthN_app2 in E by lia. rewrite H2 in E. replace (i + k - i) with k in E by lia.
  rewrite (fpos_split _ p (B + hl) NN) by (rewrite ?NN_eq; lia). rewrite nthN_app1 by (apply nthN_lt in E; exact E). exact E.
Qed.
Lemma before_start : before B 0.
Proof. split; [lia|]. rewrite fpos_empty by lia. reflexivity. Qed.
Lemma before_at i y : nthN vs i = Some y -> before (qpos i y) i.
Proof.
  intros H. pose proof (qpos_lt _ _ H). destruct (nthN_fpos _ _ _ _ _ (nth_high _ _ H)) as (Q1 & Q2 & Q3). split; [lia|exact Q3].
Qed.
Lemma before_after i y : nthN vs i = Some y -> before (qpos i y + 1) (i + 1).
Proof.
  intros H. pose proof (qpos_lt _ _ H). destruct (nthN_fpos _ _ _ _ _ (nth_high _ _ H)) as (Q1 & Q2 & Q3). split; [lia|].
  rewrite (fpos_split _ B (qpos i y)) by lia. rewrite lenN_app, Q3. f_equal.
  rewrite fpos_cons, Q2 by lia. rewrite fpos_empty by lia. reflexivity.
Qed.

(** the place of the zero that precedes the elements of high part at least [k] *)
Lemma zero_at k : k <= hp lb u -> exists c, c <= n /\ (forall j y, nthN vs j = Some y -> (k <=? hp lb y) = (c <=? j)) /\
  before (B + c + k) c /\ N.testbit V (B + c + k) = false.
Proof.
  intros Hk. destruct (split_first (fun y => k <=? hp lb y) vs) as (c & C1 & C2).
  { intros x y L E. apply N.leb_le in E. apply N.leb_le. pose proof (hp_mono lb x y L). lia. }
  { exact HS. }
  exists c. split; [exact C1|]. split; [exact C2|].
  assert (Q : B + c + k < B + hl) by (rewrite hl_eq; lia).
  assert (LT : forall j y, nthN vs j = Some y -> if c <=? j then B + c + k < qpos j y else qpos j y < B + c + k).
  { intros j y Hy. pose proof (C2 _ _ Hy) as E. unfold qpos. destruct (N.leb_spec c j); [apply N.leb_le in E|apply N.leb_gt in E]; lia. }
  split.
  - split; [lia|]. pose proof (fpos_split (N.testbit V) B (B + c + k) (B + hl) ltac:(lia) ltac:(lia)) as SP.
    assert (LN : lenN (fpos (N.testbit V) B (B + hl)) = n) by (rewrite high_bits, lenN_map, lenN_hpos; reflexivity).
    destruct (N.lt_trichotomy (lenN (fpos (N.testbit V) B (B + c + k))) c) as [L|[E|L]]; [exfalso|exact E|exfalso].
    + set (m := lenN (fpos (N.testbit V) B (B + c + k))) in *. destruct (nthN_Some vs m ltac:(lia)) as (y & Hy).
      pose proof (LT m y Hy) as X. destruct (N.leb_spec c m); [lia|]. pose proof (nth_high m y Hy) as E. rewrite SP, nthN_app2 in E by (unfold m; lia).
      apply nthN_In, In_fpos in E. lia.
    + destruct (N.lt_ge_cases c n) as [Lc|Lc].
      * destruct (nthN_Some vs c Lc) as (y & Hy). pose proof (LT c y Hy) as X. rewrite N.leb_refl in X. pose proof (nth_high c y Hy) as E.
        rewrite SP, nthN_app1 in E by lia. apply nthN_In, In_fpos in E. lia.
      * rewrite SP, lenN_app in LN. lia.
  - destruct (N.testbit V (B + c + k)) eqn:E; [exfalso|reflexivity].
    assert (I : In (B + c + k) (fpos (N.testbit V) B (B + hl))) by (apply In_fpos; split; [lia|exact E]).
    rewrite high_bits in I. apply In_nth_error in I. destruct I as (m & Hm).
    assert (Z : nthN (map (N.add B) (hpos lb 1 vs)) (N.of_nat m) = Some (B + c + k)) by (unfold nthN; rewrite Nat2N.id; exact Hm).
    rewrite nthN_map, nthN_hpos in Z. destruct (nthN vs (N.of_nat m)) as [y|] eqn:Ey; [|discriminate]. cbn [option_map] in Z. injection Z as Z. fold (hp lb y) in Z.
    pose proof (LT _ _ Ey) as X. unfold qpos in X. destruct (c <=? N.of_nat m); lia.
Qed.

(** ** the low bits and the value *)
Lemma low_ok i y : nthN vs i = Some y -> cen_low v [x0] O i = Ok (y mod 2 ^ lb).
Proof.
  intros H. unfold cen_low. rewrite ?Olo, ?Olb, ?Omask. pose proof lb_le. pose proof (nthN_lt _ _ _ H) as L.
  destruct (word56_ok v V NN x0 (B + hl + i * lb) lb R Hx0 ltac:(lia)) as (w & E & W). { rewrite NN_eq. nia. }
  rewrite E. cbn [bind]. rewrite W. f_equal. rewrite <- (lows_field lb vs i y H).
  unfold cef_code. rewrite <- app_assoc. apply tb_eq. intros k. rewrite !tb_field. destruct (N.ltb_spec k lb); [|reflexivity]. cbn [andb].
  rewrite !tb_num_of, bit_at_app. destruct (N.ltb_spec (k + (B + hl + i * lb)) B); [lia|].
  rewrite bit_at_app, lenN_highs. destruct (N.ltb_spec (k + (B + hl + i * lb) - B) hl); [lia|].
  rewrite bit_at_app, lenN_lows. replace (k + (B + hl + i * lb) - B - hl) with (k + i * lb) by lia.
  destruct (N.ltb_spec (k + i * lb) (n * lb)); [reflexivity|]. exfalso. nia.
Qed.

Lemma join_ok i y : nthN vs i = Some y -> cen_join O (qpos i y) i (y mod 2 ^ lb) = y.
Proof.
  intros H. unfold cen_join. rewrite ?Oho, ?Olb. pose proof (val_lt _ _ H). pose proof lb_le. pose proof NN_eq. pose proof (qpos_lt _ _ H) as Q.
  unfold qpos in *. rewrite (sub64_small _ B) by lia. rewrite (sub64_small _ i) by lia. rewrite (sub64_small _ 1) by lia.
  replace (B + hp lb y + i + 1 - B - i - 1) with (hp lb y) by lia. apply lor_join; lia.
Qed.

(** ** the enumerator *)
Definition cst (c : cen) (i : N) : Prop := ce_of c = O /\ ce_pos c = i /\
  ((exists it, nthN vs i = Some (ce_val c) /\ ce_hi c = Some it /\ uit_at v V it (qpos i (ce_val c) + 1) /\ u_pos it = qpos i (ce_val c)) \/
   (i = n /\ ce_val c = u)).

(** reading the element that the cursor has in front of it *)
Lemma next_ok it p i y : uit_at v V it p -> before p i -> nthN vs i = Some y ->
  exists it', uit_next v it = Ok (qpos i y, it') /\ uit_at v V it' (qpos i y + 1) /\ u_pos it' = qpos i y.
Proof.
  intros U H Hy. apply (uit_next_ok v V NN it p (qpos i y) R WF U). replace i with (i + 0) by lia. apply before_nth; [exact H|]. rewrite N.add_0_r. exact Hy.
Qed.

Lemma nexts_ok k : forall it i y z, uit_at v V it (qpos i y + 1) -> nthN vs i = Some y -> nthN vs (i + 1 + N.of_nat k) = Some z ->
  exists it', uit_nexts (S k) v it = Ok it' /\ uit_at v V it' (qpos (i + 1 + N.of_nat k) z + 1) /\ u_pos it' = qpos (i + 1 + N.of_nat k) z.
Proof.
  induction k as [|k IH]; intros it i y z U Hy Hz.
  - replace (i + 1 + N.of_nat 0) with (i + 1) in * by lia. destruct (next_ok it _ _ z U (before_after _ _ Hy) Hz) as (it' & E & U' & P).
    exists it'. cbn [uit_nexts]. rewrite E. cbn [bind]. cbv beta iota. auto.
  - destruct (nthN_Some vs (i + 1)) as (y1 & Hy1); [apply nthN_lt in Hz; lia|].
    destruct (next_ok it _ _ y1 U (before_after _ _ Hy) Hy1) as (it1 & E1 & U1 & P1).
    replace (i + 1 + N.of_nat (S k)) with (i + 1 + 1 + N.of_nat k) in * by lia.
    destruct (IH it1 (i + 1) y1 z U1 Hy1 Hz) as (it' & E & U' & P). exists it'.
    change (uit_nexts (S (S k)) v it) with (' (_, i) <- uit_next v it ;; uit_nexts (S k) v i). rewrite E1. cbn [bind]. cbv beta iota. auto.
Qed.

(** what the sampled pointers hold *)
Hypothesis HP1 : forall k y, k <> 0 -> nthN vs (256 * k) = Some y -> cen_pointer v [x0] O (of_p1o O) k = Ok (hp lb y + 256 * k + 1).
Hypothesis HP0 : forall k c, k <> 0 -> 512 * k <= hp lb u -> c <= n -> (forall j y, nthN vs j = Some y -> (512 * k <=? hp lb y) = (c <=? j)) ->
  cen_pointer v [x0] O (of_p0o O) k = Ok (c + 512 * k).

Lemma n_lt : n < 2 ^ 40.
Proof. lia. Qed.
Lemma ones_pointer p : p < n -> exists q, cen_pointer v [x0] O (of_p1o O) (p / 256) = Ok q /\ before (B + q) (256 * (p / 256)).
Proof.
  intros Hp. destruct (N.eq_dec (p / 256) 0) as [E|E].
  - rewrite E. exists 0. split; [reflexivity|]. rewrite N.add_0_r. apply before_start.
  - pose proof (N.div_mod p 256 ltac:(lia)). destruct (nthN_Some vs (256 * (p / 256)) ltac:(lia)) as (y & Hy). exists (hp lb y + 256 * (p / 256) + 1). split; [apply HP1; assumption|].
    replace (B + (hp lb y + 256 * (p / 256) + 1)) with (qpos (256 * (p / 256)) y) by (unfold qpos; lia). apply before_at. exact Hy.
Qed.
Lemma zeros_pointer k : k <= hp lb u -> exists c, cen_pointer v [x0] O (of_p0o O) (k / 512) = Ok (c + 512 * (k / 512)) /\ c <= n /\
  (forall j y, nthN vs j = Some y -> (512 * (k / 512) <=? hp lb y) = (c <=? j)) /\ before (B + c + 512 * (k / 512)) c.
Proof.
  intros Hk. pose proof (N.div_mod k 512 ltac:(lia)) as DM. destruct (zero_at (512 * (k / 512)) ltac:(lia)) as (c & C1 & C2 & C3 & _).
  exists c. split; [|split; [exact C1|split; [exact C2|exact C3]]]. destruct (N.eq_dec (k / 512) 0) as [E|E]; [|apply HP0; [exact E|lia|exact C1|exact C2]].
  rewrite E in *. assert (c = 0).
  { destruct (nthN_Some vs 0 ltac:(lia)) as (y & Hy). pose proof (C2 0 y Hy) as T. rewrite N.mul_0_r in T. destruct (N.leb_spec 0 (hp lb y)); [|lia]. symmetry in T. apply N.leb_le in T. lia. }
  subst c. reflexivity.
Qed.
Lemma shl256 k : k < 2 ^ 50 -> shl k log_sampling1 = 256 * k.
Proof. intros H. unfold shl, log_sampling1. rewrite N.shiftl_mul_pow2. change (2 ^ 8) with 256. rewrite w64_small; [lia|]. change (2 ^ 64) with (2 ^ 50 * 16384). lia. Qed.
Lemma shl512' k : k < 2 ^ 50 -> shl k log_sampling0 = 512 * k.
Proof. intros H. unfold shl, log_sampling0. rewrite N.shiftl_mul_pow2. change (2 ^ 9) with 512. rewrite w64_small; [lia|]. change (2 ^ 64) with (2 ^ 50 * 16384). lia. Qed.

Lemma cen_slow_move_ok c i p : cst c i -> p <= n -> exists c', cen_slow_move v [x0] c p = Ok c' /\ cst c' p.
Proof.
  intros (C1 & C2 & C3) Hp. unfold cen_slow_move. rewrite C1. rewrite On, Ou, Oho.
  destruct (N.eqb_spec p n) as [->|E].
  { eexists. split; [reflexivity|]. split; [reflexivity|]. split; [reflexivity|]. right. split; reflexivity. }
  destruct (nthN_Some vs p ltac:(lia)) as (y & Hy). rewrite C2. pose proof NN_eq as NE.
  pose proof n_lt as NL. change (2 ^ 40) with 1099511627776 in NL.
  assert (ST : exists it s q j, (if (i <? p) && (shr (sub64 p i) log_sampling1 =? 0) then he <- hi_of c ;; Ok (he, sub64 (sub64 p i) 1)
     else hp0 <- cen_pointer v [x0] O (of_p1o O) (shr p log_sampling1) ;; he <- uit_new v (B + hp0) ;; Ok (he, sub64 p (shl (shr p log_sampling1) log_sampling1))) = Ok (it, s)
     /\ uit_at v V it q /\ before q j /\ j + s = p).
  { destruct ((i <? p) && (shr (sub64 p i) log_sampling1 =? 0)) eqn:TT.
    - apply andb_true_iff in TT. destruct TT as [L _]. apply N.ltb_lt in L. rewrite (sub64_small p i) by (change (2 ^ 64) with 18446744073709551616; lia).
      destruct C3 as [(it & T1 & T2 & T3 & T4)|(T1 & _)]; [|lia]. unfold hi_of. rewrite T2. cbn [bind].
      exists it, (sub64 (p - i) 1), (qpos i (ce_val c) + 1), (i + 1). rewrite sub64_small by (change (2 ^ 64) with 18446744073709551616; lia). split; [reflexivity|]. split; [exact T3|].
      split; [apply before_after; exact T1|lia].
    - rewrite shr_div. change (2 ^ log_sampling1) with 256. destruct (ones_pointer p ltac:(lia)) as (q & E1 & BF). rewrite E1. cbn [bind].
      pose proof (N.div_mod p 256 ltac:(lia)) as DM. rewrite shl256 by (change (2 ^ 50) with 1125899906842624; lia).
      destruct (uit_new_ok v V NN (B + q) R) as (it & E2 & E3 & E4). { destruct (nthN_Some vs (256 * (p / 256)) ltac:(lia)) as (y' & Hy'). pose proof (before_nth _ _ 0 y' BF) as T. rewrite N.add_0_r in T. specialize (T Hy'). apply nthN_In, In_fpos in T. pose proof (words_for_ge NN). lia. }
      rewrite E2. cbn [bind]. exists it, (sub64 p (256 * (p / 256))), (B + q), (256 * (p / 256)). rewrite sub64_small by lia. split; [reflexivity|]. split; [exact E3|]. split; [exact BF|lia]. }
  destruct ST as (it & s & q & j & E1 & U & BF & J). rewrite E1. cbn [bind]. cbv beta iota.
  destruct (uit_skip_ok v V NN it q s (qpos p y) R WF U) as (it2 & E2 & U2 & P2).
  { rewrite <- J. apply before_nth; [exact BF|]. rewrite J. exact Hy. }
  rewrite E2. cbn [bind]. destruct (next_ok it2 (qpos p y) p y U2 (before_at _ _ Hy) Hy) as (it3 & E3 & U3 & P3). rewrite E3. cbn [bind]. cbv beta iota.
  rewrite (low_ok p y Hy). cbn [bind]. rewrite join_ok by exact Hy. eexists. split; [reflexivity|]. split; [reflexivity|]. split; [reflexivity|].
  left. exists it3. cbn [ce_val ce_hi]. auto.
Qed.

Lemma cen_move_ok c i p : cst c i -> p <= n -> exists c', cen_move v [x0] c p = Ok c' /\ cst c' p.
Proof.
  intros C Hp. pose proof C as (C1 & C2 & C3). unfold cen_move. rewrite C2. destruct (N.eqb_spec p i) as [->|E].
  { exists c. split; [reflexivity|exact C]. }
  destruct (N.ltb_spec i p) as [L|L]; cbn [andb].
  2: { destruct (cen_slow_move_ok c i p C Hp) as (c' & E' & C'). exists c'. auto. }
  rewrite sub64_small by lia. destruct (N.leb_spec (p - i) pef_linear) as [L8|L8].
  2: { destruct (cen_slow_move_ok c i p C Hp) as (c' & E' & C'). exists c'. auto. }
  rewrite C1. rewrite ?On, ?Ou. destruct (N.eqb_spec p n) as [->|E'].
  { eexists. split; [reflexivity|]. split; [reflexivity|]. split; [reflexivity|]. right. split; reflexivity. }
  destruct C3 as [(it & T1 & T2 & T3 & T4)|(T1 & _)]; [|lia]. unfold hi_of. rewrite T2. cbn [bind].
  destruct (nthN_Some vs p ltac:(lia)) as (y & Hy).
  replace (N.to_nat (p - i)) with (S (N.to_nat (p - i - 1))) by lia.
  assert (PE : i + 1 + N.of_nat (N.to_nat (p - i - 1)) = p) by lia.
  destruct (nexts_ok (N.to_nat (p - i - 1)) it i (ce_val c) y T3 T1) as (it' & E2 & U2 & P2). { rewrite PE. exact Hy. }
  rewrite E2. cbn [bind]. rewrite PE in *. rewrite (low_ok p y Hy). cbn [bind]. rewrite P2, join_ok by exact Hy.
  eexists. split; [reflexivity|]. split; [reflexivity|]. split; [reflexivity|]. left. exists it'. cbn [ce_val ce_hi]. auto.
Qed.

Lemma cen_next_ok c i : cst c i -> i < n -> exists c', cen_next v [x0] c = Ok c' /\ cst c' (i + 1).
Proof.
  intros (C1 & C2 & C3) Hi. unfold cen_next. rewrite C1, C2. rewrite ?On, ?Ou. destruct C3 as [(it & T1 & T2 & T3 & T4)|(T1 & _)]; [|lia].
  destruct (N.ltb_spec (i + 1) n) as [L|L].
  - destruct (nthN_Some vs (i + 1) L) as (y & Hy). unfold hi_of. rewrite T2. cbn [bind].
    destruct (next_ok it _ _ y T3 (before_after _ _ T1) Hy) as (it' & E & U & P). rewrite E. cbn [bind]. cbv beta iota. rewrite (low_ok _ y Hy). cbn [bind].
    rewrite join_ok by exact Hy. eexists. split; [reflexivity|]. split; [reflexivity|]. split; [reflexivity|]. left. exists it'. cbn [ce_val ce_hi]. auto.
  - eexists. split; [reflexivity|]. split; [reflexivity|]. split; [reflexivity|]. right. cbn [ce_val]. split; [lia|reflexivity].
Qed.

(** ** next_geq *)
(** [j] is the first index whose element is at least [x] *)
Definition geq_at (x j : N) : Prop := j <= n /\ forall k z, nthN vs k = Some z -> (x <=? z) = (j <=? k).
Lemma geq_at_intro x j : j <= n -> (forall z, nthN vs j = Some z -> x <= z) -> (forall k z, k < j -> nthN vs k = Some z -> z < x) -> geq_at x j.
Proof.
  intros H1 H2 H3. split; [exact H1|]. intros k z Hz. destruct (N.leb_spec j k) as [L|L].
  - destruct (nthN_Some vs j) as (y & Hy); [apply nthN_lt in Hz; lia|]. pose proof (H2 y Hy). pose proof (sortedN_le vs HS j k y z L Hy Hz). apply N.leb_le. lia.
  - apply N.leb_gt. exact (H3 k z L Hz).
Qed.

Definition nrd_at (p i : N) (r : uit * N * N) : Prop :=
  let '(it, hb, lo) := r in uit_at v V it p /\ before p i /\ hb = B + i + 1 /\ lo = B + hl + i * lb.

Lemma nrd_next_ok p i r y : nrd_at p i r -> nthN vs i = Some y ->
  exists r', nrd_next v [x0] O r = Ok (y, r') /\ nrd_at (qpos i y + 1) (i + 1) r' /\ u_pos (fst (fst r')) = qpos i y.
Proof.
  destruct r as [[it hb] lo]. intros (U & BF & -> & ->) Hy. unfold nrd_next. destruct (next_ok it p i y U BF Hy) as (it' & E & U' & P).
  rewrite E. cbn [bind]. cbv beta iota. pose proof (low_ok i y Hy) as L. unfold cen_low in L. rewrite Olo, Olb, Omask in L. rewrite Olb, Omask.
  destruct (word56 v [x0] (B + hl + i * lb)) as [w| |]; cbn [bind] in *; try discriminate. injection L as L. rewrite L.
  pose proof (val_lt _ _ Hy). pose proof lb_le. pose proof NN_eq. pose proof (qpos_lt _ _ Hy) as Q.
  rewrite sub64_small by (unfold qpos in *; lia). replace (qpos i y - (B + i + 1)) with (hp lb y) by (unfold qpos; lia).
  unfold hp at 1. rewrite lor_join by lia. eexists. split; [reflexivity|]. cbn [fst]. split; [|exact P].
  unfold nrd_at. split; [exact U'|]. split; [apply before_after; exact Hy|]. split; lia.
Qed.

(** the answer of a search, and the cursor after it *)
Definition found (x : N) (r : N * N * uit) : Prop := let '(j, y, it) := r in geq_at x j /\
  (nthN vs j = Some y /\ uit_at v V it (qpos j y + 1) /\ u_pos it = qpos j y \/ j = n /\ y = u).

Lemma geq_linear_ok x : forall fuel p i r,
  nrd_at p (i + 1) r -> i < n -> (forall k z, k <= i -> nthN vs k = Some z -> z < x) -> (N.to_nat (n - i) < fuel)%nat ->
  exists a, geq_linear fuel v [x0] O r i x = Ok a /\ found x a.
Proof.
  induction fuel as [|fuel IH]; intros p i r Hr Hi Hb Hf; [lia|]. cbn [geq_linear]. rewrite On, Ou.
  destruct (N.ltb_spec (i + 1) n) as [L|L].
  - destruct (nthN_Some vs (i + 1) L) as (y & Hy). destruct (nrd_next_ok p (i + 1) r y Hr Hy) as (r' & E & Hr' & P). rewrite E. cbn [bind]. cbv beta iota.
    destruct (N.ltb_spec y x) as [Lx|Lx].
    + apply (IH (qpos (i + 1) y + 1)); [exact Hr'|lia| |lia]. intros k z Hk Hz. destruct (N.eq_dec k (i + 1)) as [->|]; [congruence|apply (Hb k); [lia|exact Hz]].
    + destruct r' as [[it hb] lo]. destruct Hr' as (U & _). eexists. cbn [fst] in *. split; [reflexivity|]. split; [|left; auto].
      apply geq_at_intro; [lia|intros z Hz; congruence|]. intros k z Hk Hz. apply (Hb k); [lia|exact Hz].
  - eexists. split; [reflexivity|]. replace (i + 1) with n by lia. split; [|right; auto]. apply geq_at_intro; [lia|intros z Hz; apply nthN_lt in Hz; lia|]. intros k z Hk Hz. apply (Hb k); [lia|exact Hz].
Qed.

Lemma geq_scan_ok x : forall fuel p i r,
  nrd_at p i r -> i <= n -> (forall k z, k < i -> nthN vs k = Some z -> z < x) -> (N.to_nat (n - i) < fuel)%nat ->
  exists a, geq_scan fuel v [x0] O r i x = Ok a /\ found x a.
Proof.
  induction fuel as [|fuel IH]; intros p i r Hr Hi Hb Hf; [lia|]. cbn [geq_scan]. rewrite On, Ou.
  destruct (N.eqb_spec i n) as [->|L].
  - eexists. split; [reflexivity|]. split; [|right; auto]. apply geq_at_intro; [lia|intros z Hz; apply nthN_lt in Hz; lia|exact Hb].
  - destruct (nthN_Some vs i ltac:(lia)) as (y & Hy). destruct (nrd_next_ok p i r y Hr Hy) as (r' & E & Hr' & P). rewrite E. cbn [bind]. cbv beta iota.
    destruct (N.leb_spec x y) as [Lx|Lx].
    + destruct r' as [[it hb] lo]. destruct Hr' as (U & _). eexists. cbn [fst] in *. split; [reflexivity|]. split; [|left; auto].
      apply geq_at_intro; [lia|intros z Hz; congruence|exact Hb].
    + apply (IH (qpos i y + 1)); [exact Hr'|lia| |lia]. intros k z Hk Hz. destruct (N.eq_dec k i) as [->|]; [congruence|apply (Hb k); [lia|exact Hz]].
Qed.

Lemma found_cst x j y it : found x (j, y, it) -> cst (mkcen O j y (Some it)) j.
Proof. intros (_ & H). split; [reflexivity|]. split; [reflexivity|]. cbn [ce_val ce_hi]. destruct H as [(H1 & H2 & H3)|(H1 & H2)]; [left; exists it; auto|right; auto]. Qed.

Lemma cen_slow_next_geq_ok c i x : cst c i -> (ce_val c < x -> x < u -> hp lb (ce_val c) < hp lb x) ->
  exists c' j, cen_slow_next_geq v [x0] c x = Ok c' /\ cst c' j /\ geq_at x j.
Proof.
  intros C HD. pose proof C as (C1 & C2 & C3).
  unfold cen_slow_next_geq. rewrite C1, Ou, Olb, On, Oho. destruct (N.leb_spec u x) as [Lux|Lux].
  { destruct (cen_move_ok c i n C (N.le_refl _)) as (c' & E & C'). exists c', n. split; [exact E|]. split; [exact C'|].
    apply geq_at_intro; [lia|intros z Hz; apply nthN_lt in Hz; lia|]. intros k z Hk Hz. pose proof (val_lt _ _ Hz). lia. }
  rewrite (shr_div x), (shr_div (ce_val c)). fold (hp lb x) (hp lb (ce_val c)). pose proof hpu as HU. pose proof NN_eq as NQ. pose proof hl_eq as HQ. pose proof n_lt as NL.
  change (2 ^ 40) with 1099511627776 in NL. change (2 ^ 41) with 2199023255552 in HU.
  assert (HX : hp lb x <= hp lb u) by (apply hp_mono; lia).
  destruct (zero_at (hp lb x) HX) as (m & M1 & M2 & (M3 & M4) & M5).
  assert (QW : B + m + hp lb x < 64 * words_for NN) by (pose proof (words_for_ge NN); lia).
  assert (ST : exists it s, (if (ce_val c <? x) && (shr (sub64 (hp lb x) (hp lb (ce_val c))) log_sampling0 =? 0) then he <- hi_of c ;; Ok (he, sub64 (hp lb x) (hp lb (ce_val c)))
     else hp0 <- cen_pointer v [x0] O (of_p0o O) (shr (hp lb x) log_sampling0) ;; he <- uit_new v (B + hp0) ;; Ok (he, sub64 (hp lb x) (shl (shr (hp lb x) log_sampling0) log_sampling0))) = Ok (it, s)
     /\ exists it', uit_skip0 v it s = Ok it' /\ u_pos it' = B + m + hp lb x /\ uit_at v V it' (B + m + hp lb x)).
  { destruct ((ce_val c <? x) && (shr (sub64 (hp lb x) (hp lb (ce_val c))) log_sampling0 =? 0)) eqn:TT.
    - apply andb_true_iff in TT. destruct TT as [L _]. apply N.ltb_lt in L.
      destruct C3 as [(it & T1 & T2 & T3 & T4)|(T1 & T2)]; [|exfalso; lia].
      pose proof (hp_mono lb (ce_val c) x ltac:(lia)) as HM. rewrite sub64_small by lia.
      unfold hi_of. rewrite T2. cbn [bind]. eexists. eexists. split; [reflexivity|].
      specialize (HD L Lux). pose proof (M2 _ _ T1) as E. assert (EF : (hp lb x <=? hp lb (ce_val c)) = false) by (apply N.leb_gt; exact HD).
      rewrite EF in E. symmetry in E. apply N.leb_gt in E.
      destruct (before_after _ _ T1) as (BA1 & BA2).
      assert (PQ : qpos i (ce_val c) + 1 <= B + m + hp lb x) by (unfold qpos; lia).
      apply (uit_skip0_at v V NN it (qpos i (ce_val c) + 1) _ (B + m + hp lb x) R WF T3); [lia| |exact PQ].
      rewrite T4. set (F := fun k => negb ((qpos i (ce_val c) + 1 <=? k) && N.testbit V k)).
      assert (FE : F (B + m + hp lb x) = true) by (unfold F; rewrite M5, andb_false_r; reflexivity).
      rewrite <- (nthN_fpos_intro F (qpos i (ce_val c)) (64 * words_for NN) (B + m + hp lb x)) by (try exact FE; lia). f_equal.
      pose proof (fpos_count F (qpos i (ce_val c)) (B + m + hp lb x)) as SC.
      rewrite (fpos_split (fun k => negb (F k)) _ (qpos i (ce_val c) + 1)) in SC by lia.
      rewrite (fpos_none (fun k => negb (F k)) (qpos i (ce_val c))) in SC.
      2: { intros k Hk. unfold F. rewrite negb_involutive. destruct (N.leb_spec (qpos i (ce_val c) + 1) k); [lia|reflexivity]. }
      rewrite (fpos_ext (fun k => negb (F k)) (N.testbit V)) in SC.
      2: { intros k Hk. unfold F. rewrite negb_involutive. destruct (N.leb_spec (qpos i (ce_val c) + 1) k); [reflexivity|lia]. }
      rewrite (fpos_split _ B (qpos i (ce_val c) + 1)) in M4 by lia. rewrite lenN_app, BA2 in M4. cbn [app] in SC. unfold qpos in *. lia.
    - rewrite shr_div. change (2 ^ log_sampling0) with 512. destruct (zeros_pointer (hp lb x) HX) as (k & E1 & K1 & K2 & (K3 & K4)). rewrite E1. cbn [bind].
      pose proof (N.div_mod (hp lb x) 512 ltac:(lia)) as DM. set (t := 512 * (hp lb x / 512)) in *. pose proof (N.mod_lt (hp lb x) 512 ltac:(lia)) as ML.
      rewrite shl512' by (change (2 ^ 50) with 1125899906842624; clear - HX HU; assert (hp lb x / 512 <= hp lb x) by (apply N.div_le_upper_bound; lia); lia). fold t.
      assert (KM : k <= m).
      { destruct (N.le_gt_cases k m) as [L|L]; [exact L|exfalso]. destruct (nthN_Some vs m ltac:(lia)) as (y & Hy). pose proof (K2 _ _ Hy) as X1. pose proof (M2 _ _ Hy) as X2.
        rewrite N.leb_refl in X2. apply N.leb_le in X2. destruct (N.leb_spec k m); [lia|]. apply N.leb_gt in X1. lia. }
      destruct (uit_new_ok v V NN (B + (k + t)) R) as (it & E2 & E3 & E4). { lia. }
      rewrite E2. cbn [bind]. eexists. eexists. split; [reflexivity|]. rewrite sub64_small by lia.
      apply (uit_skip0_at v V NN it (B + (k + t)) (hp lb x - t) (B + m + hp lb x) R WF E3); [lia| |lia].
      rewrite E4. set (F := fun i => negb ((B + (k + t) <=? i) && N.testbit V i)).
      assert (FE : F (B + m + hp lb x) = true) by (unfold F; rewrite M5, andb_false_r; reflexivity).
      rewrite <- (nthN_fpos_intro F (B + (k + t)) (64 * words_for NN) (B + m + hp lb x)) by (try exact FE; lia). f_equal.
      pose proof (fpos_count F (B + (k + t)) (B + m + hp lb x)) as SC.
      rewrite (fpos_ext (fun i => negb (F i)) (N.testbit V)) in SC.
      + rewrite (fpos_split _ B (B + k + t)) in M4 by lia. rewrite lenN_app, K4 in M4. replace (B + k + t) with (B + (k + t)) in M4 by lia. lia.
      + intros j Hk. unfold F. rewrite negb_involutive. destruct (N.leb_spec (B + (k + t)) j); [reflexivity|lia]. }
  destruct ST as (it & s & E1 & it' & E2 & P2 & U2). rewrite E1. cbn [bind]. cbv beta iota. rewrite E2. cbn [bind]. rewrite P2.
  rewrite (sub64_small _ B) by lia. rewrite (sub64_small _ (hp lb x)) by lia. replace (B + m + hp lb x - B - hp lb x) with m by lia.
  destruct (geq_scan_ok x (S (S (N.to_nat n))) (B + m + hp lb x) m (nrd_new O it' m)) as (((j & y) & it2) & E3 & FD).
  - unfold nrd_new, nrd_at. rewrite Oho, Olo, Olb. split; [exact U2|]. split; [split; [lia|exact M4]|]. split; reflexivity.
  - exact M1.
  - intros k z Hk Hz. pose proof (M2 _ _ Hz) as E. destruct (N.leb_spec m k); [lia|]. apply N.leb_gt in E. apply (hp_lt lb); exact E.
  - lia.
  - rewrite E3. cbn [bind]. cbv beta iota. eexists. exists j. split; [reflexivity|]. split; [|exact (proj1 FD)]. apply (found_cst x). exact FD.
Qed.

Lemma cen_next_geq_ok c i x : cst c i -> i < n \/ x <= u ->
  exists c' j, cen_next_geq v [x0] c x = Ok c' /\ cst c' j /\ (x = ce_val c -> j = i) /\ (x <> ce_val c -> geq_at x j).
Proof.
  intros C HE. pose proof C as (C1 & C2 & C3). unfold cen_next_geq.
  destruct (N.eqb_spec x (ce_val c)) as [E|E].
  { exists c, i. split; [reflexivity|]. split; [exact C|]. split; [|intros D; contradiction]. intros _. reflexivity. }
  rewrite C1, Olb, On. rewrite !shr_div. fold (hp lb x) (hp lb (ce_val c)).
  assert (G : forall c' j, cst c' j /\ geq_at x j -> cst c' j /\ (x = ce_val c -> j = i) /\ (x <> ce_val c -> geq_at x j)).
  { intros c' j (G1 & G2). split; [exact G1|]. split; [intros; contradiction|intros _; exact G2]. }
  destruct ((ce_val c <? x) && (sub64 (hp lb x) (hp lb (ce_val c)) <=? pef_linear)) eqn:T.
  - apply andb_true_iff in T. destruct T as [T _]. apply N.ltb_lt in T.
    destruct C3 as [(it & T1 & T2 & T3 & T4)|(T1 & T2)]; [|exfalso; lia]. unfold hi_of. rewrite T2. cbn [bind]. rewrite C2.
    pose proof (nthN_lt _ _ _ T1) as Li.
    destruct (geq_linear_ok x (S (S (N.to_nat n))) (qpos i (ce_val c) + 1) i (nrd_new O it (i + 1))) as (((j & y) & it2) & E3 & FD).
    + unfold nrd_new, nrd_at. rewrite Oho, Olo, Olb. split; [exact T3|]. split; [apply before_after; exact T1|]. split; lia.
    + exact Li.
    + intros k z Hk Hz. pose proof (sortedN_le vs HS k i z (ce_val c) Hk Hz T1). lia.
    + lia.
    + rewrite E3. cbn [bind]. cbv beta iota. eexists. exists j. split; [reflexivity|]. apply G. split; [|exact (proj1 FD)]. apply (found_cst x). exact FD.
  - destruct (cen_slow_next_geq_ok c i x C) as (c' & j & E' & CC).
    + intros L Lx. apply andb_false_iff in T. destruct T as [T|T]; [apply N.ltb_ge in T; lia|]. apply N.leb_gt in T. unfold pef_linear in T.
      pose proof hpu as HU. change (2 ^ 41) with 2199023255552 in HU. pose proof (hp_mono lb x u ltac:(lia)). pose proof (hp_mono lb (ce_val c) x ltac:(lia)). rewrite sub64_small in T by lia. lia.
    + exists c', j. split; [exact E'|]. apply G. exact CC.
Qed.

(** ** prev_value *)
Lemma no_one_between i y q : nthN vs i = Some y -> (forall z, nthN vs (i + 1) = Some z -> q <= qpos (i + 1) z) -> q <= B + hl ->
  forall j, qpos i y < j -> j < q -> N.testbit V j = false.
Proof.
  intros Hy Hq Hl j H1 H2. destruct (N.testbit V j) eqn:E; [exfalso|reflexivity]. pose proof (qpos_lt _ _ Hy) as QL. assert (QB : B <= qpos i y) by (unfold qpos; lia).
  assert (I : In j (fpos (N.testbit V) B (B + hl))) by (apply In_fpos; split; [lia|exact E]). apply In_nth_error in I. destruct I as (k & Hk).
  assert (Z : nthN (fpos (N.testbit V) B (B + hl)) (N.of_nat k) = Some j) by (unfold nthN; rewrite Nat2N.id; exact Hk). pose proof Z as Z'.
  rewrite high_bits, nthN_map, nthN_hpos in Z'. destruct (nthN vs (N.of_nat k)) as [z|] eqn:Ez; [|discriminate]. clear Z'. pose proof (nth_high _ _ Ez) as Z2. rewrite Z in Z2. injection Z2 as ->.
  destruct (N.lt_trichotomy (N.of_nat k) i) as [L|[L|L]].
  - pose proof (sortedN_le vs HS _ _ _ _ (N.lt_le_incl _ _ L) Ez Hy) as LE. pose proof (hp_mono lb _ _ LE). unfold qpos in *. lia.
  - rewrite L in *. replace z with y in * by congruence. lia.
  - destruct (nthN_Some vs (i + 1)) as (z1 & Hz1); [apply nthN_lt in Ez; lia|]. pose proof (Hq _ Hz1). pose proof (sortedN_le vs HS (i + 1) (N.of_nat k) z1 z ltac:(lia) Hz1 Ez) as LE. pose proof (hp_mono lb _ _ LE). unfold qpos in *. lia.
Qed.
Lemma cen_prev_ok c i : cst c i -> cen_prev_value v [x0] c = Ok (if i =? 0 then 0 else match nthN vs (i - 1) with Some y => y | None => u end).
Proof.
  intros (C1 & C2 & C3). unfold cen_prev_value. rewrite C1, C2, On, Olo, Oho, Olb, Omask. destruct (N.eqb_spec i 0) as [->|E]; [reflexivity|].
  assert (Li : i <= n) by (destruct C3 as [(it & T1 & _)|(T1 & _)]; [apply nthN_lt in T1; lia|lia]).
  destruct (nthN_Some vs (i - 1) ltac:(lia)) as (y & Hy). rewrite Hy. pose proof (qpos_lt _ _ Hy) as QL. pose proof NN_eq as NE. pose proof hl_eq as HQ.
  assert (TB : N.testbit V (qpos (i - 1) y) = true). { destruct (nthN_fpos _ _ _ _ _ (nth_high _ _ Hy)) as (_ & Q2 & _). exact Q2. }
  assert (WF' : words_for NN < 2 ^ 64) by (pose proof WF; lia).
  assert (PR : (if i <? n then he <- hi_of c ;; bv_predecessor1 v (sub64 (u_pos he) 1) else bv_predecessor1 v (sub64 (B + hl) 1)) = Ok (qpos (i - 1) y)).
  { destruct (N.ltb_spec i n) as [L|L].
    - destruct C3 as [(it & T1 & T2 & T3 & T4)|(T1 & _)]; [|lia]. unfold hi_of. rewrite T2. cbn [bind]. rewrite T4. pose proof (qpos_lt _ _ T1) as QI.
      assert (Q1 : qpos (i - 1) y < qpos i (ce_val c)). { pose proof (sortedN_le vs HS (i - 1) i _ _ ltac:(lia) Hy T1) as LE. pose proof (hp_mono lb _ _ LE). unfold qpos. lia. }
      rewrite sub64_small by lia. apply (bv_predecessor1_ok v V NN _ _ R WF'); [lia|lia|exact TB|].
      intros j J1 J2. apply (no_one_between (i - 1) y (qpos i (ce_val c)) Hy); [|lia|lia|lia]. intros z Hz. replace (i - 1 + 1) with i in * by lia. assert (z = ce_val c) by congruence. subst z. apply N.le_refl.
    - rewrite sub64_small by lia. apply (bv_predecessor1_ok v V NN _ _ R WF'); [lia|lia|exact TB|].
      intros j J1 J2. apply (no_one_between (i - 1) y (B + hl) Hy); [|lia|lia|lia]. intros z Hz. apply nthN_lt in Hz. lia. }
  rewrite PR. cbn [bind]. pose proof (low_ok (i - 1) y Hy) as L. unfold cen_low in L. rewrite Olo, Olb, Omask in L.
  destruct (word56 v [x0] (B + hl + (i - 1) * lb)) as [w| |]; cbn [bind] in *; try discriminate. injection L as L. rewrite L.
  pose proof (join_ok (i - 1) y Hy) as J. unfold cen_join in J. rewrite Oho, Olb in J. rewrite J. reflexivity.
Qed.
End Read.
