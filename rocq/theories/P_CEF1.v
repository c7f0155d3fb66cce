(** * Proofs for compact_elias_fano: writing any number of values, with the sampled pointers *)
From Verif Require Import Prelude BitFacts M_Word P_Word M_Bits Spec P_Bits P_Builder P_Cursor P_BitProg P_EF P_HashVec
  M_CompactVector M_Codes Spec_Codes P_Codes M_FastEF M_Pef P_Pef1.

(** fields of [w] bits *)
Definition flds (w : N) (xs : list N) : list bool := concat (map (fun e => bits_of e w) xs).
Lemma flds_len w xs : lenN (flds w xs) = lenN xs * w.
Proof. induction xs as [|x xs IH]; [reflexivity|]. unfold flds in *. cbn [map concat]. rewrite lenN_app, lenN_bits_of, IH, lenN_cons. lia. Qed.
Lemma flds_app w a b : flds w (a ++ b) = flds w a ++ flds w b.
Proof. unfold flds. rewrite map_app, concat_app. reflexivity. Qed.
Lemma flds_one w x : flds w [x] = bits_of x w.
Proof. unfold flds. cbn [map concat]. apply app_nil_r. Qed.

Lemma splice_mid A M C x w : lenN M = w -> x < 2 ^ w -> splice (num_of (A ++ M ++ C)) (lenN A) x w = num_of (A ++ bits_of x w ++ C).
Proof.
  intros HM Hx. apply num_eq. intros i. rewrite tb_splice, tb_num_of by exact Hx. rewrite !bit_at_app, lenN_bits_of, HM, bit_at_bits_of.
  destruct (N.ltb_spec i (lenN A)) as [L|L].
  - destruct (N.leb_spec (lenN A) i); [lia|]. reflexivity.
  - destruct (N.leb_spec (lenN A) i); [|lia]. cbn [andb]. destruct (N.ltb_spec i (lenN A + w)); destruct (N.ltb_spec (i - lenN A) w); (lia || reflexivity).
Qed.

Lemma map_range_split {T} (f : N -> T) m k : k < m -> map f (range m) = map f (range k) ++ [f k] ++ map f (seqN (k + 1) (N.to_nat (m - k - 1))).
Proof.
  intros H. unfold range. replace (N.to_nat m) with (N.to_nat k + (1 + N.to_nat (m - k - 1)))%nat by lia. rewrite seqN_app, map_app. f_equal.
  rewrite seqN_app, map_app. cbn [seqN map]. rewrite N2Nat.id, N.add_0_l. reflexivity.
Qed.

Lemma set_field b A C w f m k x NN : brep b (num_of (A ++ flds w (map f (range m)) ++ C)) NN -> k < m -> x < 2 ^ w -> w <= 64 -> lenN A + m * w <= NN ->
  exists b', bvb_set_bits b (lenN A + k * w) x w = Ok b' /\ brep b' (num_of (A ++ flds w (map (fun j => if j =? k then x else f j) (range m)) ++ C)) NN.
Proof.
  intros R Hk Hx Hw HN. destruct (bvb_set_bits_rep _ _ _ (lenN A + k * w) x w R Hw Hx ltac:(nia)) as (b' & E & R'). exists b'. split; [exact E|].
  replace (num_of (A ++ flds w (map (fun j => if j =? k then x else f j) (range m)) ++ C)) with
    (splice (num_of (A ++ flds w (map f (range m)) ++ C)) (lenN A + k * w) x w); [exact R'|].
  rewrite (map_range_split f m k Hk), (map_range_split (fun j => if j =? k then x else f j) m k Hk), N.eqb_refl, !flds_app, !flds_one.
  assert (E1 : map (fun j => if j =? k then x else f j) (range k) = map f (range k)).
  { apply map_ext_in. intros j Hj. unfold range in Hj. apply In_seqN in Hj. destruct (N.eqb_spec j k); [lia|reflexivity]. }
  assert (E2 : map (fun j => if j =? k then x else f j) (seqN (k + 1) (N.to_nat (m - k - 1))) = map f (seqN (k + 1) (N.to_nat (m - k - 1)))).
  { apply map_ext_in. intros j Hj. apply In_seqN in Hj. destruct (N.eqb_spec j k); [lia|reflexivity]. }
  rewrite E1, E2. clear - Hx.
  replace (lenN A + k * w) with (lenN (A ++ flds w (map f (range k)))) by (rewrite lenN_app, flds_len, lenN_map, lenN_range; reflexivity).
  rewrite <- !app_assoc. rewrite (app_assoc A (flds w (map f (range k)))). rewrite (app_assoc A _ (bits_of x w ++ _)).
  apply splice_mid; [apply lenN_bits_of|exact Hx].
Qed.

(** ** the shape of the code *)
Definition hpart (l y : N) : N := y / 2 ^ l.
Lemma hpart_mono l x y : x <= y -> hpart l x <= hpart l y.
Proof. intros. unfold hpart. apply N.div_le_mono; [apply N.pow_nonzero; lia|assumption]. Qed.
(** number of values whose high part is below [t] *)
Definition below (l : N) (a : list N) (t : N) : N := lenN (filter (fun x => hpart l x <? t) a).
Lemma below_app l a b t : below l (a ++ b) t = below l a t + below l b t.
Proof. unfold below. rewrite filter_app, lenN_app. reflexivity. Qed.
Lemma below_all l a t : Forall (fun x => hpart l x < t) a -> below l a t = lenN a.
Proof. intros F. unfold below. f_equal. induction F as [|x a H F IH]; [reflexivity|]. cbn [filter]. destruct (N.ltb_spec (hpart l x) t); [f_equal; exact IH|lia]. Qed.
Lemma below_le l a t : below l a t <= lenN a.
Proof. unfold below. induction a as [|x a IH]; [apply N.le_refl|]. cbn [filter]. destruct (hpart l x <? t); rewrite ?lenN_cons; lia. Qed.

(** the fields of the pointers to zeros and to ones *)
Definition ptr0 (l : N) (a : list N) (z k : N) : N := if 512 * (k + 1) <? z then 512 * (k + 1) + below l a (512 * (k + 1)) else 0.
Definition ptr1 (l : N) (a : list N) (k : N) : N := match nthN a (256 * (k + 1)) with Some y => hpart l y + 256 * (k + 1) + 1 | None => 0 end.

Definition cps (u n : N) : N := ceil_log2 (chl u n).
Definition cp0 (u n : N) : N := (chl u n - n) / 512.
Definition cp1 (n : N) : N := n / 256.
Definition ptrs (u n : N) (a : list N) (z : N) : list bool :=
  flds (cps u n) (map (ptr0 (clb u n) a z) (range (cp0 u n))) ++ flds (cps u n) (map (ptr1 (clb u n) a) (range (cp1 n))).
Definition gcode (u : N) (vs : list N) : list bool :=
  ptrs u (lenN vs) vs (u / 2 ^ clb u (lenN vs) + 2) ++ cef_code u vs.

(** the offsets of an encoding that starts at bit [base] *)
Definition gof (base u n : N) : cof :=
  let ho := base + cp0 u n * cps u n + cp1 n * cps u n in
  mkcof u n (clb u n) (N.ones (clb u n)) (chl u n) (cps u n) (cp0 u n) (cp1 n) base (base + cp0 u n * cps u n) ho (ho + chl u n) (ho + chl u n + n * clb u n).

Lemma gof_new_ok base u n : 0 < n -> u < 2 ^ 57 -> cof_new base u n = Ok (gof base u n).
Proof.
  intros Hn Hu. unfold cof_new. destruct (N.eqb_spec n 0); [lia|]. fold (clb u n).
  destruct (clb_bound u n ltac:(lia) Hu) as (B1 & B2). rewrite mask_ones by lia. rewrite !shr_div. reflexivity.
Qed.

Lemma cps_bound u n : 0 < n < 2 ^ 40 -> u < 2 ^ 57 -> chl u n <= 2 ^ cps u n /\ cps u n <= 42 /\ chl u n < 2 ^ 42.
Proof.
  intros Hn Hu. destruct (clb_bound u n ltac:(lia) Hu) as (B1 & B2). assert (L : chl u n < 2 ^ 42).
  { unfold chl. revert B2 Hn. generalize (u / 2 ^ clb u n). change (2 ^ 42) with 4398046511104. change (2 ^ 40) with 1099511627776. intros. lia. }
  split; [|split; [|exact L]].
  - apply ceil_log2_spec. unfold cps. apply N.le_refl.
  - unfold cps. apply ceil_log2_spec. lia.
Qed.

(** ** the pointers to zeros *)
Lemma shl512 t : t < 2 ^ 50 -> shl t log_sampling0 = 512 * t.
Proof. intros H. unfold shl, log_sampling0. rewrite N.shiftl_mul_pow2. change (2 ^ 9) with 512. rewrite w64_small; [lia|]. change (2 ^ 64) with (2 ^ 50 * 16384). lia. Qed.

Lemma ptr0s_loop_ok o A C w m NN ez rank : of_p0o o = lenN A -> of_ps o = w -> w <= 64 -> lenN A + m * w <= NN -> (forall t, 512 * t < ez -> t <= m) ->
  ez + rank <= 2 ^ w -> ez + rank < 2 ^ 50 -> forall fuel b k0 f, 1 <= k0 -> k0 < 2 ^ 50 - 1 -> (N.to_nat (ez / 512 + 1 - k0) < fuel)%nat ->
  brep b (num_of (A ++ flds w (map f (range m)) ++ C)) NN ->
  exists b', set_ptr0s_loop fuel o b k0 ez rank = Ok b' /\
    brep b' (num_of (A ++ flds w (map (fun j => if (k0 <=? j + 1) && (512 * (j + 1) <? ez) then 512 * (j + 1) + rank else f j) (range m)) ++ C)) NN.
Proof.
  intros O1 O2 Hw HN HT HV HZ. induction fuel as [|fuel IH]; intros b k0 f K1 K2 HF R; [lia|]. cbn [set_ptr0s_loop]. rewrite shl512 by lia.
  destruct (N.ltb_spec (512 * k0) ez) as [L|L].
  - destruct (N.eqb_spec k0 0); [lia|]. rewrite O1, O2, add64_small by (change (2 ^ 64) with (2 ^ 50 * 16384); lia).
    destruct (set_field b A C w f m (k0 - 1) (512 * k0 + rank) NN R) as (b1 & E1 & R1); [pose proof (HT k0 L); lia|lia|exact Hw|exact HN|].
    rewrite E1. cbn [bind]. destruct (IH b1 (k0 + 1) (fun j => if j =? k0 - 1 then 512 * k0 + rank else f j)) as (b2 & E2 & R2); [lia| | |exact R1|].
    { assert (k0 <= ez) by lia. change (2 ^ 50) with 1125899906842624 in *. lia. }
    { assert (k0 <= ez / 512) by (apply N.div_le_lower_bound; lia). lia. }
    exists b2. split; [exact E2|]. match type of R2 with brep _ (num_of (_ ++ flds w ?X ++ _)) _ => match goal with |- brep _ (num_of (_ ++ flds w ?Y ++ _)) _ => replace Y with X; [exact R2|] end end.
    apply map_ext. intros j. destruct (N.eqb_spec j (k0 - 1)) as [->|].
    + replace (k0 - 1 + 1) with k0 by lia. destruct (N.leb_spec (k0 + 1) k0); [lia|]. cbn [andb]. rewrite N.leb_refl. cbn [andb]. destruct (N.ltb_spec (512 * k0) ez); [reflexivity|lia].
    + destruct (N.leb_spec (k0 + 1) (j + 1)); destruct (N.leb_spec k0 (j + 1)); cbn [andb]; (reflexivity || lia).
  - exists b. split; [reflexivity|]. match type of R with brep _ (num_of (_ ++ flds w ?X ++ _)) _ => match goal with |- brep _ (num_of (_ ++ flds w ?Y ++ _)) _ => replace Y with X; [exact R|] end end.
    apply map_ext. intros j. destruct (N.leb_spec k0 (j + 1)); cbn [andb]; [|reflexivity]. destruct (N.ltb_spec (512 * (j + 1)) ez); [lia|reflexivity].
Qed.

Lemma set_ptr0s_ok o A C w m NN z ez rank f b : of_p0o o = lenN A -> of_ps o = w -> w <= 64 -> lenN A + m * w <= NN -> (forall t, 512 * t < ez -> t <= m) ->
  ez + rank <= 2 ^ w -> ez + rank < 2 ^ 50 -> 1 <= z -> z + rank < 2 ^ 50 ->
  brep b (num_of (A ++ flds w (map f (range m)) ++ C)) NN ->
  exists b', set_ptr0s o b (z + rank) (ez + rank) rank = Ok b' /\
    brep b' (num_of (A ++ flds w (map (fun j => if (z <=? 512 * (j + 1)) && (512 * (j + 1) <? ez) then 512 * (j + 1) + rank else f j) (range m)) ++ C)) NN.
Proof.
  intros O1 O2 Hw HN HT HV HZ Z1 Z2 R. assert (P50 : 2 ^ 64 = 2 ^ 50 * 16384) by reflexivity.
  unfold set_ptr0s. rewrite !sub64_small by lia. replace (z + rank - rank) with z by lia. replace (ez + rank - rank) with ez by lia.
  unfold ceil_div. change (shl 1 log_sampling0) with 512. change (512 =? 0) with false. cbv iota. rewrite add64_small, sub64_small by lia. cbn [bind].
  set (k0 := (z + 512 - 1) / 512).
  assert (KZ : forall t, k0 <= t <-> z <= 512 * t).
  { intros t. unfold k0. pose proof (N.div_mod (z + 512 - 1) 512 ltac:(lia)). pose proof (N.mod_lt (z + 512 - 1) 512 ltac:(lia)). lia. }
  destruct (ptr0s_loop_ok o A C w m NN ez rank O1 O2 Hw HN HT HV HZ (S (N.to_nat (ez / 512))) b k0 f) as (b' & E & R').
  - destruct (N.lt_ge_cases k0 1) as [L|L]; [|exact L]. pose proof (proj1 (KZ 0) ltac:(lia)). lia.
  - assert (k0 <= z) by (apply KZ; lia). lia.
  - assert (1 <= k0) by (destruct (N.lt_ge_cases k0 1) as [L|L]; [pose proof (proj1 (KZ 0) ltac:(lia)); lia|exact L]). lia.
  - exact R.
  - exists b'. split; [exact E|]. match type of R' with brep _ (num_of (_ ++ flds w ?X ++ _)) _ => match goal with |- brep _ (num_of (_ ++ flds w ?Y ++ _)) _ => replace Y with X; [exact R'|] end end.
    apply map_ext. intros j. replace (k0 <=? j + 1) with (z <=? 512 * (j + 1)); [reflexivity|]. pose proof (KZ (j + 1)). destruct (N.leb_spec z (512 * (j + 1))); destruct (N.leb_spec k0 (j + 1)); (reflexivity || lia).
Qed.

(** ** the high and low bits *)
Lemma high_low_ok L u n a v b NN : 0 < n -> u < 2 ^ 57 -> lenN a < n -> v < u -> NN = lenN L + chl u n + n * clb u n ->
  brep b (num_of (L ++ highs (clb u n) (chl u n) a ++ lows (clb u n) a)) NN ->
  exists b1 b2, bvb_set b (lenN L + (hpart (clb u n) v + lenN a + 1)) true = Ok b1 /\
    bvb_set_bits b1 (lenN L + chl u n + lenN a * clb u n) (v mod 2 ^ clb u n) (clb u n) = Ok b2 /\
    brep b2 (num_of (L ++ highs (clb u n) (chl u n) (a ++ [v]) ++ lows (clb u n) (a ++ [v]))) NN.
Proof.
  intros Hn Hu Ha Hv -> I1. destruct (clb_bound u n ltac:(lia) Hu) as (B1 & B2). set (lb := clb u n) in *.
  assert (HV : v / 2 ^ lb <= u / 2 ^ lb) by (apply N.div_le_mono; [apply N.pow_nonzero; lia|lia]).
  assert (CH : chl u n = n + u / 2 ^ lb + 2) by reflexivity. unfold hpart. set (h := v / 2 ^ lb) in *. set (q := u / 2 ^ lb) in *. assert (HQ : Some q = Some (u / 2 ^ lb)) by reflexivity. clearbody q.
  assert (HH : Some h = Some (v / 2 ^ lb)) by reflexivity. clearbody h.
  destruct (bvb_set_rep _ _ _ (lenN L + (h + lenN a + 1)) true I1) as (b1 & E1 & R1).
  { rewrite CH. generalize (n * lb). intros. lia. }
  assert (MB : v mod 2 ^ lb < 2 ^ lb) by (apply N.mod_lt, N.pow_nonzero; lia).
  destruct (bvb_set_bits_rep _ _ _ (lenN L + chl u n + lenN a * lb) (v mod 2 ^ lb) lb R1 ltac:(lia) MB ltac:(nia)) as (b2 & E2 & R2).
  exists b1, b2. split; [exact E1|]. split; [exact E2|].
  match type of R2 with brep _ ?X _ => replace (num_of (L ++ highs lb (chl u n) (a ++ [v]) ++ lows lb (a ++ [v]))) with X; [exact R2|] end.
  apply num_eq. intros i. rewrite tb_splice by assumption. rewrite bvb_set_true_tb, tb_num_of, !bit_at_app, !lenN_highs, !bit_highs.
  rewrite lows_app, bit_at_app, lenN_lows. replace (lows lb [v]) with (bits_of (v mod 2 ^ lb) lb) by (unfold lows; cbn; rewrite app_nil_r; reflexivity). rewrite bit_at_bits_of.
  rewrite hpos_snoc, existsb_app. cbn [existsb]. rewrite orb_false_r. injection HH as <-.
  assert (HC : h + lenN a + 1 < chl u n) by (rewrite CH; lia).
  revert HC. generalize (chl u n). intros hl HC. clear - HC.
  destruct (N.ltb_spec i (lenN L)) as [A|A].
  - destruct (N.leb_spec (lenN L + hl + lenN a * lb) i); [exfalso; lia|]. cbn [andb].
    destruct (N.eqb_spec i (lenN L + (h + lenN a + 1))); [exfalso; lia|]. reflexivity.
  - destruct (N.ltb_spec (i - lenN L) hl) as [B|B]; cbn [andb].
    + destruct (N.leb_spec (lenN L + hl + lenN a * lb) i); [exfalso; lia|]. cbn [andb].
      rewrite orb_comm. f_equal.
      destruct (N.eqb_spec i (lenN L + (h + lenN a + 1))); destruct (N.eqb_spec (i - lenN L) (h + (1 + lenN a))); (reflexivity || (exfalso; lia)).
    + destruct (N.eqb_spec i (lenN L + (h + lenN a + 1))); [exfalso; lia|]. cbn [orb].
      destruct (N.ltb_spec (i - lenN L - hl) (lenN a * lb)) as [C|C].
      * destruct (N.leb_spec (lenN L + hl + lenN a * lb) i); [exfalso; lia|]. reflexivity.
      * destruct (N.leb_spec (lenN L + hl + lenN a * lb) i); [|exfalso; lia]. cbn [andb].
        replace (i - lenN L - hl - lenN a * lb) with (i - (lenN L + hl + lenN a * lb)) by (clear; lia).
        set (d := i - (lenN L + hl + lenN a * lb)).
        destruct (N.ltb_spec i (lenN L + hl + lenN a * lb + lb)) as [D|D].
        -- destruct (N.ltb_spec d lb) as [G|G]; [reflexivity|exfalso; clear - G D A B C; subst d; lia].
        -- destruct (N.ltb_spec d lb) as [G|G]; [exfalso; clear - G D A B C; subst d; lia|]. cbn [andb]. apply bit_at_oob. rewrite lenN_lows. clear - G; lia.
Qed.

(** ** one value *)
(** zeros of the high bits in front of the last one written *)
Definition zeros (l : N) (a : list N) : N := match nthN a (lenN a - 1) with Some y => hpart l y + 1 | None => 1 end.
Definition gwinv (l : list bool) (u n : N) (a : list N) (s : cws) : Prop :=
  brep (cw_b s) (num_of ((l ++ ptrs u n a (zeros (clb u n) a)) ++ highs (clb u n) (chl u n) a ++ lows (clb u n) a))
    (lenN l + (cp0 u n + cp1 n) * cps u n + chl u n + n * clb u n) /\
  cw_i s = lenN a /\ (nthN a (lenN a - 1) = None \/ nthN a (lenN a - 1) = Some (cw_last s)) /\ cw_lh s + 1 = zeros (clb u n) a + lenN a.

Lemma ptrs_len u n a z : lenN (ptrs u n a z) = (cp0 u n + cp1 n) * cps u n.
Proof. unfold ptrs. rewrite lenN_app, !flds_len, !lenN_map, !lenN_range. lia. Qed.

Lemma nthN_last_snoc {T} (a : list T) x : nthN (a ++ [x]) (lenN (a ++ [x]) - 1) = Some x.
Proof. rewrite lenN_app. change (lenN [x]) with 1. replace (lenN a + 1 - 1) with (lenN a) by lia. apply nthN_snoc. Qed.
Lemma zeros_snoc l a v : zeros l (a ++ [v]) = hpart l v + 1.
Proof. unfold zeros. rewrite nthN_last_snoc. reflexivity. Qed.
Lemma zeros_pos l a : 1 <= zeros l a.
Proof. unfold zeros. destruct (nthN a (lenN a - 1)); lia. Qed.
Lemma zeros_above l a : sortedN a -> Forall (fun x => hpart l x < zeros l a) a.
Proof.
  intros S. apply Forall_forall. intros x Hx. destruct (In_nth_error _ _ Hx) as (k & Hk). assert (Hk' : nthN a (N.of_nat k) = Some x) by (unfold nthN; rewrite Nat2N.id; exact Hk).
  pose proof (nthN_lt _ _ _ Hk') as L. unfold zeros. destruct (nthN_Some a (lenN a - 1) ltac:(lia)) as (y & Hy). rewrite Hy.
  pose proof (sortedN_le a S (N.of_nat k) (lenN a - 1) x y ltac:(lia) Hk' Hy) as LE. pose proof (hpart_mono l x y LE). lia.
Qed.
Lemma sortedN_prefix a b : sortedN (a ++ b) -> sortedN a.
Proof.
  intros S i x y Hx Hy. apply (S i); rewrite nthN_app1; try assumption; [apply nthN_lt in Hx; exact Hx|apply nthN_lt in Hy; exact Hy].
Qed.
Lemma zeros_le l a v : sortedN (a ++ [v]) -> zeros l a <= hpart l v + 1.
Proof.
  intros S. unfold zeros. destruct (nthN a (lenN a - 1)) as [y|] eqn:E; [|lia]. pose proof (nthN_lt _ _ _ E) as L.
  assert (y <= v). { apply (S (lenN a - 1)); [rewrite nthN_app1 by exact L; exact E|]. replace (lenN a - 1 + 1) with (lenN a) by lia. apply nthN_snoc. }
  pose proof (hpart_mono l y v ltac:(assumption)). lia.
Qed.

(** the fields after one more value *)
Lemma ptr0_snoc l a v j : sortedN (a ++ [v]) ->
  (if (zeros l a <=? 512 * (j + 1)) && (512 * (j + 1) <? hpart l v + 1) then 512 * (j + 1) + lenN a else ptr0 l a (zeros l a) j) = ptr0 l (a ++ [v]) (zeros l (a ++ [v])) j.
Proof.
  intros S. unfold ptr0. rewrite zeros_snoc. pose proof (zeros_le l a v S) as ZL. set (t := 512 * (j + 1)). rewrite below_app.
  assert (BV : t < hpart l v + 1 -> below l [v] t = 0). { intros H. unfold below. cbn [filter]. destruct (N.ltb_spec (hpart l v) t); [lia|reflexivity]. }
  destruct (N.ltb_spec t (hpart l v + 1)) as [L|L].
  - rewrite BV by exact L. destruct (N.leb_spec (zeros l a) t) as [Z|Z]; cbn [andb].
    + rewrite below_all; [lia|]. eapply Forall_impl; [|apply (zeros_above l a); eapply sortedN_prefix; exact S]. cbn beta. intros x Hx. lia.
    + destruct (N.ltb_spec t (zeros l a)); [lia|lia].
  - rewrite andb_false_r. destruct (N.ltb_spec t (zeros l a)); [lia|reflexivity].
Qed.
Lemma ptr1_snoc l a v j : (if lenN a =? 256 * (j + 1) then hpart l v + 256 * (j + 1) + 1 else ptr1 l a j) = ptr1 l (a ++ [v]) j.
Proof.
  unfold ptr1. destruct (N.eqb_spec (lenN a) (256 * (j + 1))) as [E|E].
  - rewrite <- E, nthN_snoc. reflexivity.
  - destruct (N.lt_ge_cases (256 * (j + 1)) (lenN a)) as [L|L].
    + rewrite nthN_app1 by exact L. reflexivity.
    + rewrite (nthN_None a) by lia. rewrite nthN_None; [reflexivity|]. rewrite lenN_app. change (lenN [v]) with 1. lia.
Qed.

Lemma cp0_bound u n t : 512 * t < u / 2 ^ clb u n + 2 -> t <= cp0 u n.
Proof. intros H. unfold cp0. apply N.div_le_lower_bound; [lia|]. unfold chl. revert H. generalize (u / 2 ^ clb u n). intros. lia. Qed.

Lemma gstep_ok l u n a v s : 0 < n < 2 ^ 40 -> u < 2 ^ 57 -> lenN l < 2 ^ 62 -> lenN a < n -> v < u -> sortedN (a ++ [v]) -> gwinv l u n a s ->
  exists s', cef_step (gof (lenN l) u n) s v = Ok s' /\ gwinv l u n (a ++ [v]) s'.
Proof.
  intros Hn Hu HL Ha Hv S (I1 & I2 & I3 & I4). unfold cef_step. destruct (cps_bound u n Hn Hu) as (P1 & P2 & P3).
  assert (T : negb (cw_i s =? 0) && (v <? cw_last s) = false).
  { rewrite I2. destruct I3 as [J|J].
    - assert (lenN a = 0). { destruct (N.eq_dec (lenN a) 0); [assumption|]. destruct (nthN_Some a (lenN a - 1) ltac:(lia)). congruence. }
      rewrite H. reflexivity.
    - apply andb_false_iff. right. apply N.ltb_ge. pose proof (nthN_lt _ _ _ J) as L. apply (S (lenN a - 1)); [rewrite nthN_app1 by exact L; exact J|].
      replace (lenN a - 1 + 1) with (lenN a) by lia. apply nthN_snoc. }
  rewrite T. clear T I3. rewrite I2. cbn [gof of_lb of_mask of_ho of_lo of_p1o of_ps of_p0o]. rewrite shr_div. fold (hpart (clb u n) v).
  assert (LP : forall z, lenN (l ++ ptrs u n a z) = lenN l + cp0 u n * cps u n + cp1 n * cps u n) by (intros; rewrite lenN_app, ptrs_len; lia).
  assert (HB : hpart (clb u n) v + lenN a + 1 < chl u n).
  { assert (hpart (clb u n) v <= u / 2 ^ clb u n) by (apply N.div_le_mono; [apply N.pow_nonzero; lia|lia]). unfold chl. revert H. generalize (u / 2 ^ clb u n). intros. lia. }
  assert (P42 : 2 ^ 42 = 4398046511104) by reflexivity.
  rewrite (add64_small (hpart (clb u n) v) (lenN a)), (add64_small (hpart (clb u n) v + lenN a) 1) by lia.
  destruct (high_low_ok (l ++ ptrs u n a (zeros (clb u n) a)) u n a v (cw_b s) (lenN l + (cp0 u n + cp1 n) * cps u n + chl u n + n * clb u n)) as (b1 & b2 & E1 & E2 & R2);
    [lia|exact Hu|exact Ha|exact Hv|rewrite LP; lia|exact I1|].
  rewrite LP in E1, E2. rewrite E1. cbn [bind]. rewrite N.land_ones, E2. cbn [bind].
  set (lb := clb u n) in *. set (h := hpart lb v) in *. set (w := cps u n) in *. set (hl := chl u n) in *.
  set (NN := lenN l + (cp0 u n + cp1 n) * w + hl + n * lb) in *. set (HLs := highs lb hl (a ++ [v]) ++ lows lb (a ++ [v])) in *.
  (* the pointer to the one *)
  assert (ST : exists b3, (if negb (lenN a =? 0) && (N.land (lenN a) (sub64 (shl 1 log_sampling1) 1) =? 0)
     then bvb_set_bits b2 (lenN l + cp0 u n * w + (shr (lenN a) log_sampling1 - 1) * w) (h + lenN a + 1) w else Ok b2) = Ok b3 /\
     brep b3 (num_of (l ++ flds w (map (ptr0 lb a (zeros lb a)) (range (cp0 u n))) ++ flds w (map (ptr1 lb (a ++ [v])) (range (cp1 n))) ++ HLs)) NN).
  { change (sub64 (shl 1 log_sampling1) 1) with (N.ones 8). rewrite N.land_ones, shr_div. change (2 ^ 8) with 256. change (2 ^ log_sampling1) with 256.
    assert (R2' : brep b2 (num_of ((l ++ flds w (map (ptr0 lb a (zeros lb a)) (range (cp0 u n)))) ++ flds w (map (ptr1 lb a) (range (cp1 n))) ++ HLs)) NN).
    { unfold ptrs in R2. fold lb w in R2. rewrite <- !app_assoc in *. exact R2. }
    destruct (negb (lenN a =? 0) && (lenN a mod 256 =? 0)) eqn:T.
    - apply andb_true_iff in T. destruct T as [T1 T2]. apply negb_true_iff in T1. apply N.eqb_neq in T1. apply N.eqb_eq in T2.
      pose proof (N.div_mod (lenN a) 256 ltac:(lia)) as DM. rewrite T2 in DM. set (k := lenN a / 256) in *.
      destruct (set_field b2 (l ++ flds w (map (ptr0 lb a (zeros lb a)) (range (cp0 u n)))) HLs w (ptr1 lb a) (cp1 n) (k - 1) (h + lenN a + 1) NN R2') as (b3 & E3 & R3).
      + unfold cp1. assert (k <= n / 256) by (apply N.div_le_lower_bound; lia). lia.
      + lia.
      + lia.
      + rewrite lenN_app, flds_len, lenN_map, lenN_range. unfold NN. lia.
      + rewrite lenN_app, flds_len, lenN_map, lenN_range in E3. exists b3. split; [exact E3|]. rewrite <- app_assoc in R3.
        match type of R3 with brep _ (num_of (_ ++ _ ++ flds w ?X ++ _)) _ => replace (map (ptr1 lb (a ++ [v])) (range (cp1 n))) with X; [exact R3|] end.
        apply map_ext. intros j. rewrite <- ptr1_snoc. replace (j =? k - 1) with (lenN a =? 256 * (j + 1)).
        * destruct (N.eqb_spec (lenN a) (256 * (j + 1))) as [E|E]; [rewrite <- E; reflexivity|reflexivity].
        * destruct (N.eqb_spec (lenN a) (256 * (j + 1))); destruct (N.eqb_spec j (k - 1)); (reflexivity || (exfalso; lia)).
    - exists b2. split; [reflexivity|]. rewrite <- app_assoc in R2'.
      match type of R2' with brep _ (num_of (_ ++ _ ++ flds w ?X ++ _)) _ => replace (map (ptr1 lb (a ++ [v])) (range (cp1 n))) with X; [exact R2'|] end.
      apply map_ext. intros j. rewrite <- ptr1_snoc. destruct (N.eqb_spec (lenN a) (256 * (j + 1))) as [E|E]; [|reflexivity]. exfalso.
      rewrite E in T. rewrite (N.mul_comm 256), N.mod_mul in T by lia. destruct (N.eqb_spec ((j + 1) * 256) 0); [lia|discriminate T]. }
  destruct ST as (b3 & E3 & R3). rewrite E3. cbn [bind].
  (* the pointers to zeros *)
  pose proof (zeros_le lb a v S) as ZL. fold h in ZL. pose proof (zeros_pos lb a) as ZP.
  destruct (set_ptr0s_ok (gof (lenN l) u n) l (flds w (map (ptr1 lb (a ++ [v])) (range (cp1 n))) ++ HLs) w (cp0 u n) NN (zeros lb a) (h + 1) (lenN a) (ptr0 lb a (zeros lb a)) b3) as (b4 & E4 & R4).
  - reflexivity.
  - reflexivity.
  - lia.
  - unfold NN. lia.
  - intros t Ht. apply cp0_bound. fold lb. assert (h <= u / 2 ^ lb) by (apply N.div_le_mono; [apply N.pow_nonzero; lia|lia]). lia.
  - lia.
  - change (2 ^ 50) with 1125899906842624. lia.
  - exact ZP.
  - change (2 ^ 50) with 1125899906842624. lia.
  - exact R3.
  - replace (add64 (cw_lh s) 1) with (zeros lb a + lenN a) by (rewrite add64_small by lia; lia). replace (h + lenN a + 1) with (h + 1 + lenN a) by lia. rewrite E4. cbn [bind].
    eexists. split; [reflexivity|]. unfold gwinv. cbn [cw_b cw_i cw_last cw_lh]. fold lb w hl. split; [|split; [|split]].
    + fold NN. fold HLs. unfold ptrs. fold lb w. rewrite <- !app_assoc.
      match type of R4 with brep _ (num_of (_ ++ flds w ?X ++ _)) _ => replace (map (ptr0 lb (a ++ [v]) (zeros lb (a ++ [v]))) (range (cp0 u n))) with X; [exact R4|] end.
      apply map_ext. intros j. apply ptr0_snoc. exact S.
    + rewrite lenN_app. reflexivity.
    + right. apply nthN_last_snoc.
    + rewrite zeros_snoc, lenN_app. fold h. change (lenN [v]) with 1. lia.
Qed.

Lemma gsteps_ok l u n : 0 < n < 2 ^ 40 -> u < 2 ^ 57 -> lenN l < 2 ^ 62 -> forall b a s, lenN a + lenN b <= n -> Forall (fun x => x < u) (a ++ b) ->
  sortedN (a ++ b) -> gwinv l u n a s ->
  exists s', foldM (cef_step (gof (lenN l) u n)) b s = Ok s' /\ gwinv l u n (a ++ b) s'.
Proof.
  intros Hn Hu HL. induction b as [|v b IH]; intros a s Hl F S I.
  - exists s. rewrite app_nil_r. split; [reflexivity|assumption].
  - rewrite lenN_cons in Hl. pose proof F as F'. apply Forall_app in F'. destruct F' as [F1 F2]. pose proof (Forall_inv F2) as F3. cbn beta in F3.
    destruct (gstep_ok l u n a v s Hn Hu HL ltac:(lia) F3) as (s1 & E1 & I1); [|exact I|].
    { apply (sortedN_prefix (a ++ [v]) b). rewrite <- app_assoc. exact S. }
    cbn [foldM]. rewrite E1. cbn [bind]. destruct (IH (a ++ [v]) s1) as (s2 & E2 & I2).
    + rewrite lenN_app. change (lenN [v]) with 1. lia.
    + rewrite <- app_assoc. exact F.
    + rewrite <- app_assoc. exact S.
    + exact I1.
    + exists s2. rewrite <- app_assoc in I2. split; assumption.
Qed.

Lemma lenN_gcode u vs : lenN (gcode u vs) = (cp0 u (lenN vs) + cp1 (lenN vs)) * cps u (lenN vs) + chl u (lenN vs) + lenN vs * clb u (lenN vs).
Proof. unfold gcode. rewrite lenN_app, ptrs_len, lenN_cef_code. lia. Qed.

Lemma gcode_small u vs : 0 < lenN vs < 2 ^ 40 -> u < 2 ^ 57 -> lenN (gcode u vs) < 2 ^ 55.
Proof.
  intros Hn Hu. destruct (cps_bound u (lenN vs) Hn Hu) as (P1 & P2 & P3). destruct (clb_bound u (lenN vs) ltac:(lia) Hu) as (B1 & B2). rewrite lenN_gcode.
  assert (C0 : cp0 u (lenN vs) <= 2 ^ 42) by (unfold cp0; apply N.div_le_upper_bound; lia). assert (C1 : cp1 (lenN vs) <= 2 ^ 40) by (unfold cp1; apply N.div_le_upper_bound; lia).
  revert C0 C1 P2 P3 B1 Hn. generalize (cp0 u (lenN vs)) (cp1 (lenN vs)) (cps u (lenN vs)) (chl u (lenN vs)) (clb u (lenN vs)) (lenN vs). clear.
  change (2 ^ 42) with 4398046511104. change (2 ^ 40) with 1099511627776. change (2 ^ 55) with 36028797018963968. intros. nia.
Qed.

Lemma ginit_ok b l (vs : list N) u : brepl b l -> 0 < lenN vs < 2 ^ 40 -> u < 2 ^ 57 -> lenN l < 2 ^ 61 -> let n := lenN vs in
  gwinv l u n [] (mkcws (bvb_zero_extend b (of_end (gof (lenN l) u n) - lenN l)) 0 0 0).
Proof.
  intros R Hn Hu HL. destruct R as (R1 & R2 & R3 & R4 & R5 & R6).
  pose proof (gcode_small u vs Hn Hu) as GS. rewrite lenN_gcode in GS. cbv zeta. set (n := lenN vs) in *.
  assert (EE : of_end (gof (lenN l) u n) - lenN l = (cp0 u n + cp1 n) * cps u n + chl u n + n * clb u n) by (cbn [of_end gof]; lia). rewrite EE. set (sz := (cp0 u n + cp1 n) * cps u n + chl u n + n * clb u n) in *.
  change (2 ^ 55) with 36028797018963968 in GS. change (2 ^ 61) with 2305843009213693952 in HL.
  assert (Z : brep (bvb_zero_extend b sz) (num_of l) (lenN l + sz)).
  { apply bvb_zero_extend_rep; [repeat (split; [assumption|]); assumption|]. change (2 ^ 64) with 18446744073709551616. lia. }
  split; [|split; [reflexivity|split; [left; reflexivity|reflexivity]]]. cbn [cw_b].
    replace (lenN l + (cp0 u n + cp1 n) * cps u n + chl u n + n * clb u n) with (lenN l + sz) by (unfold sz; lia).
    match goal with |- brep _ ?X _ => replace X with (num_of l); [exact Z|] end.
    apply num_eq. intros i. rewrite tb_num_of. rewrite <- app_assoc, bit_at_app. destruct (N.ltb_spec i (lenN l)); [reflexivity|].
    assert (ZR : forall w m (f : N -> N) j, (forall k, f k = 0) -> bit_at (flds w (map f (range m))) j = false).
    { intros w m f j Hf. replace (map f (range m)) with (map (fun _ => 0) (range m)) by (apply map_ext; intros; symmetry; apply Hf). clear. revert j. unfold flds, range. generalize (N.to_nat m). intros k. generalize 0 at 2. revert k.
      induction k as [|k IH]; intros s j; [apply bit_at_oob; apply N.le_0_l|]. cbn [seqN map concat]. rewrite bit_at_app, lenN_bits_of, bit_at_bits_of, N.bits_0, andb_false_r. destruct (j <? w); [reflexivity|apply IH]. }
    rewrite bit_at_app. rewrite (bit_at_oob l i) by assumption. destruct (N.ltb_spec (i - lenN l) (lenN (ptrs u n [] (zeros (clb u n) [])))).
    + unfold ptrs. rewrite bit_at_app. rewrite !ZR; [destruct (_ <? _); reflexivity| |].
      * intros k. unfold ptr1. rewrite nthN_None; [reflexivity|]. rewrite lenN_nil. lia.
      * intros k. unfold ptr0, zeros. rewrite nthN_None by (rewrite lenN_nil; lia). destruct (N.ltb_spec (512 * (k + 1)) 1); [lia|reflexivity].
    + rewrite bit_at_app, lenN_highs, bit_highs. cbn [hpos existsb]. rewrite andb_false_r. destruct (_ <? _); [reflexivity|]. symmetry. apply bit_at_oob. change (lows (clb u n) []) with (@nil bool). rewrite lenN_nil. lia.
Qed.

Lemma gwrite_ok b l vs u : brepl b l -> 0 < lenN vs < 2 ^ 40 -> u < 2 ^ 57 -> lenN l < 2 ^ 61 -> Forall (fun x => x < u) vs -> sortedN vs ->
  exists b', cef_write b vs u = Ok b' /\ brepl b' (l ++ gcode u vs).
Proof.
  intros R Hn Hu HL F S. unfold cef_write. destruct R as (R1 & R2 & R3 & R4 & R5 & R6). rewrite R5.
  rewrite gof_new_ok by (lia || assumption). cbn [bind]. pose proof (gcode_small u vs Hn Hu) as GS. rewrite lenN_gcode in GS. set (n := lenN vs) in *.
  assert (EE : of_end (gof (lenN l) u n) - lenN l = (cp0 u n + cp1 n) * cps u n + chl u n + n * clb u n) by (cbn [of_end gof]; lia). rewrite EE. set (sz := (cp0 u n + cp1 n) * cps u n + chl u n + n * clb u n) in *.
  change (2 ^ 55) with 36028797018963968 in GS. change (2 ^ 61) with 2305843009213693952 in HL.
  assert (Z : brep (bvb_zero_extend b sz) (num_of l) (lenN l + sz)).
  { apply bvb_zero_extend_rep; [repeat (split; [assumption|]); assumption|]. change (2 ^ 64) with 18446744073709551616. lia. }
  destruct (gsteps_ok l u n Hn Hu ltac:(change (2 ^ 62) with 4611686018427387904; lia) vs [] (mkcws (bvb_zero_extend b sz) 0 0 0)) as (s & E & (I1 & I2 & I3 & I4)).
  - change (lenN (@nil N)) with 0. unfold n. lia.
  - exact F.
  - exact S.
  - pose proof (ginit_ok b l vs u) as G. cbv zeta in G. fold n in G. rewrite EE in G. apply G; [repeat (split; [assumption|]); assumption|assumption|assumption|exact HL].
  - rewrite E. cbn [bind]. cbn [app] in I1, I3, I4. fold n in I4.
    assert (ZU : zeros (clb u n) vs <= u / 2 ^ clb u n + 1).
    { unfold zeros. destruct (nthN vs (lenN vs - 1)) as [y|] eqn:J; [|apply N.le_add_l]. assert (y < u) by (eapply Forall_forall in F; [exact F|eapply nthN_In; exact J]).
      assert (hpart (clb u n) y <= u / 2 ^ clb u n) by (apply N.div_le_mono; [apply N.pow_nonzero; lia|lia]). lia. }
    destruct (cps_bound u n Hn Hu) as (P1 & P2 & P3). change (2 ^ 42) with 4398046511104 in P3. cbn [of_hl gof].
    assert (CH : chl u n = u / 2 ^ clb u n + 2 + n) by (unfold chl; lia). pose proof (zeros_pos (clb u n) vs) as ZP.
    replace (add64 (cw_lh s) 1) with (zeros (clb u n) vs + n) by (rewrite add64_small by (change (2 ^ 64) with 18446744073709551616; lia); lia). rewrite CH.
    unfold ptrs in I1. rewrite <- !app_assoc in I1.
    destruct (set_ptr0s_ok (gof (lenN l) u n) l (flds (cps u n) (map (ptr1 (clb u n) vs) (range (cp1 n))) ++ highs (clb u n) (chl u n) vs ++ lows (clb u n) vs) (cps u n) (cp0 u n)
      (lenN l + (cp0 u n + cp1 n) * cps u n + chl u n + n * clb u n) (zeros (clb u n) vs) (u / 2 ^ clb u n + 2) n (ptr0 (clb u n) vs (zeros (clb u n) vs)) (cw_b s)) as (b4 & E4 & RR4).
    + reflexivity.
    + reflexivity.
    + lia.
    + lia.
    + intros t Ht. apply cp0_bound. exact Ht.
    + lia.
    + change (2 ^ 50) with 1125899906842624. lia.
    + exact ZP.
    + change (2 ^ 50) with 1125899906842624. lia.
    + exact I1.
    + exists b4. split; [exact E4|]. unfold brepl. rewrite lenN_app, lenN_gcode. fold n. unfold gcode, ptrs, cef_code. fold n. rewrite <- !app_assoc.
      replace (lenN l + ((cp0 u n + cp1 n) * cps u n + chl u n + n * clb u n)) with (lenN l + (cp0 u n + cp1 n) * cps u n + chl u n + n * clb u n) by lia.
      match type of RR4 with brep _ (num_of (_ ++ flds _ ?X ++ _)) _ => replace (map (ptr0 (clb u n) vs (u / 2 ^ clb u n + 2)) (range (cp0 u n))) with X; [exact RR4|] end.
      apply map_ext. intros j. unfold ptr0. set (t := 512 * (j + 1)). destruct (N.ltb_spec t (u / 2 ^ clb u n + 2)) as [L|L].
      * destruct (N.leb_spec (zeros (clb u n) vs) t) as [Z1|Z1]; cbn [andb].
        -- rewrite below_all; [reflexivity|]. eapply Forall_impl; [|apply (zeros_above (clb u n) vs); exact S]. cbn beta. intros x Hx. lia.
        -- destruct (N.ltb_spec t (zeros (clb u n) vs)); [reflexivity|lia].
      * rewrite andb_false_r. destruct (N.ltb_spec t (zeros (clb u n) vs)); [lia|reflexivity].
Qed.
