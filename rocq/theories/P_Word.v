(** * Proofs about the single-word helpers *)
From Verif Require Import Prelude BitFacts SelectTable M_Word Spec.

(** ** bytes *)
Definition cat8 (b x : N) : N := b + 256 * x.

Lemma cat8_lor b x : b < 256 -> cat8 b x = N.lor b (N.shiftl x 8).
Proof.
  intros Hb. unfold cat8. symmetry. rewrite <- N.lxor_lor, <- N.add_nocarry_lxor.
  - rewrite N.shiftl_mul_pow2. change (2 ^ 8) with 256. lia.
  - apply tb_eq. intros i. bitblast. rewrite (tb_lt b 8); [reflexivity|exact Hb|lia].
  - apply tb_eq. intros i. bitblast. rewrite (tb_lt b 8); [reflexivity|exact Hb|lia].
Qed.

Lemma tb_cat8 b x i : b < 256 ->
  N.testbit (cat8 b x) i = if i <? 8 then N.testbit b i else N.testbit x (i - 8).
Proof.
  intros Hb. rewrite cat8_lor by assumption. bitblast.
  rewrite (tb_lt b 8); [reflexivity|exact Hb|lia].
Qed.

Lemma land_cat8 a b x y : a < 256 -> b < 256 ->
  N.land (cat8 a x) (cat8 b y) = cat8 (N.land a b) (N.land x y).
Proof.
  intros Ha Hb. apply tb_eq. intros i.
  rewrite N.land_spec, !tb_cat8 by (try apply (land_lt_l _ _ 8); assumption).
  destruct (i <? 8); rewrite N.land_spec; reflexivity.
Qed.

Lemma lor_cat8 a b x y : a < 256 -> b < 256 ->
  N.lor (cat8 a x) (cat8 b y) = cat8 (N.lor a b) (N.lor x y).
Proof.
  intros Ha Hb. apply tb_eq. intros i.
  rewrite N.lor_spec, !tb_cat8 by (try apply (lor_lt _ _ 8); assumption).
  destruct (i <? 8); rewrite N.lor_spec; reflexivity.
Qed.

(** a shift right by s <= 8 followed by a byte mask that drops the top s bits *)
Lemma shr_mask_cat8 b x m y s : b < 256 -> m < 2 ^ (8 - s) -> s <= 8 ->
  N.land (shr (cat8 b x) s) (cat8 m y) = cat8 (N.land (shr b s) m) (N.land (shr x s) y).
Proof.
  intros Hb Hm Hs.
  assert (m < 256) by (apply (lt_pow2_le m (8 - s) 8); [assumption|lia]).
  apply tb_eq. intros i.
  rewrite N.land_spec, tb_shr64, !tb_cat8 by (try apply (land_lt_r _ _ 8); assumption).
  destruct (N.ltb_spec i 8).
  - rewrite N.land_spec, tb_shr64. destruct (N.ltb_spec (i + s) 8); [reflexivity|].
    rewrite (tb_lt m (8 - s)) by (assumption || lia). rewrite !andb_false_r. reflexivity.
  - rewrite N.land_spec, tb_shr64. destruct (N.ltb_spec (i + s) 8); [lia|].
    do 2 f_equal. lia.
Qed.

(** ** all bytes up to 255, as a finite sweep *)
Lemma sweep256 (P : N -> bool) : forallb P (range 256) = true -> forall b, b < 256 -> P b = true.
Proof.
  intros H b Hb. rewrite forallb_forall in H. apply H.
  unfold range. apply In_seqN. lia.
Qed.

(** generic n-byte versions of the three steps *)
Fixpoint rep8 (m : N) (n : nat) : N :=
  match n with O => 0 | S k => cat8 m (rep8 m k) end.


Definition st1 (n : nat) x := x - N.land (shr x 1) (rep8 0x55 n).
Definition st2 (n : nat) x :=
  N.land x (rep8 0x33 n) + N.land (shr x 2) (rep8 0x33 n).
Definition st3 (n : nat) x := N.land (x + shr x 4) (rep8 0x0f n).

Definition b1 b := b - N.land (shr b 1) 0x55.
Definition b2 c := N.land c 0x33 + N.land (shr c 2) 0x33.
Definition b3 c := N.land (c + shr c 4) 0x0f.

Lemma land_le_l a b : N.land a b <= a.
Proof.
  pose proof (N.add_nocarry_lxor (N.land a b) (N.ldiff a b)) as H.
  assert (E : N.land (N.land a b) (N.ldiff a b) = 0).
  { apply tb_eq. intros i. bsimp. destruct (N.testbit a i), (N.testbit b i); reflexivity. }
  specialize (H E).
  assert (F : N.lxor (N.land a b) (N.ldiff a b) = a).
  { apply tb_eq. intros i. bsimp. destruct (N.testbit a i), (N.testbit b i); reflexivity. }
  lia.
Qed.

Lemma shr_le a s : shr a s <= a.
Proof. rewrite shr_div. apply N.div_le_upper_bound; [apply N.pow_nonzero; lia|].
  pose proof (pow2_pos s). nia. Qed.

Lemma st1_cat8 n b x : b < 256 -> st1 (S n) (cat8 b x) = cat8 (b1 b) (st1 n x).
Proof.
  intros Hb. unfold st1, b1. cbn [rep8].
  rewrite shr_mask_cat8 by (try assumption; vm_compute; (reflexivity || discriminate)).
  pose proof (land_le_l (shr b 1) 0x55). pose proof (shr_le b 1).
  pose proof (land_le_l (shr x 1) (rep8 0x55 n)). pose proof (shr_le x 1).
  unfold cat8. lia.
Qed.

Lemma st2_cat8 n c y : c < 256 -> st2 (S n) (cat8 c y) = cat8 (b2 c) (st2 n y).
Proof.
  intros Hc. unfold st2, b2. cbn [rep8].
  rewrite shr_mask_cat8 by (try assumption; vm_compute; (reflexivity || discriminate)).
  rewrite land_cat8 by (assumption || lia). unfold cat8. lia.
Qed.

Lemma st3_cat8 n c y : c <= 0x44 -> y mod 16 <= 4 -> st3 (S n) (cat8 c y) = cat8 (b3 c) (st3 n y).
Proof.
  intros Hc Hy. unfold st3, b3. cbn [rep8].
  assert (E : cat8 c y + shr (cat8 c y) 4 = cat8 (c + shr c 4 + 16 * (y mod 16)) (y + shr y 4)).
  { unfold cat8. rewrite !shr_div. change (2 ^ 4) with 16. dlia. }
  assert (shr c 4 <= 4) by (rewrite shr_div; change (2 ^ 4) with 16; dlia).
  rewrite E, land_cat8 by lia. f_equal.
  change 15 with (N.ones 4). rewrite !N.land_ones. change (2 ^ 4) with 16. dlia.
Qed.

Lemma b1_lt b : b < 256 -> b1 b < 256.
Proof. unfold b1. lia. Qed.
Lemma b2_bound b : b < 256 -> b2 (b1 b) <= 0x44 /\ b2 (b1 b) mod 16 <= 4.
Proof.
  intros Hb.
  assert (H : ((b2 (b1 b) <=? 0x44) && (b2 (b1 b) mod 16 <=? 4))%bool = true).
  { revert b Hb. apply sweep256. vm_compute. reflexivity. }
  lia.
Qed.

Definition pc8 (b : N) : N := lenN (ones_pos b 8).
Lemma b3_pc8 b : b < 256 -> b3 (b2 (b1 b)) = pc8 b.
Proof. intros Hb. apply N.eqb_eq. revert b Hb. apply sweep256. vm_compute. reflexivity. Qed.
Lemma pc8_le b : b < 256 -> pc8 b <= 8.
Proof. intros Hb. apply N.leb_le. revert b Hb. apply sweep256. vm_compute. reflexivity. Qed.

Fixpoint of_bytes (l : list N) : N :=
  match l with [] => 0 | b :: r => cat8 b (of_bytes r) end.
Fixpoint to_bytes (n : nat) (x : N) : list N :=
  match n with O => [] | S k => x mod 256 :: to_bytes k (x / 256) end.
Definition isbyte b := b < 256.

Lemma to_of_bytes n x : x < 2 ^ (8 * N.of_nat n) ->
  of_bytes (to_bytes n x) = x /\ Forall isbyte (to_bytes n x) /\ length (to_bytes n x) = n.
Proof.
  revert x. induction n as [|n IH]; intros x Hx.
  - cbn. assert (x = 0) by (change (8 * N.of_nat 0) with 0 in Hx; lia). subst.
    repeat split; constructor.
  - cbn [to_bytes of_bytes length]. assert (H : x / 256 < 2 ^ (8 * N.of_nat n)).
    { apply N.div_lt_upper_bound; [lia|].
      replace (8 * N.of_nat (S n)) with (8 + 8 * N.of_nat n) in Hx by lia.
      rewrite N.pow_add_r in Hx. exact Hx. }
    destruct (IH _ H) as (E & F & L). rewrite E, L. repeat split.
    + unfold cat8. dlia.
    + constructor; [|assumption]. unfold isbyte. apply N.mod_lt. lia.
Qed.

Lemma st_bytes l : Forall isbyte l ->
  st3 (length l) (st2 (length l) (st1 (length l) (of_bytes l))) = of_bytes (map pc8 l)
  /\ st2 (length l) (st1 (length l) (of_bytes l)) mod 16 <= 4.
Proof.
  induction 1 as [|b l Hb Hl [IH IH2]]; cbn [of_bytes map length].
  - split; [reflexivity|vm_compute; discriminate].
  - rewrite st1_cat8 by assumption. rewrite st2_cat8 by (apply b1_lt, Hb).
    destruct (b2_bound b Hb) as [B1 B2].
    rewrite st3_cat8 by assumption. rewrite IH, b3_pc8 by assumption. split; [reflexivity|].
    unfold cat8. dlia.
Qed.

Lemma of_bytes_lt l : Forall isbyte l -> of_bytes l < 2 ^ (8 * lenN l).
Proof.
  induction 1 as [|b l Hb Hl IH]; cbn [of_bytes].
  - vm_compute. reflexivity.
  - rewrite lenN_cons. replace (8 * (1 + lenN l)) with (8 + 8 * lenN l) by lia.
    rewrite N.pow_add_r. change (2 ^ 8) with 256. unfold cat8, isbyte in *. nia.
Qed.

Lemma rep8_st1 x : shr (N.land x (mul64 0xa ones_step_4)) 1 = N.land (shr x 1) (rep8 0x55 8).
Proof.
  change (rep8 0x55 8) with (shr (mul64 0xa ones_step_4) 1).
  generalize (mul64 0xa ones_step_4). intros m. apply tb_eq. intros i. bsimp. reflexivity.
Qed.

Lemma byte_counts_bytes x : x < 2 ^ 64 ->
  byte_counts x = of_bytes (map pc8 (to_bytes 8 x)).
Proof.
  intros Hx. destruct (to_of_bytes 8 x Hx) as (E & F & L).
  destruct (st_bytes _ F) as [S3 _]. rewrite L, E in S3. rewrite <- S3. clear S3.
  unfold byte_counts. rewrite rep8_st1.
  pose proof (land_le_l (shr x 1) (rep8 0x55 8)). pose proof (shr_le x 1).
  rewrite sub64_small by lia. fold (st1 8 x).
  set (y := st1 8 x).
  change (mul64 3 ones_step_4) with (rep8 0x33 8).
  assert (B : forall z, N.land z (rep8 0x33 8) <= 0x3333333333333333).
  { intros z. rewrite N.land_comm. apply land_le_l. }
  rewrite (add64_small (N.land y _) (N.land (shr y 2) _)) by (clearbody y; pose proof (B y); pose proof (B (shr y 2));
    change (2 ^ 64) with 18446744073709551616; lia).
  fold (st2 8 y). set (z := st2 8 y).
  assert (Hz : z <= 0x6666666666666666).
  { subst z. unfold st2. pose proof (B y). pose proof (B (shr y 2)). lia. }
  assert (shr z 4 <= 0x0fffffffffffffff).
  { rewrite shr_div. change (2 ^ 4) with 16. dlia. }
  rewrite add64_small by lia. reflexivity.
Qed.

(** explicit eight bytes *)
Lemma eight (l : list N) : length l = 8%nat ->
  exists a b c d e f g h, l = [a;b;c;d;e;f;g;h].
Proof.
  intros H. do 8 (destruct l as [|? l]; [discriminate|]). destruct l; [|discriminate].
  repeat eexists.
Qed.

Lemma byte_sums_eq a b c d e f g h :
  a <= 8 -> b <= 8 -> c <= 8 -> d <= 8 -> e <= 8 -> f <= 8 -> g <= 8 -> h <= 8 ->
  mul64 (of_bytes [a;b;c;d;e;f;g;h]) ones_step_8 =
  of_bytes [a; a+b; a+b+c; a+b+c+d; a+b+c+d+e; a+b+c+d+e+f; a+b+c+d+e+f+g; a+b+c+d+e+f+g+h].
Proof.
  intros. unfold mul64. rewrite w64_mod. cbn [of_bytes]. unfold cat8, ones_step_8.
  set (R := b*1 + c*(1+256) + d*(1+256+256^2) + e*(1+256+256^2+256^3)
        + f*(1+256+256^2+256^3+256^4) + g*(1+256+256^2+256^3+256^4+256^5)
        + h*(1+256+256^2+256^3+256^4+256^5+256^6)).
  symmetry. apply (N.mod_unique _ _ R).
  - change (2 ^ 64) with 18446744073709551616. lia.
  - subst R. cbn [N.pow Pos.pow]. change (2 ^ 64) with 18446744073709551616.
    change (256 ^ 2) with 65536. change (256 ^ 3) with 16777216.
    change (256 ^ 4) with 4294967296. change (256 ^ 5) with 1099511627776.
    change (256 ^ 6) with 281474976710656. lia.
Qed.

Lemma bytes_sum_eq l : length l = 8%nat -> Forall (fun x => x <= 8) l ->
  bytes_sum (of_bytes l) = fold_right N.add 0 l.
Proof.
  intros L F. destruct (eight l L) as (a&b&c&d&e&f&g&h&->).
  repeat match goal with H : Forall _ (_ :: _) |- _ => inversion H; subst; clear H end.
  unfold bytes_sum. rewrite byte_sums_eq by assumption.
  rewrite shr_div. cbn [of_bytes fold_right]. unfold cat8.
  symmetry. apply (N.div_unique _ _ _ (of_bytes [a; a+b; a+b+c; a+b+c+d; a+b+c+d+e; a+b+c+d+e+f; a+b+c+d+e+f+g])).
  - cbn [of_bytes]. unfold cat8. change (2 ^ 56) with 72057594037927936. lia.
  - cbn [of_bytes]. unfold cat8. change (2 ^ 56) with 72057594037927936. lia.
Qed.

(** ** one positions and bytes *)
Lemma filter_map {A B} (f : A -> B) (p : B -> bool) l :
  filter p (map f l) = map f (filter (fun a => p (f a)) l).
Proof. induction l; cbn; [reflexivity|]. destruct (p (f a)); cbn; congruence. Qed.

Lemma range_add n m : range (n + m) = range n ++ map (N.add n) (range m).
Proof.
  unfold range. replace (N.to_nat (n + m)) with (N.to_nat n + N.to_nat m)%nat by lia.
  rewrite seqN_app. f_equal.
  assert (H : forall k s, seqN (s + n) k = map (N.add n) (seqN s k)).
  { induction k; intros s; cbn [seqN map]; [reflexivity|].
    replace (N.succ (s + n)) with (N.succ s + n) by lia. rewrite IHk. f_equal. lia. }
  rewrite <- H. f_equal. lia.
Qed.

Lemma ones_pos_split V n m :
  ones_pos V (n + m) = ones_pos V n ++ map (N.add n) (ones_pos (shr V n) m).
Proof.
  unfold ones_pos. rewrite range_add, filter_app, filter_map. do 2 f_equal.
  apply filter_ext. intros i. rewrite tb_shr64. f_equal. lia.
Qed.

Lemma ones_pos_ext V V' n :
  (forall i, i < n -> N.testbit V i = N.testbit V' i) -> ones_pos V n = ones_pos V' n.
Proof.
  intros H. unfold ones_pos. apply filter_ext_in. intros i Hi. apply H.
  unfold range in Hi. apply In_seqN in Hi. lia.
Qed.

Lemma ones_pos_cat8 b x n : b < 256 ->
  ones_pos (cat8 b x) (8 + n) = ones_pos b 8 ++ map (N.add 8) (ones_pos x n).
Proof.
  intros Hb. rewrite ones_pos_split. f_equal.
  - apply ones_pos_ext. intros i Hi. rewrite tb_cat8 by assumption.
    destruct (N.ltb_spec i 8); [reflexivity|lia].
  - do 2 f_equal. apply tb_eq. intros i. rewrite tb_shr64, tb_cat8 by assumption.
    destruct (N.ltb_spec (i + 8) 8); [lia|]. f_equal. lia.
Qed.

Lemma lenN_ones_bytes l : Forall isbyte l ->
  lenN (ones_pos (of_bytes l) (8 * lenN l)) = fold_right N.add 0 (map pc8 l).
Proof.
  induction 1 as [|b l Hb Hl IH]; cbn [of_bytes map fold_right]; [reflexivity|].
  rewrite lenN_cons. replace (8 * (1 + lenN l)) with (8 + 8 * lenN l) by lia.
  rewrite ones_pos_cat8 by assumption. rewrite lenN_app, lenN_map, IH. reflexivity.
Qed.

Lemma Forall_pc8 l : Forall isbyte l -> Forall (fun x => x <= 8) (map pc8 l).
Proof. induction 1; cbn; constructor; auto. apply pc8_le. assumption. Qed.

Theorem popcount_correct x : x < 2 ^ 64 -> popcount x = lenN (ones_pos x 64).
Proof.
  intros Hx. destruct (to_of_bytes 8 x Hx) as (E & F & L).
  unfold popcount. rewrite byte_counts_bytes by assumption.
  rewrite bytes_sum_eq.
  - rewrite <- lenN_ones_bytes by assumption. rewrite E. unfold lenN at 2. rewrite L. reflexivity.
  - rewrite map_length. exact L.
  - apply Forall_pc8, F.
Qed.

(** ** select *)
Lemma sel_bytes l : Forall isbyte l -> forall p k b e,
  nthN l p = Some b ->
  fold_right N.add 0 (firstn (N.to_nat p) (map pc8 l)) <= k ->
  nthN (ones_pos b 8) (k - fold_right N.add 0 (firstn (N.to_nat p) (map pc8 l))) = Some e ->
  nthN (ones_pos (of_bytes l) (8 * lenN l)) k = Some (8 * p + e).
Proof.
  induction 1 as [|b0 l Hb Hl IH]; intros p k b e Hp Hs He.
  - apply nthN_lt in Hp. rewrite lenN_nil in Hp. lia.
  - cbn [of_bytes]. rewrite lenN_cons. replace (8 * (1 + lenN l)) with (8 + 8 * lenN l) by lia.
    rewrite ones_pos_cat8 by assumption. rewrite nthN_cons in Hp.
    destruct (N.eqb_spec p 0) as [->|Hp0].
    + injection Hp as ->. cbn [N.to_nat firstn fold_right] in *.
      replace (firstn (N.to_nat 0) (map pc8 (b :: l))) with (@nil N) in * by reflexivity.
      cbn [fold_right] in *. rewrite N.sub_0_r in He.
      rewrite nthN_app1 by (eapply nthN_lt; eauto). exact He.
    + replace (N.to_nat p) with (S (N.to_nat (p - 1))) in * by lia.
      cbn [map firstn fold_right] in *. fold (pc8 b0) in *.
      rewrite nthN_app2 by (fold (pc8 b0); lia). fold (pc8 b0).
      rewrite nthN_map. rewrite (IH (p - 1) (k - pc8 b0) b e); [|assumption|lia|].
      * cbn [option_map]. f_equal. lia.
      * rewrite <- He. f_equal. lia.
Qed.

Lemma table_correct b r : b < 256 -> r < 8 -> r < pc8 b ->
  exists e, rd select_in_byte_table (N.lor b (shl r 8)) = Ok e /\
            nthN (ones_pos b 8) r = Some e.
Proof.
  intros Hb Hr Hlt.
  assert (H : forallb (fun b => forallb (fun r =>
     if r <? pc8 b then
     match rd select_in_byte_table (N.lor b (shl r 8)), nthN (ones_pos b 8) r with
     | Ok e, Some e' => e =? e' | _, _ => false end else true) (range 8)) (range 256) = true).
  { vm_compute. reflexivity. }
  pose proof (sweep256 _ H b Hb) as H1. cbn beta in H1. rewrite forallb_forall in H1.
  specialize (H1 r). rewrite (proj2 (N.ltb_lt r (pc8 b)) Hlt) in H1.
  destruct (rd _ _) as [e| |]; [|exfalso|exfalso].
  - destruct (nthN (ones_pos b 8) r) as [e'|].
    + exists e. split; [reflexivity|]. f_equal. symmetry. apply N.eqb_eq, H1.
      unfold range. apply In_seqN. lia.
    + exfalso. cut (false = true); [discriminate|]. apply H1. unfold range. apply In_seqN. lia.
  - cut (false = true); [discriminate|]. apply H1. unfold range. apply In_seqN. lia.
  - cut (false = true); [discriminate|]. apply H1. unfold range. apply In_seqN. lia.
Qed.

Lemma land_bytes l l' : Forall isbyte l -> Forall isbyte l' -> length l = length l' ->
  N.land (of_bytes l) (of_bytes l') = of_bytes (map (fun p => N.land (fst p) (snd p)) (combine l l')).
Proof.
  intros H. revert l'. induction H as [|b l Hb Hl IH]; intros [|b' l'] H' L; try discriminate; [reflexivity|].
  inversion H'; subst. cbn [of_bytes combine map fst snd]. rewrite land_cat8 by assumption.
  rewrite IH; [reflexivity|assumption|]. injection L. auto.
Qed.

Lemma shr_of_bytes l p : Forall isbyte l ->
  N.land (shr (of_bytes l) (8 * p)) 0xFF = nth (N.to_nat p) l 0.
Proof.
  intros H. revert p. induction H as [|b l Hb Hl IH]; intros p.
  - cbn [of_bytes]. unfold shr. rewrite N.shiftr_0_l. destruct (N.to_nat p); reflexivity.
  - cbn [of_bytes]. destruct (N.eq_dec p 0) as [->|Hp].
    + cbn [nth N.to_nat]. change (8 * 0) with 0. change (nth (N.to_nat 0) (b :: l) 0) with b.
      apply tb_eq. intros i. rewrite N.land_spec, tb_shr64, N.add_0_r.
      change 255 with (N.ones 8). rewrite tb_ones, tb_cat8 by assumption.
      destruct (N.ltb_spec i 8); [apply andb_true_r|].
      rewrite andb_false_r, (tb_lt b 8); [reflexivity|assumption|assumption].
    + replace (N.to_nat p) with (S (N.to_nat (p - 1))) by lia. cbn [nth]. rewrite <- IH.
      f_equal. apply tb_eq. intros i. rewrite !tb_shr64, tb_cat8 by assumption.
      destruct (N.ltb_spec (i + 8 * p) 8); [lia|]. f_equal. lia.
Qed.

Definition geqs k s := if s <=? k then 128 else 0.
Lemma geq_byte k s : k < 64 -> s <= 64 -> N.land (k + 128 - s) 128 = geqs k s.
Proof.
  intros. unfold geqs. destruct (N.leb_spec s k).
  - apply tb_eq. intros i. change 128 with (2 ^ 7). rewrite N.land_spec, tb_pow2.
    destruct (N.eqb_spec i 7) as [->|]; [|apply andb_false_r]. rewrite andb_true_r.
    rewrite N.testbit_eqb. change (2 ^ 7) with 128.
    replace ((k + 128 - s) / 128) with 1 by dlia. reflexivity.
  - apply tb_eq. intros i. change 128 with (2 ^ 7). rewrite N.land_spec, tb_pow2, N.bits_0.
    destruct (N.eqb_spec i 7) as [->|]; [|apply andb_false_r]. rewrite andb_true_r.
    change (2 ^ 7) with 128. apply (tb_lt _ 7); [change (2 ^ 7) with 128; lia|lia].
Qed.

Lemma sel_word_step (a b c d e f g h : N) (p k bp sp : N) :
  Forall isbyte [a;b;c;d;e;f;g;h] -> p < 8 ->
  nthN [a;b;c;d;e;f;g;h] p = Some bp ->
  fold_right N.add 0 (firstn (N.to_nat p) (map pc8 [a;b;c;d;e;f;g;h])) = sp ->
  sp <= k < sp + pc8 bp -> k < 64 ->
  forall x, x = of_bytes [a;b;c;d;e;f;g;h] ->
  forall prev, N.land prev 0xFF = sp ->
  exists r,
   (xb <- shrU x (8 * p) ;;
    e <- rd select_in_byte_table
      (N.lor (N.land xb 0xFF) (shl (sub64 k (N.land prev 0xFF)) 8)) ;;
    Ok (8 * p + e)) = Ok r /\ nthN (ones_pos x 64) k = Some r.
Proof.
  intros F Hp Hb Hs [Hk1 Hk2] Hk64 x -> prev Hprev.
  rewrite shrU_ok by lia. cbn [bind]. rewrite Hprev.
  rewrite sub64_small by lia.
  rewrite shr_of_bytes by assumption.
  assert (bp < 256) by (apply (Forall_nthN isbyte _ p bp F Hb)).
  assert (nth (N.to_nat p) [a;b;c;d;e;f;g;h] 0 = bp) as ->.
  { unfold nthN in Hb. apply nth_error_nth. exact Hb. }
  pose proof (pc8_le bp H).
  destruct (table_correct bp (k - sp)) as (r & R1 & R2); [lia|lia|lia|].
  rewrite R1. cbn [bind]. exists (8 * p + r). split; [reflexivity|].
  apply (sel_bytes [a;b;c;d;e;f;g;h] F p k bp r Hb); rewrite Hs; [lia|exact R2].
Qed.

Theorem select_in_word_correct x k : x < 2 ^ 64 -> k < lenN (ones_pos x 64) ->
  exists r, select_in_word x k = Ok r /\ nthN (ones_pos x 64) k = Some r.
Proof.
  intros Hx Hk. destruct (to_of_bytes 8 x Hx) as (E & F & L).
  pose proof (lenN_ones_bytes _ F) as T. rewrite E in T. unfold lenN at 2 in T. rewrite L in T.
  change (8 * N.of_nat 8) with 64 in T. rewrite T in Hk.
  unfold select_in_word. rewrite byte_counts_bytes by assumption.
  destruct (eight _ L) as (a&b&c&d&e&f&g&h&El). rewrite El in *. clear T.
  pose proof F as F'.
  inversion F' as [|? ? Ha F1]; subst. inversion F1 as [|? ? Hb F2]; subst.
  inversion F2 as [|? ? Hc F3]; subst. inversion F3 as [|? ? Hd F4]; subst.
  inversion F4 as [|? ? He F5]; subst. inversion F5 as [|? ? Hf F6]; subst.
  inversion F6 as [|? ? Hg F7]; subst. inversion F7 as [|? ? Hh F8]; subst.
  clear F' F1 F2 F3 F4 F5 F6 F7 F8 El L.
  apply pc8_le in Ha as Ca, Hb as Cb, Hc as Cc, Hd as Cd, He as Ce, Hf as Cf, Hg as Cg, Hh as Ch.
  cbn [map] in *. cbn [fold_right] in Hk.
  pose proof (sel_word_step a b c d e f g h) as STEP. cbn [map] in STEP.
  set (A := pc8 a) in *. set (B := pc8 b) in *. set (C := pc8 c) in *. set (D := pc8 d) in *.
  set (E := pc8 e) in *. set (FF := pc8 f) in *. set (G := pc8 g) in *. set (H := pc8 h) in *.
  rewrite byte_sums_eq by assumption.
  set (S := [A; A+B; A+B+C; A+B+C+D; A+B+C+D+E; A+B+C+D+E+FF; A+B+C+D+E+FF+G; A+B+C+D+E+FF+G+H]).
  assert (K : mul64 k ones_step_8 = of_bytes (repeat k 8)).
  { unfold mul64. rewrite w64_small; cbn [of_bytes repeat]; unfold cat8, ones_step_8.
    - lia. - change (2 ^ 64) with 18446744073709551616. lia. }
  assert (K2 : N.lor (mul64 k ones_step_8) msbs_step_8 = of_bytes (repeat (k + 128) 8)).
  { rewrite K. change msbs_step_8 with (of_bytes (repeat 128 8)).
    assert (Z : N.lor k 128 = k + 128).
    { symmetry. rewrite <- N.lxor_lor; [apply N.add_nocarry_lxor|];
        apply tb_eq; intros i; change 128 with (2 ^ 7); rewrite N.land_spec, tb_pow2, N.bits_0;
        (destruct (N.eqb_spec i 7) as [->|]; [|apply andb_false_r]);
        rewrite (tb_lt k 7); try reflexivity; change (2 ^ 7) with 128; lia. }
    cbn [repeat of_bytes]. rewrite !lor_cat8 by lia. rewrite Z. reflexivity. }
  rewrite K2.
  assert (K3 : N.land (sub64 (of_bytes (repeat (k + 128) 8)) (of_bytes S)) msbs_step_8
             = of_bytes (map (geqs k) S)).
  { rewrite sub64_small.
    - assert (Z : of_bytes (repeat (k + 128) 8) - of_bytes S = of_bytes (map (fun s => k + 128 - s) S)).
      { subst S. cbn [of_bytes repeat map]. unfold cat8. lia. }
      rewrite Z. change msbs_step_8 with (of_bytes (repeat 128 8)). rewrite land_bytes.
      + subst S. cbn [map combine repeat fst snd]. rewrite !geq_byte by lia. reflexivity.
      + subst S. repeat constructor; unfold isbyte; lia.
      + repeat constructor; unfold isbyte; lia.
      + reflexivity.
    - subst S. cbn [of_bytes repeat]. unfold cat8. lia.
    - subst S. cbn [of_bytes repeat]. unfold cat8. change (2 ^ 64) with 18446744073709551616. lia. }
  rewrite K3.
  assert (FG : Forall isbyte (map (geqs k) S)).
  { apply Forall_forall. intros y Hy. apply in_map_iff in Hy. destruct Hy as (s & <- & _).
    unfold isbyte, geqs. destruct (s <=? k); lia. }
  assert (P : popcount (of_bytes (map (geqs k) S)) = fold_right N.add 0 (map (fun s => if s <=? k then 1 else 0) S)).
  { rewrite popcount_correct by exact (of_bytes_lt _ FG).
    change 64 with (8 * lenN (map (geqs k) S)). rewrite lenN_ones_bytes by assumption.
    rewrite map_map. f_equal. apply map_ext. intros s. unfold geqs. destruct (s <=? k); reflexivity. }
  rewrite P. clear P K3 FG K K2.
  assert (SH : shl (of_bytes S) 8 = of_bytes [0; A; A+B; A+B+C; A+B+C+D; A+B+C+D+E; A+B+C+D+E+FF; A+B+C+D+E+FF+G]).
  { unfold shl. rewrite N.shiftl_mul_pow2, w64_mod. symmetry.
    apply (N.mod_unique _ _ (A+B+C+D+E+FF+G+H)); subst S; cbn [of_bytes]; unfold cat8;
      change (2 ^ 64) with 18446744073709551616; change (2 ^ 8) with 256; lia. }
  rewrite SH.
  assert (FS : Forall isbyte [0; A; A+B; A+B+C; A+B+C+D; A+B+C+D+E; A+B+C+D+E+FF; A+B+C+D+E+FF+G]).
  { repeat constructor; unfold isbyte; lia. }
  pose proof (fun p => shr_of_bytes _ p FS) as SHR.
  set (Y := of_bytes [0; A; A+B; A+B+C; A+B+C+D; A+B+C+D+E; A+B+C+D+E+FF; A+B+C+D+E+FF+G]) in *.
  clearbody Y.
  assert (Hk64 : k < 64) by lia.
  subst S. cbn [map fold_right].
  assert (GO : forall p bp sp, p < 8 -> nthN [a;b;c;d;e;f;g;h] p = Some bp ->
     fold_right N.add 0 (firstn (N.to_nat p) [A;B;C;D;E;FF;G;H]) = sp ->
     nth (N.to_nat p) [0; A; A+B; A+B+C; A+B+C+D; A+B+C+D+E; A+B+C+D+E+FF; A+B+C+D+E+FF+G] 0 = sp ->
     sp <= k < sp + pc8 bp ->
     forall q, q = p ->
     exists r, (prev <- shrU Y (mul64 q 8);;
       xb <- shrU (of_bytes [a; b; c; d; e; f; g; h]) (mul64 q 8);;
       e0 <- rd select_in_byte_table (N.lor (N.land xb 255) (shl (sub64 k (N.land prev 255)) 8));;
       Ok (mul64 q 8 + e0)) = Ok r /\ nthN (ones_pos (of_bytes [a; b; c; d; e; f; g; h]) 64) k = Some r).
  { intros p bp sp Hp Hbp Hs1 Hs2 Hr q ->.
    assert (mul64 p 8 = 8 * p) as -> by (rewrite mul64_small by lia; lia).
    rewrite (shrU_ok Y) by lia. cbn [bind].
    apply (STEP p k bp sp F Hp Hbp Hs1 Hr Hk64 _ eq_refl). rewrite SHR. exact Hs2. }
  repeat match goal with |- context [if ?x <=? k then 1 else 0] =>
     destruct (N.leb_spec x k); try (exfalso; lia) end.
  all: first
   [ apply (GO 7 h (A+B+C+D+E+FF+G)); [lia|reflexivity|cbn [firstn fold_right N.to_nat]; change (N.to_nat 7) with 7%nat; cbn [firstn fold_right]; lia|reflexivity|fold H; lia|lia]
   | apply (GO 6 g (A+B+C+D+E+FF)); [lia|reflexivity|change (N.to_nat 6) with 6%nat; cbn [firstn fold_right]; lia|reflexivity|fold G; lia|lia]
   | apply (GO 5 f (A+B+C+D+E)); [lia|reflexivity|change (N.to_nat 5) with 5%nat; cbn [firstn fold_right]; lia|reflexivity|fold FF; lia|lia]
   | apply (GO 4 e (A+B+C+D)); [lia|reflexivity|change (N.to_nat 4) with 4%nat; cbn [firstn fold_right]; lia|reflexivity|fold E; lia|lia]
   | apply (GO 3 d (A+B+C)); [lia|reflexivity|change (N.to_nat 3) with 3%nat; cbn [firstn fold_right]; lia|reflexivity|fold D; lia|lia]
   | apply (GO 2 c (A+B)); [lia|reflexivity|change (N.to_nat 2) with 2%nat; cbn [firstn fold_right]; lia|reflexivity|fold C; lia|lia]
   | apply (GO 1 b A); [lia|reflexivity|change (N.to_nat 1) with 1%nat; cbn [firstn fold_right]; lia|reflexivity|fold B; lia|lia]
   | apply (GO 0 a 0); [lia|reflexivity|reflexivity|reflexivity|fold A; lia|lia] ].
Qed.

(** ** logarithms, rounding, lowest/highest one *)
Lemma msb_spec x : 0 < x -> 2 ^ msb x <= x < 2 ^ (msb x + 1).
Proof.
  intros H. unfold msb. destruct (N.eqb_spec x 0); [lia|].
  rewrite N.add_1_r. apply N.log2_spec. assumption.
Qed.

Lemma msb_lt x n : 0 < x -> x < 2 ^ n -> msb x < n.
Proof.
  intros H Hx. unfold msb. destruct (N.eqb_spec x 0); [lia|]. apply N.log2_lt_pow2; assumption.
Qed.

Lemma ceil_log2_spec x k : ceil_log2 x <= k <-> x <= 2 ^ k.
Proof.
  unfold ceil_log2. destruct (N.ltb_spec 1 x).
  - split; intros Hk.
    + assert (H1 : x - 1 < 2 ^ (msb (x - 1) + 1)) by (apply msb_spec; lia).
      pose proof (pow2_le _ _ Hk). lia.
    + assert (H1 : 2 ^ msb (x - 1) <= x - 1) by (apply msb_spec; lia).
      destruct (N.le_gt_cases (msb (x - 1) + 1) k) as [|G]; [assumption|].
      assert (2 ^ k <= 2 ^ msb (x - 1)) by (apply pow2_le; lia). lia.
  - split; intros _; [|lia]. pose proof (pow2_pos k). lia.
Qed.

Lemma floor_log2_spec x k : 1 <= x -> (k <= floor_log2 x <-> 2 ^ k <= x).
Proof.
  intros Hx. unfold floor_log2. destruct (N.ltb_spec 1 x).
  - pose proof (msb_spec x ltac:(lia)) as [L U]. split; intros Hk.
    + pose proof (pow2_le _ _ Hk). lia.
    + destruct (N.le_gt_cases k (msb x)) as [|G]; [assumption|].
      assert (2 ^ (msb x + 1) <= 2 ^ k) by (apply pow2_le; lia). lia.
  - assert (x = 1) by lia. subst. split; intros Hk.
    + assert (k = 0) by lia. subst. vm_compute. discriminate.
    + destruct (N.eq_dec k 0); [lia|].
      assert (2 ^ 1 <= 2 ^ k) by (apply pow2_le; lia). change (2 ^ 1) with 2 in *. lia.
Qed.

Lemma ceil_div_spec a d q : 0 < d -> a + d < 2 ^ 64 -> ceil_div a d = Ok q ->
  a <= q * d /\ forall q', a <= q' * d -> q <= q'.
Proof.
  intros Hd Ho. unfold ceil_div. destruct (N.eqb_spec d 0); [lia|]. intros H. injection H as <-.
  rewrite add64_small by assumption. rewrite sub64_small by lia. split.
  - pose proof (N.div_mod (a + d - 1) d ltac:(lia)).
    pose proof (N.mod_lt (a + d - 1) d ltac:(lia)). nia.
  - intros q' Hq. enough ((a + d - 1) / d < q' + 1) by lia. apply N.div_lt_upper_bound; nia.
Qed.

Lemma lsb_opt_none x : lsb_opt x = None <-> x = 0.
Proof. destruct x; cbn; split; congruence. Qed.

Lemma ctz_pos_spec p : N.testbit (Npos p) (ctz_pos p) = true /\
  forall i, i < ctz_pos p -> N.testbit (Npos p) i = false.
Proof.
  induction p as [p IH|p IH|]; cbn [ctz_pos].
  - split; [reflexivity|]. intros i Hi. lia.
  - destruct IH as [I1 I2]. change (N.pos p~0) with (2 * N.pos p). split.
    + rewrite N.add_1_l. rewrite N.testbit_even_succ by lia. exact I1.
    + intros i Hi. destruct (N.eq_dec i 0) as [->|].
      * apply N.testbit_even_0.
      * replace i with (N.succ (i - 1)) by lia. rewrite N.testbit_even_succ by lia. apply I2. lia.
  - split; [reflexivity|]. intros i Hi. lia.
Qed.

Lemma lsb_opt_spec x r : lsb_opt x = Some r ->
  N.testbit x r = true /\ forall i, i < r -> N.testbit x i = false.
Proof.
  destruct x as [|p]; cbn; intros H; [discriminate|]. injection H as <-. apply ctz_pos_spec.
Qed.

Lemma msb_opt_spec x r : msb_opt x = Some r ->
  N.testbit x r = true /\ forall i, r < i -> N.testbit x i = false.
Proof.
  unfold msb_opt. destruct (N.eqb_spec x 0); intros H; [discriminate|]. injection H as <-.
  split; [apply N.bit_log2; assumption|]. intros i Hi. apply N.bits_above_log2. assumption.
Qed.

(** clearing the lowest one: buf & (buf - 1) *)
Lemma clear_lsb x r : lsb_opt x = Some r ->
  N.land x (x - 1) = N.ldiff x (2 ^ r) /\ 0 < x.
Proof.
  intros H. pose proof (lsb_opt_spec _ _ H) as [S1 S2].
  assert (Hx : x = 2 ^ r + 2 ^ (r + 1) * (x / 2 ^ (r + 1))).
  { pose proof (N.div_mod x (2 ^ (r + 1)) ltac:(apply N.pow_nonzero; lia)) as D.
    assert (M : x mod 2 ^ (r + 1) = 2 ^ r).
    { apply tb_eq. intros i. rewrite tb_mod, tb_pow2.
      destruct (N.ltb_spec i (r + 1)); destruct (N.eqb_spec i r); subst; cbn [andb];
        try lia; auto. apply S2. lia. }
    lia. }
  set (q := x / 2 ^ (r + 1)) in *. pose proof (pow2_pos r).
  split; [|lia].
  assert (Hx1 : x - 1 = N.ones r + 2 ^ (r + 1) * q).
  { rewrite N.ones_equiv. lia. }
  assert (B : forall i, N.testbit (x - 1) i =
      if i <? r then true else if i =? r then false else N.testbit x i).
  { intros i. rewrite Hx1.
    assert (O : N.ones r < 2 ^ (r + 1)) by (eapply lt_pow2_le; [apply ones_lt|lia]).
    destruct (N.ltb_spec i (r + 1)) as [L|L].
    - rewrite <- (N.mod_pow2_bits_low _ (r + 1) i) by lia.
      rewrite N.mul_comm, N.mod_add by (apply N.pow_nonzero; lia).
      rewrite N.mod_small by assumption. rewrite tb_ones.
      destruct (N.ltb_spec i r); [reflexivity|]. destruct (N.eqb_spec i r); [reflexivity|lia].
    - destruct (N.ltb_spec i r); [lia|]. destruct (N.eqb_spec i r); [lia|].
      replace i with (i - (r + 1) + (r + 1)) by lia. rewrite <- !tb_div.
      rewrite (N.mul_comm _ q), N.div_add by (apply N.pow_nonzero; lia).
      rewrite (N.div_small (N.ones r)) by assumption. rewrite N.add_0_l. reflexivity. }
  apply tb_eq. intros i. rewrite N.land_spec, N.ldiff_spec, tb_pow2, B.
  destruct (N.ltb_spec i r).
  - rewrite S2 by assumption. reflexivity.
  - destruct (N.eqb_spec i r); cbn [negb]; [reflexivity|].
    rewrite andb_true_r, andb_diag. reflexivity.
Qed.
