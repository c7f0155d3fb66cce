(** * Facts about bits of [N], machine words and word arrays (proof library) *)
From Verif Require Export Prelude.

Ltac dlia := Zify.zify; Z.to_euclidean_division_equations; lia.

#[global] Arguments N.add : simpl never.
#[global] Arguments N.sub : simpl never.
#[global] Arguments N.mul : simpl never.
#[global] Arguments N.pow : simpl never.
#[global] Arguments N.div : simpl never.
#[global] Arguments N.modulo : simpl never.
#[global] Arguments N.ones : simpl never.
#[global] Arguments N.shiftl : simpl never.
#[global] Arguments N.shiftr : simpl never.
#[global] Arguments N.land : simpl never.
#[global] Arguments N.lor : simpl never.
#[global] Arguments N.ldiff : simpl never.
#[global] Arguments N.testbit : simpl never.
#[global] Arguments N.of_nat : simpl never.
#[global] Arguments N.to_nat : simpl never.
#[global] Arguments N.succ : simpl never.

(** ** testbit *)
Lemma tb_ones n i : N.testbit (N.ones n) i = (i <? n).
Proof.
  destruct (N.ltb_spec i n).
  - apply N.ones_spec_low; lia.
  - apply N.ones_spec_high; lia.
Qed.

Lemma tb_shl x s i : N.testbit (N.shiftl x s) i = (s <=? i) && N.testbit x (i - s).
Proof.
  destruct (N.leb_spec s i).
  - rewrite N.shiftl_spec_high' by lia. reflexivity.
  - rewrite N.shiftl_spec_low by lia. reflexivity.
Qed.

Lemma tb_shr x s i : N.testbit (N.shiftr x s) i = N.testbit x (i + s).
Proof. apply N.shiftr_spec'. Qed.

Lemma tb_lt x n i : x < 2 ^ n -> n <= i -> N.testbit x i = false.
Proof.
  intros Hx Hi. destruct (N.eq_dec x 0) as [->|Hne]; [apply N.bits_0|].
  apply N.bits_above_log2.
  apply N.log2_lt_pow2; [lia|]. eapply N.lt_le_trans; [exact Hx|].
  apply N.pow_le_mono_r; lia.
Qed.

Lemma lt_pow2_tb x n : (forall i, n <= i -> N.testbit x i = false) -> x < 2 ^ n.
Proof.
  intros H. destruct (N.eq_dec x 0) as [->|Hne].
  - apply N.neq_0_lt_0, N.pow_nonzero; lia.
  - apply N.log2_lt_pow2; [lia|].
    destruct (N.lt_ge_cases (N.log2 x) n) as [|Hge]; [assumption|].
    specialize (H _ Hge). rewrite N.bit_log2 in H by assumption. discriminate.
Qed.

Lemma tb_mod x n i : N.testbit (x mod 2 ^ n) i = (i <? n) && N.testbit x i.
Proof.
  destruct (N.ltb_spec i n).
  - rewrite N.mod_pow2_bits_low by lia. reflexivity.
  - rewrite N.mod_pow2_bits_high by lia. reflexivity.
Qed.

Lemma tb_div x n i : N.testbit (x / 2 ^ n) i = N.testbit x (i + n).
Proof. rewrite <- N.shiftr_div_pow2. apply tb_shr. Qed.

Lemma tb_mul x n i : N.testbit (x * 2 ^ n) i = (n <=? i) && N.testbit x (i - n).
Proof. rewrite <- N.shiftl_mul_pow2. apply tb_shl. Qed.

Lemma tb_pow2 n i : N.testbit (2 ^ n) i = (i =? n).
Proof.
  destruct (N.eqb_spec i n) as [->|H]; [apply N.pow2_bits_true|].
  apply N.pow2_bits_false; lia.
Qed.

Lemma tb_w64 x i : N.testbit (w64 x) i = (i <? 64) && N.testbit x i.
Proof. unfold w64. rewrite N.land_spec, tb_ones. apply andb_comm. Qed.

Lemma tb_shl64 x s i :
  N.testbit (shl x s) i = (i <? 64) && ((s <=? i) && N.testbit x (i - s)).
Proof. unfold shl. rewrite tb_w64, tb_shl. reflexivity. Qed.

Lemma tb_shr64 x s i : N.testbit (shr x s) i = N.testbit x (i + s).
Proof. apply tb_shr. Qed.

Lemma tb_not64 x i : N.testbit (not64 x) i = (i <? 64) && negb (N.testbit x i).
Proof. unfold not64. rewrite N.ldiff_spec, tb_ones. reflexivity. Qed.

Lemma tb_eq a b : (forall i, N.testbit a i = N.testbit b i) -> a = b.
Proof. intros H. apply N.bits_inj. exact H. Qed.

#[export] Hint Rewrite N.land_spec N.lor_spec N.lxor_spec N.ldiff_spec tb_ones tb_shl
  tb_shr tb_mod tb_div tb_mul tb_pow2 tb_w64 tb_shl64 tb_shr64 tb_not64 N.bits_0
  andb_true_r andb_false_r orb_false_r orb_true_r andb_true_l andb_false_l
  orb_false_l orb_true_l : tb.

(** case split on one comparison at a time, then finish by lia *)
Ltac bcase1 :=
  match goal with
  | |- context [?a <? ?b] => destruct (N.ltb_spec a b)
  | |- context [?a <=? ?b] => destruct (N.leb_spec a b)
  | |- context [?a =? ?b] => destruct (N.eqb_spec a b)
  end.
Ltac bsimp := cbn [andb orb negb]; autorewrite with tb; cbn [andb orb negb].
Ltac fbits :=
  match goal with
  | |- ?a = ?b => try reflexivity
  end;
  repeat match goal with
  | |- context [N.testbit ?x ?i] =>
      match goal with
      | |- context [N.testbit x ?j] =>
          lazymatch j with i => fail | _ => replace j with i by lia end
      end
  end; try reflexivity.
Ltac bitblast := bsimp; repeat (bcase1; bsimp; try (exfalso; lia)); fbits.

Lemma w64_mod x : w64 x = x mod 2 ^ 64.
Proof. unfold w64. apply N.land_ones. Qed.
Lemma w64_lt x : w64 x < 2 ^ 64.
Proof. rewrite w64_mod. apply N.mod_lt. lia. Qed.
Lemma w64_small x : x < 2 ^ 64 -> w64 x = x.
Proof. intros. rewrite w64_mod. apply N.mod_small. assumption. Qed.
Lemma shl_lt x s : shl x s < 2 ^ 64.
Proof. apply w64_lt. Qed.
Lemma shr_lt x s n : x < 2 ^ n -> shr x s < 2 ^ n.
Proof.
  intros H. apply lt_pow2_tb. intros i Hi. rewrite tb_shr64.
  eapply tb_lt; [exact H|lia].
Qed.
Lemma shr_div x s : shr x s = x / 2 ^ s.
Proof. apply N.shiftr_div_pow2. Qed.
Lemma not64_lt x : not64 x < 2 ^ 64.
Proof. apply lt_pow2_tb. intros i Hi. rewrite tb_not64. bitblast. Qed.
Lemma land_lt_l x y n : x < 2 ^ n -> N.land x y < 2 ^ n.
Proof.
  intros H. apply lt_pow2_tb. intros i Hi. rewrite N.land_spec, (tb_lt x n i); auto.
Qed.
Lemma land_lt_r x y n : y < 2 ^ n -> N.land x y < 2 ^ n.
Proof. rewrite N.land_comm. apply land_lt_l. Qed.
Lemma lor_lt x y n : x < 2 ^ n -> y < 2 ^ n -> N.lor x y < 2 ^ n.
Proof.
  intros H1 H2. apply lt_pow2_tb. intros i Hi.
  rewrite N.lor_spec, (tb_lt x n i), (tb_lt y n i); auto.
Qed.
Lemma sub64_small a b : b <= a -> a < 2 ^ 64 -> sub64 a b = a - b.
Proof.
  intros. unfold sub64. rewrite (w64_small a), (w64_small b) by lia.
  rewrite w64_mod. replace (a + (2 ^ 64 - b)) with (a - b + 1 * 2 ^ 64) by lia.
  rewrite N.mod_add by lia. apply N.mod_small. lia.
Qed.
Lemma sub64_wrap a b : a < b -> b < 2 ^ 64 -> sub64 a b = 2 ^ 64 + a - b.
Proof.
  intros. unfold sub64. rewrite (w64_small a), (w64_small b) by lia.
  rewrite w64_small; lia.
Qed.
Lemma add64_small a b : a + b < 2 ^ 64 -> add64 a b = a + b.
Proof. intros. apply w64_small. assumption. Qed.
Lemma mul64_small a b : a * b < 2 ^ 64 -> mul64 a b = a * b.
Proof. intros. apply w64_small. assumption. Qed.
Lemma ones_lt n : N.ones n < 2 ^ n.
Proof. apply lt_pow2_tb. intros i Hi. rewrite tb_ones. bitblast. Qed.
Lemma pow2_pos n : 0 < 2 ^ n.
Proof. apply N.neq_0_lt_0, N.pow_nonzero. lia. Qed.
Lemma pow2_le a b : a <= b -> 2 ^ a <= 2 ^ b.
Proof. intros. apply N.pow_le_mono_r; lia. Qed.
Lemma lt_pow2_le x a b : x < 2 ^ a -> a <= b -> x < 2 ^ b.
Proof. intros. eapply N.lt_le_trans; [eassumption|]. apply pow2_le; assumption. Qed.

Lemma shlU_ok x s : s < 64 -> shlU x s = Ok (shl x s).
Proof. intros. unfold shlU. destruct (N.ltb_spec s 64); [reflexivity|lia]. Qed.
Lemma shrU_ok x s : s < 64 -> shrU x s = Ok (shr x s).
Proof. intros. unfold shrU. destruct (N.ltb_spec s 64); [reflexivity|lia]. Qed.

(** ** lists indexed by N *)
Lemma lenN_nil {A} : lenN (@nil A) = 0. Proof. reflexivity. Qed.
Lemma lenN_cons {A} (a : A) l : lenN (a :: l) = 1 + lenN l.
Proof. unfold lenN. cbn [length]. lia. Qed.
Lemma lenN_app {A} (l l' : list A) : lenN (l ++ l') = lenN l + lenN l'.
Proof. unfold lenN. rewrite app_length. lia. Qed.
Lemma lenN_rep {A} (a : A) n : lenN (repN a n) = n.
Proof. unfold lenN, repN. rewrite repeat_length. lia. Qed.
Lemma lenN_map {A B} (f : A -> B) l : lenN (map f l) = lenN l.
Proof. unfold lenN. rewrite map_length. reflexivity. Qed.
#[export] Hint Rewrite @lenN_nil @lenN_cons @lenN_app @lenN_rep @lenN_map : lenN.


Lemma nthN_None {A} (l : list A) i : lenN l <= i -> nthN l i = None.
Proof. intros H. unfold nthN. apply nth_error_None. unfold lenN in H. lia. Qed.
Lemma nthN_Some {A} (l : list A) i : i < lenN l -> exists a, nthN l i = Some a.
Proof.
  intros H. unfold nthN. destruct (nth_error l (N.to_nat i)) eqn:E; [eauto|].
  apply nth_error_None in E. unfold lenN in H. lia.
Qed.
Lemma nthN_lt {A} (l : list A) i a : nthN l i = Some a -> i < lenN l.
Proof.
  unfold nthN. intros H. assert (nth_error l (N.to_nat i) <> None) by congruence.
  apply nth_error_Some in H0. unfold lenN. lia.
Qed.
Lemma nthN_In {A} (l : list A) i a : nthN l i = Some a -> In a l.
Proof. apply nth_error_In. Qed.
Lemma rd_nthN {A} (l : list A) i a : rd l i = Ok a <-> nthN l i = Some a.
Proof.
  unfold rd, nthN. split.
  - destruct (N.ltb_spec i (lenN l)); [|discriminate].
    destruct (nth_error l (N.to_nat i)); congruence.
  - intros H. pose proof (nthN_lt l i a H). destruct (N.ltb_spec i (lenN l)); [|lia].
    rewrite H. reflexivity.
Qed.
Lemma rd_oob {A} (l : list A) i : lenN l <= i -> rd l i = UB.
Proof. intros. unfold rd. destruct (N.ltb_spec i (lenN l)); [lia|reflexivity]. Qed.
Lemma nthN_app {A} (l l' : list A) i :
  nthN (l ++ l') i = if i <? lenN l then nthN l i else nthN l' (i - lenN l).
Proof.
  unfold nthN, lenN. destruct (N.ltb_spec i (N.of_nat (length l))).
  - apply nth_error_app1. lia.
  - rewrite nth_error_app2 by lia. f_equal. lia.
Qed.
Lemma nthN_app1 {A} (l l' : list A) i : i < lenN l -> nthN (l ++ l') i = nthN l i.
Proof. intros. rewrite nthN_app. destruct (N.ltb_spec i (lenN l)); [reflexivity|lia]. Qed.
Lemma nthN_app2 {A} (l l' : list A) i :
  lenN l <= i -> nthN (l ++ l') i = nthN l' (i - lenN l).
Proof. intros. rewrite nthN_app. destruct (N.ltb_spec i (lenN l)); [lia|reflexivity]. Qed.
Lemma nthN_snoc {A} (l : list A) a : nthN (l ++ [a]) (lenN l) = Some a.
Proof. rewrite nthN_app2 by lia. rewrite N.sub_diag. reflexivity. Qed.
Lemma nthN_0 {A} (a : A) l : nthN (a :: l) 0 = Some a.
Proof. reflexivity. Qed.
Lemma nthN_S {A} (a : A) l i : 0 < i -> nthN (a :: l) i = nthN l (i - 1).
Proof.
  intros. unfold nthN. replace (N.to_nat i) with (S (N.to_nat (i - 1))) by lia.
  reflexivity.
Qed.
Lemma nthN_cons {A} (a : A) l i :
  nthN (a :: l) i = if i =? 0 then Some a else nthN l (i - 1).
Proof.
  destruct (N.eqb_spec i 0) as [->|]; [reflexivity|]. apply nthN_S. lia.
Qed.
Lemma nthN_map {A B} (f : A -> B) l i : nthN (map f l) i = option_map f (nthN l i).
Proof. unfold nthN. apply nth_error_map. Qed.
Lemma nthN_rep {A} (a : A) n i : i < n -> nthN (repN a n) i = Some a.
Proof.
  intros. unfold nthN, repN.
  rewrite nth_error_repeat by lia. reflexivity.
Qed.
Lemma nthN_ext {A} (l l' : list A) : (forall i, nthN l i = nthN l' i) -> l = l'.
Proof.
  revert l'. induction l as [|a l IH]; intros [|b l'] H.
  - reflexivity.
  - specialize (H 0). discriminate.
  - specialize (H 0). discriminate.
  - pose proof (H 0) as H0. rewrite !nthN_0 in H0. f_equal; [congruence|].
    apply IH. intros i. specialize (H (i + 1)). rewrite !nthN_S in H by lia.
    replace (i + 1 - 1) with i in H by lia. exact H.
Qed.

Lemma length_set_nth {A} (l : list A) i a : length (set_nth l i a) = length l.
Proof. revert i. induction l; intros [|i]; cbn; auto. Qed.
Lemma nth_error_set_nth {A} (l : list A) i a j :
  (i < length l)%nat ->
  nth_error (set_nth l i a) j = if Nat.eqb j i then Some a else nth_error l j.
Proof.
  revert i j. induction l as [|x l IH]; intros [|i] [|j] H; cbn in *; try lia; auto.
  rewrite IH by lia. reflexivity.
Qed.
Lemma wr_ok {A} (l : list A) i a : i < lenN l -> wr l i a = Ok (set_nth l (N.to_nat i) a).
Proof. intros. unfold wr. destruct (N.ltb_spec i (lenN l)); [reflexivity|lia]. Qed.
Definition setN {A} (l : list A) (i : N) (a : A) := set_nth l (N.to_nat i) a.
Lemma lenN_setN {A} (l : list A) i a : lenN (setN l i a) = lenN l.
Proof. unfold lenN, setN. rewrite length_set_nth. reflexivity. Qed.
Lemma nthN_setN {A} (l : list A) i a j :
  i < lenN l -> nthN (setN l i a) j = if j =? i then Some a else nthN l j.
Proof.
  intros H. unfold nthN, setN. rewrite nth_error_set_nth by (unfold lenN in H; lia).
  destruct (N.eqb_spec j i) as [->|]; [rewrite Nat.eqb_refl; reflexivity|].
  destruct (Nat.eqb_spec (N.to_nat j) (N.to_nat i)); [lia|reflexivity].
Qed.
Lemma wr_setN {A} (l : list A) i a : i < lenN l -> wr l i a = Ok (setN l i a).
Proof. apply wr_ok. Qed.
Lemma Forall_setN {A} (P : A -> Prop) l i a : Forall P l -> P a -> Forall P (setN l i a).
Proof.
  unfold setN. generalize (N.to_nat i). intros k Hl Ha. revert k.
  induction Hl; intros [|k]; cbn; constructor; auto.
Qed.
Lemma Forall_nthN {A} (P : A -> Prop) l i a : Forall P l -> nthN l i = Some a -> P a.
Proof. intros H E. rewrite Forall_forall in H. apply H. eapply nthN_In; eauto. Qed.
Lemma Forall_rep {A} (P : A -> Prop) a n : P a -> Forall P (repN a n).
Proof. intros. unfold repN. generalize (N.to_nat n). intros k. induction k; cbn; auto. Qed.

Lemma length_seqN s n : length (seqN s n) = n.
Proof. revert s. induction n; cbn; auto. Qed.
Lemma nth_error_seqN s n i : (i < n)%nat -> nth_error (seqN s n) i = Some (s + N.of_nat i).
Proof.
  revert s i. induction n; intros s [|i] H; cbn [seqN nth_error]; try lia.
  - f_equal. lia.
  - rewrite IHn by lia. f_equal. lia.
Qed.
Lemma lenN_range n : lenN (range n) = n.
Proof. unfold lenN, range. rewrite length_seqN. lia. Qed.
Lemma nthN_range n i : i < n -> nthN (range n) i = Some i.
Proof. intros. unfold nthN, range. rewrite nth_error_seqN by lia. f_equal. lia. Qed.
Lemma In_seqN s n x : In x (seqN s n) <-> s <= x < s + N.of_nat n.
Proof. revert s. induction n; intros s; cbn [seqN In]; [lia|]. rewrite IHn. lia. Qed.
Lemma seqN_app s n m : seqN s (n + m) = seqN s n ++ seqN (s + N.of_nat n) m.
Proof.
  revert s. induction n; intros s; cbn [seqN app Nat.add].
  - replace (s + N.of_nat 0) with s by lia. reflexivity.
  - rewrite IHn. do 3 f_equal. lia.
Qed.
Lemma range_S n : range (n + 1) = range n ++ [n].
Proof.
  unfold range. replace (N.to_nat (n + 1)) with (N.to_nat n + 1)%nat by lia.
  rewrite seqN_app. cbn [seqN]. do 2 f_equal. lia.
Qed.

(** ** word arrays as one big number *)
Definition words (ws : list N) : Prop := Forall (fun w => w < 2 ^ 64) ws.
Definition wd (ws : list N) (i : N) : N := nth (N.to_nat i) ws 0.

Fixpoint wval (ws : list N) : N :=
  match ws with
  | [] => 0
  | w :: r => N.lor w (N.shiftl (wval r) 64)
  end.

Lemma wd_nthN ws i : i < lenN ws -> nthN ws i = Some (wd ws i).
Proof. intros. unfold nthN, wd. apply nth_error_nth'. unfold lenN in H. lia. Qed.
Lemma wd_oob ws i : lenN ws <= i -> wd ws i = 0.
Proof. intros. unfold wd. apply nth_overflow. unfold lenN in H. lia. Qed.
Lemma rd_wd ws i : i < lenN ws -> rd ws i = Ok (wd ws i).
Proof. intros. apply rd_nthN, wd_nthN, H. Qed.
Lemma wd_lt ws i : words ws -> wd ws i < 2 ^ 64.
Proof.
  intros H. destruct (N.lt_ge_cases i (lenN ws)) as [L|L].
  - apply (Forall_nthN (fun w => w < 2 ^ 64) ws i); [exact H|apply wd_nthN, L].
  - rewrite wd_oob by assumption. apply pow2_pos.
Qed.
Lemma wd_setN ws i a j : i < lenN ws -> wd (setN ws i a) j = if j =? i then a else wd ws j.
Proof.
  intros H. destruct (N.lt_ge_cases j (lenN ws)) as [L|L].
  - assert (Some (wd (setN ws i a) j) = if j =? i then Some a else Some (wd ws j)) as E.
    { rewrite <- !wd_nthN by (rewrite ?lenN_setN; lia). apply nthN_setN, H. }
    destruct (j =? i); congruence.
  - rewrite !wd_oob by (rewrite ?lenN_setN; lia). destruct (N.eqb_spec j i); [lia|reflexivity].
Qed.
Lemma wd_app ws ws' i :
  wd (ws ++ ws') i = if i <? lenN ws then wd ws i else wd ws' (i - lenN ws).
Proof.
  unfold wd, lenN. destruct (N.ltb_spec i (N.of_nat (length ws))).
  - apply app_nth1. lia.
  - rewrite app_nth2 by lia. f_equal. lia.
Qed.
Lemma words_setN ws i a : words ws -> a < 2 ^ 64 -> words (setN ws i a).
Proof. intros. apply Forall_setN; assumption. Qed.

Lemma wval_tb ws i :
  words ws -> N.testbit (wval ws) i = N.testbit (wd ws (i / 64)) (i mod 64).
Proof.
  intros H. revert i. induction H as [|w r Hw Hr IH]; intros i; cbn [wval].
  - unfold wd. destruct (N.to_nat (i / 64)); reflexivity.
  - rewrite N.lor_spec, tb_shl. destruct (N.leb_spec 64 i).
    + rewrite (tb_lt w 64 i) by (assumption || lia). cbn [orb andb]. rewrite IH.
      unfold wd. replace (N.to_nat (i / 64)) with (S (N.to_nat ((i - 64) / 64))) by dlia.
      cbn [nth]. f_equal. dlia.
    + rewrite andb_false_l, orb_false_r. unfold wd.
      replace (i / 64) with 0 by dlia. cbn [nth]. f_equal. dlia.
Qed.

Lemma wval_lt ws : words ws -> wval ws < 2 ^ (64 * lenN ws).
Proof.
  intros H. apply lt_pow2_tb. intros i Hi. rewrite wval_tb by assumption.
  rewrite wd_oob by dlia. apply N.bits_0.
Qed.

Lemma wd_tb ws i j : words ws ->
  N.testbit (wd ws i) j = (j <? 64) && N.testbit (wval ws) (64 * i + j).
Proof.
  intros H. destruct (N.ltb_spec j 64); cbn [andb].
  - rewrite wval_tb by assumption. f_equal; [f_equal; dlia|dlia].
  - eapply tb_lt; [apply wd_lt, H|assumption].
Qed.

Lemma words_ext ws ws' : words ws -> words ws' -> lenN ws = lenN ws' ->
  wval ws = wval ws' -> ws = ws'.
Proof.
  intros H H' L E. apply nthN_ext. intros i.
  destruct (N.lt_ge_cases i (lenN ws)) as [K|K].
  - rewrite !wd_nthN by lia. f_equal. apply tb_eq. intros j.
    rewrite !wd_tb by assumption. congruence.
  - rewrite !nthN_None by lia. reflexivity.
Qed.

Lemma wval_rep0 n : wval (repN 0 n) = 0.
Proof.
  unfold repN. induction (N.to_nat n); cbn [repeat wval]; [reflexivity|]. rewrite IHn0. reflexivity.
Qed.

Lemma bind_ok {A B} (r : res A) (f : A -> res B) b :
  bind r f = Ok b -> exists a, r = Ok a /\ f a = Ok b.
Proof. destruct r; cbn; intros; try discriminate. eauto. Qed.

(** value of a field of a big number *)
Definition field (V pos len : N) : N := (V / 2 ^ pos) mod 2 ^ len.
Lemma tb_field V pos len i :
  N.testbit (field V pos len) i = (i <? len) && N.testbit V (i + pos).
Proof. unfold field. rewrite tb_mod, tb_div. reflexivity. Qed.
#[export] Hint Rewrite tb_field : tb.
Lemma field_lt V pos len : field V pos len < 2 ^ len.
Proof. unfold field. apply N.mod_lt. apply N.pow_nonzero. lia. Qed.
