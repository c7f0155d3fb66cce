(** * Proofs about packing, searching, decimal numbers, lines and tokens *)
From Verif Require Import Prelude BitFacts Spec M_Text P_BitProg P_EF P_Text.
Ltac Zify.zify_post_hook ::= Z.to_euclidean_division_equations.

(** ** pack / unpack *)
Lemma unpack_pack p b : p < 2 ^ 32 -> b < 2 ^ 32 -> unpack (pack p b) = (p, b).
Proof.
  intros Hp Hb. unfold unpack, pack, union_set, f32.
  change (sub64 (shl 1 32) 1) with (N.ones 32).
  change (shr 0 32) with 0. change (shl 0 32) with 0. rewrite N.lor_0_l.
  rewrite !N.land_ones.
  rewrite (N.mod_small b) by exact Hb.
  assert (E : shr b 32 = 0) by (rewrite shr_div; apply N.div_small; exact Hb).
  rewrite E. change (shl 0 32) with 0. rewrite N.lor_0_l.
  rewrite (N.mod_small p) by exact Hp.
  assert (ES : shl b 32 = b * 2 ^ 32).
  { unfold shl. rewrite w64_small by (rewrite N.shiftl_mul_pow2; lia). apply N.shiftl_mul_pow2. }
  rewrite ES.
  assert (EA : N.lor (b * 2 ^ 32) p = b * 2 ^ 32 + p).
  { rewrite <- N.shiftl_mul_pow2. apply tb_eq. intros i.
    rewrite N.lor_spec.
    destruct (N.ltb_spec i 32) as [Hi|Hi].
    - rewrite N.shiftl_spec_low by exact Hi. cbn [orb].
      rewrite <- (N.mod_pow2_bits_low (N.shiftl b 32 + p) 32 i) by exact Hi.
      rewrite N.shiftl_mul_pow2. rewrite N.add_comm, N.mod_add by discriminate. rewrite N.mod_small by exact Hp. reflexivity.
    - rewrite N.shiftl_spec_high' by exact Hi.
      replace (N.testbit p i) with false
        by (symmetry; rewrite <- (N.mod_small p (2 ^ 32)) by exact Hp; apply N.mod_pow2_bits_high; exact Hi).
      rewrite orb_false_r.
      replace i with (i - 32 + 32) at 2 by lia. rewrite <- N.div_pow2_bits.
      rewrite N.shiftl_mul_pow2. rewrite N.add_comm, N.div_add by discriminate. rewrite N.div_small by exact Hp. reflexivity. }
  rewrite EA. rewrite shr_div.
  f_equal.
  - rewrite N.mod_mod by discriminate. rewrite N.add_comm, N.mod_add by discriminate. apply N.mod_small. exact Hp.
  - rewrite N.add_comm, N.div_add by discriminate. rewrite (N.div_small p) by exact Hp.
    rewrite N.add_0_l. apply N.mod_small. exact Hb.
Qed.
Lemma pack_lt p b : p < 2 ^ 32 -> b < 2 ^ 32 -> pack p b < 2 ^ 64.
Proof.
  intros Hp Hb. unfold pack, union_set, f32.
  change (shr 0 32) with 0. change (shl 0 32) with 0. rewrite !N.lor_0_l, !N.land_ones.
  rewrite (N.mod_small b) by exact Hb.
  assert (E : shr b 32 = 0) by (rewrite shr_div; apply N.div_small; exact Hb).
  rewrite E. change (shl 0 32) with 0. rewrite N.lor_0_l. rewrite (N.mod_small p) by exact Hp.
  destruct (N.eq_dec (N.lor (shl b 32) p) 0) as [->|H0]; [reflexivity|].
  apply N.log2_lt_pow2; [lia|]. rewrite N.log2_lor.
  apply N.max_lub_lt.
  - destruct (N.eq_dec (shl b 32) 0) as [->|]; [reflexivity|]. apply N.log2_lt_pow2; [lia|]. apply w64_lt.
  - destruct (N.eq_dec p 0) as [->|]; [reflexivity|]. apply N.log2_lt_pow2; [lia|]. lia.
Qed.

(** ** binary search *)
Definition strictly_sorted (s : list (N * N)) : Prop :=
  forall i j a b, i < j -> nthN s i = Some a -> nthN s j = Some b -> fst a < fst b.

Lemma add64_le a b : a + b < 2 ^ 64 -> add64 a b = a + b.
Proof. intros. unfold add64. apply w64_small. assumption. Qed.

(* hi + 1 = number of candidates right end; x is not left of lo nor right of hi *)
Lemma bsearch_ok s x : lenN s < 2 ^ 63 -> strictly_sorted s -> forall fuel lo hi,
  (N.to_nat (hi + 1 - lo) < fuel)%nat -> hi < lenN s -> lo <= hi + 1 ->
  (0 < lo \/ exists a, nthN s 0 = Some a /\ fst a <= x) ->
  (forall i a, i < lo -> nthN s i = Some a -> fst a < x) ->
  (forall i a, hi < i -> nthN s i = Some a -> x < fst a) ->
  exists r, bsearch fuel s x lo hi = Ok r /\
    match r with Some v => In (x, v) s | None => ~ In x (map fst s) end.
Proof.
  intros HL Hs. induction fuel as [|f IH]; intros lo hi Hf Hhi Hlo Hx0 Hl Hr; [lia|].
  cbn [bsearch]. destruct (lo <=? hi) eqn:E.
  - apply N.leb_le in E.
    set (mid := lo + (hi - lo) / 2).
    assert (Emid : add64 lo (shr (sub64 hi lo) 1) = mid).
    { rewrite sub64_le by lia. rewrite shr_div. change (2 ^ 1) with 2. apply add64_le. lia. }
    rewrite Emid.
    assert (Hm : lo <= mid <= hi) by (subst mid; lia).
    destruct (nthN_Some s mid ltac:(lia)) as [[v r] Hv].
    rewrite (proj2 (rd_nthN _ _ _) Hv). cbn [bind].
    destruct (v =? x) eqn:E1.
    + apply N.eqb_eq in E1. subst v. eexists. split; [reflexivity|]. cbn. exact (nthN_In _ _ _ Hv).
    + apply N.eqb_neq in E1. destruct (x <? v) eqn:E2.
      * apply N.ltb_lt in E2.
        assert (Hm0 : 0 < mid).
        { destruct (N.eq_dec mid 0) as [Hz|]; [|lia]. exfalso.
          destruct Hx0 as [|(a & Ha & Hle)]; [lia|].
          rewrite Hz in Hv. rewrite Ha in Hv. injection Hv as ->. cbn in Hle. lia. }
        rewrite sub64_le by lia.
        apply IH; [lia | lia | lia | assumption | assumption | ].
        intros i a Hi Ha. destruct (N.eq_dec i mid) as [->|].
        -- rewrite Hv in Ha. injection Ha as <-. cbn. lia.
        -- assert (v < fst a) by (exact (Hs mid i _ _ ltac:(lia) Hv Ha)). lia.
      * apply N.ltb_ge in E2. rewrite add64_le by lia.
        apply IH; [lia | lia | lia | lia | | assumption].
        intros i a Hi Ha. destruct (N.eq_dec i mid) as [->|].
        -- rewrite Hv in Ha. injection Ha as <-. cbn. lia.
        -- assert (fst a < v) by (exact (Hs i mid _ _ ltac:(lia) Ha Hv)). lia.
  - apply N.leb_gt in E. exists None. split; [reflexivity|].
    intros Hin. apply in_map_iff in Hin. destruct Hin as (a & Ea & Hin).
    apply In_nth_error in Hin. destruct Hin as (k & Hk).
    assert (Hn : nthN s (N.of_nat k) = Some a) by (unfold nthN; rewrite Nat2N.id; exact Hk).
    destruct (N.lt_ge_cases (N.of_nat k) lo) as [H|H].
    + specialize (Hl _ _ H Hn). lia.
    + specialize (Hr (N.of_nat k) a ltac:(lia) Hn). lia.
Qed.

Lemma binary_search_ok s x : lenN s < 2 ^ 63 -> strictly_sorted s ->
  (exists a, nthN s 0 = Some a /\ fst a <= x) ->
  exists r, binary_search s (lenN s) x = Ok r /\
    match r with Some v => In (x, v) s | None => ~ In x (map fst s) end.
Proof.
  intros HL Hs (a & Ha & Hle). unfold binary_search.
  pose proof (nthN_lt _ _ _ Ha).
  rewrite sub64_le by lia.
  apply bsearch_ok; try assumption; try lia.
  - unfold lenN. lia.
  - right. exists a. split; assumption.
  - intros i b Hi Hb. apply nthN_lt in Hb. lia.
Qed.

Lemma nthN_tl {A} (l : list A) a i : nthN (a :: l) (i + 1) = nthN l i.
Proof. rewrite nthN_cons. destruct (i + 1 =? 0) eqn:E; [lia|]. f_equal. lia. Qed.

(** ** decimal *)
Lemma dec_value_app a b : dec_value (a ++ b) = fold_left (fun a d => 10 * a + (d - 48)) b (dec_value a).
Proof. unfold dec_value. apply fold_left_app. Qed.

Lemma dec_digits_ok fuel : forall n acc, n < 10 ^ N.of_nat fuel -> (0 < fuel)%nat ->
  exists ds, dec_digits fuel n acc = ds ++ acc /\ dec_value ds = n /\ ds <> [] /\ Forall (fun c => is_digit c = true) ds.
Proof.
  induction fuel as [|f IH]; intros n acc Hn Hf; [lia|].
  cbn [dec_digits].
  assert (Hd : is_digit (48 + n mod 10) = true).
  { unfold is_digit. assert (n mod 10 < 10) by (apply N.mod_lt; discriminate). lia. }
  destruct (n / 10 =? 0) eqn:E.
  - apply N.eqb_eq in E. exists [48 + n mod 10]. split; [reflexivity|]. split; [|split; [discriminate|constructor; [assumption|constructor]]].
    unfold dec_value. cbn [fold_left]. lia.
  - apply N.eqb_neq in E.
    destruct f as [|f].
    { exfalso. change (10 ^ N.of_nat 1) with 10 in Hn. apply E. apply N.div_small. exact Hn. }
    destruct (IH (n / 10) ((48 + n mod 10) :: acc)) as (ds & H1 & H2 & H3 & H4); [|lia|].
    { replace (N.of_nat (S (S f))) with (N.succ (N.of_nat (S f))) in Hn by lia. rewrite N.pow_succ_r' in Hn.
      apply N.div_lt_upper_bound; [discriminate|exact Hn]. }
    exists (ds ++ [48 + n mod 10]). split; [|split; [|split]].
    + rewrite H1. rewrite <- app_assoc. reflexivity.
    + rewrite dec_value_app. rewrite H2. cbn [fold_left]. lia.
    + destruct ds; discriminate.
    + apply Forall_app. split; [assumption|constructor; [assumption|constructor]].
Qed.
Lemma to_string_ok n : n < 2 ^ 64 ->
  dec_value (to_string n) = n /\ to_string n <> [] /\ Forall (fun c => is_digit c = true) (to_string n).
Proof.
  intros Hn. unfold to_string.
  destruct (dec_digits_ok 20 n []) as (ds & H1 & H2 & H3 & H4); [|lia|].
  { eapply N.lt_trans; [exact Hn|]. vm_compute. reflexivity. }
  rewrite app_nil_r in H1. rewrite H1. auto.
Qed.

Lemma read_digits_ok ds : Forall (fun c => is_digit c = true) ds -> forall pre c post acc fuel, (length ds < fuel)%nat ->
  is_digit c = false ->
  read_digits fuel (pre ++ ds ++ c :: post) (lenN pre) acc = Ok (fold_left (fun a d => 10 * a + (d - 48)) ds acc).
Proof.
  induction ds as [|d ds IH]; intros HF pre c post acc fuel Hf Hc; (destruct fuel as [|f]; [cbn in Hf; lia|]).
  - cbn [read_digits app]. rewrite rd_app_at. cbn [bind]. rewrite Hc. reflexivity.
  - apply Forall_cons_iff in HF. destruct HF as [Hd HF].
    cbn [read_digits app]. rewrite rd_app_at. cbn [bind]. rewrite Hd.
    replace (pre ++ d :: ds ++ c :: post) with ((pre ++ [d]) ++ ds ++ c :: post) by (rewrite <- app_assoc; reflexivity).
    replace (lenN pre + 1) with (lenN (pre ++ [d])) by (rewrite lenN_app, lenN_cons, lenN_nil; lia).
    rewrite IH by (assumption || (cbn in Hf; lia)). reflexivity.
Qed.

Lemma strtoull_ok pre ds c post : ds <> [] -> Forall (fun c => is_digit c = true) ds -> is_digit c = false ->
  dec_value ds < 2 ^ 64 -> strtoull (pre ++ ds ++ c :: post) (lenN pre) = Ok (dec_value ds).
Proof.
  intros Hne HF Hc Hv. unfold strtoull. destruct ds as [|d ds]; [congruence|].
  assert (Hd : is_digit d = true) by (inversion HF; assumption).
  assert (Hs : skip_space (S (length (pre ++ (d :: ds) ++ c :: post))) (pre ++ (d :: ds) ++ c :: post) (lenN pre) = Ok (lenN pre)).
  { cbn [skip_space app]. rewrite rd_app_at. cbn [bind].
    replace (is_space d) with false; [reflexivity|]. unfold is_digit, is_space in *. lia. }
  rewrite Hs. cbn [bind app]. rewrite rd_app_at. cbn [bind].
  assert (E1 : (d =? 45) = false) by (unfold is_digit in Hd; lia).
  assert (E2 : (d =? 43) = false) by (unfold is_digit in Hd; lia).
  rewrite E1, E2. cbn [orb].
  change (pre ++ d :: ds ++ c :: post) with (pre ++ (d :: ds) ++ c :: post).
  rewrite (read_digits_ok (d :: ds) HF) by (assumption || (rewrite app_length; cbn [length]; rewrite app_length; cbn [length]; lia)).
  cbn [bind]. fold (dec_value (d :: ds)).
  destruct (2 ^ 64 <=? dec_value (d :: ds)) eqn:E; [lia|reflexivity].
Qed.

(** ** count lines *)
Lemma seek_end_ok sep w : ~ In sep w -> forall pre post fuel end_, (length w < fuel)%nat ->
  (post = [] /\ end_ = lenN pre + lenN w \/ (exists q, post = sep :: q) /\ lenN pre + lenN w < end_) ->
  forall tail, seek_end fuel (pre ++ w ++ post ++ tail) (lenN pre) end_ sep = Ok (lenN pre + lenN w).
Proof.
  induction w as [|c w IH]; intros Hn pre post fuel end_ Hf Hp tail; (destruct fuel as [|f]; [cbn in Hf; lia|]).
  - cbn [seek_end app]. rewrite lenN_nil, N.add_0_r in *. destruct Hp as [[-> ->]|[(q & ->) Hlt]].
    + rewrite N.eqb_refl. reflexivity.
    + destruct (lenN pre =? end_) eqn:E; [lia|]. cbn [app]. rewrite rd_app_at. cbn [bind]. rewrite N.eqb_refl. reflexivity.
  - cbn [seek_end app]. rewrite lenN_cons in *.
    destruct (lenN pre =? end_) eqn:E; [destruct Hp as [[_ ->]|[_ Hlt]]; lia|].
    rewrite rd_app_at. cbn [bind].
    destruct (c =? sep) eqn:E2; [apply N.eqb_eq in E2; exfalso; apply Hn; left; exact E2|].
    replace (pre ++ c :: w ++ post ++ tail) with ((pre ++ [c]) ++ w ++ post ++ tail) by (rewrite <- app_assoc; reflexivity).
    replace (lenN pre + 1) with (lenN (pre ++ [c])) by (rewrite lenN_app, lenN_cons, lenN_nil; lia).
    rewrite IH; [| intro; apply Hn; right; assumption | cbn in Hf; lia |].
    + f_equal. rewrite lenN_app, lenN_cons, lenN_nil. lia.
    + rewrite lenN_app, lenN_cons, lenN_nil. destruct Hp as [[-> ->]|[Hq Hlt]]; [left|right]; split; trivial; lia.
Qed.

Lemma parse_format gram count : ~ In 9 gram -> count < 2 ^ 64 ->
  parse_count_line (format_count_line gram count) = Ok ((0, lenN gram), count).
Proof.
  intros Hg Hc. unfold parse_count_line, split_upon_check_end, format_count_line, c_str.
  destruct (to_string_ok count Hc) as (HV & HN & HD).
  replace ((gram ++ [c_tab] ++ to_string count) ++ [0]) with ([] ++ gram ++ ([9] ++ to_string count) ++ [0]) by (rewrite <- !app_assoc; reflexivity).
  assert (HP : 0 < lenN (to_string count)) by (destruct (to_string count); [congruence|rewrite lenN_cons; lia]).
  change 0 with (lenN (@nil N)) at 3.
  rewrite (seek_end_ok c_tab gram Hg [] ([9] ++ to_string count)).
  - cbn [bind snd]. rewrite lenN_nil, N.add_0_l.
    destruct (lenN gram =? lenN (gram ++ [c_tab] ++ to_string count)) eqn:E.
    { rewrite !lenN_app, lenN_cons, lenN_nil in E. lia. }
    replace ([] ++ gram ++ ([9] ++ to_string count) ++ [0]) with ((gram ++ [9]) ++ to_string count ++ 0 :: []) by (rewrite <- !app_assoc; reflexivity).
    replace (lenN gram + 1) with (lenN (gram ++ [9])) by (rewrite lenN_app, lenN_cons, lenN_nil; lia).
    rewrite strtoull_ok; [| assumption | assumption | reflexivity | rewrite HV; assumption].
    cbn [bind]. rewrite HV. reflexivity.
  - rewrite !app_length. cbn. lia.
  - right. split; [eexists; reflexivity|]. rewrite !lenN_app, !lenN_cons, lenN_nil. lia.
Qed.
Lemma parse_no_tab gram : ~ In 9 gram -> parse_count_line gram = Ok ((0, lenN gram), 0).
Proof.
  intros Hg. unfold parse_count_line, split_upon_check_end, c_str.
  pose proof (seek_end_ok c_tab gram Hg [] [] (S (length (gram ++ [0]))) (lenN gram)) as H.
  cbn [app] in H. change (lenN (@nil N)) with 0 in H. rewrite N.add_0_l in H.
  rewrite H.
  - cbn [bind snd]. rewrite N.eqb_refl. reflexivity.
  - rewrite app_length. cbn. lia.
  - left. split; reflexivity.
Qed.

(** ** forward token iterator *)
Definition no_sep (w : list N) : Prop := ~ In 32 w /\ ~ In 10 w.
Lemma fwd_seek_ok w : no_sep w -> forall pre post fuel end_, (length w < fuel)%nat ->
  lenN pre + lenN w <= end_ -> (lenN pre + lenN w < end_ -> exists c q, post = c :: q /\ (c = 32 \/ c = 10)) ->
  fwd_seek fuel (pre ++ w ++ post) (lenN pre) end_ = Ok (lenN pre + lenN w).
Proof.
  induction w as [|c w IH]; intros [Hn1 Hn2] pre post fuel end_ Hf He Hp; (destruct fuel as [|f]; [cbn in Hf; lia|]).
  - cbn [fwd_seek app]. rewrite lenN_nil, N.add_0_r in *. destruct (lenN pre =? end_) eqn:E; [reflexivity|].
    destruct (Hp ltac:(lia)) as (c & q & -> & Hc). rewrite rd_app_at. cbn [bind].
    destruct Hc as [-> | ->]; reflexivity.
  - cbn [fwd_seek app]. rewrite lenN_cons in *. destruct (lenN pre =? end_) eqn:E; [lia|].
    rewrite rd_app_at. cbn [bind].
    destruct (c =? c_space) eqn:E1; [apply N.eqb_eq in E1; exfalso; apply Hn1; left; exact E1|].
    destruct (c =? c_nl) eqn:E2; [apply N.eqb_eq in E2; exfalso; apply Hn2; left; exact E2|]. cbn [orb].
    replace (pre ++ c :: w ++ post) with ((pre ++ [c]) ++ w ++ post) by (rewrite <- app_assoc; reflexivity).
    replace (lenN pre + 1) with (lenN (pre ++ [c])) by (rewrite lenN_app, lenN_cons, lenN_nil; lia).
    rewrite IH.
    + f_equal. rewrite lenN_app, lenN_cons, lenN_nil. lia.
    + split; intro; [apply Hn1 | apply Hn2]; right; assumption.
    + cbn in Hf. lia.
    + rewrite lenN_app, lenN_cons, lenN_nil. lia.
    + rewrite lenN_app, lenN_cons, lenN_nil. intros. apply Hp. lia.
Qed.

(* the tokens of any text: words w0 sep w1 sep ... ; every word free of separators *)
Lemma fwd_all_join ws : Forall no_sep ws -> forall pre post fuel,
  (length (join ws) + 1 < fuel)%nat -> (ws = [] \/ last ws [] <> []) ->
  exists brs, fwd_all fuel (pre ++ join ws ++ post) (lenN pre, lenN pre + lenN (join ws)) = Ok brs /\
    Forall2 (fun br w => holds_text (pre ++ join ws ++ post) br w) brs ws.
Proof.
  induction ws as [|w ws IH]; intros HF pre post fuel Hf Hlast.
  - destruct fuel as [|f]; [lia|]. exists []. cbn [fwd_all join]. rewrite lenN_nil, N.add_0_r. unfold fwd_has_next. cbn [fst snd]. rewrite N.ltb_irrefl. split; [reflexivity|constructor].
  - destruct Hlast as [|Hlast]; [discriminate|].
    apply Forall_cons_iff in HF. destruct HF as [Hw HF].
    destruct fuel as [|f]; [lia|].
    destruct ws as [|w2 ws].
    + cbn [join last] in *. assert (Hpos : 0 < lenN w) by (destruct w; [congruence|rewrite lenN_cons; lia]).
      cbn [fwd_all]. unfold fwd_has_next. cbn [fst snd]. destruct (lenN pre <? lenN pre + lenN w) eqn:E; [|lia].
      unfold fwd_next. cbn [fst snd]. rewrite fwd_seek_ok; [| assumption | rewrite !app_length; lia | lia | lia]. cbn [bind].
      destruct f as [|f]; [lia|]. cbn [fwd_all]. unfold fwd_has_next. cbn [fst snd].
      destruct (lenN pre + lenN w + 1 <? lenN pre + lenN w) eqn:E2; [lia|]. cbn [bind].
      eexists. split; [reflexivity|]. constructor; [|constructor]. apply holds_mid; reflexivity.
    + rewrite join_cons in * by discriminate. rewrite lenN_app, lenN_cons. rewrite app_length in Hf. cbn [length] in Hf.
      cbn [fwd_all]. unfold fwd_has_next. cbn [fst snd].
      destruct (lenN pre <? lenN pre + (lenN w + (1 + lenN (join (w2 :: ws))))) eqn:E; [|lia].
      unfold fwd_next. cbn [fst snd].
      replace (pre ++ (w ++ 32 :: join (w2 :: ws)) ++ post) with (pre ++ w ++ (32 :: join (w2 :: ws) ++ post)) by (rewrite <- !app_assoc; reflexivity).
      rewrite fwd_seek_ok; [| assumption | rewrite !app_length; lia | lia | intros _; eexists _, _; split; [reflexivity|left; reflexivity]]. cbn [bind].
      destruct (IH HF (pre ++ w ++ [32]) post f) as (brs & H1 & H2).
      * lia.
      * right. exact Hlast.
      * replace ((pre ++ w ++ [32]) ++ join (w2 :: ws) ++ post) with (pre ++ w ++ 32 :: join (w2 :: ws) ++ post) in * by (rewrite <- !app_assoc; reflexivity).
        rewrite !lenN_app, lenN_cons, lenN_nil in H1.
        replace (lenN pre + (lenN w + (1 + 0))) with (lenN pre + lenN w + 1) in H1 by lia.
        replace (lenN pre + (lenN w + (1 + lenN (join (w2 :: ws))))) with (lenN pre + lenN w + 1 + lenN (join (w2 :: ws))) by lia.
        rewrite H1. cbn [bind]. eexists. split; [reflexivity|]. constructor; [|assumption].
        apply holds_mid; reflexivity.
Qed.

(** ** backward token iterator *)
Lemma bwd_seek_ok w : ~ In 32 w -> forall pre0 post begin_ fuel, (length w < fuel)%nat ->
  begin_ < lenN pre0 -> lenN pre0 + lenN w < 2 ^ 64 ->
  bwd_seek fuel (pre0 ++ 32 :: w ++ post) begin_ (lenN pre0 + lenN w) = Ok (lenN pre0).
Proof.
  induction w as [|c w IH] using rev_ind; intros Hn pre0 post begin_ fuel Hf H1 H2;
    (destruct fuel as [|f]; [lia|]); cbn [bwd_seek].
  - rewrite lenN_nil, N.add_0_r. destruct (lenN pre0 =? begin_) eqn:E; [lia|]. rewrite rd_app_at. reflexivity.
  - rewrite app_length in Hf. cbn [length] in Hf. rewrite lenN_app, lenN_cons, lenN_nil in *.
    destruct (lenN pre0 + (lenN w + (1 + 0)) =? begin_) eqn:E; [lia|].
    replace (pre0 ++ 32 :: (w ++ [c]) ++ post) with ((pre0 ++ 32 :: w) ++ c :: post) by (rewrite <- !app_assoc; reflexivity).
    rewrite rd_app_at' by (rewrite lenN_app, lenN_cons; lia). cbn [bind].
    destruct (c =? c_space) eqn:E2.
    { apply N.eqb_eq in E2. exfalso. apply Hn. apply in_or_app. right. left. exact E2. }
    rewrite sub64_le by lia.
    replace ((pre0 ++ 32 :: w) ++ c :: post) with (pre0 ++ 32 :: w ++ c :: post) by (rewrite <- app_assoc; reflexivity).
    replace (lenN pre0 + (lenN w + (1 + 0)) - 1) with (lenN pre0 + lenN w) by lia.
    apply IH; [intro; apply Hn; apply in_or_app; left; assumption | lia | lia | lia].
Qed.
Lemma bwd_seek_first w : ~ In 32 w -> w <> [] -> forall pre post fuel, (length w <= fuel)%nat ->
  lenN pre + lenN w < 2 ^ 64 ->
  bwd_seek fuel (pre ++ w ++ post) (lenN pre) (lenN pre + lenN w - 1) = Ok (lenN pre).
Proof.
  induction w as [|c w IH] using rev_ind; intros Hn Hne pre post fuel Hf H2; [congruence|].
  rewrite app_length in Hf. cbn [length] in Hf. rewrite lenN_app, lenN_cons, lenN_nil in *.
  destruct fuel as [|f]; [lia|]. cbn [bwd_seek].
  destruct (lenN pre + (lenN w + (1 + 0)) - 1 =? lenN pre) eqn:E.
  { apply N.eqb_eq in E. f_equal. lia. }
  apply N.eqb_neq in E.
  replace (pre ++ (w ++ [c]) ++ post) with ((pre ++ w) ++ c :: post) by (rewrite <- !app_assoc; reflexivity).
  rewrite rd_app_at' by (rewrite lenN_app; lia). cbn [bind].
  destruct (c =? c_space) eqn:E2.
  { apply N.eqb_eq in E2. exfalso. apply Hn. apply in_or_app. right. left. exact E2. }
  rewrite sub64_le by lia.
  replace ((pre ++ w) ++ c :: post) with (pre ++ w ++ c :: post) by (rewrite <- app_assoc; reflexivity).
  replace (lenN pre + (lenN w + (1 + 0)) - 1 - 1) with (lenN pre + lenN w - 1) by lia.
  apply IH; [intro; apply Hn; apply in_or_app; left; assumption | | lia | lia].
  intros ->. rewrite lenN_nil in E. lia.
Qed.

Lemma bwd_take_join ws : Forall word ws -> forall pre post, lenN pre + lenN (join ws) < 2 ^ 64 ->
  exists brs, bwd_take (length ws) (pre ++ join ws ++ post) (lenN pre, lenN pre + lenN (join ws)) = Ok brs /\
    Forall2 (fun br w => holds_text (pre ++ join ws ++ post) br w) brs (rev ws).
Proof.
  induction ws as [|w ws IH] using rev_ind; intros HF pre post Hlt.
  - exists []. split; [reflexivity|constructor].
  - apply Forall_app in HF. destruct HF as [HF Hw]. apply Forall_cons_iff in Hw. destruct Hw as [[Hw1 Hw2] _].
    rewrite rev_app_distr. cbn [rev app]. rewrite app_length. cbn [length]. rewrite Nat.add_1_r. cbn [bwd_take]. unfold bwd_next. cbn [fst snd].
    destruct (list_eq_dec (list_eq_dec N.eq_dec) ws []) as [->|Hne].
    + cbn [app join] in *. assert (0 < lenN w) by (destruct w; [congruence|rewrite lenN_cons; lia]).
      rewrite sub64_le by lia.
      rewrite bwd_seek_first; [| assumption | assumption | rewrite !app_length; lia | lia]. cbn [bind bwd_take].
      rewrite N.eqb_refl. eexists. split; [reflexivity|]. constructor; [|constructor]. apply holds_mid; reflexivity.
    + rewrite join_snoc in * by assumption. rewrite lenN_app, lenN_cons in *.
      pose proof (join_nonempty ws Hne HF) as Hj.
      rewrite sub64_le by lia.
      replace (pre ++ (join ws ++ 32 :: w) ++ post) with ((pre ++ join ws) ++ 32 :: w ++ post) by (rewrite <- !app_assoc; reflexivity).
      replace (lenN pre + (lenN (join ws) + (1 + lenN w)) - 1) with (lenN (pre ++ join ws) + lenN w) by (rewrite lenN_app; lia).
      rewrite bwd_seek_ok; [| assumption | rewrite !app_length; cbn [length]; rewrite app_length; lia | rewrite lenN_app; lia | rewrite lenN_app; lia].
      cbn [bind].
      destruct (lenN (pre ++ join ws) =? lenN pre) eqn:E; [rewrite lenN_app in E; lia|].
      destruct (IH HF pre (32 :: w ++ post)) as (brs & H1 & H2); [lia|].
      replace ((pre ++ join ws) ++ 32 :: w ++ post) with (pre ++ join ws ++ 32 :: w ++ post) by (rewrite <- !app_assoc; reflexivity).
      rewrite lenN_app. rewrite H1. cbn [bind].
      eexists. split; [reflexivity|]. constructor; [|assumption].
      replace (pre ++ join ws ++ 32 :: w ++ post) with ((pre ++ join ws ++ [32]) ++ w ++ post) by (rewrite <- !app_assoc; reflexivity).
      apply holds_mid; rewrite !lenN_app, lenN_cons, lenN_nil; lia.
Qed.

(** ** text_lines *)
Lemma tl_seek_ok w : no_sep w -> forall pre post c fuel, (length w < fuel)%nat -> (c = 32 \/ c = 10) ->
  tl_seek fuel (pre ++ w ++ c :: post) (lenN pre) = Ok (lenN pre + lenN w, c =? 10).
Proof.
  induction w as [|x w IH]; intros [Hn1 Hn2] pre post c fuel Hf Hc; (destruct fuel as [|f]; [cbn in Hf; lia|]).
  - cbn [tl_seek app]. rewrite rd_app_at. cbn [bind]. rewrite lenN_nil, N.add_0_r. destruct Hc as [-> | ->]; reflexivity.
  - cbn [tl_seek app]. rewrite rd_app_at. cbn [bind]. rewrite lenN_cons.
    destruct (x =? c_space) eqn:E1; [apply N.eqb_eq in E1; exfalso; apply Hn1; left; exact E1|].
    destruct (x =? c_nl) eqn:E2; [apply N.eqb_eq in E2; exfalso; apply Hn2; left; exact E2|].
    replace (pre ++ x :: w ++ c :: post) with ((pre ++ [x]) ++ w ++ c :: post) by (rewrite <- app_assoc; reflexivity).
    replace (lenN pre + 1) with (lenN (pre ++ [x])) by (rewrite lenN_app, lenN_cons, lenN_nil; lia).
    rewrite IH; [| split; intro; [apply Hn1 | apply Hn2]; right; assumption | cbn in Hf; lia | assumption].
    f_equal. f_equal. rewrite lenN_app, lenN_cons, lenN_nil. lia.
Qed.

Lemma tl_line_ok ws : ws <> [] -> Forall no_sep ws -> forall pre post n fuel,
  (length ws < fuel)%nat ->
  exists brs, tl_line fuel (pre ++ join ws ++ 10 :: post) (mktl (lenN pre) n false)
    = Ok (brs, mktl (lenN pre + lenN (join ws) + 1) (n + lenN ws) true) /\
    Forall2 (fun br w => holds_text (pre ++ join ws ++ 10 :: post) br w) brs ws.
Proof.
  induction ws as [|w ws IH]; intros Hne HF pre post n fuel Hf; [congruence|].
  apply Forall_cons_iff in HF. destruct HF as [Hw HF].
  destruct fuel as [|f]; [lia|]. cbn [tl_line tl_eol]. unfold tl_next. cbn [tl_pos tl_words tl_eol].
  destruct ws as [|w2 ws].
  - cbn [join]. rewrite tl_seek_ok; [| assumption | rewrite !app_length; lia | right; reflexivity]. cbn [bind].
    change (10 =? 10) with true. cbv iota. destruct f as [|f]; [cbn in Hf; lia|]. cbn [tl_line tl_eol bind].
    eexists. split; [rewrite lenN_cons, lenN_nil; rewrite N.add_0_r; reflexivity|]. constructor; [|constructor]. apply holds_mid; reflexivity.
  - rewrite join_cons by discriminate.
    replace (pre ++ (w ++ 32 :: join (w2 :: ws)) ++ 10 :: post) with (pre ++ w ++ 32 :: (join (w2 :: ws) ++ 10 :: post)) by (rewrite <- !app_assoc; reflexivity).
    rewrite tl_seek_ok; [| assumption | rewrite !app_length; lia | left; reflexivity]. cbn [bind].
    change (32 =? 10) with false. cbv iota.
    destruct (IH ltac:(discriminate) HF (pre ++ w ++ [32]) post (n + 1) f) as (brs & H1 & H2); [cbn in *; lia|].
    replace ((pre ++ w ++ [32]) ++ join (w2 :: ws) ++ 10 :: post) with (pre ++ w ++ 32 :: join (w2 :: ws) ++ 10 :: post) in * by (rewrite <- !app_assoc; reflexivity).
    replace (lenN pre + lenN w + 1) with (lenN (pre ++ w ++ [32])) by (rewrite !lenN_app, lenN_cons, lenN_nil; lia).
    rewrite H1. cbn [bind]. eexists. split.
    + f_equal. f_equal. f_equal; rewrite ?lenN_app, ?lenN_cons, ?lenN_nil; lia.
    + constructor; [|assumption]. apply holds_mid; reflexivity.
Qed.

(** the bytes of a corpus: one line per sentence *)
Definition corpus_text (lines : list (list (list N))) : list N := concat (map (fun ws => join ws ++ [10]) lines).

Lemma join_len ws : lenN ws <= lenN (join ws) + 1.
Proof.
  induction ws as [|w ws IH]; [rewrite lenN_nil; lia|]. destruct ws as [|y ws]; [rewrite lenN_cons, lenN_nil; lia|].
  rewrite join_cons by discriminate. rewrite lenN_app, !lenN_cons in *. lia.
Qed.
Lemma tl_corpus_ok lines : Forall (fun ws => ws <> [] /\ Forall no_sep ws) lines -> forall pre n eol fuel,
  (length lines < fuel)%nat ->
  exists brss t, tl_corpus fuel (pre ++ corpus_text lines) (mktl (lenN pre) n eol) = Ok (brss, t) /\
    tl_words t = n + lenN (concat lines) /\
    Forall2 (Forall2 (fun br w => holds_text (pre ++ corpus_text lines) br w)) brss lines.
Proof.
  induction lines as [|ws lines IH]; intros HF pre n eol fuel Hf; (destruct fuel as [|f]; [lia|]); cbn [tl_corpus].
  - unfold tl_eof. cbn [tl_pos]. unfold corpus_text. cbn [map concat]. rewrite app_nil_r, N.eqb_refl.
    eexists _, _. split; [reflexivity|]. cbn [tl_words concat]. rewrite lenN_nil. split; [lia|constructor].
  - apply Forall_cons_iff in HF. destruct HF as [[Hne Hw] HF].
    unfold corpus_text. cbn [map concat]. fold (corpus_text lines).
    unfold tl_eof. cbn [tl_pos].
    destruct (lenN pre =? lenN (pre ++ (join ws ++ [10]) ++ corpus_text lines)) eqn:E.
    { rewrite !lenN_app, lenN_cons in E. lia. }
    unfold tl_begin_line. cbn [tl_pos tl_words].
    replace (pre ++ (join ws ++ [10]) ++ corpus_text lines) with (pre ++ join ws ++ 10 :: corpus_text lines) by (rewrite <- !app_assoc; reflexivity).
    destruct (tl_line_ok ws Hne Hw pre (corpus_text lines) n (S (length (pre ++ join ws ++ 10 :: corpus_text lines)))) as (brs & H1 & H2).
    { pose proof (join_len ws). unfold lenN in *. rewrite !app_length. cbn [length]. lia. }
    rewrite H1. cbn [bind].
    destruct (IH HF (pre ++ join ws ++ [10]) (n + lenN ws) true f) as (brss & t & H3 & H4 & H5); [cbn in Hf; lia|].
    replace ((pre ++ join ws ++ [10]) ++ corpus_text lines) with (pre ++ join ws ++ 10 :: corpus_text lines) in * by (rewrite <- !app_assoc; reflexivity).
    replace (lenN pre + lenN (join ws) + 1) with (lenN (pre ++ join ws ++ [10])) by (rewrite !lenN_app, lenN_cons, lenN_nil; lia).
    rewrite H3. cbn [bind]. eexists _, _. split; [reflexivity|]. split.
    + rewrite H4. cbn [concat]. rewrite lenN_app. lia.
    + constructor; assumption.
Qed.
