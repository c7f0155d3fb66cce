(** * Proofs about the text helpers *)
From Verif Require Import Prelude BitFacts Spec M_Text P_BitProg P_EF.
Ltac Zify.zify_post_hook ::= Z.to_euclidean_division_equations.

Lemma rd_app_at {A} (pre post : list A) x : rd (pre ++ x :: post) (lenN pre) = Ok x.
Proof.
  apply (proj2 (rd_nthN _ _ _)). rewrite nthN_app2 by lia.
  replace (lenN pre - lenN pre) with 0 by lia. reflexivity.
Qed.
Lemma rd_app_at' {A} (pre post : list A) x i : i = lenN pre -> rd (pre ++ x :: post) i = Ok x.
Proof. intros ->. apply rd_app_at. Qed.

Lemma text_mid pre s post : text (pre ++ s ++ post) (lenN pre, lenN pre + lenN s) = s.
Proof. unfold text. cbn [fst snd]. apply slice_mid'; lia. Qed.

Lemma skipn_skipn_ {A} (n m : nat) (l : list A) : skipn n (skipn m l) = skipn (m + n) l.
Proof.
  revert l; induction m as [|m IH]; intros l; [reflexivity|]. destruct l; cbn [skipn Nat.add]; [apply skipn_nil | apply IH].
Qed.
Lemma holds_split buf r s : holds_text buf r s ->
  exists pre post, buf = pre ++ s ++ post /\ fst r = lenN pre /\ snd r = lenN pre + lenN s.
Proof.
  intros [[H1 H2] H3]. destruct r as [a b]. cbn [fst snd] in *. unfold text in H3. cbn [fst snd] in H3.
  exists (firstn (N.to_nat a) buf), (skipn (N.to_nat b) buf). unfold slice in H3. unfold lenN in *.
  assert (L : length s = N.to_nat (b - a)).
  { rewrite <- H3, firstn_length, skipn_length. lia. }
  split.
  - rewrite <- (firstn_skipn (N.to_nat a) buf) at 1. f_equal.
    rewrite <- H3. rewrite <- (firstn_skipn (N.to_nat (b - a)) (skipn (N.to_nat a) buf)) at 1. f_equal.
    rewrite skipn_skipn_. f_equal. lia.
  - rewrite firstn_length. lia.
Qed.
Lemma holds_mid pre s post a b : a = lenN pre -> b = lenN pre + lenN s -> holds_text (pre ++ s ++ post) (a, b) s.
Proof.
  intros -> ->. split; [cbn; rewrite !lenN_app; lia|]. apply text_mid.
Qed.

Lemma lenN_nil {A} : lenN (@nil A) = 0. Proof. reflexivity. Qed.

(** ** seek *)
Lemma seek_ok sep w : ~ In sep w -> forall pre post fuel, (length w < fuel)%nat ->
  seek fuel (pre ++ w ++ sep :: post) (lenN pre) sep = Ok (lenN pre + lenN w).
Proof.
  induction w as [|c w IH]; intros Hn pre post fuel Hf; (destruct fuel as [|f]; [cbn in Hf; lia|]).
  - cbn [seek app]. rewrite rd_app_at. cbn [bind]. rewrite N.eqb_refl. f_equal. rewrite lenN_nil. lia.
  - cbn [seek app]. rewrite rd_app_at. cbn [bind].
    destruct (c =? sep) eqn:E; [apply N.eqb_eq in E; exfalso; apply Hn; left; exact E|].
    replace (pre ++ c :: w ++ sep :: post) with ((pre ++ [c]) ++ w ++ sep :: post) by (rewrite <- app_assoc; reflexivity).
    replace (lenN pre + 1) with (lenN (pre ++ [c])) by (rewrite lenN_app, lenN_cons, lenN_nil; lia).
    rewrite IH; [|intro; apply Hn; right; assumption | cbn in Hf; lia].
    f_equal. rewrite lenN_app, !lenN_cons, lenN_nil. lia.
Qed.

Lemma sub64_1 p : 0 < p < 2 ^ 64 -> sub64 p 1 = p - 1.
Proof.
  intros H. unfold sub64. rewrite (w64_small p), (w64_small 1) by lia.
  replace (p + (2 ^ 64 - 1)) with (p - 1 + 1 * 2 ^ 64) by lia.
  rewrite w64_mod. rewrite N.mod_add by lia. apply N.mod_small. lia.
Qed.
Lemma sub64_le a b : b <= a -> a < 2 ^ 64 -> sub64 a b = a - b.
Proof.
  intros H1 H2. unfold sub64. rewrite (w64_small a), (w64_small b) by lia.
  replace (a + (2 ^ 64 - b)) with (a - b + 1 * 2 ^ 64) by lia.
  rewrite w64_mod. rewrite N.mod_add by lia. apply N.mod_small. lia.
Qed.
Lemma add64_sub64_1 p : p < 2 ^ 64 -> add64 (sub64 p 1) 1 = p.
Proof.
  intros H. destruct (N.eq_dec p 0) as [->|]; [reflexivity|].
  rewrite sub64_1 by lia. unfold add64. rewrite w64_small by lia. lia.
Qed.

Lemma seek_back_ok w : ~ In 32 w -> forall pre post fuel, (length w < fuel)%nat ->
  lenN pre + lenN w < 2 ^ 64 ->
  seek_back fuel (pre ++ 32 :: w ++ post) (lenN pre + lenN w) = Ok (sub64 (lenN pre) 1).
Proof.
  induction w as [|c w IH] using rev_ind; intros Hn pre post fuel Hf Hlt;
    (destruct fuel as [|f]; [rewrite ?app_length in Hf; cbn in Hf; lia|]).
  - cbn [seek_back app]. rewrite lenN_nil, N.add_0_r. rewrite rd_app_at. reflexivity.
  - cbn [seek_back].
    replace (pre ++ 32 :: (w ++ [c]) ++ post) with ((pre ++ 32 :: w) ++ c :: post)
      by (rewrite <- !app_assoc; reflexivity).
    rewrite lenN_app in *. rewrite !lenN_cons, lenN_nil in *.
    rewrite rd_app_at' by (rewrite lenN_app, lenN_cons; lia). cbn [bind].
    destruct (c =? c_space) eqn:E.
    { apply N.eqb_eq in E. exfalso. apply Hn. apply in_or_app. right. left. exact E. }
    rewrite sub64_le by lia.
    replace ((pre ++ 32 :: w) ++ c :: post) with (pre ++ 32 :: w ++ c :: post) by (rewrite <- app_assoc; reflexivity).
    replace (lenN pre + (lenN w + (1 + 0)) - 1) with (lenN pre + lenN w) by lia.
    rewrite app_length in Hf. cbn in Hf.
    apply IH; [intro; apply Hn; apply in_or_app; left; assumption | lia | lia].
Qed.

(** ** join *)
Lemma join_snoc ws w : ws <> [] -> join (ws ++ [w]) = join ws ++ 32 :: w.
Proof.
  induction ws as [|x r IH]; intros H; [congruence|].
  destruct r as [|y r]; [reflexivity|].
  change (join ((x :: y :: r) ++ [w])) with (x ++ 32 :: join ((y :: r) ++ [w])).
  rewrite IH by discriminate. change (join (x :: y :: r)) with (x ++ 32 :: join (y :: r)).
  rewrite <- app_assoc. reflexivity.
Qed.
Lemma join_cons w ws : ws <> [] -> join (w :: ws) = w ++ 32 :: join ws.
Proof. destruct ws; [congruence | reflexivity]. Qed.
Lemma join_app a b : a <> [] -> b <> [] -> join (a ++ b) = join a ++ 32 :: join b.
Proof.
  induction a as [|x a IH]; intros Ha Hb; [congruence|].
  destruct a as [|y a].
  - cbn [app]. apply join_cons. assumption.
  - change ((x :: y :: a) ++ b) with (x :: (y :: a) ++ b). rewrite !join_cons by (discriminate || (cbn; discriminate)).
    rewrite IH by (assumption || discriminate). rewrite <- app_assoc. reflexivity.
Qed.

(** ** predecessor, suffix *)
Lemma predecessor_ok buf r xs w : lenN buf < 2 ^ 64 -> holds_text buf r (join (xs ++ [w])) -> xs <> [] -> ~ In 32 w ->
  exists p, predecessor buf r = Ok (fst r, p) /\ holds_text buf (fst r, p) (join xs) /\ holds_text buf (p + 1, snd r) w.
Proof.
  intros Hb H Hx Hw. destruct (holds_split _ _ _ H) as (pre & post & -> & Ha & He).
  rewrite join_snoc in * by assumption.
  exists (fst r + lenN (join xs)). unfold predecessor.
  rewrite He. rewrite !lenN_app, lenN_cons in *.
  rewrite sub64_le by lia.
  replace (pre ++ (join xs ++ 32 :: w) ++ post) with ((pre ++ join xs) ++ 32 :: w ++ post) by (rewrite <- !app_assoc; reflexivity).
  replace (lenN pre + (lenN (join xs) + (1 + lenN w)) - 1) with (lenN (pre ++ join xs) + lenN w) by (rewrite lenN_app; lia).
  rewrite seek_back_ok; [| assumption | rewrite !app_length; cbn; rewrite !app_length; lia | rewrite lenN_app; lia].
  cbn [bind]. rewrite add64_sub64_1 by (rewrite lenN_app; lia).
  split; [f_equal; f_equal; rewrite lenN_app; lia|]. split.
  - replace ((pre ++ join xs) ++ 32 :: w ++ post) with (pre ++ join xs ++ (32 :: w ++ post)) by (rewrite <- !app_assoc; reflexivity).
    apply holds_mid; lia.
  - replace ((pre ++ join xs) ++ 32 :: w ++ post) with ((pre ++ join xs ++ [32]) ++ w ++ post) by (rewrite <- !app_assoc; reflexivity).
    apply holds_mid; rewrite !lenN_app, lenN_cons, lenN_nil; lia.
Qed.

Lemma suffix_ok buf r w xs : holds_text buf r (join (w :: xs)) -> xs <> [] -> ~ In 32 w ->
  exists p, suffix buf r = Ok (p, snd r) /\ holds_text buf (p, snd r) (join xs).
Proof.
  intros H Hx Hw. destruct (holds_split _ _ _ H) as (pre & post & -> & Ha & He).
  rewrite join_cons in * by assumption.
  exists (fst r + lenN w + 1). unfold suffix.
  rewrite Ha. rewrite !lenN_app, lenN_cons in *.
  replace (pre ++ (w ++ 32 :: join xs) ++ post) with (pre ++ w ++ 32 :: (join xs ++ post)) by (rewrite <- !app_assoc; reflexivity).
  rewrite seek_ok; [| assumption | rewrite !app_length; cbn; lia].
  cbn [bind]. split; [reflexivity|].
  replace (pre ++ w ++ 32 :: (join xs ++ post)) with ((pre ++ w ++ [32]) ++ join xs ++ post) by (rewrite <- !app_assoc; reflexivity).
  apply holds_mid; rewrite !lenN_app, lenN_cons, lenN_nil; lia.
Qed.

(** ** to *)
(* walking over a word *)
Lemma to_word w : ~ In 32 w -> forall pre post last off spaces begin_ fuel, (length w <= fuel)%nat ->
  lenN pre + lenN w <= last ->
  to_loop fuel (pre ++ w ++ post) last off (lenN pre) spaces begin_ =
  to_loop (fuel - length w) (pre ++ w ++ post) last off (lenN pre + lenN w) spaces begin_.
Proof.
  induction w as [|c w IH]; intros Hn pre post last off spaces begin_ fuel Hf Hl.
  - cbn [length]. rewrite Nat.sub_0_r, lenN_nil, N.add_0_r. reflexivity.
  - destruct fuel as [|f]; [cbn in Hf; lia|]. rewrite lenN_cons in *.
    cbn [to_loop app]. destruct (lenN pre =? last) eqn:E; [lia|].
    rewrite rd_app_at. cbn [bind].
    destruct (c =? c_space) eqn:E2; [apply N.eqb_eq in E2; exfalso; apply Hn; left; exact E2|].
    replace (pre ++ c :: w ++ post) with ((pre ++ [c]) ++ w ++ post) by (rewrite <- app_assoc; reflexivity).
    replace (lenN pre + 1) with (lenN (pre ++ [c])) by (rewrite lenN_app, lenN_cons, lenN_nil; lia).
    rewrite IH; [| intro; apply Hn; right; assumption | cbn in Hf; lia | rewrite lenN_app, lenN_cons, lenN_nil; lia].
    replace (lenN (pre ++ [c]) + lenN w) with (lenN pre + (1 + lenN w)) by (rewrite lenN_app, lenN_cons, lenN_nil; lia).
    cbn [length Nat.sub]. reflexivity.
Qed.

Lemma to_words l : forall x r pre post off spaces begin_ fuel last,
  Forall (fun w => ~ In 32 w) (l ++ x :: r) ->
  last = lenN pre + lenN (join (l ++ x :: r)) ->
  (length (join (l ++ x :: r)) < fuel)%nat ->
  spaces + lenN l = off -> (l = [] -> begin_ = lenN pre) ->
  exists b e, to_loop fuel (pre ++ join (l ++ x :: r) ++ post) last off (lenN pre) spaces begin_ = Ok (b, e) /\
    b = lenN pre + lenN (join (l ++ [x])) - lenN x /\ e = lenN pre + lenN (join (l ++ [x])).
Proof.
  induction l as [|w l IH]; intros x r pre post off spaces begin_ fuel last HF Hlast Hf Hs Hb.
  - rewrite Hb by reflexivity. cbn [app] in *. change (join [x]) with x.
    apply Forall_cons_iff in HF. destruct HF as [Hx HF].
    rewrite lenN_nil in Hs.
    destruct r as [|y r].
    + cbn [join] in *. rewrite to_word by (assumption || lia).
      exists (lenN pre), (lenN pre + lenN x). split; [|lia].
      destruct (fuel - length x)%nat; cbn [to_loop]; (destruct (lenN pre + lenN x =? last) eqn:E; [reflexivity|lia]).
    + rewrite join_cons in * by discriminate. rewrite !lenN_app, !lenN_cons in *. rewrite app_length in Hf. cbn [length] in Hf.
      replace (pre ++ (x ++ 32 :: join (y :: r)) ++ post) with (pre ++ x ++ (32 :: join (y :: r) ++ post)) by (rewrite <- !app_assoc; reflexivity).
      rewrite to_word by (assumption || lia).
      exists (lenN pre), (lenN pre + lenN x). split; [|lia].
      destruct (fuel - length x)%nat as [|f] eqn:Ef; [lia|].
      cbn [to_loop]. destruct (lenN pre + lenN x =? last) eqn:E; [lia|].
      rewrite app_assoc. rewrite rd_app_at' by (rewrite lenN_app; lia). cbn [bind].
      change (32 =? c_space) with true. cbv iota.
      assert (E1 : (spaces + 1 =? off) = false) by (apply N.eqb_neq; lia).
      assert (E2 : (spaces + 1 =? off + 1) = true) by (apply N.eqb_eq; lia).
      rewrite E1, E2. reflexivity.
  - cbn [app] in HF, Hlast, Hf |- *. apply Forall_cons_iff in HF. destruct HF as [Hw HF].
    assert (Hne : l ++ x :: r <> []) by (destruct l; discriminate).
    assert (Hne2 : l ++ [x] <> []) by (destruct l; discriminate).
    rewrite join_cons in * by assumption. rewrite join_cons by assumption.
    rewrite !lenN_app, !lenN_cons in *. rewrite app_length in Hf. cbn [length] in Hf.
    replace (pre ++ (w ++ 32 :: join (l ++ x :: r)) ++ post) with (pre ++ w ++ (32 :: join (l ++ x :: r) ++ post)) by (rewrite <- !app_assoc; reflexivity).
    rewrite to_word by (assumption || lia).
    destruct (fuel - length w)%nat as [|f] eqn:Ef; [lia|].
    cbn [to_loop]. destruct (lenN pre + lenN w =? last) eqn:E; [lia|].
    rewrite app_assoc. rewrite rd_app_at' by (rewrite lenN_app; lia). cbn [bind].
    change (32 =? c_space) with true. cbv iota.
    destruct (spaces + 1 =? off + 1) eqn:E2; [lia|].
    replace ((pre ++ w) ++ 32 :: join (l ++ x :: r) ++ post) with ((pre ++ w ++ [32]) ++ join (l ++ x :: r) ++ post)
      by (rewrite <- !app_assoc; reflexivity).
    assert (EL : lenN pre + lenN w + 1 = lenN (pre ++ w ++ [32])) by (rewrite !lenN_app, lenN_cons, lenN_nil; lia).
    rewrite EL.
    edestruct (IH x r (pre ++ w ++ [32]) post off (spaces + 1)
       (if spaces + 1 =? off then lenN (pre ++ w ++ [32]) else begin_) f last) as (b & e & H1 & H2 & H3);
      [assumption | lia | lia | lia | | ].
    { intros ->. rewrite lenN_nil in *. destruct (spaces + 1 =? off) eqn:E3; [reflexivity|lia]. }
    exists b, e. split; [exact H1|].
    assert (lenN x <= lenN (join (l ++ [x]))).
    { destruct l as [|y l]; [cbn; lia|]. rewrite join_snoc by discriminate. rewrite lenN_app, lenN_cons. lia. }
    split; lia.
Qed.

Lemma lenN_join_ge l x : lenN x <= lenN (join (l ++ [x])).
Proof. destruct l as [|y l]; [cbn; lia|]. rewrite join_snoc by discriminate. rewrite lenN_app, lenN_cons. lia. Qed.

(* where the word x of a joined text is *)
Lemma join_around l x r : exists u v, join (l ++ x :: r) = u ++ x ++ v /\ lenN u = lenN (join (l ++ [x])) - lenN x.
Proof.
  assert (H : exists u, join (l ++ [x]) = u ++ x /\ lenN u = lenN (join (l ++ [x])) - lenN x).
  { destruct l as [|y l].
    - exists []. cbn [app join]. split; [reflexivity|]. rewrite lenN_nil. lia.
    - exists (join (y :: l) ++ [32]). rewrite join_snoc by discriminate. rewrite <- app_assoc. split; [reflexivity|].
      rewrite !lenN_app, !lenN_cons, lenN_nil. lia. }
  destruct H as (u & Hu & Hl).
  destruct r as [|y r].
  - exists u, []. rewrite app_nil_r. split; assumption.
  - exists u, (32 :: join (y :: r)).
    replace (l ++ x :: y :: r) with ((l ++ [x]) ++ y :: r) by (rewrite <- app_assoc; reflexivity).
    rewrite join_app by (destruct l; discriminate). rewrite Hu. rewrite <- app_assoc. split; [reflexivity|].
    rewrite Hl, Hu. reflexivity.
Qed.
Lemma holds_around pre l x r post b e :
  b = lenN pre + lenN (join (l ++ [x])) - lenN x -> e = lenN pre + lenN (join (l ++ [x])) ->
  holds_text (pre ++ join (l ++ x :: r) ++ post) (b, e) x.
Proof.
  intros -> ->. destruct (join_around l x r) as (u & v & E & Hu). rewrite E.
  replace (pre ++ (u ++ x ++ v) ++ post) with ((pre ++ u) ++ x ++ (v ++ post)) by (rewrite <- !app_assoc; reflexivity).
  pose proof (lenN_join_ge l x). apply holds_mid; rewrite lenN_app; lia.
Qed.

Lemma to_ok buf r l x rs : holds_text buf r (join (l ++ x :: rs)) -> Forall (fun w => ~ In 32 w) (l ++ x :: rs) ->
  exists q, to buf r (lenN l) = Ok q /\ holds_text buf q x.
Proof.
  intros H HF. destruct (holds_split _ _ _ H) as (pre & post & -> & Ha & He).
  unfold to. rewrite Ha, He.
  edestruct (to_words l x rs pre post (lenN l) 0 (lenN pre)
     (S (length (pre ++ join (l ++ x :: rs) ++ post)))) as (b & e & H1 & H2 & H3);
    [exact HF | reflexivity | rewrite !app_length; lia | lia | reflexivity |].
  exists (b, e). rewrite H1. split; [reflexivity|]. apply holds_around; assumption.
Qed.

(** ** back_to *)
(* walking backwards over a word w preceded by a space, all right of [first] *)
Lemma back_word w : ~ In 32 w -> forall pre post first off spaces end_ fuel, (length w <= fuel)%nat ->
  first <= lenN pre -> lenN pre + lenN w < 2 ^ 64 ->
  back_to_loop fuel (pre ++ 32 :: w ++ post) first off (lenN pre + lenN w) spaces end_ =
  back_to_loop (fuel - length w) (pre ++ 32 :: w ++ post) first off (lenN pre) spaces end_.
Proof.
  induction w as [|c w IH] using rev_ind; intros Hn pre post first off spaces end_ fuel Hf H1 H2.
  - cbn [length]. rewrite Nat.sub_0_r, lenN_nil, N.add_0_r. reflexivity.
  - rewrite app_length in *. cbn [length] in *. rewrite lenN_app, lenN_cons, lenN_nil in *.
    destruct fuel as [|f]; [lia|].
    cbn [back_to_loop]. destruct (lenN pre + (lenN w + (1 + 0)) =? first) eqn:E; [lia|].
    replace (pre ++ 32 :: (w ++ [c]) ++ post) with ((pre ++ 32 :: w) ++ c :: post) by (rewrite <- !app_assoc; reflexivity).
    rewrite rd_app_at' by (rewrite lenN_app, lenN_cons; lia). cbn [bind].
    destruct (c =? c_space) eqn:E2.
    { apply N.eqb_eq in E2. exfalso. apply Hn. apply in_or_app. right. left. exact E2. }
    rewrite sub64_le by lia.
    replace ((pre ++ 32 :: w) ++ c :: post) with (pre ++ 32 :: w ++ c :: post) by (rewrite <- app_assoc; reflexivity).
    replace (lenN pre + (lenN w + (1 + 0)) - 1) with (lenN pre + lenN w) by lia.
    rewrite IH; [| intro; apply Hn; apply in_or_app; left; assumption | lia | lia | lia].
    f_equal. lia.
Qed.

(* phase 2: the end is known, find the space before x *)
Lemma back_last x : word x -> forall pre0 post first off end_ fuel,
  first < lenN pre0 -> lenN pre0 + lenN x < 2 ^ 64 -> (length x < fuel)%nat ->
  back_to_loop fuel (pre0 ++ 32 :: x ++ post) first off (lenN pre0 + lenN x) off end_ = Ok (lenN pre0 + 1, end_).
Proof.
  intros [Hx Hn] pre0 post first off end_ fuel H1 H2 H3.
  rewrite back_word by (assumption || lia).
  destruct (fuel - length x)%nat as [|f] eqn:Ef; [lia|].
  cbn [back_to_loop]. destruct (lenN pre0 =? first) eqn:E; [lia|].
  rewrite rd_app_at. cbn [bind]. change (32 =? c_space) with true. cbv iota.
  assert (E2 : (off + 1 =? off + 1) = true) by (apply N.eqb_eq; lia).
  assert (E3 : (off + 1 =? off) = false) by (apply N.eqb_neq; lia).
  rewrite E2, E3. f_equal. f_equal. unfold add64. apply w64_small.
  assert (lenN x <> 0) by (destruct x; [congruence | rewrite lenN_cons; lia]). lia.
Qed.

Lemma join_nonempty l : l <> [] -> Forall word l -> 0 < lenN (join l).
Proof.
  destruct l as [|x l]; intros H HF; [congruence|]. apply Forall_cons_iff in HF. destruct HF as [[Hx _] _].
  destruct l; cbn [join]; [| rewrite lenN_app]; (destruct x; [congruence|]; rewrite lenN_cons; lia).
Qed.

Lemma back_words r : forall l x pre post off spaces end_ fuel,
  r <> [] -> l <> [] -> Forall word (l ++ x :: r) ->
  lenN pre + lenN (join (l ++ x :: r)) < 2 ^ 64 ->
  (length (join (l ++ x :: r)) < fuel)%nat ->
  spaces + lenN r = off ->
  back_to_loop fuel (pre ++ join (l ++ x :: r) ++ post) (lenN pre) off
     (lenN pre + lenN (join (l ++ x :: r)) - 1) spaces end_
  = Ok (lenN pre + lenN (join l) + 1, lenN pre + lenN (join (l ++ [x]))).
Proof.
  induction r as [|w r IH] using rev_ind; intros l x pre post off spaces end_ fuel Hr Hl HF Hlen Hf Hs; [congruence|].
  replace (l ++ x :: r ++ [w]) with ((l ++ x :: r) ++ [w]) in * by (rewrite <- app_assoc; reflexivity).
  apply Forall_app in HF. destruct HF as [HF HFw]. apply Forall_cons_iff in HFw. destruct HFw as [Hw _].
  assert (Hne : l ++ x :: r <> []) by (destruct l; discriminate).
  assert (Hj : 0 < lenN (join (l ++ x :: r))) by (apply join_nonempty; assumption).
  rewrite join_snoc in * by assumption. rewrite lenN_app, lenN_cons in *. rewrite app_length in Hf. cbn [length] in Hf.
  replace (pre ++ (join (l ++ x :: r) ++ 32 :: w) ++ post) with ((pre ++ join (l ++ x :: r)) ++ 32 :: w ++ post) by (rewrite <- !app_assoc; reflexivity).
  replace (lenN pre + (lenN (join (l ++ x :: r)) + (1 + lenN w)) - 1) with (lenN (pre ++ join (l ++ x :: r)) + lenN w) by (rewrite lenN_app; lia).
  rewrite back_word; [| apply Hw | lia | rewrite lenN_app; lia | rewrite lenN_app; lia].
  destruct (fuel - length w)%nat as [|f] eqn:Ef; [lia|].
  cbn [back_to_loop]. destruct (lenN (pre ++ join (l ++ x :: r)) =? lenN pre) eqn:E; [rewrite lenN_app in E; lia|].
  rewrite rd_app_at. cbn [bind]. change (32 =? c_space) with true. cbv iota.
  rewrite lenN_app, lenN_cons, lenN_nil in Hs.
  destruct (spaces + 1 =? off + 1) eqn:E2; [lia|].
  rewrite sub64_le by (rewrite lenN_app; lia).
  destruct (list_eq_dec (list_eq_dec N.eq_dec) r []) as [->|Hrne].
  - rewrite lenN_nil in Hs.
    destruct (spaces + 1 =? off) eqn:E3; [|lia]. apply N.eqb_eq in E3. rewrite E3.
    apply Forall_app in HF. destruct HF as [HFl HFx]. apply Forall_cons_iff in HFx. destruct HFx as [Hx _].
    rewrite join_snoc in * by assumption.
    replace ((pre ++ join l ++ 32 :: x) ++ 32 :: w ++ post) with ((pre ++ join l) ++ 32 :: x ++ (32 :: w ++ post)) by (rewrite <- !app_assoc; reflexivity).
    replace (lenN (pre ++ join l ++ 32 :: x) - 1) with (lenN (pre ++ join l) + lenN x) by (rewrite !lenN_app, lenN_cons; lia).
    rewrite !lenN_app, lenN_cons in Hlen. rewrite app_length in Hf. cbn [length] in Hf.
    pose proof (join_nonempty l Hl HFl).
    rewrite back_last; [| assumption | rewrite lenN_app; lia | rewrite lenN_app; lia | lia].
    f_equal. f_equal; rewrite !lenN_app, ?lenN_cons; lia.
  - assert (0 < lenN r) by (destruct r; [congruence|rewrite lenN_cons; lia]).
    destruct (spaces + 1 =? off) eqn:E3; [lia|].
    replace ((pre ++ join (l ++ x :: r)) ++ 32 :: w ++ post) with (pre ++ join (l ++ x :: r) ++ (32 :: w ++ post)) by (rewrite <- !app_assoc; reflexivity).
    replace (lenN (pre ++ join (l ++ x :: r)) - 1) with (lenN pre + lenN (join (l ++ x :: r)) - 1) by (rewrite lenN_app; lia).
    apply IH; try assumption; lia.
Qed.

Lemma back_to_ok buf q l x r : lenN buf < 2 ^ 64 -> holds_text buf q (join (l ++ x :: r)) -> Forall word (l ++ x :: r) ->
  l <> [] -> r <> [] ->
  exists p, back_to buf q (lenN r) = Ok p /\ holds_text buf p x.
Proof.
  intros Hb H HF Hl Hr. destruct (holds_split _ _ _ H) as (pre & post & -> & Ha & He).
  unfold back_to. rewrite Ha, He.
  assert (Hj : 0 < lenN (join (l ++ x :: r))) by (apply join_nonempty; [destruct l; discriminate | assumption]).
  rewrite !lenN_app in Hb. rewrite sub64_le by lia.
  rewrite back_words; try assumption; try lia; [|rewrite !app_length; lia].
  eexists. split; [reflexivity|]. apply holds_around; [|reflexivity].
  rewrite join_snoc by assumption. rewrite lenN_app, lenN_cons. lia.
Qed.

(** ** next, prev *)
Lemma next_ok buf r pre x y post : buf = pre ++ x ++ 32 :: y ++ 32 :: post ->
  r = (lenN pre, lenN pre + lenN x) -> ~ In 32 y ->
  exists q, next buf r = Ok q /\ holds_text buf q y.
Proof.
  intros -> -> Hy. unfold next. cbn [fst snd].
  replace (pre ++ x ++ 32 :: y ++ 32 :: post) with ((pre ++ x ++ [32]) ++ y ++ 32 :: post) by (rewrite <- !app_assoc; reflexivity).
  replace (lenN pre + lenN x + 1) with (lenN (pre ++ x ++ [32])) by (rewrite !lenN_app, lenN_cons, lenN_nil; lia).
  rewrite seek_ok; [| assumption | rewrite !app_length; cbn; lia]. cbn [bind].
  eexists. split; [reflexivity|]. apply holds_mid; lia.
Qed.
Lemma prev_ok buf r pre x y post : lenN buf < 2 ^ 64 -> buf = pre ++ 32 :: y ++ 32 :: x ++ post -> ~ In 32 y -> y <> [] ->
  r = (lenN pre + lenN y + 2, lenN pre + lenN y + 2 + lenN x) ->
  exists q, prev buf r = Ok q /\ holds_text buf q y.
Proof.
  intros Hb -> Hy Hy0 ->. unfold prev. cbn [fst snd].
  rewrite lenN_app, lenN_cons, lenN_app, lenN_cons in Hb.
  rewrite !sub64_le by lia.
  replace (lenN pre + lenN y + 2 - 2) with (lenN pre + lenN y) by lia.
  rewrite seek_back_ok; [| assumption | rewrite !app_length; cbn; rewrite !app_length; cbn; lia | lia]. cbn [bind].
  eexists. split; [reflexivity|].
  replace (pre ++ 32 :: y ++ 32 :: x ++ post) with ((pre ++ [32]) ++ y ++ (32 :: x ++ post)) by (rewrite <- !app_assoc; reflexivity).
  assert (E : add64 (sub64 (lenN pre) 1) 2 = lenN pre + 1).
  { destruct (N.eq_dec (lenN pre) 0) as [->|]; [reflexivity|].
    rewrite sub64_1 by lia. unfold add64. rewrite w64_small by lia. lia. }
  rewrite E. apply holds_mid; rewrite lenN_app, lenN_cons, lenN_nil; lia.
Qed.

(** ** equal_bytes *)
Lemma memeq_ok x : forall y px qx py qy, length x = length y ->
  memeq (length x) (px ++ x ++ qx) (py ++ y ++ qy) (lenN px) (lenN py) = Ok (if list_eq_dec N.eq_dec x y then true else false).
Proof.
  induction x as [|a x IH]; intros [|b y] px qx py qy HL; try discriminate; [reflexivity|].
  cbn [length memeq app]. rewrite !rd_app_at. cbn [bind].
  destruct (a =? b) eqn:E.
  - apply N.eqb_eq in E. subst b.
    replace (px ++ a :: x ++ qx) with ((px ++ [a]) ++ x ++ qx) by (rewrite <- app_assoc; reflexivity).
    replace (py ++ a :: y ++ qy) with ((py ++ [a]) ++ y ++ qy) by (rewrite <- app_assoc; reflexivity).
    replace (lenN px + 1) with (lenN (px ++ [a])) by (rewrite lenN_app, lenN_cons, lenN_nil; lia).
    replace (lenN py + 1) with (lenN (py ++ [a])) by (rewrite lenN_app, lenN_cons, lenN_nil; lia).
    rewrite IH by (cbn in HL; lia).
    destruct (list_eq_dec N.eq_dec x y), (list_eq_dec N.eq_dec (a :: x) (a :: y)); congruence.
  - apply N.eqb_neq in E. destruct (list_eq_dec N.eq_dec (a :: x) (b :: y)); congruence.
Qed.
Lemma equal_bytes_ok bx by_ r q x y : lenN bx < 2 ^ 64 -> lenN by_ < 2 ^ 64 ->
  holds_text bx r x -> holds_text by_ q y ->
  equal_bytes bx by_ r q = Ok (if list_eq_dec N.eq_dec x y then true else false).
Proof.
  intros Lx Ly Hx Hy.
  destruct (holds_split _ _ _ Hx) as (px & qx & -> & Ha & He). destruct (holds_split _ _ _ Hy) as (py & qy & -> & Hc & Hd).
  rewrite !lenN_app in *. unfold equal_bytes. rewrite Ha, He, Hc, Hd. rewrite !sub64_le by lia.
  replace (lenN px + lenN x - lenN px) with (lenN x) by lia. replace (lenN py + lenN y - lenN py) with (lenN y) by lia.
  destruct (lenN x =? lenN y) eqn:E.
  - apply N.eqb_eq in E. unfold lenN at 1. rewrite Nat2N.id. apply memeq_ok. unfold lenN in E. lia.
  - apply N.eqb_neq in E. destruct (list_eq_dec N.eq_dec x y); [congruence|reflexivity].
Qed.
