(** * The words of a sentence in memory *)
From Coq Require Import Floats.SpecFloat.
From Verif Require Import Prelude BitFacts Spec P_Text M_Text M_Trie P_Trie3 M_Score Spec_Katz P_Score1 P_Score2 Spec_Arpa Spec_Trie.

Fixpoint start (p : N) (ws : list (list N)) : N := match ws with [] => p | w :: ws => start (p + lenN w + 1) ws end.
Lemma start_app p a : forall q, start q (a ++ p) = start (start q a) p.
Proof. induction a as [|w a IH]; intro q; [reflexivity|]. cbn [app start]. apply IH. Qed.
Lemma word_ranges_app a : forall p b, word_ranges p (a ++ b) = word_ranges p a ++ word_ranges (start p a) b.
Proof. induction a as [|w a IH]; intros p b; [reflexivity|]. cbn [app word_ranges start]. rewrite IH. reflexivity. Qed.
Lemma word_ranges_len ws : forall p, length (word_ranges p ws) = length ws.
Proof. induction ws as [|w ws IH]; intro p; [reflexivity|]. cbn [word_ranges length]. rewrite IH. reflexivity. Qed.
Lemma start_join b : forall p, b <> [] -> start p b = p + lenN (join b) + 1.
Proof.
  induction b as [|w b IH]; intros p H; [congruence|]. destruct b as [|w2 b].
  - cbn [start join]. lia.
  - rewrite join_cons by discriminate. cbn [start] in *. rewrite IH by discriminate. rewrite lenN_app, lenN_cons. lia.
Qed.
Lemma start_last b w : forall p, start p b + lenN w = p + lenN (join (b ++ [w])).
Proof.
  intro p. destruct b as [|w2 b]; [cbn [start app join]; lia|]. rewrite start_join by discriminate. rewrite join_snoc by discriminate.
  rewrite lenN_app, lenN_cons. lia.
Qed.
Lemma join_at buf b c : b <> [] -> forall a p, holds_text buf (p, p + lenN (join (a ++ b ++ c))) (join (a ++ b ++ c)) ->
  holds_text buf (start p a, start p a + lenN (join b)) (join b).
Proof.
  intro NB. induction a as [|w a IH]; intros p H.
  - cbn [app start] in *. destruct c as [|x c].
    + rewrite app_nil_r in H. exact H.
    + destruct (holds_split _ _ _ H) as (pre & post & E & E1 & E2). cbn [fst snd] in *. rewrite join_app in E by (auto; discriminate).
      rewrite E, E1. rewrite <- app_assoc. apply holds_mid; reflexivity.
  - cbn [app start] in *. apply IH. assert (NE : a ++ b ++ c <> []) by (destruct a; [destruct b; [congruence|discriminate]|discriminate]).
    rewrite join_cons in H by exact NE. destruct (holds_split _ _ _ H) as (pre & post & E & E1 & E2). cbn [fst snd] in *.
    rewrite E, E1. replace (pre ++ (w ++ 32 :: join (a ++ b ++ c)) ++ post) with ((pre ++ w ++ [32]) ++ join (a ++ b ++ c) ++ post).
    + apply holds_mid; rewrite !lenN_app; change (lenN [32]) with 1; lia.
    + rewrite <- !app_assoc. cbn [app]. reflexivity.
Qed.

(** the k-th previous word *)
Definition starts (p : N) (ws : list (list N)) : list N := rev (map fst (word_ranges p ws)).
Lemma starts_snoc p ws w : starts p (ws ++ [w]) = start p ws :: starts p ws.
Proof. unfold starts. rewrite word_ranges_app, map_app, rev_app_distr. reflexivity. Qed.
Lemma starts_len p ws : lenN (starts p ws) = lenN ws.
Proof. unfold starts, lenN. rewrite rev_length, map_length, word_ranges_len. reflexivity. Qed.
Lemma nth_starts p pre k x : nthN (starts p pre) k = Some x ->
  exists a b, pre = a ++ b /\ lenN b = k + 1 /\ x = start p a /\ ctx (rev pre) (k + 1) = b.
Proof.
  intro H. pose proof (nthN_lt _ _ _ H) as L. rewrite starts_len in L.
  exists (firstn (length pre - N.to_nat (k + 1)) pre), (skipn (length pre - N.to_nat (k + 1)) pre).
  assert (SP := firstn_skipn (length pre - N.to_nat (k + 1)) pre). set (a := firstn _ pre) in *. set (b := skipn _ pre) in *.
  assert (LB : lenN b = k + 1) by (unfold b, lenN in *; rewrite skipn_length; lia).
  split; [congruence|]. split; [exact LB|]. split.
  - rewrite <- SP in H. destruct b as [|y b']; [rewrite lenN_nil in LB; lia|]. unfold starts in H. rewrite word_ranges_app, map_app, rev_app_distr in H.
    cbn [word_ranges map rev fst] in H. rewrite <- app_assoc in H. rewrite lenN_cons in LB.
    unfold nthN in H. rewrite nth_error_app2 in H; rewrite rev_length, map_length, word_ranges_len in *; [|unfold lenN in LB; lia].
    replace (N.to_nat k - length b')%nat with 0%nat in H by (unfold lenN in LB; lia). cbn in H. congruence.
  - unfold ctx. rewrite firstn_rev, rev_involutive. reflexivity.
Qed.
Lemma ctx_lastn {A} (pre : list A) n : ctx (rev pre) (N.min n (lenN (rev pre))) = lastn (N.to_nat n) pre.
Proof.
  unfold ctx, lastn. rewrite firstn_rev, rev_involutive. f_equal. unfold lenN. rewrite rev_length. lia.
Qed.
(** the scores, word by word *)
Definition scored {V B} (f : list V -> V -> B) (ws : list V) : list B :=
  map (fun iw => f (firstn (fst iw) ws) (snd iw)) (combine (seq 0 (length ws)) ws).
Lemma scored_length {V B} (f : list V -> V -> B) ws : length (scored f ws) = length ws.
Proof. unfold scored. rewrite map_length, combine_length, seq_length. lia. Qed.
Lemma scored_snoc {V B} (f : list V -> V -> B) pre v : scored f (pre ++ [v]) = scored f pre ++ [f pre v].
Proof.
  unfold scored. rewrite app_length. cbn [length]. rewrite Nat.add_1_r, seq_S. cbn [Nat.add].
  assert (CA : forall {A B} (a : list A) (b : list B) x y, length a = length b -> combine (a ++ [x]) (b ++ [y]) = combine a b ++ [(x, y)]).
  { clear. induction a as [|u a IH]; intros [|z b] x y H; try discriminate; [reflexivity|]. cbn [app combine]. rewrite IH by (cbn in H; congruence). reflexivity. }
  rewrite CA by apply seq_length. rewrite map_app. cbn [map fst snd]. f_equal.
  - apply map_ext_in. intros [i w] H. cbn [fst snd]. apply in_combine_l, in_seq in H. rewrite firstn_app. replace (i - length pre)%nat with 0%nat by lia.
    cbn [firstn]. rewrite app_nil_r. reflexivity.
  - rewrite firstn_app, Nat.sub_diag, firstn_all. cbn [firstn]. rewrite app_nil_r. reflexivity.
Qed.
Lemma scored_app {V B} (f : list V -> V -> B) a b : exists t, scored f (a ++ b) = scored f a ++ t.
Proof.
  revert a. induction b as [|v b IH]; intro a.
  - exists []. rewrite !app_nil_r. reflexivity.
  - destruct (IH (a ++ [v])) as (t & E). rewrite scored_snoc, <- !app_assoc in E. cbn [app] in E. eexists. exact E.
Qed.
Lemma scored_at {V B} (f : list V -> V -> B) pre v post ws : ws = pre ++ v :: post ->
  skipn (length pre) (scored f ws) = f pre v :: skipn (length (pre ++ [v])) (scored f ws).
Proof.
  intro E. replace ws with ((pre ++ [v]) ++ post) by (rewrite <- app_assoc; symmetry; exact E). destruct (scored_app f (pre ++ [v]) post) as (t2 & E').
  rewrite E', scored_snoc. pose proof (scored_length f pre) as LS. rewrite app_length. cbn [length].
  rewrite <- LS. rewrite <- !app_assoc. cbn [app]. rewrite skipn_app, Nat.sub_diag, skipn_all. cbn [app skipn]. f_equal.
  rewrite skipn_app, skipn_all2 by lia. replace (_ + 1 - _)%nat with 1%nat by lia. reflexivity.
Qed.
Lemma katz_scored {V} (M : list V -> option (spec_float * spec_float)) unk n ws :
  katz_scores M unk n ws = scored (fun pre v => katz M unk (lastn (n - 1) pre) v) ws.
Proof. reflexivity. Qed.
Lemma kept_scored {V} (M : list V -> option (spec_float * spec_float)) unk n ws :
  kept_scores M unk n ws = scored (fun pre v => katz M unk (lastn (kept M n (rev pre)) pre) v) ws.
Proof. reflexivity. Qed.
Lemma kept_scores_length {V} (M : list V -> option (spec_float * spec_float)) unk n ws : length (kept_scores M unk n ws) = length ws.
Proof. rewrite kept_scored. apply scored_length. Qed.
(** the scores of the kept contexts are Katz's when the contexts that are extended have nonzero back-offs *)
Lemma kept_scores_katz {V} (M : list V -> option (spec_float * spec_float)) unk n ws : 2 <= n <= 8 -> extended_nonzero M ->
  Forall2 feq (kept_scores M unk (N.to_nat n) ws) (katz_scores M unk (N.to_nat n) ws).
Proof.
  intros Hn HX. unfold kept_scores, katz_scores. induction (combine (seq 0 (length ws)) ws) as [|[i v] l IH]; cbn [map]; constructor; [|exact IH]. cbn [fst snd].
  set (pre := firstn i ws). destruct (kept_le M n (rev pre)) as [K1 K2]. rewrite rev_length in K1. set (L := N.of_nat (kept M (N.to_nat n) (rev pre))).
  replace (lastn (kept M (N.to_nat n) (rev pre)) pre) with (ctx (rev pre) L).
  2:{ unfold ctx, lastn, L. rewrite firstn_rev, rev_involutive, Nat2N.id. reflexivity. }
  replace (lastn (N.to_nat n - 1) pre) with (ctx (rev pre) (N.min (n - 1) (lenN (rev pre)))) by (rewrite ctx_lastn; f_equal; lia).
  apply (katz_beyond M unk n Hn (rev pre) v).
  - unfold lenN, L. rewrite rev_length. lia.
  - lia.
  - intros j Hj. assert (LG : forall p b, M (ctx (rev pre) j) = Some (p, b) -> is_zero b = true).
    { apply (kept_long M n HX (rev pre) (N.to_nat j)); unfold L, lenN in *; lia. }
    split; [|exact LG]. destruct (M (ctx (rev pre) j ++ [v])) as [pb|] eqn:E; [exfalso|reflexivity].
    destruct (HX (ctx (rev pre) j) v) as (p & b & E1 & E2); [|rewrite E; discriminate|].
    + intro Z. pose proof (ctx_len (rev pre) j ltac:(lia)) as Y. rewrite Z in Y. change (lenN (@nil V)) with 0 in Y. lia.
    + rewrite (LG p b E1) in E2. discriminate.
Qed.
(** the context of a represented state is the kept one *)
Lemma rep_ctx {V W} M n (st : pstate W) pw (pre : list V) : st_rep M n st pw (rev pre) -> ctx (rev pre) (ps_length st) = lastn (kept M (N.to_nat n) (rev pre)) pre.
Proof. intro R. unfold ctx, lastn. rewrite <- (sr_kept _ _ _ _ _ R). rewrite firstn_rev, rev_involutive. reflexivity. Qed.
(** what is kept: the longest listed context with a nonzero back-off, if the contexts that are extended have one *)
Lemma kept_longest {V} (M : list V -> option (spec_float * spec_float)) n ws :
  let k := kept M (N.to_nat n) (rev ws) in
  (k <= N.to_nat n - 1)%nat /\ (k <= length ws)%nat /\
  (extended_nonzero M -> forall j p b, (k < j <= N.to_nat n - 1)%nat -> (j <= length ws)%nat -> M (lastn j ws) = Some (p, b) -> is_zero b = true) /\
  ((0 < k)%nat -> exists p b, M (lastn k ws) = Some (p, b) /\ is_zero b = false).
Proof.
  cbv zeta. destruct (kept_le M n (rev ws)) as [K1 K2]. rewrite rev_length in K1. split; [exact K2|]. split; [exact K1|].
  assert (LN : forall j, rev (firstn j (rev ws)) = lastn j ws) by (intro j; unfold lastn; rewrite firstn_rev, rev_involutive; reflexivity).
  split.
  - intros HX j p b Hj Hl E. apply (kept_long M n HX (rev ws) j Hj) with (p := p); [rewrite rev_length; exact Hl|]. rewrite LN. exact E.
  - intro H. destruct (rev ws) as [|v rh] eqn:ER; [cbn in H; lia|]. cbn [kept] in H |- *.
    match type of H with context [longest ?f ?m] => pose proof (longest_spec f m) as (_ & L2 & _); set (lg := longest f m) in * end.
    specialize (L2 ltac:(lia)). cbv beta in L2. apply informs_some in L2. rewrite LN in L2. exact L2.
Qed.
