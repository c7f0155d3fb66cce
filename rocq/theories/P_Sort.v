From Verif Require Import Prelude BitFacts M_Word P_Word M_Bits Spec P_Bits P_Builder M_CompactVector P_CompactVector
  M_HashVec M_Mph P_Mph P_MphTables M_Text P_Text P_Text2 P_SeqColl M_Pool P_Pool Props_Pool M_Trie P_Trie1 P_Trie3 P_Trie5 Props_MphCount M_Sort Spec_Sort.
From Coq Require Import Sorting.Sorted Permutation.

(** ** the words an iterator yields *)
Fixpoint yields (fwd : bool) (buf : list N) (it : N * N) (ws : list (list N)) : Prop :=
  match ws with
  | [] => True
  | w :: ws => exists br it', it_next fwd buf it = Ok (br, it') /\ holds_text buf br w /\ yields fwd buf it' ws
  end.
Lemma yields_fwd ws : Forall no_sep ws -> forall pre post, yields true (pre ++ join ws ++ post) (lenN pre, lenN pre + lenN (join ws)) ws.
Proof.
  induction ws as [|w ws IH]; intros HF pre post; [exact I|]. apply Forall_cons_iff in HF. destruct HF as [Hw HF].
  cbn [yields it_next]. unfold fwd_next. cbn [fst snd]. destruct ws as [|w2 ws].
  - cbn [join]. rewrite fwd_seek_ok; [| assumption | rewrite !app_length; lia | lia | lia]. cbn [bind]. do 2 eexists. split; [reflexivity|]. split; [|exact I]. apply holds_mid; reflexivity.
  - rewrite join_cons by discriminate. rewrite lenN_app, lenN_cons.
    replace (pre ++ (w ++ 32 :: join (w2 :: ws)) ++ post) with (pre ++ w ++ (32 :: join (w2 :: ws) ++ post)) by (rewrite <- !app_assoc; reflexivity).
    rewrite fwd_seek_ok; [| assumption | rewrite !app_length; lia | lia | intros _; eexists _, _; split; [reflexivity|left; reflexivity]]. cbn [bind].
    do 2 eexists. split; [reflexivity|]. split; [apply holds_mid; reflexivity|].
    pose proof (IH HF (pre ++ w ++ [32]) post) as H.
    replace ((pre ++ w ++ [32]) ++ join (w2 :: ws) ++ post) with (pre ++ w ++ 32 :: join (w2 :: ws) ++ post) in H by (rewrite <- !app_assoc; reflexivity).
    rewrite !lenN_app, lenN_cons, lenN_nil in H.
    replace (lenN pre + (lenN w + (1 + 0))) with (lenN pre + lenN w + 1) in H by lia.
    replace (lenN pre + (lenN w + (1 + lenN (join (w2 :: ws))))) with (lenN pre + lenN w + 1 + lenN (join (w2 :: ws))) by lia. exact H.
Qed.
Lemma yields_bwd ws : Forall word ws -> forall pre post, lenN pre + lenN (join ws) < 2 ^ 64 ->
  yields false (pre ++ join ws ++ post) (lenN pre, lenN pre + lenN (join ws)) (rev ws).
Proof.
  induction ws as [|w ws IH] using rev_ind; intros HF pre post Hlt; [exact I|].
  apply Forall_app in HF. destruct HF as [HF Hw]. apply Forall_cons_iff in Hw. destruct Hw as [[Hw1 Hw2] _].
  rewrite rev_app_distr. cbn [rev app]. cbn [yields it_next]. unfold bwd_next. cbn [fst snd].
  destruct (list_eq_dec (list_eq_dec N.eq_dec) ws []) as [->|Hne].
  - cbn [app join rev] in *. assert (0 < lenN w) by (destruct w; [congruence|rewrite lenN_cons; lia]).
    rewrite sub64_le by lia.
    rewrite bwd_seek_first; [| assumption | assumption | rewrite !app_length; lia | lia]. cbn [bind].
    rewrite N.eqb_refl. do 2 eexists. split; [reflexivity|]. split; [|exact I]. apply holds_mid; reflexivity.
  - rewrite join_snoc in * by assumption. rewrite lenN_app, lenN_cons in *.
    pose proof (join_nonempty ws Hne HF) as Hj.
    rewrite sub64_le by lia.
    replace (pre ++ (join ws ++ 32 :: w) ++ post) with ((pre ++ join ws) ++ 32 :: w ++ post) by (rewrite <- !app_assoc; reflexivity).
    replace (lenN pre + (lenN (join ws) + (1 + lenN w)) - 1) with (lenN (pre ++ join ws) + lenN w) by (rewrite lenN_app; lia).
    rewrite bwd_seek_ok; [| assumption | rewrite !app_length; cbn [length]; rewrite app_length; lia | rewrite lenN_app; lia | rewrite lenN_app; lia].
    cbn [bind].
    destruct (lenN (pre ++ join ws) =? lenN pre) eqn:E; [rewrite lenN_app in E; lia|].
    pose proof (IH HF pre (32 :: w ++ post) ltac:(lia)) as H.
    replace ((pre ++ join ws) ++ 32 :: w ++ post) with (pre ++ join ws ++ 32 :: w ++ post) by (rewrite <- !app_assoc; reflexivity).
    rewrite lenN_app. do 2 eexists. split; [reflexivity|]. split; [|exact H].
    replace (pre ++ join ws ++ 32 :: w ++ post) with ((pre ++ join ws ++ [32]) ++ w ++ post) by (rewrite <- !app_assoc; reflexivity).
    apply holds_mid; rewrite !lenN_app, lenN_cons, lenN_nil; lia.
Qed.

(** ** the order *)
Lemma NoDup_nthN {A} (l : list A) i j a : NoDup l -> nthN l i = Some a -> nthN l j = Some a -> i = j.
Proof.
  unfold nthN. intros ND H1 H2. apply N2Nat.inj. rewrite NoDup_nth_error in ND. apply ND; [|congruence]. apply nth_error_Some. congruence.
Qed.
Section Order.
Variable V : list (list N).
Hypothesis ND : NoDup V.
Lemma before_cons x xs ys : before V (x :: xs) (x :: ys) <-> before V xs ys.
Proof.
  split.
  - intros (p & a & b & s & t & i & j & E1 & E2 & H1 & H2 & L). destruct p as [|q p].
    + cbn [app] in *. injection E1 as -> ->. injection E2 as -> ->. pose proof (NoDup_nthN _ _ _ _ ND H1 H2). lia.
    + cbn [app] in *. injection E1 as -> ->. injection E2 as ->. exists p, a, b, s, t, i, j. auto.
  - intros (p & a & b & s & t & i & j & -> & -> & H1 & H2 & L). exists (x :: p), a, b, s, t, i, j. auto.
Qed.
Lemma before_diff x y xs ys : x <> y -> (before V (x :: xs) (y :: ys) <-> exists i j, nthN V i = Some x /\ nthN V j = Some y /\ i < j).
Proof.
  intros D. split.
  - intros (p & a & b & s & t & i & j & E1 & E2 & H1 & H2 & L). destruct p as [|q p]; cbn [app] in *; injection E1 as -> ->; injection E2 as ? ?; subst; [eauto|congruence].
  - intros (i & j & H1 & H2 & L). exists [], x, y, xs, ys, i, j. auto.
Qed.
Lemma before_nil_l ys : ~ before V [] ys. Proof. intros (p & a & b & s & t & i & j & E1 & _). destruct p; discriminate. Qed.
Lemma before_nil_r xs : ~ before V xs []. Proof. intros (p & a & b & s & t & i & j & _ & E1 & _). destruct p; discriminate. Qed.
Lemma before_irrefl xs : ~ before V xs xs.
Proof. induction xs as [|x xs IH]; [apply before_nil_l|]. rewrite before_cons. exact IH. Qed.
Lemma before_trans xs : forall ys zs, before V xs ys -> before V ys zs -> before V xs zs.
Proof.
  induction xs as [|x xs IH]; intros ys zs H1 H2; [destruct (before_nil_l _ H1)|].
  destruct ys as [|y ys]; [destruct (before_nil_r _ H1)|]. destruct zs as [|z zs]; [destruct (before_nil_r _ H2)|].
  destruct (list_eq_dec N.eq_dec x y) as [->|D1].
  - rewrite before_cons in H1. destruct (list_eq_dec N.eq_dec y z) as [->|D2].
    + rewrite before_cons in *. eauto.
    + rewrite before_diff in * by assumption. assumption.
  - rewrite before_diff in H1 by assumption. destruct H1 as (i & j & A1 & A2 & L1). destruct (list_eq_dec N.eq_dec y z) as [->|D2].
    + apply before_diff; [assumption|]. eauto.
    + rewrite before_diff in H2 by assumption. destruct H2 as (j' & k & B1 & B2 & L2). pose proof (NoDup_nthN _ _ _ _ ND A2 B1). subst j'.
      apply before_diff; [|exists i, k; repeat split; auto; lia]. intros ->. pose proof (NoDup_nthN _ _ _ _ ND A1 B2). lia.
Qed.
Lemma before_total xs : forall ys, length xs = length ys -> Forall (fun w => In w V) xs -> Forall (fun w => In w V) ys ->
  xs = ys \/ before V xs ys \/ before V ys xs.
Proof.
  induction xs as [|x xs IH]; intros [|y ys] L F1 F2; try discriminate; [auto|].
  inversion F1; inversion F2; subst. destruct (list_eq_dec N.eq_dec x y) as [->|D].
  - rewrite !before_cons. destruct (IH ys) as [->|[?|?]]; auto.
  - right. rewrite !before_diff by congruence. destruct (In_nthN V x) as (i & Hi); [assumption|]. destruct (In_nthN V y) as (j & Hj); [assumption|].
    destruct (N.lt_trichotomy i j) as [?|[->|?]]; [left; eauto|congruence|right; eauto].
Qed.
Lemma bfrom_irrefl fwd xs : ~ before_from fwd V xs xs. Proof. destruct fwd; apply before_irrefl. Qed.
Lemma bfrom_trans fwd xs ys zs : before_from fwd V xs ys -> before_from fwd V ys zs -> before_from fwd V xs zs.
Proof. destruct fwd; apply before_trans. Qed.
Lemma bfrom_total fwd k xs ys : vgram V k xs -> vgram V k ys -> xs = ys \/ before_from fwd V xs ys \/ before_from fwd V ys xs.
Proof.
  intros [L1 F1] [L2 F2]. destruct fwd; cbn [before_from].
  - apply before_total; [unfold lenN in *; lia|assumption|assumption].
  - destruct (before_total (rev xs) (rev ys)) as [E|H]; [rewrite !rev_length; unfold lenN in *; lia|apply Forall_rev; assumption|apply Forall_rev; assumption| |auto].
    left. rewrite <- (rev_involutive xs), E. apply rev_involutive.
Qed.
End Order.

(** ** the comparator *)
Definition look_ok (V : list (list N)) (look : list N -> byte_range -> res N) : Prop :=
  forall buf r w i, holds_text buf r w -> nthN V i = Some w -> look buf r = Ok i.
Section Comparator.
Variable V : list (list N).
Variable look : list N -> byte_range -> res N.
Hypothesis ND : NoDup V.
Hypothesis VW : Forall vword V.
Hypothesis VL : lenN V < 2 ^ 64 - 1.
Hypothesis LK : look_ok V look.
Lemma not_empty_range buf r w : holds_text buf r w -> w <> [] -> empty_range r = false.
Proof.
  intros H NE. destruct (holds_split _ _ _ H) as (p & q & _ & A & B). unfold empty_range. rewrite A, B. apply N.eqb_neq.
  destruct w; [congruence|rewrite lenN_cons; lia].
Qed.
Lemma cmp_loop_ok fwd bx by_ : lenN bx < 2 ^ 64 -> lenN by_ < 2 ^ 64 -> forall xs ys ix iy, length xs = length ys ->
  Forall (fun w => In w V) xs -> Forall (fun w => In w V) ys -> yields fwd bx ix xs -> yields fwd by_ iy ys ->
  exists b, cmp_loop (length xs) fwd look bx ix by_ iy = Ok b /\ (b = true <-> before V xs ys).
Proof.
  intros Lx Ly. induction xs as [|x xs IH]; intros [|y ys] ix iy LE F1 F2 Y1 Y2; try discriminate.
  - exists false. split; [reflexivity|]. split; [discriminate|]. intros H. destruct (before_nil_l _ _ H).
  - inversion F1 as [|? ? I1 F1']; inversion F2 as [|? ? I2 F2']; subst. cbn [yields] in Y1, Y2.
    destruct Y1 as (rx & ix' & E1 & T1 & Y1). destruct Y2 as (ry & iy' & E2 & T2 & Y2).
    cbn [length cmp_loop]. rewrite E1. cbn [bind]. rewrite E2. cbn [bind].
    assert (N1 : x <> []) by (rewrite Forall_forall in VW; apply (VW x I1)). assert (N2 : y <> []) by (rewrite Forall_forall in VW; apply (VW y I2)).
    rewrite (not_empty_range _ _ _ T1 N1), (not_empty_range _ _ _ T2 N2). cbn [orb].
    rewrite (equal_bytes_ok _ _ _ _ _ _ Lx Ly T1 T2). cbn [bind]. destruct (list_eq_dec N.eq_dec x y) as [->|D].
    + destruct (IH ys ix' iy') as (b & E & B); auto. exists b. split; [exact E|]. rewrite before_cons by assumption. exact B.
    + destruct (In_nthN V x I1) as (i & Hi). destruct (In_nthN V y I2) as (j & Hj). pose proof (nthN_lt _ _ _ Hi) as Li. pose proof (nthN_lt _ _ _ Hj) as Lj.
      rewrite (LK _ _ _ _ T1 Hi). cbn [bind]. replace (i =? not_found) with false by (symmetry; apply N.eqb_neq; unfold not_found; lia).
      rewrite (LK _ _ _ _ T2 Hj). cbn [bind]. replace (j =? not_found) with false by (symmetry; apply N.eqb_neq; unfold not_found; lia).
      eexists. split; [reflexivity|]. rewrite before_diff by assumption. rewrite N.ltb_lt. split; [eauto|].
      intros (i' & j' & A & B & L). rewrite (NoDup_nthN _ _ _ _ ND Hi A), (NoDup_nthN _ _ _ _ ND Hj B). exact L.
Qed.
Lemma comparator_ok fwd k bx x by_ y gx gy : 0 < k < 2 ^ 32 -> lenN bx < 2 ^ 64 -> lenN by_ < 2 ^ 64 -> vgram V k gx -> vgram V k gy ->
  holds_text bx x (join gx) -> holds_text by_ y (join gy) ->
  exists b, comparator fwd look bx x by_ y = Ok b /\ (b = true <-> before_from fwd V gx gy).
Proof.
  intros HK Lx Ly [K1 F1] [K2 F2] T1 T2.
  assert (FW : forall g, Forall (fun w => In w V) g -> Forall word g /\ Forall no_sep g).
  { intros g F. rewrite Forall_forall in VW. split; (eapply Forall_impl; [|exact F]); intros w I; destruct (VW w I) as (? & ? & ? & ?); split; assumption. }
  destruct (FW _ F1) as [W1 S1]. destruct (FW _ F2) as [W2 S2].
  unfold comparator. rewrite (bytes_at_ok _ _ _ T1). cbn [bind]. rewrite spaces_join by (auto; intros ->; change (lenN (@nil (list N))) with 0 in K1; lia).
  replace (N.to_nat (f32 (lenN gx - 1 + 1))) with (length gx).
  2:{ unfold f32. replace (lenN gx - 1 + 1) with (lenN gx) by lia. rewrite N.land_ones, N.mod_small by lia. unfold lenN. rewrite Nat2N.id. reflexivity. }
  destruct (holds_split _ _ _ T1) as (px & qx & -> & A1 & B1). destruct (holds_split _ _ _ T2) as (py & qy & -> & A2 & B2).
  destruct x as [x1 x2], y as [y1 y2]. cbn [fst snd] in *. subst x1 x2 y1 y2. rewrite !lenN_app in *.
  destruct fwd; cbn [before_from].
  - apply cmp_loop_ok; try (rewrite !lenN_app; assumption); auto. { unfold lenN in *. lia. } { apply yields_fwd; assumption. } { apply yields_fwd; assumption. }
  - rewrite <- (rev_length gx). apply cmp_loop_ok; try (rewrite !lenN_app; assumption).
    + rewrite !rev_length. unfold lenN in *. lia.
    + apply Forall_rev. assumption. + apply Forall_rev. assumption.
    + apply yields_bwd; [assumption|lia]. + apply yields_bwd; [assumption|lia].
Qed.
End Comparator.
