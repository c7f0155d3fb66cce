(** * Proofs about one call of score *)
From Coq Require Import Floats.SpecFloat.
From Verif Require Import Prelude M_Word BitFacts M_Score Spec_Katz P_Score1.

(** ** floats *)
Lemma ftrue_zero x : ftrue x = negb (is_zero x). Proof. destruct x; reflexivity. Qed.
Lemma feq_refl x : feq x x. Proof. left. reflexivity. Qed.
Lemma feq_sym x y : feq x y -> feq y x. Proof. intros [->|[]]; [apply feq_refl|right; auto]. Qed.
Lemma feq_trans x y z : feq x y -> feq y z -> feq x z.
Proof. intros [->|[A B]] [->|[C D]]; try (left; reflexivity); right; auto. Qed.
Lemma fplus_zero_r x z : is_zero z = true -> feq (fplus x z) x.
Proof.
  destruct z; try discriminate. intros _. unfold fplus. destruct x; cbn; try apply feq_refl.
  destruct (Bool.eqb _ _); right; auto.
Qed.

(** ** contexts *)
Definition ctx {V} (rh : list V) (j : N) : list V := rev (firstn (N.to_nat j) rh).
Lemma ctx_0 {V} (rh : list V) : ctx rh 0 = []. Proof. reflexivity. Qed.
Lemma ctx_cons {V} (rh : list V) v j : ctx (v :: rh) (j + 1) = ctx rh j ++ [v].
Proof. unfold ctx. replace (N.to_nat (j + 1)) with (S (N.to_nat j)) by lia. reflexivity. Qed.
Lemma firstn_S_nth {A} (l : list A) i x : nth_error l i = Some x -> firstn (S i) l = firstn i l ++ [x].
Proof.
  revert i. induction l as [|a l IH]; intros [|i] H; try discriminate.
  - cbn in H. injection H as ->. reflexivity.
  - cbn in H. change (firstn (S (S i)) (a :: l)) with (a :: firstn (S i) l). rewrite (IH i H). reflexivity.
Qed.
Lemma ctx_S {V} (rh : list V) j : j < lenN rh -> exists x, ctx rh (j + 1) = x :: ctx rh j.
Proof.
  intro H. destruct (nthN_Some rh j H) as (x & Hx). exists x. unfold ctx.
  replace (N.to_nat (j + 1)) with (S (N.to_nat j)) by lia.
  rewrite (firstn_S_nth _ _ _ Hx), rev_app_distr. reflexivity.
Qed.
Lemma ctx_len {V} (rh : list V) j : j <= lenN rh -> lenN (ctx rh j) = j.
Proof. unfold lenN, ctx. rewrite rev_length, firstn_length. lia. Qed.

Section STEP.
Context {V W R : Type}.
Variable M : list V -> option (F * F).
Variable unk : F.
Variable n : N.
Hypothesis Hn : 2 <= n <= 8.
Hypothesis HC : closed M.
Hypothesis HX : extended_nonzero M.

Record st_rep (st : pstate W) (pw : list W) (rh : list V) : Prop := mkrep {
  sr_words : cb_holds (ps_words st) pw;
  sr_cap : cb_capacity (ps_words st) = n;
  sr_lens : lenN pw = lenN rh;
  sr_pos : ps_pos st = 0;
  sr_curr : lenN (ps_curr st) = 8;
  sr_prev : lenN (ps_prev st) = 8;
  sr_max : ps_length st <= n - 1;
  sr_le : ps_length st <= lenN rh;
  sr_back : forall j, 1 <= j <= ps_length st -> exists p b, M (ctx rh j) = Some (p, b) /\ nthN (ps_prev st) (j - 1) = Some (Some b);
  sr_kept : N.to_nat (ps_length st) = kept M (N.to_nat n) rh }.

(** ** the kept context *)
Lemma longest_spec f m : (longest f m <= m)%nat /\ (longest f m <> O -> f (longest f m) = true) /\ forall j, (longest f m < j <= m)%nat -> f j = false.
Proof using Type.
  clear. induction m as [|m (I1 & I2 & I3)]; cbn [longest]; [split; [lia|split; [congruence|intros; lia]]|].
  destruct (f (S m)) eqn:E; [split; [lia|split; [auto|intros; lia]]|]. split; [lia|]. split; [exact I2|].
  intros j Hj. destruct (Nat.eq_dec j (S m)) as [->|]; [exact E|apply I3; lia].
Qed.
Lemma longest_unique f m k : (k <= m)%nat -> (k <> O -> f k = true) -> (forall j, (k < j <= m)%nat -> f j = false) -> k = longest f m.
Proof using Type.
  clear. intros H1 H2 H3. destruct (longest_spec f m) as (L1 & L2 & L3). destruct (Nat.lt_trichotomy k (longest f m)) as [H|[H|H]]; [|exact H|].
  - rewrite H3 in L2 by lia. assert (longest f m <> O) by lia. specialize (L2 H0). discriminate.
  - rewrite L3 in H2 by lia. assert (k <> O) by lia. specialize (H2 H0). discriminate.
Qed.
Lemma informs_none g : M g = None -> informs M g = false. Proof using Type. unfold informs. intros ->. reflexivity. Qed.
Lemma informs_some g : informs M g = true <-> exists p b, M g = Some (p, b) /\ is_zero b = false.
Proof using Type.
  unfold informs. destruct (M g) as [[p b]|]; [|split; [discriminate|intros (? & ? & ? & _); discriminate]].
  split; [intro H; exists p, b; split; [reflexivity|destruct (is_zero b); [discriminate|reflexivity]]|]. intros (p' & b' & E & Z). injection E as <- <-. rewrite Z. reflexivity.
Qed.
Lemma kept_le rh : (kept M (N.to_nat n) rh <= length rh)%nat /\ (kept M (N.to_nat n) rh <= N.to_nat n - 1)%nat.
Proof using Type.
  clear. induction rh as [|v rh IH]; cbn [kept length]; [lia|]. match goal with |- context [longest ?f ?m] => pose proof (longest_spec f m) as (L & _) end. lia.
Qed.
(** beyond the kept context nothing is listed with a nonzero back-off, if such contexts are needed for extensions *)
Lemma kept_long rh : forall j, (kept M (N.to_nat n) rh < j <= N.to_nat n - 1)%nat -> (j <= length rh)%nat ->
  forall p b, M (rev (firstn j rh)) = Some (p, b) -> is_zero b = true.
Proof using HX.
  clear HC Hn. induction rh as [|v rh IH]; intros j Hj Hl p b E; [cbn in Hl; lia|]. cbn [kept] in Hj.
  match type of Hj with context [longest ?f ?m] => pose proof (longest_spec f m) as (L1 & L2 & L3); set (lg := longest f m) in * end.
  destruct (Nat.le_gt_cases j (Nat.min (S (kept M (N.to_nat n) rh)) (N.to_nat n - 1))) as [Hs|Hs].
  - specialize (L3 j ltac:(lia)). cbv beta in L3. destruct (is_zero b) eqn:Z; [reflexivity|]. exfalso.
    assert (informs M (rev (firstn j (v :: rh))) = true) by (apply informs_some; eauto). congruence.
  - exfalso. assert (K : (kept M (N.to_nat n) rh < j - 1)%nat) by lia. destruct j as [|j]; [lia|]. cbn [firstn rev] in E. cbn [length] in Hl. rewrite Nat.sub_succ, Nat.sub_0_r in K.
    destruct (HX (rev (firstn j rh)) v) as (p' & b' & E1 & Z).
    + destruct j; [lia|]. destruct rh; [cbn in Hl; lia|]. cbn [firstn rev]. destruct (rev (firstn j rh)); discriminate.
    + rewrite E. discriminate.
    + rewrite (IH j ltac:(lia) ltac:(lia) p' b' E1) in Z. discriminate.
Qed.

Lemma suffix_listed rh v j : j < lenN rh -> M (ctx rh (j + 1) ++ [v]) <> None -> M (ctx rh j ++ [v]) <> None.
Proof.
  intros Hj H. destruct (ctx_S rh j Hj) as (x & E). rewrite E in H. exact (proj1 (HC _ _ _ H)).
Qed.
Lemma unlisted_up rh v k j : M (ctx rh k ++ [v]) = None -> k <= j <= lenN rh -> M (ctx rh j ++ [v]) = None.
Proof.
  intros H Hj. replace j with (k + (j - k)) by lia.
  assert (G : forall d, N.of_nat d <= j - k -> M (ctx rh (k + N.of_nat d) ++ [v]) = None).
  { induction d as [|d IH]; intro Hd.
    - rewrite N.add_0_r. exact H.
    - specialize (IH ltac:(lia)). destruct (M (ctx rh (k + N.of_nat (S d)) ++ [v])) eqn:E; [exfalso|reflexivity].
      apply (suffix_listed rh v (k + N.of_nat d)); [lia| |exact IH].
      replace (k + N.of_nat d + 1) with (k + N.of_nat (S d)) by lia. rewrite E. discriminate. }
  replace (j - k) with (N.of_nat (N.to_nat (j - k))) by lia. apply G. lia.
Qed.

Lemma katz_listed h v p b : M (h ++ [v]) = Some (p, b) -> katz M unk h v = p.
Proof. intro H. destruct h; cbn -[app]; rewrite H; reflexivity. Qed.
Lemma katz_step rh v j : j < lenN rh -> M (ctx rh (j + 1) ++ [v]) = None ->
  katz M unk (ctx rh (j + 1)) v =
  match M (ctx rh (j + 1)) with Some (_, b) => fplus (katz M unk (ctx rh j) v) b | None => katz M unk (ctx rh j) v end.
Proof.
  intros Hj H. destruct (ctx_S rh j Hj) as (x & E). rewrite E in *. cbn -[app]. rewrite H. reflexivity.
Qed.

(** the contexts beyond the state's length contribute nothing *)
Lemma katz_beyond rh v L H : L <= H -> H <= lenN rh ->
  (forall j, L < j <= H -> M (ctx rh j ++ [v]) = None /\ forall p b, M (ctx rh j) = Some (p, b) -> is_zero b = true) ->
  feq (katz M unk (ctx rh L) v) (katz M unk (ctx rh H) v).
Proof.
  intros HL HH A. replace H with (L + (H - L)) by lia.
  assert (G : forall d, N.of_nat d <= H - L -> feq (katz M unk (ctx rh L) v) (katz M unk (ctx rh (L + N.of_nat d)) v)).
  { induction d as [|d IH]; intro Hd.
    - rewrite N.add_0_r. apply feq_refl.
    - specialize (IH ltac:(lia)). replace (L + N.of_nat (S d)) with (L + N.of_nat d + 1) by lia.
      destruct (A (L + N.of_nat d + 1) ltac:(lia)) as (A1 & A2).
      rewrite katz_step by (auto; lia).
      destruct (M (ctx rh (L + N.of_nat d + 1))) as [[p b]|] eqn:E; [|exact IH].
      apply feq_trans with (1 := IH). apply feq_sym, fplus_zero_r. exact (A2 p b eq_refl). }
  replace (H - L) with (N.of_nat (N.to_nat (H - L))) by lia. apply G. lia.
Qed.

(** adding the stored back-offs *)
Lemma sum_backs (st : pstate W) rh v k p0 : ps_length st <= lenN rh -> lenN (ps_prev st) = 8 ->
  (forall j, 1 <= j <= ps_length st -> exists p b, M (ctx rh j) = Some (p, b) /\ nthN (ps_prev st) (j - 1) = Some (Some b)) ->
  (forall j, k < j <= ps_length st -> M (ctx rh j ++ [v]) = None) ->
  k <= ps_length st -> p0 = katz M unk (ctx rh k) v ->
  foldM (fun p i => b <- ps_backoff st i ;; Ok (fadd p b)) (seqN k (N.to_nat (ps_length st - k))) p0 =
  Ok (katz M unk (ctx rh (ps_length st)) v).
Proof using Type.
  clear HC HX Hn. intros HL HP HB HU Hk ->.
  assert (G : forall d k, k + N.of_nat d = ps_length st -> (forall j, k < j <= ps_length st -> M (ctx rh j ++ [v]) = None) ->
    foldM (fun p i => b <- ps_backoff st i ;; Ok (fadd p b)) (seqN k d) (katz M unk (ctx rh k) v) = Ok (katz M unk (ctx rh (ps_length st)) v)).
  { clear k Hk HU. induction d as [|d IH]; intros k Hd HU.
    - cbn. replace (ps_length st) with k by lia. reflexivity.
    - cbn [seqN foldM]. destruct (HB (k + 1) ltac:(lia)) as (p & b & E1 & E2).
      replace (k + 1 - 1) with k in E2 by lia.
      unfold ps_backoff at 1. rewrite (proj2 (rd_nthN _ _ _) E2). cbn [bind].
      assert (S : fadd (katz M unk (ctx rh k) v) b = katz M unk (ctx rh (k + 1)) v).
      { rewrite katz_step by (try (apply HU); lia). rewrite E1. reflexivity. }
      rewrite S. replace (N.succ k) with (k + 1) by lia. apply IH; [lia|]. intros j Hj. apply HU. lia. }
  apply G; [lia|exact HU].
Qed.

Variable rh : list V.
Variable v : V.
Context {T : Type}.
Variable probe : N -> W -> R -> T -> res (option (F * option F * R) * T).
Variable J : N -> R -> Prop.
Variable Inv : T -> Prop.

(** the probe answers what the table lists *)
Definition probe_ok_s (L : N) (pw : list W) : Prop :=
  forall k r w s, J k r -> Inv s -> k + 1 <= L -> M (ctx rh k ++ [v]) <> None -> nthN pw k = Some w ->
    match M (ctx rh (k + 1) ++ [v]) with
    | None => exists s', probe (k + 1) w r s = Ok (None, s') /\ Inv s'
    | Some (p, b) => exists r' s', probe (k + 1) w r s = Ok (Some (p, (if k + 1 =? n - 1 then None else Some b), r'), s') /\ J (k + 1) r' /\ Inv s'
    end.

(** loop invariant: k contexts matched *)
Record linv (st0 : pstate W) (k : N) (l : sl W R) : Prop := mklinv {
  li_m1 : sl_m1 l = k + 1;
  li_it : k + 1 < n -> sl_it l = cpos n (cb_end (ps_words st0)) (k + 1);
  li_r : J k (sl_r l);
  li_k : k <= ps_length st0;
  li_prob : exists b, M (ctx rh k ++ [v]) = Some (sl_prob l, b);
  li_words : ps_words (sl_st l) = ps_words st0;
  li_len : ps_length (sl_st l) = ps_length st0;
  li_oov : ps_oovs (sl_st l) = ps_oovs st0;
  li_pos : ps_pos (sl_st l) = k;
  li_prev : ps_prev (sl_st l) = ps_prev st0;
  li_clen : lenN (ps_curr (sl_st l)) = 8;
  li_curr : forall j, 1 <= j <= k + 1 -> j <= n - 1 -> exists p b, M (ctx (v :: rh) j) = Some (p, b) /\ nthN (ps_curr (sl_st l)) (j - 1) = Some (Some b);
  li_lml : sl_lml l <= k + 1 /\ sl_lml l <= n - 1;
  li_nz : 0 < sl_lml l -> exists p b, M (ctx (v :: rh) (sl_lml l)) = Some (p, b) /\ is_zero b = false;
  li_z : forall j, sl_lml l < j <= k + 1 -> j <= n - 1 -> forall p b, M (ctx (v :: rh) j) = Some (p, b) -> is_zero b = true }.

(** the loop ended after matching k contexts *)
Definition ended (st0 : pstate W) (k : N) (l : sl W R) : Prop :=
  exists l0, linv st0 k l0 /\ sl_m1 l = k + 1 /\ sl_prob l = sl_prob l0 /\ sl_lml l = sl_lml l0 /\
    ps_words (sl_st l) = ps_words st0 /\ ps_length (sl_st l) = ps_length st0 /\ ps_oovs (sl_st l) = ps_oovs st0 /\
    ps_prev (sl_st l) = ps_prev st0 /\ ps_curr (sl_st l) = ps_curr (sl_st l0) /\
    (k = ps_length st0 \/ M (ctx rh (k + 1) ++ [v]) = None).

Lemma round_ok st0 pw w0 k l s : cb_holds (ps_words st0) (w0 :: pw) -> cb_capacity (ps_words st0) = n -> lenN pw = lenN rh ->
  ps_length st0 <= n - 1 -> ps_length st0 <= lenN rh -> probe_ok_s (ps_length st0) pw -> linv st0 k l -> Inv s ->
  (exists l' s', score_round_s probe (l, s) = Ok (inl (l', s')) /\ linv st0 (k + 1) l' /\ Inv s') \/
  (exists l' s', score_round_s probe (l, s) = Ok (inr (l', s')) /\ ended st0 k l' /\ Inv s').
Proof using Hn.
  clear HC HX. intros HW Hcap Hlen HL HL2 HP I IS. destruct I. unfold score_round_s. rewrite li_m2, li_len0.
  destruct (N.leb_spec (k + 1) (ps_length st0)) as [Hk|Hk]; cbn [negb].
  2:{ right. eexists _, s. split; [reflexivity|]. split; [|exact IS]. exists l. assert (k = ps_length st0) by lia.
      repeat (split; [first [assumption|reflexivity|constructor; assumption]|]). left. assumption. }
  change (ps_words (ps_advance (sl_st l))) with (ps_words (sl_st l)). rewrite li_words0, li_it0 by lia.
  destruct (nthN_Some pw k ltac:(lia)) as (w & Hw).
  assert (D : ri_deref (ps_words st0) (cpos n (cb_end (ps_words st0)) (k + 1)) = Ok w).
  { rewrite <- Hcap. apply ri_deref_pos with (xs := w0 :: pw); [exact HW|lia|].
    rewrite nthN_S by lia. replace (k + 1 - 1) with k by lia. exact Hw. }
  rewrite D. cbn [bind].
  destruct li_prob0 as (b0 & Eb0).
  pose proof (HP k (sl_r l) w s li_r0 IS Hk ltac:(rewrite Eb0; discriminate) Hw) as Pk.
  destruct (M (ctx rh (k + 1) ++ [v])) as [[p b]|] eqn:EM.
  2:{ destruct Pk as (s' & Pk & IS'). rewrite Pk. cbn [bind]. cbv beta iota. right. eexists _, s'. split; [reflexivity|]. split; [|exact IS']. exists l.
      split; [constructor; try assumption; exists b0; exact Eb0|]. cbn. 
      repeat (split; [first [assumption|reflexivity]|]). right. exact EM. }
  destruct Pk as (r' & s' & EP & HJ & IS'). rewrite EP. cbn [bind]. cbv beta iota. left.
  destruct (N.eqb_spec (k + 1) (n - 1)) as [Kn|Kn].
  - cbn [bind]. eexists _, s'. split; [reflexivity|]. split; [|exact IS']. constructor; cbn.
    + rewrite add64_small by lia. reflexivity.
    + lia.
    + exact HJ.
    + exact Hk.
    + exists b. exact EM.
    + exact li_words0.
    + exact li_len0.
    + exact li_oov0.
    + rewrite li_pos0. rewrite add64_small by lia. reflexivity.
    + exact li_prev0.
    + exact li_clen0.
    + intros j Hj1 Hj2. apply li_curr0; lia.
    + lia.
    + exact li_nz0.
    + intros j Hj1 Hj2. apply li_z0; lia.
  - unfold ps_add_backoff at 1. cbn [ps_advance ps_curr ps_pos].
    rewrite li_pos0, (add64_small k 1) by lia. rewrite wr_setN by lia. cbn [bind].
    eexists _, s'. split; [reflexivity|]. split; [|exact IS'].
    assert (EM' : M (ctx (v :: rh) (k + 1 + 1)) = Some (p, b)) by (rewrite ctx_cons; exact EM).
    constructor; cbn [sl_m1 sl_it sl_r sl_prob sl_lml sl_st ps_length ps_words ps_oovs ps_pos ps_curr ps_prev ps_advance].
    + rewrite add64_small by lia. reflexivity.
    + intro H. rewrite li_words0. rewrite <- Hcap. apply ri_next_pos with (xs := w0 :: pw); [exact HW|lia].
    + exact HJ.
    + exact Hk.
    + exists b. exact EM.
    + exact li_words0.
    + exact li_len0.
    + exact li_oov0.
    + reflexivity.
    + exact li_prev0.
    + rewrite lenN_setN. exact li_clen0.
    + intros j Hj1 Hj2. destruct (N.eq_dec j (k + 1 + 1)) as [->|Hj].
      * exists p, b. split; [exact EM'|]. replace (k + 1 + 1 - 1) with (k + 1) by lia.
        rewrite nthN_setN by lia. rewrite N.eqb_refl. reflexivity.
      * destruct (li_curr0 j ltac:(lia) Hj2) as (p' & b' & X1 & X2). exists p', b'. split; [exact X1|].
        rewrite nthN_setN by lia. destruct (N.eqb_spec (j - 1) (k + 1)); [lia|exact X2].
    + assert (L255 : N.land (k + 1 + 1) 255 = k + 1 + 1).
      { change 255 with (N.ones 8). rewrite N.land_ones. apply N.mod_small. lia. }
      rewrite L255. destruct (ftrue b); lia.
    + assert (L255 : N.land (k + 1 + 1) 255 = k + 1 + 1).
      { change 255 with (N.ones 8). rewrite N.land_ones. apply N.mod_small. lia. }
      rewrite L255. rewrite ftrue_zero. destruct (is_zero b) eqn:Zb; cbn [negb]; intro H.
      * exact (li_nz0 H).
      * exists p, b. split; [exact EM'|exact Zb].
    + assert (L255 : N.land (k + 1 + 1) 255 = k + 1 + 1).
      { change 255 with (N.ones 8). rewrite N.land_ones. apply N.mod_small. lia. }
      rewrite L255. rewrite ftrue_zero. destruct (is_zero b) eqn:Zb; cbn [negb]; intros j Hj1 Hj2 p' b' E'.
      * destruct (N.eq_dec j (k + 1 + 1)) as [->|Hj].
        -- rewrite EM' in E'. congruence.
        -- apply (li_z0 j ltac:(lia) Hj2 p' b' E').
      * lia.
Qed.

Lemma rounds_ok st0 pw w0 : cb_holds (ps_words st0) (w0 :: pw) -> cb_capacity (ps_words st0) = n -> lenN pw = lenN rh ->
  ps_length st0 <= n - 1 -> ps_length st0 <= lenN rh -> probe_ok_s (ps_length st0) pw ->
  forall fuel k l s, linv st0 k l -> Inv s -> ps_length st0 - k + 2 <= N.of_nat fuel ->
  exists k' l' s', loop fuel (score_round_s probe) (l, s) = Ok (l', s') /\ ended st0 k' l' /\ Inv s'.
Proof using Hn.
  intros HW Hcap Hlen HL HL2 HP. induction fuel as [|fuel IH]; intros k l s I IS Hf; [lia|].
  cbn [loop]. destruct (round_ok st0 pw w0 k l s HW Hcap Hlen HL HL2 HP I IS) as [(l' & s' & E & I' & IS')|(l' & s' & E & I' & IS')]; rewrite E; cbn [bind].
  - apply (IH (k + 1) l' s' I' IS'). pose proof (li_k _ _ _ I'). lia.
  - exists k, l', s'. split; [reflexivity|]. split; [exact I'|exact IS'].
Qed.

(** one call of score *)
Theorem score_step_s st pw w r0 s : st_rep st pw rh -> lenN rh < 2 ^ 62 ->
  probe_ok_s (ps_length st) pw -> (M [v] <> None -> J 0 r0) -> Inv s ->
  exists st' s', score_with_s unk (match M [v] with Some (p, b) => Some (p, b, r0) | None => None end) probe st w s
    = Ok (katz M unk (ctx rh (ps_length st)) v, st', match M [v] with Some _ => false | None => true end, s') /\
    st_rep st' (w :: pw) (v :: rh) /\
    ps_oovs st' = match M [v] with Some _ => ps_oovs st | None => add64 (ps_oovs st) 1 end /\ Inv s'.
Proof.
  intros Rp Hbig HP HJ IS. clear HX. destruct Rp. unfold score_with_s. unfold ps_add_word at 1.
  destruct (cb_push_holds _ _ w sr_words0) as (c & EC & HW & Hcap). rewrite EC. cbn [bind].
  rewrite sr_cap0 in Hcap.
  assert (U1 : lenN (w :: pw) = lenN (v :: rh)) by (rewrite !lenN_cons; lia).
  destruct (M [v]) as [[p b]|] eqn:Ev.
  - unfold ps_add_backoff at 1. cbn [ps_curr ps_pos]. rewrite sr_pos0, wr_setN by lia. cbn [bind ps_words ps_length ps_oovs ps_pos ps_curr ps_prev].
    set (st0 := mkpst (ps_length st) c (ps_oovs st) 0 (setN (ps_curr st) 0 (Some b)) (ps_prev st)).
    assert (I0 : linv st0 0 (mksl 1 (ri_next c (cb_rbegin c)) r0 p (if ftrue b then 1 else 0) st0)).
    { constructor; cbn [sl_m1 sl_it sl_r sl_prob sl_lml sl_st ps_length ps_words ps_oovs ps_pos ps_curr ps_prev st0]; try reflexivity.
      - intros _. rewrite (cb_rbegin_pos _ _ HW). rewrite <- Hcap. apply (ri_next_pos c (w :: pw)); [exact HW|lia].
      - apply HJ. discriminate.
      - lia.
      - exists b. exact Ev.
      - rewrite lenN_setN. exact sr_curr0.
      - intros j Hj1 Hj2. assert (j = 1) by lia. subst j. exists p, b. split; [exact Ev|].
        rewrite nthN_setN by lia. reflexivity.
      - destruct (ftrue b); lia.
      - rewrite ftrue_zero. destruct (is_zero b) eqn:Zb; cbn [negb]; intro H; [lia|]. exists p, b. split; [exact Ev|exact Zb].
      - rewrite ftrue_zero. destruct (is_zero b) eqn:Zb; cbn [negb]; intros j Hj1 Hj2 p' b' E'; [|lia].
        assert (j = 1) by lia. subst j. change (ctx (v :: rh) 1) with [v] in E'. congruence. }
    destruct (rounds_ok st0 pw w HW Hcap sr_lens0 sr_max0 sr_le0 HP (N.to_nat (ps_length st) + 2) 0 _ s I0 IS) as (k & l & s' & EL & (l0 & I & E1 & E2 & E3 & E4 & E5 & E6 & E7 & E8 & E9) & IS').
    { change (ps_length st0) with (ps_length st). lia. }
    rewrite EL. cbn [bind]. cbv beta iota. rewrite E1, E2, E3.
    change (ps_length st0) with (ps_length st) in *. change (ps_words st0) with c in *. change (ps_oovs st0) with (ps_oovs st) in *.
    change (ps_prev st0) with (ps_prev st) in *.
    pose proof (li_k _ _ _ I) as Lk. change (ps_length st0) with (ps_length st) in Lk.
    destruct (li_prob _ _ _ I) as (bk & Ek).
    assert (None_up : forall j, k < j <= ps_length st -> M (ctx rh j ++ [v]) = None).
    { intros j Hj. destruct E9 as [E9|E9]; [lia|]. apply (unlisted_up rh v (k + 1)); [exact E9|lia]. }
    replace (k + 1 - 1) with k by lia. rewrite E5.
    rewrite <- E5. rewrite (sum_backs (sl_st l) rh v k (sl_prob l0)).
    2:{ rewrite E5. exact sr_le0. }
    2:{ rewrite E7. exact sr_prev0. }
    2:{ rewrite E5, E7. exact sr_back0. }
    2:{ rewrite E5. exact None_up. }
    2:{ rewrite E5. exact Lk. }
    2:{ symmetry. apply (katz_listed _ _ _ bk). exact Ek. }
    cbn [bind]. rewrite E5. eexists _, s'. split; [reflexivity|]. split; [|split; [exact E6|exact IS']].
    destruct I. constructor; cbn [ps_finalize ps_length ps_words ps_oovs ps_pos ps_curr ps_prev].
    + rewrite E4. exact HW.
    + rewrite E4. exact Hcap.
    + exact U1.
    + reflexivity.
    + rewrite E7. exact sr_prev0.
    + rewrite E8. exact li_clen0.
    + lia.
    + rewrite lenN_cons. lia.
    + intros j Hj. rewrite E8. apply li_curr0; lia.
    + cbn [kept]. rewrite <- sr_kept0. destruct li_lml0 as [LA LB]. apply longest_unique.
      * lia.
      * intro H. apply informs_some. change (rev (firstn (N.to_nat (sl_lml l0)) (v :: rh))) with (ctx (v :: rh) (sl_lml l0)). apply li_nz0. lia.
      * intros j Hj. destruct (informs M (rev (firstn j (v :: rh)))) eqn:Inf; [exfalso|reflexivity]. apply informs_some in Inf. destruct Inf as (p' & b' & E' & Z).
        replace j with (N.to_nat (N.of_nat j)) in E' by lia. set (i := N.of_nat j) in *. assert (Hi : N.to_nat i = j) by lia.
        destruct (N.le_gt_cases i (k + 1)) as [Hjk|Hjk].
        -- rewrite (li_z0 i ltac:(lia) ltac:(lia) p' b' E') in Z. discriminate.
        -- change (rev (firstn (N.to_nat i) (v :: rh))) with (ctx (v :: rh) i) in E'. replace i with (i - 1 + 1) in E' by lia. rewrite ctx_cons in E'.
           rewrite None_up in E' by lia. discriminate.
  - unfold ps_add_backoff at 1. cbn [ps_curr ps_pos]. rewrite sr_pos0, wr_setN by lia. cbn [bind ps_words ps_length ps_oovs ps_pos ps_curr ps_prev].
    assert (None_up : forall j, 0 <= j <= lenN rh -> M (ctx rh j ++ [v]) = None).
    { intros j Hj. apply (unlisted_up rh v 0); [exact Ev|lia]. }
    replace (1 - 1) with 0 by lia.
    match goal with |- context [ps_backoff ?s] => pose proof (sum_backs s rh v 0 unk) as SB end.
    cbn [ps_length ps_prev] in SB. rewrite SB; try assumption; try lia.
    2:{ intros j Hj. apply None_up. lia. }
    2:{ rewrite ctx_0. cbn. rewrite Ev. reflexivity. }
    cbn [bind]. eexists _, s. split; [reflexivity|]. split; [|split; [reflexivity|exact IS]].
    constructor; cbn [ps_finalize ps_length ps_words ps_oovs ps_pos ps_curr ps_prev].
    + exact HW.
    + exact Hcap.
    + exact U1.
    + reflexivity.
    + exact sr_prev0.
    + rewrite lenN_setN. exact sr_curr0.
    + lia.
    + lia.
    + intros j Hj. lia.
    + cbn [kept]. rewrite <- sr_kept0. apply longest_unique; [lia|intro Z; exfalso; apply Z; reflexivity|].
      intros j Hj. apply informs_none. destruct j as [|j]; [lia|]. cbn [firstn rev]. replace j with (N.to_nat (N.of_nat j)) by lia.
      apply (None_up (N.of_nat j)). lia.
Qed.

(** under [extended_nonzero] the kept context is all that Katz's rule needs *)
Lemma kept_katz st pw : st_rep st pw rh -> feq (katz M unk (ctx rh (ps_length st)) v) (katz M unk (ctx rh (N.min (n - 1) (lenN rh))) v).
Proof using HX Hn.
  clear Inv J probe. intro Rp. destruct Rp. apply katz_beyond; [lia|lia|]. intros j Hj.
  assert (LG : forall p b, M (ctx rh j) = Some (p, b) -> is_zero b = true).
  { apply (kept_long rh (N.to_nat j)); unfold lenN in *; lia. }
  split; [|exact LG]. destruct (M (ctx rh j ++ [v])) as [pb|] eqn:E; [exfalso|reflexivity].
  destruct (HX (ctx rh j) v) as (p & b & E1 & E2); [|rewrite E; discriminate|].
  - intro Z. pose proof (ctx_len rh j ltac:(lia)) as Y. rewrite Z in Y. change (lenN (@nil V)) with 0 in Y. lia.
  - rewrite (LG p b E1) in E2. discriminate.
Qed.
End STEP.

(** ** probes without a state *)
Definition stateless {W R} (probe : N -> W -> R -> res (option (F * option F * R))) (k : N) (w : W) (r : R) (u : unit) : res (option (F * option F * R) * unit) :=
  x <- probe k w r ;; Ok (x, u).
Lemma round_stateless {W R} (probe : N -> W -> R -> res (option (F * option F * R))) l :
  score_round_s (stateless probe) (l, tt) = (x <- score_round probe l ;; Ok (match x with inl y => inl (y, tt) | inr y => inr (y, tt) end)).
Proof.
  unfold score_round_s, score_round, stateless. destruct (negb _); [reflexivity|]. destruct (ri_deref _ _); cbn [bind]; try reflexivity.
  destruct (probe _ _ _) as [[[[p b] r]|]| |]; cbn [bind]; try reflexivity. destruct b as [b|]; [|reflexivity].
  destruct (ps_add_backoff _ _); reflexivity.
Qed.
Lemma loop_stateless {W R} (probe : N -> W -> R -> res (option (F * option F * R))) fuel : forall l,
  loop fuel (score_round_s (stateless probe)) (l, tt) = (x <- loop fuel (score_round probe) l ;; Ok (x, tt)).
Proof.
  induction fuel as [|f IH]; intro l; [reflexivity|]. cbn [loop]. rewrite round_stateless. destruct (score_round probe l) as [[y|y]| |]; cbn [bind]; try reflexivity. apply IH.
Qed.
Lemma score_stateless {W R} unk found (probe : N -> W -> R -> res (option (F * option F * R))) st w :
  score_with_s unk found (stateless probe) st w tt = (x <- score_with unk found probe st w ;; Ok (x, tt)).
Proof.
  unfold score_with_s, score_with. destruct (ps_add_word st w) as [st1| |]; cbn [bind]; try reflexivity. destruct found as [[[p b] r]|].
  - destruct (ps_add_backoff st1 b) as [st2| |]; cbn [bind]; try reflexivity. rewrite loop_stateless. destruct (loop _ _ _) as [l| |]; cbn [bind]; try reflexivity.
    cbv beta iota. destruct (foldM _ _ _) as [x| |]; reflexivity.
  - destruct (ps_add_backoff _ _) as [st2| |]; cbn [bind]; try reflexivity. destruct (foldM _ _ _) as [x| |]; reflexivity.
Qed.

Section PURE.
Context {V W R : Type}.
Variable M : list V -> option (F * F).
Variable unk : F.
Variable n : N.
Hypothesis Hn : 2 <= n <= 8.
Hypothesis HC : closed M.
Variable rh : list V.
Variable v : V.
Variable probe : N -> W -> R -> res (option (F * option F * R)).
Variable J : N -> R -> Prop.
Definition probe_ok (L : N) (pw : list W) : Prop :=
  forall k r w, J k r -> k + 1 <= L -> M (ctx rh k ++ [v]) <> None -> nthN pw k = Some w ->
    match M (ctx rh (k + 1) ++ [v]) with
    | None => probe (k + 1) w r = Ok None
    | Some (p, b) => exists r', probe (k + 1) w r = Ok (Some (p, (if k + 1 =? n - 1 then None else Some b), r')) /\ J (k + 1) r'
    end.
Theorem score_step st pw w r0 : st_rep M n st pw rh -> lenN rh < 2 ^ 62 ->
  probe_ok (ps_length st) pw -> (M [v] <> None -> J 0 r0) ->
  exists st', score_with unk (match M [v] with Some (p, b) => Some (p, b, r0) | None => None end) probe st w
    = Ok (katz M unk (ctx rh (ps_length st)) v, st', match M [v] with Some _ => false | None => true end) /\
    st_rep M n st' (w :: pw) (v :: rh) /\
    ps_oovs st' = match M [v] with Some _ => ps_oovs st | None => add64 (ps_oovs st) 1 end.
Proof.
  intros Rp HB HP HJ.
  destruct (score_step_s M unk n Hn HC rh v (stateless probe) J (fun _ => True) st pw w r0 tt Rp HB) as (st' & [] & E & R1 & OV & _); [|exact HJ|exact I|].
  - intros k r w1 [] Jk _ HK HM HW. pose proof (HP k r w1 Jk HK HM HW) as P. unfold stateless. destruct (M (ctx rh (k + 1) ++ [v])) as [[p b]|].
    + destruct P as (r' & E & J'). exists r', tt. rewrite E. cbn [bind]. auto.
    + exists tt. rewrite P. cbn [bind]. auto.
  - rewrite score_stateless in E. exists st'. destruct (score_with _ _ _ _ _) as [y| |]; cbn [bind] in E; try discriminate. injection E as ->. auto.
Qed.
End PURE.
