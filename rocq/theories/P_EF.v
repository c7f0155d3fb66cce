(** * Proofs about Elias-Fano, prefix sums, codewords *)
From Verif Require Import Prelude BitFacts M_Word P_Word M_Bits Spec P_Bits P_Builder P_Cursor
  M_CompactVector P_CompactVector P_BitProg M_DArray P_DArray M_EF.
From Coq Require Import Sorted.

(** ** builders as lists of bits *)
Definition brepl (b : bvb) (l : list bool) : Prop := brep b (num_of l) (lenN l).
Definition vrepl (v : bv) (l : list bool) : Prop := vrep v (num_of l) (lenN l).

Lemma append_repl b l v len : brepl b l -> len <= 64 -> v < 2 ^ len -> lenN l + 64 < 2 ^ 64 ->
  exists b', bvb_append_bits b v len = Ok b' /\ brepl b' (l ++ bits_of v len).
Proof.
  intros R Hl Hv L. destruct (bvb_append_bits_rep b _ _ v len R Hl Hv L) as (b' & E' & R'). exists b'. split; [assumption|].
  unfold brepl. rewrite lenN_app, lenN_bits_of.
  replace (num_of (l ++ bits_of v len)) with (N.lor (num_of l) (N.shiftl v (lenN l))); [assumption|].
  apply num_eq. intros i. rewrite N.lor_spec, tb_num_of, tb_shl, bit_at_app, bit_at_bits_of.
  destruct (N.ltb_spec i (lenN l)).
  - destruct (N.leb_spec (lenN l) i); [lia|]. apply orb_false_r.
  - rewrite bit_at_oob by assumption. destruct (N.leb_spec (lenN l) i); [|lia].
    destruct (N.ltb_spec (i - lenN l) len); [reflexivity|]. cbn. apply (tb_lt v len); assumption.
Qed.

Lemma num_bits_of v len : v < 2 ^ len -> num_of (bits_of v len) = v.
Proof.
  intros H. symmetry. apply num_eq. intros i. rewrite bit_at_bits_of. destruct (N.ltb_spec i len); [reflexivity|].
  apply (tb_lt v len); assumption.
Qed.

Lemma slice_mid {A} (a b c : list A) : slice (a ++ b ++ c) (lenN a) (lenN b) = b.
Proof.
  unfold slice, lenN. rewrite !Nat2N.id. rewrite skipn_app, skipn_all, Nat.sub_diag. cbn [app skipn].
  rewrite firstn_app, firstn_all, Nat.sub_diag. cbn [firstn]. apply app_nil_r.
Qed.

Lemma slice_mid' {A} (a b c : list A) p n : lenN a = p -> lenN b = n -> slice (a ++ b ++ c) p n = b.
Proof. intros <- <-. apply slice_mid. Qed.

Lemma nthN_decomp {A} (l : list A) i x : nthN l i = Some x ->
  exists l1 l2, l = l1 ++ x :: l2 /\ lenN l1 = i.
Proof.
  intros H. unfold nthN in H. apply nth_error_split in H. destruct H as (l1 & l2 & -> & L).
  exists l1, l2. split; [reflexivity|]. unfold lenN. lia.
Qed.

(** ** strictly increasing lists and the positions of the ones *)
Lemma fpos_sorted F n ps : forall a,
  StronglySorted N.lt ps -> (forall p, In p ps -> a <= p < n) ->
  (forall i, a <= i < n -> F i = true <-> In i ps) -> fpos F a n = ps.
Proof.
  induction ps as [|x r IH]; intros a HS HB HF.
  - apply fpos_none. intros i Hi. destruct (F i) eqn:E; [|reflexivity]. apply HF in E; [destruct E|assumption].
  - inversion HS as [|? ? HS' HX]; subst. rewrite Forall_forall in HX.
    assert (Hx : a <= x < n) by (apply HB; left; reflexivity).
    rewrite (fpos_split F a x) by lia. rewrite (fpos_none F a x).
    + cbn [app]. rewrite fpos_cons by lia. rewrite (proj2 (HF x Hx)) by (left; reflexivity). cbn [app]. f_equal.
      apply IH; [assumption| |].
      * intros p Hp. specialize (HX p Hp). specialize (HB p (or_intror Hp)). lia.
      * intros i Hi. rewrite HF by lia. cbn [In]. split; [intros [H|H]; [lia|assumption]|intros H; right; assumption].
    + intros i Hi. destruct (F i) eqn:E; [|reflexivity]. apply HF in E; [|lia]. destruct E as [->|E]; [lia|].
      apply HX in E. lia.
Qed.

Lemma bvb_set_true_tb V pos i : N.testbit (splice V pos (N.b2n true) 1) i = (i =? pos) || N.testbit V i.
Proof.
  rewrite tb_splice by (cbn; lia).
  destruct (N.eqb_spec i pos) as [->|].
  - destruct (N.leb_spec pos pos); [|lia]. destruct (N.ltb_spec pos (pos + 1)); [|lia]. cbn [andb]. rewrite N.sub_diag. reflexivity.
  - destruct (N.leb_spec pos i); destruct (N.ltb_spec i (pos + 1)); cbn [andb orb]; try reflexivity. exfalso; lia.
Qed.

(** ** the Elias-Fano core *)
Definition sortedN (vs : list N) : Prop :=
  forall i x y, nthN vs i = Some x -> nthN vs (i + 1) = Some y -> x <= y.

Lemma sortedN_le vs : sortedN vs -> forall i j x y, i <= j -> nthN vs i = Some x -> nthN vs j = Some y -> x <= y.
Proof.
  intros HS i j. remember (N.to_nat (j - i)) as d eqn:Ed. revert j Ed.
  induction d as [|d IH]; intros j Ed x y Hij Hx Hy.
  - assert (i = j) by lia. subst. rewrite Hx in Hy. injection Hy as ->. lia.
  - destruct (nthN_Some vs (j - 1)) as (z & Hz). { apply nthN_lt in Hy. lia. }
    transitivity z.
    + apply (IH (j - 1)); auto; lia.
    + apply (HS (j - 1)); [assumption|]. replace (j - 1 + 1) with j by lia. assumption.
Qed.

(** positions of the ones of the high part, from index k *)
Fixpoint hpos (l k : N) (vs : list N) : list N :=
  match vs with [] => [] | v :: r => (v / 2 ^ l + k) :: hpos l (k + 1) r end.
Lemma nthN_hpos l vs : forall k i, nthN (hpos l k vs) i = option_map (fun v => v / 2 ^ l + (k + i)) (nthN vs i).
Proof.
  induction vs as [|v vs IH]; intros k i.
  - unfold nthN. destruct (N.to_nat i); reflexivity.
  - cbn [hpos]. rewrite !nthN_cons. destruct (N.eqb_spec i 0) as [->|].
    + cbn [option_map]. f_equal. f_equal. lia.
    + rewrite IH. destruct (nthN vs (i - 1)); cbn [option_map]; [|reflexivity]. do 2 f_equal. lia.
Qed.
Lemma lenN_hpos l vs k : lenN (hpos l k vs) = lenN vs.
Proof. revert k. induction vs as [|v vs IH]; intros k; [reflexivity|]. cbn [hpos]. rewrite !lenN_cons, IH. reflexivity. Qed.

Definition lows (l : N) (vs : list N) : list bool := concat (map (fun v => bits_of (v mod 2 ^ l) l) vs).
Lemma lenN_lows l vs : lenN (lows l vs) = lenN vs * l.
Proof.
  induction vs as [|v vs IH]; [reflexivity|]. unfold lows in *. cbn [map concat]. rewrite lenN_app, lenN_bits_of, IH, lenN_cons. lia.
Qed.
Lemma lows_app l a b : lows l (a ++ b) = lows l a ++ lows l b.
Proof. unfold lows. rewrite map_app, concat_app. reflexivity. Qed.
Lemma lows_field l vs i v : nthN vs i = Some v -> field (num_of (lows l vs)) (i * l) l = v mod 2 ^ l.
Proof.
  intros H. destruct (nthN_decomp _ _ _ H) as (a & c & -> & L). rewrite <- num_of_slice.
  change (v :: c) with ([v] ++ c). rewrite !lows_app.
  replace (lows l [v]) with (bits_of (v mod 2 ^ l) l) by (unfold lows; cbn; rewrite app_nil_r; reflexivity).
  rewrite slice_mid' by (rewrite ?lenN_lows, ?lenN_bits_of, ?L; reflexivity).
  apply num_bits_of, N.mod_lt, N.pow_nonzero. lia.
Qed.


(** representation *)
Definition efc_rep (e : efc) (vs : list N) : Prop := exists VH NH,
  e_l e < 64 /\ lenN vs < 2 ^ 56 /\ NH < 2 ^ 63 /\ vrep (e_high e) VH NH /\
  fpos (N.testbit VH) 0 NH = hpos (e_l e) 0 vs /\ darr_ok (hpos (e_l e) 0 vs) (e_d1 e) /\
  vrepl (e_low e) (lows (e_l e) vs) /\ Forall (fun v => v < 2 ^ 64) vs /\
  (forall v, In v vs -> v / 2 ^ e_l e + lenN vs < NH).

Lemma ef_l_lt n u : u < 2 ^ 64 -> ef_l n u < 64.
Proof.
  intros Hu. unfold ef_l. destruct (N.eqb_spec n 0); cbn [negb andb]; [lia|].
  destruct (N.eqb_spec (u / n) 0); cbn [negb]; [lia|].
  assert (u / n < 2 ^ 64) by (apply N.le_lt_trans with u; [apply N.div_le_upper_bound; nia|assumption]).
  pose proof (msb_lt (u / n) 64 ltac:(apply N.neq_0_lt_0; assumption) ltac:(assumption)). rewrite N.mod_small; lia.
Qed.
Lemma ef_l_bound n u : 0 < n -> u < 2 ^ 64 -> u / 2 ^ ef_l n u < 2 * n.
Proof.
  intros Hn Hu. unfold ef_l. destruct (N.eqb_spec n 0); cbn [negb andb]; [lia|].
  destruct (N.eqb_spec (u / n) 0) as [E|E]; cbn [negb].
  - rewrite N.pow_0_r, N.div_1_r. apply N.div_small_iff in E; lia.
  - assert (u / n < 2 ^ 64) by (apply N.le_lt_trans with u; [apply N.div_le_upper_bound; nia|assumption]).
    pose proof (msb_lt (u / n) 64 ltac:(apply N.neq_0_lt_0; assumption) ltac:(assumption)). rewrite N.mod_small by lia.
    pose proof (msb_spec (u / n) ltac:(apply N.neq_0_lt_0; assumption)) as [_ M]. rewrite N.pow_add_r in M. change (2 ^ 1) with 2 in M.
    apply N.div_lt_upper_bound; [apply N.pow_nonzero; lia|].
    pose proof (N.div_mod u n ltac:(lia)). pose proof (N.mod_lt u n ltac:(lia)).
    set (k := 2 ^ msb (u / n)) in *. clearbody k. nia.
Qed.

Definition efinv (l NH : N) (a : list N) (s : efs) : Prop :=
  brepl (fs_low s) (lows l a) /\
  (exists V, brep (fs_high s) V NH /\ forall i, N.testbit V i = true <-> In i (hpos l 0 a)) /\
  fs_i s = lenN a /\ (a = [] \/ nthN a (lenN a - 1) = Some (fs_last s)).

Lemma hpos_snoc l a v : forall k, hpos l k (a ++ [v]) = hpos l k a ++ [v / 2 ^ l + (k + lenN a)].
Proof.
  induction a as [|x a IH]; intros k; cbn [hpos app].
  - rewrite lenN_nil, N.add_0_r. reflexivity.
  - rewrite IH, lenN_cons. do 3 f_equal. lia.
Qed.

Lemma shl1 l : l < 64 -> shl 1 l = 2 ^ l.
Proof.
  intros H. unfold shl. rewrite N.shiftl_mul_pow2, N.mul_1_l. apply w64_small. apply N.pow_lt_mono_r; lia.
Qed.
Lemma land_mask v l : l < 64 -> N.land v (sub64 (shl 1 l) 1) = v mod 2 ^ l.
Proof.
  intros H. rewrite shl1 by assumption. pose proof (pow2_pos l).
  assert (2 ^ l < 2 ^ 64) by (apply N.pow_lt_mono_r; lia).
  rewrite sub64_small by lia. rewrite <- N.land_ones. f_equal. rewrite N.ones_equiv. lia.
Qed.

Lemma ef_step_ok l NH a s v n : efinv l NH a s -> l < 64 -> NH < 2 ^ 63 -> n < 2 ^ 56 ->
  v < 2 ^ 64 -> lenN a < n -> v / 2 ^ l + lenN a < NH ->
  (forall x, nthN a (lenN a - 1) = Some x -> x <= v) ->
  exists s', ef_step l s v = Ok s' /\ efinv l NH (a ++ [v]) s'.
Proof.
  intros (I1 & (V & I2 & I3) & I4 & I5) Hl HN Hn Hv Ha Hp Hs. unfold ef_step.
  assert (C : negb (fs_i s =? 0) && (v <? fs_last s) = false).
  { rewrite I4. destruct (N.eqb_spec (lenN a) 0) as [E|E]; [reflexivity|]. cbn [negb andb].
    destruct I5 as [-> | I5]; [rewrite lenN_nil in E; lia|]. specialize (Hs _ I5).
    destruct (N.ltb_spec v (fs_last s)); [lia|reflexivity]. }
  rewrite C, shlU_ok by assumption. cbn [bind]. rewrite land_mask by assumption.
  assert (LO : exists lo, (if l =? 0 then Ok (fs_low s) else bvb_append_bits (fs_low s) (v mod 2 ^ l) l) = Ok lo /\
    brepl lo (lows l (a ++ [v]))).
  { rewrite lows_app. replace (lows l [v]) with (bits_of (v mod 2 ^ l) l) by (unfold lows; cbn; rewrite app_nil_r; reflexivity).
    destruct (N.eqb_spec l 0) as [->|].
    - exists (fs_low s). split; [reflexivity|]. change (bits_of (v mod 2 ^ 0) 0) with (@nil bool). rewrite app_nil_r. assumption.
    - apply append_repl; [assumption|lia|apply N.mod_lt, N.pow_nonzero; lia|rewrite lenN_lows; nia]. }
  destruct LO as (lo & -> & LO). cbn [bind]. rewrite shr_div, I4, add64_small by lia.
  destruct (bvb_set_rep (fs_high s) V NH (v / 2 ^ l + lenN a) true I2 Hp) as (hi & E & R). rewrite E. cbn [bind].
  eexists. split; [reflexivity|]. unfold efinv. cbn [fs_low fs_high fs_i fs_last].
  split; [assumption|]. split; [|split].
  - eexists. split; [exact R|]. intros i. rewrite bvb_set_true_tb, hpos_snoc, in_app_iff, orb_true_iff, I3, N.eqb_eq.
    rewrite N.add_0_l. cbn [In]. split; intros [H|H]; auto. destruct H; auto. contradiction.
  - rewrite lenN_app. reflexivity.
  - right. rewrite lenN_app. change (lenN [v]) with 1. replace (lenN a + 1 - 1) with (lenN a) by lia. apply nthN_snoc.
Qed.

Lemma ef_loop_ok l NH n : l < 64 -> NH < 2 ^ 63 -> n < 2 ^ 56 ->
  forall b a s, efinv l NH a s -> sortedN (a ++ b) -> lenN (a ++ b) <= n ->
  Forall (fun v => v < 2 ^ 64 /\ v / 2 ^ l + n < NH) b ->
  exists s', foldM (ef_step l) b s = Ok s' /\ efinv l NH (a ++ b) s'.
Proof.
  intros Hl HN Hn. induction b as [|v b IH]; intros a s I HS HL HF.
  - exists s. rewrite app_nil_r. split; [reflexivity|assumption].
  - inversion HF as [|? ? [Hv1 Hv2] HF']; subst. cbn [foldM].
    replace (a ++ v :: b) with ((a ++ [v]) ++ b) in * by (rewrite <- app_assoc; reflexivity).
    rewrite !lenN_app in HL. change (lenN [v]) with 1 in HL.
    destruct (ef_step_ok l NH a s v n I) as (s' & E & I'); auto; try lia.
    { intros x Hx. apply (HS (lenN a - 1)).
      - rewrite <- app_assoc, nthN_app1; [assumption|]. eapply nthN_lt; eauto.
      - assert (0 < lenN a) by (apply nthN_lt in Hx; lia). replace (lenN a - 1 + 1) with (lenN a) by lia.
        rewrite <- app_assoc, nthN_app2 by lia. rewrite N.sub_diag. reflexivity. }
    rewrite E. cbn [bind]. apply IH; auto. rewrite !lenN_app. change (lenN [v]) with 1. lia.
Qed.

Lemma sortedN_snoc a v : sortedN a -> (forall x, nthN a (lenN a - 1) = Some x -> x <= v) -> sortedN (a ++ [v]).
Proof.
  intros HS Hl i x y Hx Hy. pose proof (nthN_lt _ _ _ Hy) as L. rewrite lenN_app in L. change (lenN [v]) with 1 in L.
  rewrite nthN_app1 in Hx by lia. destruct (N.eq_dec (i + 1) (lenN a)) as [E|E].
  - rewrite E, nthN_snoc in Hy. injection Hy as <-. apply Hl. replace (lenN a - 1) with i by lia. assumption.
  - rewrite nthN_app1 in Hy by lia. apply (HS i); assumption.
Qed.

Lemma ef_loop_throw l NH n : l < 64 -> NH < 2 ^ 63 -> n < 2 ^ 56 ->
  forall b a s, efinv l NH a s -> sortedN a -> ~ sortedN (a ++ b) -> lenN (a ++ b) <= n ->
  Forall (fun v => v < 2 ^ 64 /\ v / 2 ^ l + n < NH) b ->
  foldM (ef_step l) b s = Throw.
Proof.
  intros Hl HN Hn. induction b as [|v b IH]; intros a s I HS HNS HL HF.
  - exfalso. apply HNS. rewrite app_nil_r. assumption.
  - inversion HF as [|? ? [Hv1 Hv2] HF']; subst. cbn [foldM].
    replace (a ++ v :: b) with ((a ++ [v]) ++ b) in * by (rewrite <- app_assoc; reflexivity).
    rewrite !lenN_app in HL. change (lenN [v]) with 1 in HL.
    destruct (negb (fs_i s =? 0) && (v <? fs_last s)) eqn:C.
    + unfold ef_step. rewrite C. reflexivity.
    + assert (HV : forall x, nthN a (lenN a - 1) = Some x -> x <= v).
      { intros x Hx. pose proof I as (_ & _ & I4 & I5). destruct I5 as [-> | I5]; [discriminate Hx|].
        rewrite I5 in Hx. injection Hx as <-. rewrite I4 in C. apply nthN_lt in I5.
        destruct (N.eqb_spec (lenN a) 0); [lia|]. cbn [negb andb] in C. apply N.ltb_ge in C. assumption. }
      destruct (ef_step_ok l NH a s v n I) as (s' & E & I'); auto; try lia.
      rewrite E. cbn [bind]. apply (IH (a ++ [v])); auto.
      * apply sortedN_snoc; assumption.
      * rewrite !lenN_app. change (lenN [v]) with 1. lia.
Qed.

Lemma hpos_incr l vs : sortedN vs -> forall k, StronglySorted N.lt (hpos l k vs).
Proof.
  intros HS k. assert (A : forall i j x y, i < j -> nthN (hpos l k vs) i = Some x -> nthN (hpos l k vs) j = Some y -> x < y).
  { intros i j x y Hij Hx Hy. rewrite nthN_hpos in Hx, Hy.
    destruct (nthN vs i) as [a|] eqn:Ea; [|discriminate]. destruct (nthN vs j) as [b|] eqn:Eb; [|discriminate].
    cbn [option_map] in *. injection Hx as <-. injection Hy as <-.
    assert (a <= b) by (apply (sortedN_le vs HS i j); auto; lia).
    pose proof (N.div_le_mono a b (2 ^ l) ltac:(apply N.pow_nonzero; lia) H). lia. }
  revert A. generalize (hpos l k vs) as ps. clear. induction ps as [|x ps IH]; intros A; [constructor|].
  constructor.
  - apply IH. intros i j a b Hij Ha Hb. apply (A (i + 1) (j + 1)); [lia| |]; rewrite nthN_S by lia;
    [rewrite <- Ha|rewrite <- Hb]; f_equal; lia.
  - apply Forall_forall. intros y Hy. apply In_nth_error in Hy. destruct Hy as (j & Hj).
    apply (A 0 (N.of_nat j + 1)); [lia|apply nthN_0|]. rewrite nthN_S by lia. unfold nthN. rewrite <- Hj. f_equal. lia.
Qed.

Lemma ef_bounds vs u : Forall (fun v => v <= u) vs -> u < 2 ^ 64 -> lenN vs < 2 ^ 56 ->
  (vs = [] -> u < 2 ^ 62) ->
  let l := ef_l (lenN vs) u in let NH := lenN vs + u / 2 ^ l + 1 in
  l < 64 /\ NH < 2 ^ 63 /\ add64 (add64 (lenN vs) (shr u l)) 1 = NH /\
  Forall (fun v => v < 2 ^ 64 /\ v / 2 ^ l + lenN vs < NH) vs.
Proof.
  intros HF Hu Hn H0 l NH. assert (Hl : l < 64) by (apply ef_l_lt; assumption).
  assert (HB : NH < 2 ^ 63).
  { unfold NH. destruct (N.eq_dec (lenN vs) 0) as [E|E].
    - assert (vs = []) by (destruct vs; [reflexivity|rewrite lenN_cons in E; lia]).
      specialize (H0 H). assert (u / 2 ^ l <= u) by (apply N.div_le_upper_bound; [apply N.pow_nonzero; lia|pose proof (pow2_pos l); nia]). lia.
    - pose proof (ef_l_bound (lenN vs) u ltac:(lia) Hu). fold l in H. lia. }
  split; [assumption|]. split; [assumption|]. split.
  - rewrite shr_div, !add64_small; unfold NH; try lia; rewrite add64_small; lia.
  - apply Forall_forall. intros v Hv. rewrite Forall_forall in HF. specialize (HF v Hv). split; [lia|].
    pose proof (N.div_le_mono v u (2 ^ l) ltac:(apply N.pow_nonzero; lia) HF). unfold NH. lia.
Qed.

Lemma efinv0 l NH : NH < 2 ^ 63 -> efinv l NH [] (mkefs (bvb_new NH false) (bvb_new 0 false) 0 0).
Proof.
  intros. split; [|split; [|split]]; cbn [fs_low fs_high fs_i fs_last].
  - unfold brepl, lows. cbn [map concat]. apply bvb_new0_rep.
  - exists 0. split; [apply bvb_new0_rep|]. intros i. rewrite N.bits_0. cbn [hpos In]. split; [discriminate|contradiction].
  - reflexivity.
  - left. reflexivity.
Qed.

Lemma d_build_ok1 v V n : vrep v V n -> n < 2 ^ 63 ->
  exists d, d_build false v = Ok d /\ darr_ok (fpos (N.testbit V) 0 n) d.
Proof.
  intros R Hn. destruct (d_build_ok false v V n R Hn) as (d & E & D). exists d. split; [assumption|].
  rewrite (fpos_ext _ (N.testbit V)) in D; [assumption|]. intros i _. destruct (N.testbit V i); reflexivity.
Qed.
Lemma d_select_ok1 d v V n idx q : vrep v V n -> n + 64 < 2 ^ 64 ->
  darr_ok (fpos (N.testbit V) 0 n) d -> nthN (fpos (N.testbit V) 0 n) idx = Some q -> d_select false d v idx = Ok q.
Proof.
  intros R Hn D Hq. apply (d_select_ok false d v V n); auto;
  rewrite (fpos_ext _ (N.testbit V)); auto; intros i _; destruct (N.testbit V i); reflexivity.
Qed.

Theorem efc_build_ok vs u : sortedN vs -> Forall (fun v => v <= u) vs -> u < 2 ^ 64 -> lenN vs < 2 ^ 56 ->
  (vs = [] -> u < 2 ^ 62) -> exists e, efc_build vs u = Ok e /\ efc_rep e vs.
Proof.
  intros HS HF Hu Hn H0. destruct (ef_bounds vs u HF Hu Hn H0) as (Hl & HN & EN & HB).
  set (l := ef_l (lenN vs) u) in *. set (NH := lenN vs + u / 2 ^ l + 1) in *.
  unfold efc_build. fold l. rewrite EN.
  destruct (ef_loop_ok l NH (lenN vs) Hl HN Hn vs [] _ (efinv0 l NH HN) HS ltac:(cbn [app]; lia) HB) as (s & E & I).
  rewrite E. cbn [bind app] in *. destruct I as (I1 & (V & I2 & I3) & I4 & I5).
  pose proof (brep_build _ _ _ I2) as VR.
  assert (FP : fpos (N.testbit V) 0 NH = hpos l 0 vs).
  { apply fpos_sorted; [apply hpos_incr; assumption| |intros; apply I3].
    intros p Hp. apply I3 in Hp. split; [lia|]. destruct VR as (_ & _ & _ & VL & _).
    destruct (N.lt_ge_cases p NH); [assumption|]. rewrite (tb_lt V NH) in Hp by assumption. discriminate. }
  destruct (d_build_ok1 _ _ _ VR HN) as (d & Ed & Dok). rewrite Ed. cbn [bind].
  eexists. split; [reflexivity|]. exists V, NH. cbn [e_l e_high e_d1 e_low]. rewrite FP in Dok.
  repeat (split; [first [assumption | apply brep_build; assumption]|]). split.
  - eapply Forall_impl; [|exact HB]. intros a [H _]; exact H.
  - rewrite Forall_forall in HB. intros v Hv. apply HB. assumption.
Qed.

Theorem efc_build_throw vs u : ~ sortedN vs -> Forall (fun v => v <= u) vs -> u < 2 ^ 64 -> lenN vs < 2 ^ 56 ->
  efc_build vs u = Throw.
Proof.
  intros HS HF Hu Hn. assert (H0 : vs = [] -> u < 2 ^ 62).
  { intros ->. exfalso. apply HS. intros i x y H. apply nthN_lt in H. rewrite lenN_nil in H. lia. }
  destruct (ef_bounds vs u HF Hu Hn H0) as (Hl & HN & EN & HB).
  unfold efc_build. rewrite EN.
  rewrite (ef_loop_throw _ _ (lenN vs) Hl HN Hn vs [] _ (efinv0 _ _ HN)); auto; cbn [app]; try lia.
  intros i x y H. apply nthN_lt in H. rewrite lenN_nil in H. lia.
Qed.

Lemma lor_join v l : v < 2 ^ 64 -> l < 64 -> N.lor (shl (v / 2 ^ l) l) (v mod 2 ^ l) = v.
Proof.
  intros Hv Hl. apply tb_eq. intros i. rewrite N.lor_spec, tb_shl64, tb_div, tb_mod.
  destruct (N.ltb_spec i 64).
  - destruct (N.leb_spec l i); destruct (N.ltb_spec i l); cbn [andb orb]; try (exfalso; lia).
    + rewrite orb_false_r. f_equal. lia.
    + reflexivity.
  - cbn [andb orb]. rewrite !(tb_lt v 64) by assumption. rewrite andb_false_r. reflexivity.
Qed.

Lemma sub64_add h i : h + i < 2 ^ 64 -> sub64 (h + i) i = h.
Proof. intros. rewrite sub64_small; lia. Qed.
Lemma lt_chain h i n B C : i < n -> h + n < B -> B <= C -> h + i < C.
Proof. lia. Qed.
Lemma efc_hi e vs i v : efc_rep e vs -> nthN vs i = Some v ->
  d_select false (e_d1 e) (e_high e) i = Ok (v / 2 ^ e_l e + i).
Proof.
  intros (VH & NH & Hl & Hn & HN & VR & FP & DO & LO & HF & HB) Hv.
  apply (d_select_ok1 _ _ VH NH); auto; [lia|rewrite FP; assumption|].
  rewrite FP, nthN_hpos, Hv. reflexivity.
Qed.

Theorem efc_get_ok e vs i v : efc_rep e vs -> nthN vs i = Some v -> efc_get e i = Ok v.
Proof.
  intros R Hv. pose proof R as (VH & NH & Hl & Hn & HN & VR & FP & DO & LO & HF & HB).
  unfold efc_get. rewrite (efc_hi e vs i v R Hv). cbn [bind].
  pose proof (nthN_In _ _ _ Hv) as HI. pose proof (HB v HI). pose proof (nthN_lt _ _ _ Hv).
  rewrite sub64_add by (apply (lt_chain _ _ _ _ (2 ^ 64) H0 H); lia).
  rewrite shlU_ok by assumption. cbn [bind]. rewrite mul64_small by nia.
  rewrite (bv_get_bits_ok _ _ _ _ _ LO) by (try lia; rewrite lenN_lows; nia). cbn [bind].
  rewrite lows_field with (v := v) by assumption. f_equal. apply lor_join; [|assumption].
  rewrite Forall_forall in HF. apply HF. assumption.
Qed.

(** ** the iterator *)
Definition efit_at (e : efc) (vs : list N) (it : efit) (i : N) : Prop :=
  fi_i it = i /\
  (exists VH NH, vrep (e_high e) VH NH /\ fpos (N.testbit VH) 0 NH = hpos (e_l e) 0 vs /\
     exists en p, fi_enum it = Some en /\ uit_at (e_high e) VH en p /\
       (forall k, i + k < lenN vs -> nthN (fpos (N.testbit VH) p NH) k = nthN (hpos (e_l e) 0 vs) (i + k))) /\
  (if e_l e =? 0 then lenN vs <= fi_avail it + i
   else fi_avail it * e_l e <= 64 /\ forall j, j < fi_avail it * e_l e ->
        N.testbit (fi_buf it) j = N.testbit (num_of (lows (e_l e) vs)) (i * e_l e + j)).

Lemma hpos_some l vs i v : nthN vs i = Some v -> nthN (hpos l 0 vs) i = Some (v / 2 ^ l + i).
Proof. intros H. rewrite nthN_hpos, H. reflexivity. Qed.

Lemma efit_new_ok e vs i : efc_rep e vs -> i < lenN vs -> exists it, efit_new e i = Ok it /\ efit_at e vs it i.
Proof.
  intros R Hi. pose proof R as (VH & NH & Hl & Hn & HN & VR & FP & DO & LO & HF & HB).
  destruct (nthN_Some vs i Hi) as (v & Hv). pose proof (nthN_In _ _ _ Hv) as HI. pose proof (HB v HI) as HBv.
  unfold efit_new. destruct DO as [D1 D2]. rewrite lenN_hpos in D1. rewrite D1.
  destruct (N.eqb_spec (lenN vs) 0); [lia|]. rewrite (efc_hi e vs i v R Hv). cbn [bind].
  assert (PB : v / 2 ^ e_l e + i < NH) by (apply (lt_chain _ _ _ _ _ Hi HBv); lia).
  destruct (uit_new_ok _ _ _ (v / 2 ^ e_l e + i) VR) as (en & E1 & A & _). { unfold words_for. dlia. }
  rewrite E1. cbn [bind]. eexists. split; [reflexivity|].
  split; [reflexivity|]. split.
  - exists VH, NH. split; [assumption|]. split; [assumption|]. exists en, (v / 2 ^ e_l e + i).
    split; [reflexivity|]. split; [assumption|]. intros k Hk. rewrite <- FP.
    apply fpos_from. rewrite FP. apply hpos_some. assumption.
  - cbn [fi_avail fi_buf]. destruct (N.eqb_spec (e_l e) 0); [lia|]. split; [lia|]. intros j Hj. lia.
Qed.

Lemma efit_next_ok e vs it i v : efc_rep e vs -> efit_at e vs it i -> nthN vs i = Some v ->
  exists it', efit_next e it = Ok (v, it') /\ efit_at e vs it' (i + 1).
Proof.
  intros R (A1 & (VH & NH & VR & FP & en & p & A2 & A3 & A4) & A5) Hv.
  pose proof R as (VH' & NH' & Hl & Hn & HN & VR' & FP' & DO & LO & HF & HB).
  assert (NH' = NH) as -> by (destruct VR as (_ & _ & _ & _ & <-), VR' as (_ & _ & _ & _ & <-); reflexivity).
  assert (VH' = VH) as -> by (destruct VR as (_ & _ & <- & _), VR' as (_ & _ & <- & _); reflexivity).
  pose proof (nthN_lt _ _ _ Hv) as Hi. pose proof (nthN_In _ _ _ Hv) as HI. pose proof (HB v HI) as HBv.
  assert (Hv64 : v < 2 ^ 64) by (rewrite Forall_forall in HF; auto).
  unfold efit_next. rewrite A1, A2.
  set (l := e_l e) in *. set (VL := num_of (lows l vs)) in *.
  assert (BUF : exists buf avail,
     (if fi_avail it =? 0 then w <- bv_get_word64 (e_low e) (mul64 i l) ;; Ok (w, sub64 (ef_chunks l) 1)
      else Ok (fi_buf it, fi_avail it - 1)) = Ok (buf, avail) /\
     N.land buf (sub64 (shl 1 l) 1) = v mod 2 ^ l /\
     (if l =? 0 then lenN vs <= avail + (i + 1)
      else avail * l <= 64 /\ forall j, j < avail * l -> N.testbit (shr buf l) j = N.testbit VL ((i + 1) * l + j))).
  { destruct (N.eqb_spec l 0) as [L0|L0].
    - destruct (N.eqb_spec (fi_avail it) 0); [lia|]. eexists. eexists. split; [reflexivity|].
      rewrite land_mask by assumption. rewrite L0, N.pow_0_r, !N.mod_1_r. split; [reflexivity|lia].
    - destruct A5 as [A5 A6].
      assert (LF : forall buf a, l <= a -> (forall j, j < a -> N.testbit buf j = N.testbit VL (i * l + j)) ->
                   N.land buf (sub64 (shl 1 l) 1) = v mod 2 ^ l).
      { intros buf a Ha Hb. rewrite land_mask by assumption. rewrite <- (lows_field l vs i v Hv).
        apply tb_eq. intros j. rewrite tb_mod, tb_field. destruct (N.ltb_spec j l); cbn [andb]; [|reflexivity].
        rewrite Hb by lia. unfold VL. f_equal. lia. }
      destruct (N.eqb_spec (fi_avail it) 0) as [Z|Z].
      + rewrite mul64_small by nia.
        rewrite (bv_get_word64_ok _ _ _ _ LO) by (rewrite lenN_lows; nia). cbn [bind].
        assert (C1 : ef_chunks l * l <= 64 /\ 1 <= ef_chunks l <= 64).
        { unfold ef_chunks. destruct (N.eqb_spec l 0); [lia|]. pose proof (N.mul_div_le 64 l ltac:(lia)).
          assert (1 <= 64 / l) by (apply N.div_le_lower_bound; lia).
          assert (64 / l <= 64) by (apply N.div_le_upper_bound; nia). nia. }
        rewrite sub64_small by lia. eexists. eexists. split; [reflexivity|]. split.
        * apply (LF _ 64); [lia|]. intros j Hj. rewrite tb_field. destruct (N.ltb_spec j 64); [|lia]. cbn [andb]. unfold VL, l. f_equal. lia.
        * split; [nia|]. intros j Hj. rewrite tb_shr64, tb_field. destruct (N.ltb_spec (j + l) 64); [|nia]. cbn [andb].
          unfold VL, l. f_equal. lia.
      + eexists. eexists. split; [reflexivity|]. split.
        * apply (LF _ (fi_avail it * l)); [nia|assumption].
        * split; [nia|]. intros j Hj. rewrite tb_shr64, A6 by nia. f_equal. lia. }
  destruct BUF as (buf & avail & -> & BL & BA). cbn [bind].
  assert (HQ : nthN (fpos (N.testbit VH) p NH) 0 = Some (v / 2 ^ l + i)).
  { rewrite A4 by lia. rewrite N.add_0_r. apply hpos_some. assumption. }
  destruct (uit_next_ok (e_high e) VH NH en p (v / 2 ^ l + i) VR) as (en' & E & U1 & U2); auto.
  { unfold words_for. dlia. }
  rewrite E. cbn [bind]. rewrite shlU_ok by assumption. cbn [bind]. rewrite BL.
  rewrite sub64_add by (apply (lt_chain _ _ _ _ (2 ^ 64) Hi HBv); lia).
  rewrite shlU_ok, shrU_ok by assumption. cbn [bind]. rewrite lor_join by assumption.
  eexists. split; [reflexivity|]. split; [reflexivity|]. split.
  - exists VH, NH. split; [assumption|]. split; [assumption|]. exists en', (v / 2 ^ l + i + 1).
    split; [reflexivity|]. split; [assumption|]. intros k Hk.
    replace (i + 1 + k) with (i + (1 + k)) by lia. rewrite <- A4 by lia.
    pose proof (nthN_fpos _ _ _ _ _ HQ) as (Q1 & Q2 & Q3).
    rewrite (fpos_split _ p (v / 2 ^ l + i)) by lia. rewrite nthN_app2 by lia. rewrite Q3.
    rewrite (fpos_cons _ (v / 2 ^ l + i)), Q2 by lia. cbn [app]. rewrite nthN_S by lia. f_equal. lia.
  - cbn [fi_avail fi_buf]. exact BA.
Qed.

Lemma efit_take_ok e vs : efc_rep e vs -> forall k it i, efit_at e vs it i -> i + N.of_nat k <= lenN vs ->
  efit_take e it k = Ok (slice vs i (N.of_nat k)).
Proof.
  intros R. induction k as [|k IH]; intros it i A Hk; [reflexivity|]. cbn [efit_take].
  destruct (nthN_Some vs i ltac:(lia)) as (v & Hv).
  destruct (efit_next_ok e vs it i v R A Hv) as (it' & E & A'). rewrite E. cbn [bind].
  rewrite (IH it' (i + 1)) by (auto; lia). cbn [bind]. f_equal.
  apply nthN_ext. intros j. rewrite nthN_cons, !nthN_slice.
  destruct (N.eqb_spec j 0) as [->|].
  - destruct (N.ltb_spec 0 (N.of_nat (S k))); [|lia]. rewrite N.add_0_r. symmetry. assumption.
  - destruct (N.ltb_spec (j - 1) (N.of_nat k)); destruct (N.ltb_spec j (N.of_nat (S k))); try (exfalso; lia); [|reflexivity].
    f_equal. lia.
Qed.
