(** * Proofs for uniform_pef: the enumerator over all partitions *)
From Verif Require Import Prelude BitFacts M_Word P_Word M_Bits Spec P_Bits P_Builder P_Cursor P_BitProg P_EF P_HashVec P_CompactVector
  M_CompactVector M_Codes Spec_Codes P_Codes M_FastEF M_Pef P_Pef1 P_Pef2 P_TrieProb2.

Section Pef.
Variable vals : list N.
Variable log : N.
Hypothesis Hlog : log = 6 \/ log = 7.
Hypothesis Hn : 0 < lenN vals < 2 ^ 40.
Hypothesis HS : sortedN vals.
Hypothesis HF : Forall (fun x => x < 2 ^ 56) vals.

Notation n := (lenN vals).
Notation psz := (2 ^ log).
Definition va (i : N) : N := match nthN vals i with Some x => x | None => 0 end.
(** the upper bounds stored: the first value, then the last value of each partition *)
Definition ubl (p : N) : N := va (N.min (p * psz) n - 1).
Definition plen (p : N) : N := N.min psz (n - p * psz).
Definition cur (p : N) : list N := map (fun x => x - ubl p) (slice vals (p * psz) psz).
Definition pu (p : N) : N := ubl (p + 1) - ubl p + 1.
Definition code (p : N) : list bool := cef_code (pu p) (cur p).
Definition is_parts (parts : N) : Prop := n <= parts * psz /\ (parts - 1) * psz < n /\ 0 < parts.
Variable parts : N.
Hypothesis Hparts : is_parts parts.

Lemma psz_bound : 64 <= psz <= 128.
Proof. clear - Hlog. destruct Hlog as [-> | ->]; [change (2 ^ 6) with 64|change (2 ^ 7) with 128]; lia. Qed.
Lemma va_nth i : i < n -> nthN vals i = Some (va i).
Proof. intros H. unfold va. destruct (nthN_Some vals i H) as (x & ->). reflexivity. Qed.
Lemma va_le i j : i <= j -> j < n -> va i <= va j.
Proof. intros H1 H2. apply (sortedN_le vals HS i j); [exact H1|apply va_nth; lia|apply va_nth; lia]. Qed.
Lemma va_lt i : va i < 2 ^ 56.
Proof.
  unfold va. destruct (nthN vals i) as [x|] eqn:E; [|reflexivity].
  pose proof (proj1 (Forall_forall _ _) HF x (nthN_In _ _ _ E)) as H. exact H.
Qed.
Lemma ubl_le p q : p <= q -> ubl p <= ubl q.
Proof.
  intros H. unfold ubl. apply va_le; [|lia]. assert (p * psz <= q * psz) by (apply N.mul_le_mono_r; exact H). lia.
Qed.
Lemma ubl_lt p : ubl p < 2 ^ 56.
Proof. apply va_lt. Qed.
Lemma lt_parts p : p < parts <-> p * psz < n.
Proof.
  destruct Hparts as (A & B & C). pose proof psz_bound. split; intros L.
  - assert (p * psz <= (parts - 1) * psz) by (apply N.mul_le_mono_r; lia). lia.
  - destruct (N.lt_ge_cases p parts); [assumption|]. assert (parts * psz <= p * psz) by (apply N.mul_le_mono_r; assumption). lia.
Qed.
Lemma plen_bound p : p < parts -> 0 < plen p <= 128.
Proof. intros L. apply lt_parts in L. pose proof psz_bound. unfold plen. lia. Qed.
Lemma lenN_slice' {A} (l : list A) a b : lenN (slice l a b) = N.min b (lenN l - a).
Proof. unfold slice, lenN. rewrite firstn_length, skipn_length. lia. Qed.
Lemma lenN_cur p : lenN (cur p) = plen p.
Proof. unfold cur. rewrite lenN_map, lenN_slice'. reflexivity. Qed.
Lemma nth_cur p i : i < plen p -> nthN (cur p) i = Some (va (p * psz + i) - ubl p).
Proof.
  intros H. unfold cur. rewrite nthN_map.
  assert (E : nthN (slice vals (p * psz) psz) i = nthN vals (p * psz + i)).
  { rewrite nthN_slice. unfold plen in H. destruct (N.ltb_spec i psz); [reflexivity|lia]. }
  rewrite E, va_nth by (unfold plen in H; lia). reflexivity.
Qed.
Lemma ubl_base p i : p < parts -> i < plen p -> ubl p <= va (p * psz + i).
Proof. intros H1 H2. unfold ubl. apply va_le; unfold plen in *; lia. Qed.
Lemma ubl_top p i : p < parts -> i < plen p -> va (p * psz + i) <= ubl (p + 1).
Proof. intros H1 H2. unfold ubl. pose proof psz_bound. apply va_le; unfold plen in *; lia. Qed.
Lemma cur_sorted p : p < parts -> sortedN (cur p).
Proof.
  intros Hp i x y Hx Hy. pose proof (nthN_lt _ _ _ Hy) as L. rewrite lenN_cur in L. rewrite nth_cur in Hx by lia. rewrite nth_cur in Hy by lia.
  injection Hx as <-. injection Hy as <-. apply N.sub_le_mono_r. apply va_le; unfold plen in L; lia.
Qed.
Lemma cur_lt p : p < parts -> Forall (fun x => x < pu p) (cur p).
Proof.
  intros Hp. apply Forall_forall. intros x Hx. apply In_nth_error in Hx. destruct Hx as (k & Hk).
  assert (E : nthN (cur p) (N.of_nat k) = Some x) by (unfold nthN; rewrite Nat2N.id; exact Hk).
  pose proof (nthN_lt _ _ _ E) as L. rewrite lenN_cur in L. rewrite nth_cur in E by exact L. injection E as <-.
  pose proof (ubl_base p _ Hp L). pose proof (ubl_top p _ Hp L). unfold pu. lia.
Qed.
Lemma last_va p : p < parts -> va (p * psz + (plen p - 1)) = ubl (p + 1).
Proof. intros Hp. apply lt_parts in Hp. pose proof psz_bound. unfold ubl, plen. f_equal. lia. Qed.
Lemma cur_last p : p < parts -> nthN (cur p) (plen p - 1) = Some (pu p - 1).
Proof.
  intros Hp. pose proof (plen_bound p Hp). rewrite nth_cur by lia. rewrite last_va by exact Hp. unfold pu. f_equal. lia.
Qed.
Lemma pu_lt p : pu p < 2 ^ 57.
Proof. unfold pu. pose proof (ubl_lt (p + 1)). change (2 ^ 57) with (2 * 2 ^ 56). lia. Qed.

(** ** a built sequence *)
Variable f : pef.
Variables U x0 x1 : N.
Variable Bo : N -> N.
Hypothesis Hx0 : x0 < 2 ^ 64.
Hypothesis Hx1 : x1 < 2 ^ 64.
Definition pd : pads := mkpads [x0] [x1].

Definition data_at (l1 l2 : list bool) (p : N) : Prop :=
  vrepl (pf_data f) (l1 ++ code p ++ l2) /\ lenN (l1 ++ code p ++ l2) < 2 ^ 62 /\ lenN l1 = Bo p.

Record prep : Prop := {
  rp_size : pf_size f = n;
  rp_log : pf_log f = log;
  rp_parts : pf_parts f = parts;
  rp_univ : pf_univ f = U;
  rp_data : forall p, p < parts -> exists l1 l2, data_at l1 l2 p;
  rp_ubs : 1 < parts -> cv_holds (pf_ubs f) (map ubl (range (parts + 1))) /\ c_width (pf_ubs f) <= 57 }.
Hypothesis HP : prep.

(** the constants read by init *)
Definition econst (e : pen) : Prop := 1 < parts -> forall p, p < parts ->
  exists k, (if p =? 0 then Ok 0 else bv_get_bits (pf_data f) (en_eoff e + (p - 1) * en_ebits e) (en_ebits e)) = Ok k /\ en_soff e + k = Bo p.

(** the enumerator stands at element [i] of partition [p] *)
Definition pst (e : pen) (p i : N) : Prop :=
  p < parts /\ en_part e = p /\ en_begin e = p * psz /\ en_end e = N.min n ((p + 1) * psz) /\ en_base e = ubl p /\ en_ub e = ubl (p + 1) /\ econst e /\
  exists l1 l2, data_at l1 l2 p /\ cst (pf_data f) l1 l2 (pu p) (cur p) (en_cef e) i.

Lemma shl_log p : p < 2 ^ 41 -> shl p log = p * psz.
Proof.
  intros H. unfold shl. rewrite N.shiftl_mul_pow2. apply w64_small. pose proof psz_bound.
  apply N.le_lt_trans with (p * 128); [apply N.mul_le_mono_l; lia|]. change (2 ^ 64) with (2 ^ 41 * 2 ^ 23). change (2 ^ 23) with 8388608. change (2 ^ 41) with 2199023255552 in *. lia.
Qed.
Lemma shr_log p : shr p log = p / psz.
Proof. apply shr_div. Qed.
Lemma parts_lt : parts < 2 ^ 40.
Proof. assert (parts - 1 < parts) by (destruct Hparts; lia). destruct Hparts as (A & B & C). pose proof psz_bound. nia. Qed.

Lemma ub_ok p : 1 < parts -> p <= parts -> pef_ub pd f p = Ok (ubl p).
Proof.
  intros H1 H2. destruct (rp_ubs HP H1) as (A & B). unfold pef_ub. cbn [pd_ubs pd]. apply (access_padded _ (map ubl (range (parts + 1))) x1); try assumption.
  rewrite nthN_map, nthN_range by lia. reflexivity.
Qed.

Lemma cst_val e p i l1 l2 : p < parts -> data_at l1 l2 p -> cst (pf_data f) l1 l2 (pu p) (cur p) (en_cef e) i ->
  i <= plen p /\ (i < plen p -> ce_val (en_cef e) = va (p * psz + i) - ubl p) /\ (i = plen p -> ce_val (en_cef e) = pu p).
Proof.
  intros Hp D (C1 & C2 & [(it & T1 & _)|(T1 & T2)]).
  - pose proof (nthN_lt _ _ _ T1) as L. rewrite lenN_cur in L. rewrite nth_cur in T1 by exact L. injection T1 as T1. repeat split; intros; try lia; congruence.
  - rewrite lenN_cur in T1. repeat split; intros; try lia; assumption.
Qed.

Lemma switch_ok e p : 1 < parts -> econst e -> p < parts ->
  exists e', pef_switch pd f e p = Ok e' /\ pst e' p (plen p) /\ en_pos e' = en_pos e /\ en_first e' = en_first e.
Proof.
  intros H1 EC Hp. destruct (EC H1 p Hp) as (k & K1 & K2). unfold pef_switch. rewrite K1. cbn [bind].
  rewrite !ub_ok by lia. cbn [bind]. pose proof parts_lt. rewrite (rp_log HP), (rp_size HP), !shl_log by (change (2 ^ 41) with (2 * 2 ^ 40); lia).
  destruct (rp_data HP p Hp) as (l1 & l2 & D). pose proof D as (D1 & D2 & D3). pose proof (plen_bound p Hp) as PB.
  pose proof (ubl_le p (p + 1) ltac:(lia)). pose proof (ubl_lt (p + 1)). pose proof psz_bound. pose proof (proj1 (lt_parts p) Hp).
  rewrite (sub64_small (ubl _)) by lia. rewrite add64_small by lia. fold (pu p). rewrite sub64_small by lia.
  assert (EL : N.min n ((p + 1) * psz) - p * psz = plen p) by (unfold plen; lia). rewrite EL, K2, <- D3, <- lenN_cur.
  destruct (cen_new_ok (pf_data f) l1 l2 (pu p) (cur p)) as (c & E & C).
  - rewrite lenN_cur. exact PB.
  - apply pu_lt.
  - rewrite E. cbn [bind]. eexists. split; [reflexivity|]. cbn [en_pos en_first]. split; [|split; reflexivity].
    split; [exact Hp|]. cbn [en_part en_begin en_end en_base en_ub en_cef]. repeat (split; [reflexivity|]). split.
    + intros _. exact (EC H1).
    + exists l1, l2. split; [exact D|]. exact C.
Qed.

Lemma part_of pos : pos < n -> pos / psz < parts /\ pos / psz * psz + pos mod psz = pos /\ pos mod psz < plen (pos / psz).
Proof.
  intros H. pose proof psz_bound. pose proof (N.div_mod pos psz ltac:(lia)) as E. pose proof (N.mod_lt pos psz ltac:(lia)).
  rewrite N.mul_comm in E. split; [apply lt_parts; lia|]. split; [lia|]. unfold plen. lia.
Qed.
Lemma div_part p i : i < psz -> (p * psz + i) / psz = p /\ (p * psz + i) mod psz = i.
Proof. intros H. pose proof psz_bound. split; symmetry; [apply (N.div_unique _ _ _ i); lia|apply (N.mod_unique _ _ p); lia]. Qed.

Lemma cef_move_ok e p i j : pst e p i -> j <= plen p ->
  exists c, cen_move (pf_data f) (pd_data pd) (en_cef e) j = Ok c /\ forall pos, pst (with_cef e pos c) p j.
Proof.
  intros (P1 & P2 & P3 & P4 & P5 & P6 & P7 & l1 & l2 & D & C) Hj. pose proof D as (D1 & D2 & D3).
  destruct (cen_move_ok (pf_data f) l1 l2 (pu p) (cur p) x0 D1) with (c := en_cef e) (i := i) (p := j) as (c & E & C'); try assumption.
  - rewrite lenN_cur. apply plen_bound; assumption.
  - apply pu_lt.
  - apply cur_sorted; assumption.
  - apply cur_lt; assumption.
  - rewrite lenN_cur. assumption.
  - exists c. split; [exact E|]. intros pos. unfold with_cef. split; [exact P1|]. cbn [en_part en_begin en_end en_base en_ub en_cef]. repeat (split; [assumption|]).
    exists l1, l2. split; assumption.
Qed.

Lemma pst_value e p i : pst e p i -> i < plen p -> add64 (en_base e) (ce_val (en_cef e)) = va (p * psz + i).
Proof.
  intros (P1 & P2 & P3 & P4 & P5 & P6 & P7 & l1 & l2 & D & C) Hi. destruct (cst_val e p i l1 l2 P1 D C) as (_ & V & _). rewrite V by exact Hi.
  pose proof (ubl_base p i P1 Hi). pose proof (va_lt (p * psz + i)). rewrite P5, add64_small by lia. lia.
Qed.

Lemma in_part e p i pos : pst e p i -> en_begin e <= pos -> pos < en_end e -> pos / psz = p /\ pos mod psz = pos - p * psz /\ pos - p * psz < plen p /\ pos < n.
Proof.
  intros (P1 & P2 & P3 & P4 & _) H1 H2. rewrite P3 in H1. rewrite P4 in H2. pose proof psz_bound.
  destruct (div_part p (pos - p * psz) ltac:(lia)) as (A & B). replace (p * psz + (pos - p * psz)) with pos in * by lia.
  repeat split; try assumption; unfold plen; lia.
Qed.

(** operator[] *)
Lemma move_ok e p i pos : pst e p i -> pos < n ->
  exists e', pef_move pd f e pos = Ok (va pos, e') /\ pst e' (pos / psz) (pos mod psz) /\ en_pos e' = pos /\ en_first e' = en_first e.
Proof.
  intros P Hp. unfold pef_move. destruct ((en_begin e <=? pos) && (pos <? en_end e)) eqn:T.
  - apply andb_true_iff in T. destruct T as [T1 T2]. apply N.leb_le in T1. apply N.ltb_lt in T2.
    destruct (in_part e p i pos P T1 T2) as (I1 & I2 & I3 & I4). pose proof P as (P1 & P2 & P3 & _).
    rewrite P3, sub64_small by lia. destruct (cef_move_ok e p i (pos - p * psz) P ltac:(lia)) as (c & E & C). rewrite E. cbn [bind].
    pose proof (pst_value _ _ _ (C pos) I3) as V. cbn [with_cef en_base en_cef] in V. rewrite V. replace (p * psz + (pos - p * psz)) with pos by lia.
    exists (with_cef e pos c). split; [reflexivity|]. rewrite I1, I2. split; [apply C|]. split; reflexivity.
  - unfold pef_slow_move. rewrite (rp_size HP), (rp_log HP), shr_log. destruct (N.eqb_spec pos n); [lia|].
    destruct (part_of pos Hp) as (A1 & A2 & A3).
    assert (M : 1 < parts).
    { destruct (N.le_gt_cases parts 1) as [L|L]; [exfalso|assumption]. pose proof P as (P1 & P2 & P3 & P4 & _).
      assert (p = 0) by lia. subst p. rewrite P3, P4 in T. destruct Hparts as (Q & _). assert (EP : parts = 1) by lia. rewrite EP in Q.
      apply andb_false_iff in T. destruct T as [T|T]; [apply N.leb_gt in T; lia|apply N.ltb_ge in T; lia]. }
    pose proof P as (_ & _ & _ & _ & _ & _ & EC & _).
    destruct (switch_ok e (pos / psz) M EC A1) as (e1 & E1 & P1 & Q1 & Q2). rewrite E1. cbn [bind].
    pose proof P1 as (_ & _ & B1 & _). rewrite B1, sub64_small by lia. replace (pos - pos / psz * psz) with (pos mod psz) by lia.
    destruct (cef_move_ok e1 (pos / psz) _ (pos mod psz) P1 ltac:(lia)) as (c & E & C). rewrite E. cbn [bind].
    pose proof (pst_value _ _ _ (C pos) A3) as V. cbn [with_cef en_base en_cef] in V. rewrite V, A2.
    exists (with_cef e1 pos c). split; [reflexivity|]. split; [apply C|]. split; [reflexivity|exact Q2].
Qed.

(** operator[] at the end *)
Lemma move_end e p i : pst e p i ->
  exists e', pef_move pd f e n = Ok (U, e') /\ pst e' (parts - 1) (plen (parts - 1)) /\ en_pos e' = n /\ en_first e' = en_first e.
Proof.
  intros P. unfold pef_move. destruct ((en_begin e <=? n) && (n <? en_end e)) eqn:T.
  { exfalso. apply andb_true_iff in T. destruct T as [T1 T2]. apply N.ltb_lt in T2. pose proof P as (_ & _ & _ & P4 & _). rewrite P4 in T2. lia. }
  unfold pef_slow_move. rewrite (rp_size HP), N.eqb_refl, (rp_parts HP), (rp_univ HP). pose proof Hparts as (_ & _ & H0).
  assert (S : exists e1, (if 1 <? parts then pef_switch pd f e (sub64 parts 1) else Ok e) = Ok e1 /\ (exists i', pst e1 (parts - 1) i') /\ en_first e1 = en_first e).
  { pose proof P as (P1 & _ & _ & _ & _ & _ & EC & _). destruct (N.ltb_spec 1 parts) as [L|L].
    - rewrite sub64_small by (pose proof parts_lt; lia). destruct (switch_ok e (parts - 1) L EC ltac:(lia)) as (e1 & E1 & Q1 & _ & Q2). exists e1. split; [exact E1|]. split; [eexists; exact Q1|exact Q2].
    - exists e. split; [reflexivity|]. split; [exists i; replace (parts - 1) with p by lia; exact P|reflexivity]. }
  destruct S as (e1 & E1 & (i' & Q1) & Q2). rewrite E1. cbn [bind].
  pose proof Q1 as (_ & _ & _ & _ & _ & _ & _ & l1 & l2 & _ & (CO & _)). rewrite CO. cbn [of_n cof_of]. rewrite lenN_cur.
  destruct (cef_move_ok e1 (parts - 1) i' (plen (parts - 1)) Q1 ltac:(lia)) as (c & E & C). rewrite E. cbn [bind].
  exists (with_cef e1 n c). split; [reflexivity|]. split; [apply C|]. split; [reflexivity|exact Q2].
Qed.

(** ** the search over the upper bounds *)
Lemma back_ok : 1 < parts -> cv_back (pf_ubs f) = Ok (ubl parts).
Proof.
  intros H1. destruct (rp_ubs HP H1) as (A & B). unfold cv_back. rewrite (cv_holds_size _ _ A), lenN_map, lenN_range. pose proof parts_lt.
  rewrite sub64_small by lia. apply (cv_holds_get _ (map ubl (range (parts + 1)))); [exact A|]. rewrite nthN_map, nthN_range by lia. cbn [option_map]. do 2 f_equal. lia.
Qed.

Lemma scan_ok lower : 1 < parts -> forall fuel lo hi, hi <= parts \/ lo <= parts /\ lower <= ubl parts -> lo <= hi + 1 -> (N.to_nat (hi + 1 - lo) <= fuel)%nat ->
  exists pid, ub_scan fuel pd f lo hi lower = Ok pid /\ lo <= pid <= hi + 1 /\ (forall k, lo <= k < pid -> ubl k < lower) /\ (pid <= hi -> lower <= ubl pid).
Proof.
  intros H1. induction fuel as [|fuel IH]; intros lo hi Hb Hl Hf; cbn [ub_scan]; (destruct (N.leb_spec lo hi) as [L|L]; [|exists lo; split; [reflexivity|]; split; [lia|]; split; [intros; lia|intros; lia]]).
  - lia.
  - rewrite ub_ok by lia. cbn [bind]. destruct (N.leb_spec lower (ubl lo)) as [G|G].
    + exists lo. split; [reflexivity|]. split; [lia|]. split; [intros; lia|intros; assumption].
    + destruct (IH (lo + 1) hi) as (pid & E & P1 & P2 & P3); [|lia|lia|].
      { destruct Hb as [|(A & B)]; [left; assumption|right]. split; [|assumption]. destruct (N.eq_dec lo parts) as [->|]; [lia|lia]. }
      exists pid. split; [exact E|]. split; [lia|]. split; [|exact P3]. intros k Hk. destruct (N.eq_dec k lo) as [->|]; [assumption|apply P2; lia].
Qed.

Definition bres (pb pe lower pid : N) : Prop :=
  pb <= pid <= pe + 1 /\ (pid <= pe -> lower <= ubl pid) /\ (pid = pe + 1 -> ubl pe < lower) /\ (ubl (pid - 1) < lower \/ pid < pe /\ ubl pid = lower).

Lemma scan_bres lower pb pe : 1 < parts -> 1 <= pb <= pe -> ubl (pb - 1) < lower -> pe <= parts \/ pb <= parts /\ lower <= ubl parts ->
  exists pid, pef_scan pd f pb pe lower = Ok pid /\ bres pb pe lower pid /\ (forall k, pb <= k < pid -> ubl k < lower).
Proof.
  intros H1 Hb HL Hp. unfold pef_scan. destruct (scan_ok lower H1 (S (N.to_nat (pe - pb))) pb pe Hp ltac:(lia) ltac:(lia)) as (pid & E & P1 & P2 & P3).
  exists pid. split; [exact E|]. split; [|exact P2]. split; [exact P1|]. split; [exact P3|]. split.
  - intros ->. apply P2. lia.
  - left. destruct (N.eq_dec pid pb) as [->|]; [assumption|]. apply P2. lia.
Qed.

Lemma bsearch_loop_ok lower pb pe : 1 < parts -> 1 <= pb -> pe <= parts + 1 -> pe <= parts \/ lower <= ubl parts ->
  forall fuel pid0 lo hi, pb <= lo -> hi <= pe -> 8 < hi - lo -> ubl (lo - 1) < lower -> hi = pe \/ lower <= ubl hi -> hi - lo < 2 ^ N.of_nat fuel ->
  exists pid, ub_bsearch fuel pd f pid0 lo hi lower = Ok pid /\ bres pb pe lower pid.
Proof.
  intros H1 Hb1 Hp Hpe. pose proof parts_lt as PL. induction fuel as [|fuel IH]; intros pid0 lo hi L1 L2 L3 L4 L5 L6.
  { change (2 ^ N.of_nat 0) with 1 in L6. lia. }
  cbn [ub_bsearch]. destruct (N.leb_spec lo hi); [|lia]. set (mid := (lo + hi) / 2).
  assert (M : lo + 4 <= mid /\ mid + 4 <= hi) by (unfold mid; dlia). assert (MF : mid - lo < 2 ^ N.of_nat fuel /\ hi - mid <= 2 ^ N.of_nat fuel).
  { replace (N.of_nat (S fuel)) with (N.succ (N.of_nat fuel)) in L6 by lia. rewrite N.pow_succ_r' in L6. revert L6. generalize (2 ^ N.of_nat fuel). intros z L6. unfold mid. dlia. }
  clearbody mid. rewrite ub_ok by lia. cbn [bind]. destruct (N.ltb_spec lower (ubl mid)) as [A|A].
  - destruct (N.eqb_spec mid 0); [lia|]. rewrite ub_ok by lia. cbn [bind]. destruct (N.ltb_spec (ubl (mid - 1)) lower) as [C|C].
    { exists mid. split; [reflexivity|]. split; [lia|]. split; [lia|]. split; [lia|]. left. assumption. }
    rewrite sub64_small by lia. destruct (N.leb_spec (mid - 1 - lo) pef_linear) as [D|D].
    + destruct (scan_bres lower lo (mid - 1) H1 ltac:(lia) L4 ltac:(left; lia)) as (pid & E & (R1 & R2 & R3 & R4) & R5). exists pid. split; [exact E|].
      assert (pid <= mid - 1). { destruct (N.eq_dec pid (mid - 1 + 1)) as [EQ|]; [specialize (R3 EQ); lia|lia]. }
      split; [lia|]. split; [intros; apply R2; assumption|]. split; [lia|]. destruct R4 as [R4|R4]; [left; assumption|right; lia].
    + apply IH; [lia|lia|unfold pef_linear in D; lia|assumption|right; assumption|lia].
  - destruct (N.ltb_spec (ubl mid) lower) as [C|C].
    + destruct (rp_ubs HP H1) as (CH & _). rewrite (cv_holds_size _ _ CH), lenN_map, lenN_range. rewrite (sub64_small (parts + 1) 1) by lia. replace (parts + 1 - 1) with parts by lia.
      assert (RD : (if mid + 1 =? parts then cv_back (pf_ubs f) else pef_ub pd f (mid + 1)) = Ok (ubl (mid + 1))).
      { destruct (N.eqb_spec (mid + 1) parts) as [->|]; [apply back_ok; assumption|apply ub_ok; [assumption|lia]]. }
      rewrite RD. cbn [bind]. rewrite sub64_small by lia. assert (LL : ubl (mid + 1 - 1) < lower) by (replace (mid + 1 - 1) with mid by lia; assumption).
      destruct (N.leb_spec (hi - (mid + 1)) pef_linear) as [D|D].
      * assert (SB : hi <= parts \/ mid + 1 <= parts /\ lower <= ubl parts) by (destruct Hpe; [left; lia|right; split; [lia|assumption]]).
        destruct (scan_bres lower (mid + 1) hi H1 ltac:(lia) LL SB) as (pid & E & (R1 & R2 & R3 & R4) & R5). exists pid. split; [exact E|].
        destruct L5 as [-> | L5].
        -- split; [lia|]. split; [exact R2|]. split; [exact R3|exact R4].
        -- assert (pid <= hi) by (destruct (N.eq_dec pid (hi + 1)) as [EQ|]; [specialize (R3 EQ); lia|lia]).
           split; [lia|]. split; [intros; apply R2; assumption|]. split; [intros ->; assert (hi = pe) by lia; lia|]. destruct R4 as [R4|R4]; [left; assumption|right; lia].
      * apply IH; [lia|lia|unfold pef_linear in D; lia|exact LL|exact L5|lia].
    + exists mid. split; [reflexivity|]. split; [lia|]. split; [lia|]. split; [lia|]. right. lia.
Qed.

Lemma bsearch_ok lower pb pe : 1 < parts -> 1 <= pb <= pe -> pb <= parts -> pe <= parts + 1 -> ubl (pb - 1) < lower -> pe <= parts \/ lower <= ubl parts ->
  exists pid, pef_bsearch pd f lower pb pe = Ok pid /\ bres pb pe lower pid.
Proof.
  intros H1 Hb Hb2 Hp HL Hpe. pose proof parts_lt as PL. unfold pef_bsearch. rewrite sub64_small by lia. destruct (N.leb_spec (pe - pb) pef_linear) as [D|D].
  - destruct (scan_bres lower pb pe H1 Hb HL) as (pid & E & R & _); [destruct Hpe; [left; assumption|right; split; assumption]|]. exists pid. auto.
  - apply (bsearch_loop_ok lower pb pe); try assumption; try lia; try (left; reflexivity).
Qed.

(** ** next_geq *)
Lemma geq_here_ok e p i lower : pst e p i -> ubl p <= lower <= ubl (p + 1) ->
  exists j e', pef_geq_here pd f e lower = Ok (p * psz + j, va (p * psz + j), e') /\ j < plen p /\ pst e' p j /\ lower <= va (p * psz + j) /\
    en_first e' = en_first e /\
    ((i < plen p /\ va (p * psz + i) = lower /\ j = i) \/ (forall k, k < j -> va (p * psz + k) < lower)).
Proof.
  intros P Hl. pose proof P as (P1 & P2 & P3 & P4 & P5 & P6 & P7 & l1 & l2 & D & C). pose proof D as (D1 & D2 & D3). pose proof (ubl_lt (p + 1)) as UL.
  unfold pef_geq_here. rewrite P5, sub64_small by lia. destruct (cst_val e p i l1 l2 P1 D C) as (V1 & V2 & V3).
  destruct (cen_next_geq_ok (pf_data f) l1 l2 (pu p) (cur p) x0 D1) with (c := en_cef e) (i := i) (x := lower - ubl p) as (c & j & E & C' & G1 & G2); try assumption.
  - rewrite lenN_cur. apply plen_bound; assumption.
  - apply pu_lt.
  - apply cur_sorted; assumption.
  - apply cur_lt; assumption.
  - rewrite lenN_cur. exists (pu p - 1). split; [apply cur_last; assumption|]. unfold pu. lia.
  - cbn [pd_data pd]. rewrite E. cbn [bind].
    assert (J : j < plen p).
    { destruct (N.eq_dec (lower - ubl p) (ce_val (en_cef e))) as [Q|Q].
      - destruct (G1 Q) as (-> & L). rewrite lenN_cur in L. exact L.
      - destruct (G2 Q) as ((y & Hy & _) & _). apply nthN_lt in Hy. rewrite lenN_cur in Hy. exact Hy. }
    assert (PS : forall pos, pst (with_cef e pos c) p j).
    { intros pos. unfold with_cef. split; [exact P1|]. cbn [en_part en_begin en_end en_base en_ub en_cef]. repeat (split; [assumption|]). exists l1, l2. split; assumption. }
    pose proof (pst_value _ _ _ (PS 0) J) as VV. cbn [with_cef en_base en_cef] in VV. rewrite P5 in VV. rewrite VV.
    destruct C' as (C1' & C2' & C3'). rewrite C2', P3.
    assert (p * psz + j < n) by (unfold plen in J; lia). rewrite add64_small by lia.
    exists j, (with_cef e (p * psz + j) c). split; [reflexivity|]. split; [exact J|]. split; [apply PS|]. pose proof (ubl_base p j P1 J) as UB.
    destruct (N.eq_dec (lower - ubl p) (ce_val (en_cef e))) as [Q|Q].
    + destruct (G1 Q) as (-> & _). assert (i < plen p) by assumption. pose proof (V2 ltac:(assumption)) as VI. split; [lia|]. split; [reflexivity|]. left. split; [assumption|]. split; [lia|reflexivity].
    + destruct (G2 Q) as ((y & Hy & Ly) & FG). rewrite nth_cur in Hy by exact J. injection Hy as <-. split; [lia|]. split; [reflexivity|]. right.
      intros k Hk. pose proof (FG k _ Hk (nth_cur p k ltac:(lia))). pose proof (ubl_base p k P1 ltac:(lia)). lia.
Qed.

(** what next_geq from element [i] of partition [p] answers *)
Inductive ngres (e : pen) (p i lower pend : N) : N -> N -> pen -> Prop :=
| ng_left : lower < ubl p -> ngres e p i lower pend (en_pos e) not_found e
| ng_right pos e' : ubl (pend + 1) < lower -> pst e' (pend + 1) (plen (pend + 1)) -> ngres e p i lower pend pos not_found e'
| ng_end e' : ubl parts < lower -> pst e' (parts - 1) (plen (parts - 1)) -> ngres e p i lower pend n U e'
| ng_same e' : i < plen p -> va (p * psz + i) = lower -> pst e' p i -> ngres e p i lower pend (p * psz + i) lower e'
| ng_found p' j e' : pst e' p' j -> j < plen p' -> lower <= va (p' * psz + j) -> (forall k, k < j -> va (p' * psz + k) < lower) ->
    (p' = p \/ p < p' /\ (ubl p' < lower \/ p' + 1 <= pend /\ ubl (p' + 1) = lower)) ->
    ngres e p i lower pend (p' * psz + j) (va (p' * psz + j)) e'.

Lemma next_geq_ok e p i lower pend : pst e p i -> p <= pend -> pend <= parts -> pend < parts \/ lower <= ubl parts ->
  exists pos val e', pef_next_geq 2 pd f e lower pend = Ok (pos, val, e') /\ ngres e p i lower pend pos val e' /\ en_first e' = en_first e.
Proof.
  intros P Hp Hpe Hs. pose proof P as (P1 & P2 & P3 & P4 & P5 & P6 & P7 & _). cbn [pef_next_geq]. rewrite P5, P6, P2.
  pose proof (ubl_le p (p + 1) ltac:(lia)) as UU.
  assert (GH : forall e1 p1 i1, pst e1 p1 i1 -> ubl p1 <= lower <= ubl (p1 + 1) -> (p1 = p /\ e1 = e /\ i1 = i \/ i1 = plen p1 /\ en_first e1 = en_first e /\ p < p1 /\ (ubl p1 < lower \/ p1 + 1 <= pend /\ ubl (p1 + 1) = lower)) ->
     exists pos val e', pef_geq_here pd f e1 lower = Ok (pos, val, e') /\ ngres e p i lower pend pos val e' /\ en_first e' = en_first e).
  { intros e1 p1 i1 Q1 Q2 Q3. destruct (geq_here_ok e1 p1 i1 lower Q1 Q2) as (j & e' & E & J & PS & LV & EF & K). exists (p1 * psz + j), (va (p1 * psz + j)), e'. split; [exact E|].
    split; [|destruct Q3 as [(-> & -> & ->)|(_ & Q3 & _)]; congruence].
    destruct Q3 as [(-> & -> & ->)|(-> & EF1 & Q3)].
    - destruct K as [(K1 & K2 & ->)|K]; [rewrite K2; apply ng_same; assumption|apply ng_found; auto].
    - destruct K as [(K1 & K2 & K3)|K]; [lia|]. apply ng_found; auto. }
  destruct ((ubl p <=? lower) && (lower <=? ubl (p + 1))) eqn:T.
  { apply andb_true_iff in T. destruct T as [T1 T2]. apply N.leb_le in T1. apply N.leb_le in T2. apply (GH e p i P ltac:(lia)). left. auto. }
  destruct (N.ltb_spec pend p); [lia|]. destruct (N.ltb_spec lower (ubl p)) as [L|L].
  { exists (en_pos e), not_found, e. split; [reflexivity|]. split; [apply ng_left; assumption|reflexivity]. }
  apply andb_false_iff in T. assert (LU : ubl (p + 1) < lower) by (destruct T as [T|T]; apply N.leb_gt in T; lia). clear T.
  rewrite (rp_parts HP). pose proof Hparts as (Q1 & Q2 & Q3). rewrite (rp_size HP).
  destruct (N.eqb_spec parts 1) as [E1|E1].
  { destruct (move_end e p i P) as (e' & E & PS & _ & EF). rewrite E. cbn [bind]. cbv beta iota. exists n, U, e'. split; [reflexivity|]. split; [|exact EF].
    apply ng_end; [|exact PS]. replace parts with (p + 1) by lia. exact LU. }
  assert (M : 1 < parts) by lia.
  destruct (bsearch_ok lower (p + 1) (pend + 1) M ltac:(lia) ltac:(lia) ltac:(lia)) as (pid & E & (B1 & B2 & B3 & B4)).
  { apply N.le_lt_trans with (ubl (p + 1)); [apply ubl_le; lia|exact LU]. }
  { destruct Hs; [left; lia|right; assumption]. }
  rewrite E. cbn [bind]. destruct (N.eqb_spec pid 0) as [PZ|PZ]; [lia|].
  destruct (rp_ubs HP M) as (CH & _). rewrite (cv_holds_size _ _ CH), lenN_map, lenN_range.
  destruct (N.eqb_spec pid (parts + 1)) as [E2|E2].
  { destruct (move_end e p i P) as (e' & E' & PS & _ & EF). rewrite E'. cbn [bind]. cbv beta iota. exists n, U, e'. split; [reflexivity|]. split; [|exact EF].
    apply ng_end; [|exact PS]. destruct (N.eq_dec pid (pend + 1 + 1)) as [EQ|NQ].
    - specialize (B3 EQ). replace parts with (pend + 1) by lia. exact B3.
    - destruct B4 as [B4|(B4 & _)]; [replace parts with (pid - 1) by lia; exact B4|lia]. }
  assert (PP : pid - 1 < parts).
  { destruct (N.eq_dec pid (parts + 2)) as [E3|]; [exfalso|lia]. assert (pend = parts) by lia. destruct Hs as [|Hs]; [lia|]. specialize (B3 ltac:(lia)).
    assert (UE : ubl (pend + 1) = ubl parts) by (unfold ubl; f_equal; nia). lia. }
  destruct (switch_ok e (pid - 1) M P7 PP) as (e1 & ES & PS & EP & EF1). rewrite ES. cbn [bind].
  pose proof PS as (_ & S2 & _ & _ & S5 & S6 & _). rewrite S5, S6, S2. replace (pid - 1 + 1) with pid in * by lia.
  destruct ((ubl (pid - 1) <=? lower) && (lower <=? ubl pid)) eqn:T.
  { apply andb_true_iff in T. destruct T as [T1 T2]. apply N.leb_le in T1. apply N.leb_le in T2. apply (GH e1 (pid - 1) _ PS).
    - replace (pid - 1 + 1) with pid by lia. lia.
    - right. split; [reflexivity|]. split; [exact EF1|]. replace (pid - 1 + 1) with pid by lia. destruct (N.eq_dec (pid - 1) p) as [EQ|NQ]; [exfalso; replace pid with (p + 1) in T2 by lia; lia|]. split; [lia|].
      destruct B4 as [B4|(B4 & B5)]; [left; exact B4|right; split; [lia|exact B5]]. }
  assert (UB1 : ubl (pid - 1) <= lower).
  { destruct B4 as [B4|(B4 & B5)]; [lia|]. rewrite <- B5. apply ubl_le. lia. }
  apply andb_false_iff in T. assert (LU2 : ubl pid < lower) by (destruct T as [T|T]; apply N.leb_gt in T; lia).
  assert (EQ : pid = pend + 1 + 1) by (destruct (N.le_gt_cases pid (pend + 1)) as [LE|GT]; [specialize (B2 LE); lia|lia]).
  destruct (N.ltb_spec pend (pid - 1)) as [L2|L2]; [|lia].
  exists (en_pos e1), not_found, e1. split; [reflexivity|]. split; [|exact EF1]. replace (pid - 1) with (pend + 1) in * by lia. apply ng_right; [specialize (B3 EQ); exact B3|exact PS].
Qed.

(** ** find *)
(** in a one-partition sequence the cursor stands at the first occurrence of its value *)
Definition clean (e : pen) : Prop := 1 < parts \/ forall i, pst e 0 i -> i < n -> forall k, k < i -> va k < va i.

Lemma pst_unique e p i p' i' : pst e p i -> pst e p' i' -> p = p' /\ i = i'.
Proof.
  intros (A1 & A2 & _ & _ & _ & _ & _ & l1 & l2 & _ & (C1 & C2 & _)) (B1 & B2 & _ & _ & _ & _ & _ & m1 & m2 & _ & (D1 & D2 & _)). split; congruence.
Qed.

Definition prev (b : N) : N := if b =? 0 then 0 else va (b - 1).

Lemma find_ok e p i b r id : pst e p i -> b < r <= n -> id <> 0 -> id + va (n - 1) < 2 ^ 64 - 1 -> U = va (n - 1) ->
  r / psz < parts \/ id + prev b <= va (n - 1) ->
  exists res e' p' i', pef_find pd f e b r id = Ok (res, e') /\ pst e' p' i' /\ (clean e -> clean e') /\ en_first e' = en_first e /\
    (res = not_found \/ res < n /\ va res = id + prev b) /\
    (forall k, b <= k < r -> va k = id + prev b -> (forall j, j < k -> va j < va k) -> (forall j, k < j < r -> va k < va j) ->
       0 < b \/ 1 < parts \/ clean e -> res = k).
Proof.
  intros P Hb Hid Hw HU Hs. unfold pef_find. destruct (N.eqb_spec b r) as [Z1|Z1]; [lia|]. destruct (N.eqb_spec id 0) as [Z2|Z2]; [lia|].
  rewrite (rp_parts HP), (rp_log HP), !shr_log. pose proof Hparts as (Q1 & Q2 & Q3). pose proof psz_bound as PB.
  assert (UL : ubl parts = va (n - 1)) by (unfold ubl; f_equal; lia).
  (* the state in which next_geq is called *)
  assert (ST : exists e1 p1 i1, (e0 <- (if 1 <? parts then pef_switch pd f e (b / psz) else Ok e) ;;
      (if b =? 0 then Ok (0, e0) else pef_get pd f e0 (sub64 b 1))) = Ok (prev b, e1) /\ pst e1 p1 i1 /\ en_first e1 = en_first e /\
      (0 < b /\ p1 * psz + i1 = b - 1 /\ i1 < plen p1 \/ b = 0 /\ 1 < parts /\ p1 = 0 /\ i1 = plen p1 \/ b = 0 /\ parts = 1 /\ p1 = 0 /\ e1 = e /\ i1 = i)).
  { pose proof P as (P1 & _ & _ & _ & _ & _ & EC & _).
    assert (S1 : exists e0 p0 i0, (if 1 <? parts then pef_switch pd f e (b / psz) else Ok e) = Ok e0 /\ pst e0 p0 i0 /\ en_first e0 = en_first e /\
       (1 < parts /\ p0 = b / psz /\ i0 = plen p0 \/ parts = 1 /\ p0 = p /\ e0 = e /\ i0 = i)).
    { destruct (N.ltb_spec 1 parts) as [M|M].
      - destruct (switch_ok e (b / psz) M EC (proj1 (part_of b ltac:(lia)))) as (e0 & E0 & S0 & _ & F0). exists e0, (b / psz), (plen (b / psz)). split; [exact E0|]. split; [exact S0|]. split; [exact F0|]. left. split; [exact M|]. split; reflexivity.
      - exists e, p, i. split; [reflexivity|]. split; [exact P|]. split; [reflexivity|]. right. split; [lia|auto]. }
    destruct S1 as (e0 & p0 & i0 & E0 & S0 & F0 & K0). rewrite E0. cbn [bind]. unfold prev. destruct (N.eqb_spec b 0) as [Z|Z].
    - exists e0, p0, i0. split; [reflexivity|]. split; [exact S0|]. split; [exact F0|]. right. destruct K0 as [(K1 & K2 & K3)|(K1 & K2 & K3 & K4)]; [left|right].
      + subst b. rewrite N.div_0_l in K2 by lia. subst. auto.
      + split; [exact Z|]. split; [exact K1|]. split; [lia|]. subst. auto.
    - rewrite sub64_small by lia. unfold pef_get. destruct (move_ok e0 p0 i0 (b - 1) S0 ltac:(lia)) as (e1 & E1 & S1 & _ & F1). rewrite E1.
      destruct (part_of (b - 1) ltac:(lia)) as (A1 & A2 & A3).
      exists e1, ((b - 1) / psz), ((b - 1) mod psz). split; [reflexivity|]. split; [exact S1|]. split; [congruence|]. left. split; [lia|]. split; [exact A2|exact A3]. }
  destruct ST as (e1 & p1 & i1 & E1 & S1 & F1 & K1). set (lower := id + prev b) in *.
  assert (PV : prev b <= va (n - 1)) by (unfold prev; destruct (N.eqb_spec b 0); [lia|apply va_le; lia]).
  assert (LE : e0 <- (if 1 <? parts then pef_switch pd f e (b / psz) else Ok e) ;;
     ' (prev, e) <- (if b =? 0 then Ok (0, e0) else pef_get pd f e0 (sub64 b 1)) ;;
     ' (pos, val, e) <- pef_next_geq 2 pd f e (add64 id prev) (r / psz) ;; Ok (if val =? add64 id prev then pos else not_found, e) =
     ' (pos, val, e) <- pef_next_geq 2 pd f e1 lower (r / psz) ;; Ok (if val =? lower then pos else not_found, e)).
  { destruct (if 1 <? parts then pef_switch pd f e (b / psz) else Ok e) as [e0| |]; cbn [bind] in *; try discriminate. rewrite E1. cbn [bind]. cbv beta iota.
    rewrite add64_small by lia. reflexivity. }
  rewrite LE. clear LE E1.
  assert (PE1 : r / psz <= parts) by (apply N.div_le_upper_bound; [lia|rewrite N.mul_comm; lia]).
  assert (PE2 : p1 <= r / psz).
  { destruct K1 as [(K1 & K2 & K3)|[(K1 & K2 & -> & K3)|(K1 & K2 & -> & K3)]]; [|apply N.le_0_l|apply N.le_0_l].
    apply N.div_le_lower_bound; [lia|rewrite N.mul_comm; lia]. }
  destruct (next_geq_ok e1 p1 i1 lower (r / psz) S1 PE2 PE1) as (pos & val & e' & E & NG & F'); [rewrite UL; exact Hs|].
  rewrite E. cbn [bind]. cbv beta iota.
  assert (LB : 0 < b -> va (b - 1) < lower) by (intros; unfold lower, prev; destruct (N.eqb_spec b 0); lia).
  assert (NF : forall x, lower = x -> x <> not_found) by (intros x <-; unfold not_found, lower; lia).
  assert (BASE : 0 < b -> ubl p1 < lower).
  { intros B0. destruct K1 as [(K1 & K2 & K3)|[(K1 & _)|(K1 & _)]]; [|lia|lia]. destruct S1 as (S1a & _). pose proof (ubl_base p1 i1 S1a K3) as X. rewrite K2 in X. specialize (LB B0). lia. }
  destruct NG as [L|pos e' L S'|e' L S'|e' I1 I2 S'|p' j e' S' J LV FST WH].
  - (* left *) destruct (N.eqb_spec not_found lower) as [X|_]; [exfalso; apply (NF not_found); [symmetry; exact X|reflexivity]|].
    exists not_found, e1, p1, i1. split; [reflexivity|]. split; [exact S1|]. split.
    { intros CL. destruct CL as [CL|CL]; [left; exact CL|]. destruct K1 as [(K1 & K2 & K3)|[(K1 & K2 & K3)|(K1 & K2 & K3 & -> & K4)]]; [specialize (BASE K1); lia|left; lia|right; exact CL]. }
    split; [exact F1|]. split; [left; reflexivity|]. intros k Hk Vk Fk _ _. exfalso.
    assert (b = 0) by (destruct (N.eq_dec b 0); [assumption|specialize (BASE ltac:(lia)); lia]).
    assert (p1 = 0) by (destruct K1 as [(K1 & K2 & K3)|[(K1 & K2 & K3 & _)|(K1 & K2 & K3 & _)]]; lia). subst p1.
    assert (ubl 0 <= va k) by (unfold ubl; apply va_le; lia). lia.
  - (* right *) destruct (N.eqb_spec not_found lower) as [X|_]; [exfalso; apply (NF not_found); [symmetry; exact X|reflexivity]|].
    exists not_found, e', (r / psz + 1), (plen (r / psz + 1)). split; [reflexivity|]. split; [exact S'|].
    assert (M : 1 < parts) by (destruct S' as (S' & _); lia). split; [intros _; left; exact M|]. split; [congruence|]. split; [left; reflexivity|].
    intros k Hk Vk Fk Gk _. exfalso. assert (va k <= ubl (r / psz + 1)); [|lia]. unfold ubl. apply va_le; [|lia].
    pose proof (N.div_mod r psz ltac:(lia)). pose proof (N.mod_lt r psz ltac:(lia)). lia.
  - (* end *) destruct (N.eqb_spec U lower) as [X|_]; [lia|]. exists not_found, e', (parts - 1), (plen (parts - 1)). split; [reflexivity|]. split; [exact S'|].
    split. { intros _. destruct (N.eq_dec parts 1) as [E0|]; [right|left; lia]. intros i' PI LI. destruct (pst_unique _ _ _ _ _ S' PI) as (_ & <-). unfold plen in LI. rewrite E0 in *. lia. }
    split; [congruence|]. split; [left; reflexivity|]. intros k Hk Vk _ _ _. exfalso. pose proof (va_le k (n - 1) ltac:(lia) ltac:(lia)). lia.
  - (* same *) rewrite N.eqb_refl. exists (p1 * psz + i1), e', p1, i1. split; [reflexivity|]. split; [exact S'|].
    assert (P1n : p1 * psz + i1 < n) by (unfold plen in I1; lia).
    assert (Z : b = 0 /\ parts = 1 /\ p1 = 0 /\ e1 = e /\ i1 = i).
    { destruct K1 as [(K1 & K2 & K3)|[(K1 & K2 & K3 & K4)|K1]]; [|lia|exact K1]. specialize (LB K1). rewrite K2 in I2. lia. }
    destruct Z as (Y1 & Y2 & Y3 & Y4 & Y5). subst p1. rewrite N.mul_0_l, N.add_0_l in *.
    assert (CC : clean e -> forall k, k < i1 -> va k < va i1).
    { intros [CL|CL]; [lia|]. apply CL; [subst; exact S1|assumption]. }
    split. { intros CL. right. intros i' PI LI. destruct (pst_unique _ _ _ _ _ S' PI) as (_ & <-). apply CC. exact CL. }
    split; [congruence|]. split; [right; split; assumption|]. intros k Hk Vk Fk Gk [B0|[B0|CL]]; [lia|lia|].
    destruct (N.lt_trichotomy k i1) as [L|[L|L]]; [specialize (CC CL k L); lia|symmetry; exact L|specialize (Fk i1 L); lia].
  - (* found *) assert (JN : p' * psz + j < n) by (unfold plen in J; lia).
    assert (CL' : clean e').
    { destruct (N.eq_dec parts 1) as [E0|]; [right|left; lia]. intros i' PI LI. destruct (pst_unique _ _ _ _ _ S' PI) as (-> & <-). rewrite N.mul_0_l, N.add_0_l in *.
      intros k Hk. specialize (FST k Hk). rewrite N.add_0_l in FST. lia. }
    assert (COMP : forall k, b <= k < r -> va k = lower -> (forall j, j < k -> va j < va k) -> (forall j, k < j < r -> va k < va j) -> p' * psz + j = k).
    { intros k Hk Vk Fk Gk. assert (KN : k < n) by (clear - Hk Hb; lia). destruct (part_of k KN) as (A1 & A2 & A3). generalize dependent (k mod psz). intros km A2 A3. generalize dependent (k / psz). intros pk A1 A2 A3.
      assert (JS : j < psz) by (clear - J; unfold plen in J; lia). assert (KS : km < psz) by (clear - A3; unfold plen in A3; lia).
      assert (PK : p' = pk).
      { destruct WH as [WH | (W1 & W2)].
        - (* same partition as the cursor *) rewrite WH in *. destruct (N.lt_trichotomy p1 pk) as [L|[L|L]]; [exfalso|exact L|exfalso].
          + assert (Y : (p1 + 1) * psz <= pk * psz) by (apply N.mul_le_mono_r; clear - L; lia).
            assert (Y2 : p1 * psz + j < k) by (clear - Y A2 JS; lia). pose proof (Fk _ Y2) as X. clear - X Vk LV. lia.
          + assert (Y : (pk + 1) * psz <= p1 * psz) by (apply N.mul_le_mono_r; clear - L; lia).
            destruct K1 as [(K1 & K2 & K3)|[(_ & _ & K1 & _)|(_ & _ & K1 & _)]]; [|clear - K1 L; lia|clear - K1 L; lia].
            clear - Y A2 KS K1 K2 Hk. lia.
        - assert (UK : forall q, q < parts -> lower <= ubl (q + 1) -> pk <= q).
          { intros q Hq Lq. destruct (N.le_gt_cases pk q) as [|GT]; [assumption|exfalso]. pose proof (Fk (N.min ((q + 1) * psz) n - 1)) as X. unfold ubl in Lq.
            assert (QK : (q + 1) * psz <= pk * psz) by (apply N.mul_le_mono_r; clear - GT; lia).
            assert (QM : N.min ((q + 1) * psz) n - 1 < k) by (clear - QK A2 PB Hk Hb; lia). specialize (X QM). clear - X Lq Vk. lia. }
          destruct S' as (S'p & _). assert (UT : lower <= ubl (p' + 1)) by (pose proof (ubl_top p' j S'p J) as Y; clear - Y LV; lia).
          pose proof (UK p' S'p UT) as K2. destruct (N.eq_dec p' pk) as [|NE]; [assumption|exfalso].
          assert (Y : (pk + 1) * psz <= p' * psz) by (apply N.mul_le_mono_r; clear - K2 NE; lia).
          destruct W2 as [W2|(W2 & W3)].
          + assert (Y2 : va k <= ubl p'); [|clear - Y2 W2 Vk; lia]. unfold ubl. apply va_le; [clear - Y A2 KS KN; lia|]. clear - KN. lia.
          + assert (RR : (p' + 1) * psz <= r).
            { pose proof (N.div_mod r psz ltac:(clear - PB; lia)) as DM. assert (Y3 : (p' + 1) * psz <= r / psz * psz) by (apply N.mul_le_mono_r; exact W2). rewrite N.mul_comm in DM. clear - DM Y3. lia. }
            unfold ubl in W3. pose proof (Gk (N.min ((p' + 1) * psz) n - 1)) as X. assert (X1 : k < N.min ((p' + 1) * psz) n - 1 < r) by (clear - Y A2 KS RR Hb PB JN; lia). specialize (X X1). clear - X W3 Vk. lia. }
      subst p'. destruct (N.lt_trichotomy j km) as [L|[L|L]]; [|rewrite L; exact A2|].
      - assert (X1 : pk * psz + j < k) by (clear - L A2; lia). specialize (Fk _ X1). clear - Fk LV Vk. lia.
      - specialize (FST _ L). rewrite A2 in FST. clear - FST Vk. lia. }
    destruct (N.eqb_spec (va (p' * psz + j)) lower) as [X|X].
    + exists (p' * psz + j), e', p', j. split; [reflexivity|]. split; [exact S'|]. split; [intros _; exact CL'|]. split; [congruence|].
      split; [right; split; assumption|]. intros k Hk Vk Fk Gk _. apply COMP; assumption.
    + exists not_found, e', p', j. split; [reflexivity|]. split; [exact S'|]. split; [intros _; exact CL'|]. split; [congruence|].
      split; [left; reflexivity|]. intros k Hk Vk Fk Gk _. exfalso. rewrite (COMP k Hk Vk Fk Gk) in X. contradiction.
Qed.
(** ** next *)
Definition nst (e : pen) (k : N) : Prop := pst e (k / psz) (k mod psz) /\ en_pos e = k /\ en_first e = false.

Lemma cef_next_ok e p i : pst e p i -> i < plen p ->
  exists c, cen_next (pf_data f) (pd_data pd) (en_cef e) = Ok c /\ forall pos, pst (with_cef e pos c) p (i + 1).
Proof.
  intros (P1 & P2 & P3 & P4 & P5 & P6 & P7 & l1 & l2 & D & C) Hj. pose proof D as (D1 & D2 & D3).
  destruct (cen_next_ok (pf_data f) l1 l2 (pu p) (cur p) x0 D1) with (c := en_cef e) (i := i) as (c & E & C'); try assumption.
  - rewrite lenN_cur. apply plen_bound; assumption.
  - apply pu_lt.
  - apply cur_sorted; assumption.
  - apply cur_lt; assumption.
  - rewrite lenN_cur. assumption.
  - exists c. split; [exact E|]. intros pos. unfold with_cef. split; [exact P1|]. cbn [en_part en_begin en_end en_base en_ub en_cef]. repeat (split; [assumption|]).
    exists l1, l2. split; assumption.
Qed.

Lemma next_first e i : pst e 0 i -> en_first e = true -> en_pos e = 0 -> exists e', pef_next pd f e = Ok (va 0, e') /\ nst e' 0.
Proof.
  intros P F0 Z0. unfold pef_next. rewrite F0. destruct (cef_move_ok e 0 i 0 P ltac:(lia)) as (c & E & C). rewrite E. cbn [bind].
  pose proof (C 0) as P'. assert (L : 0 < plen 0) by (apply plen_bound; destruct P; assumption).
  pose proof (pst_value _ _ _ P' L) as V. cbn [with_cef en_base en_cef] in V. rewrite V. rewrite N.mul_0_l.
  eexists. split; [reflexivity|]. pose proof psz_bound. unfold nst. rewrite N.div_0_l, N.mod_0_l by lia. cbn [en_pos en_first]. split; [|split; [exact Z0|reflexivity]].
  exact P'.
Qed.

Lemma next_next e k : nst e k -> k + 1 < n -> exists e', pef_next pd f e = Ok (va (k + 1), e') /\ nst e' (k + 1).
Proof.
  intros (P & K & F0) Hk. unfold pef_next. rewrite F0, K, (rp_size HP). pose proof psz_bound as PB. destruct (part_of k ltac:(lia)) as (A1 & A2 & A3).
  destruct (part_of (k + 1) Hk) as (B1 & B2 & B3). pose proof P as (P1 & P2 & P3 & P4 & P5 & P6 & P7 & _). rewrite P4.
  assert (PK : k / psz * psz + k mod psz = k) by exact A2. set (p := k / psz) in *. set (i := k mod psz) in *. clearbody p i. clear A2.
  destruct (N.ltb_spec (k + 1) (N.min n ((p + 1) * psz))) as [L|L].
  - assert (I1 : i + 1 < psz) by (clear - L PK; lia). assert (KE : p * psz + (i + 1) = k + 1) by (clear - PK; lia).
    destruct (div_part p (i + 1) I1) as (C1 & C2). rewrite KE in C1, C2.
    destruct (cef_next_ok e p i P A3) as (c & E & C). rewrite E. cbn [bind]. pose proof (C (k + 1)) as P'.
    rewrite C1, C2 in B3. pose proof (pst_value _ _ _ P' B3) as V. cbn [with_cef en_base en_cef] in V. rewrite V, KE.
    eexists. split; [reflexivity|]. unfold nst. rewrite C1, C2. split; [exact P'|]. split; [reflexivity|exact F0].
  - destruct (N.eqb_spec (k + 1) n) as [X|X]; [clear - X Hk; lia|].
    assert (KE : k + 1 = (p + 1) * psz + 0) by (unfold plen in A3; clear - A3 PK L Hk; lia).
    assert (Z : 0 < psz) by (clear - PB; lia).
    destruct (div_part (p + 1) 0 Z) as (C1 & C2). rewrite <- KE in C1, C2. rewrite C1 in B1.
    assert (M : 1 < parts) by (clear - B1; lia).
    destruct (switch_ok e (p + 1) M P7 B1) as (e1 & E1 & S1 & S2 & S3). rewrite P2, E1. cbn [bind].
    destruct (cef_move_ok e1 (p + 1) _ 0 S1 (N.le_0_l _)) as (c & E & C). rewrite E. cbn [bind]. pose proof (C (k + 1)) as P'.
    assert (L0 : 0 < plen (p + 1)) by (apply plen_bound; assumption). pose proof (pst_value _ _ _ P' L0) as V. cbn [with_cef en_base en_cef] in V. rewrite V, <- KE.
    eexists. split; [reflexivity|]. unfold nst. rewrite C1, C2. split; [exact P'|]. split; [reflexivity|exact (eq_trans S3 F0)].
Qed.

Lemma next_end e k : nst e k -> k + 1 = n -> exists e', pef_next pd f e = Ok (U, e').
Proof.
  intros (P & K & F0) Hk. unfold pef_next. rewrite F0, K, (rp_size HP). pose proof psz_bound as PB. destruct (part_of k ltac:(lia)) as (A1 & A2 & A3).
  pose proof P as (P1 & P2 & P3 & P4 & P5 & P6 & P7 & _). rewrite P4. destruct (N.ltb_spec (k + 1) (N.min n ((k / psz + 1) * psz))) as [L|L]; [generalize dependent (k / psz * psz); clear - L Hk; lia|].
  rewrite Hk, N.eqb_refl, (rp_univ HP). destruct (cef_next_ok e _ _ P A3) as (c & E & C). rewrite E. cbn [bind]. eexists. reflexivity.
Qed.
End Pef.
