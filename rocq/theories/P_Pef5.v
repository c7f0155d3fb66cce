(** * Proofs for uniform_pef: sequences built from ids and pointers, and histories of calls *)
From Verif Require Import Prelude BitFacts M_Word P_Word M_Bits Spec P_Bits P_Builder P_EF P_CompactVector M_CompactVector M_FastEF P_FastEF P_FastEF2 P_FastEF3
  M_Pef P_Pef1 P_Pef2 P_Pef3 P_Pef4 Spec_Pef.

Lemma before_pv vs b : before vs b = pv vs b.
Proof. reflexivity. Qed.
Lemma before_le vs b : sortedN vs -> b <= lenN vs -> forall k x, nthN vs k = Some x -> b <= k + 1 -> before vs b <= x.
Proof.
  intros S Hb k x Hx L. unfold before. destruct (N.eqb_spec b 0); [lia|]. destruct (nthN_Some vs (b - 1) ltac:(lia)) as (y & Hy). rewrite Hy.
  apply (sortedN_le vs S (b - 1) k); [lia|exact Hy|exact Hx].
Qed.

(** the loop of build computes the stored values *)
Definition vinv2 (ptrs vs done : list N) (s : fbs) : Prop :=
  b_vals s = firstn (N.to_nat (lenN done)) vs /\ 1 <= b_pi s /\ nthN ptrs (b_pi s - 1) = Some (b_start s) /\ nthN ptrs (b_pi s) = Some (b_end s) /\
  b_start s <= lenN done <= b_end s /\ b_run s = b_end s - b_start s /\ b_within s = lenN done - b_start s /\ b_prev s = pv vs (b_start s).

Lemma firstn_len {A} (l : list A) k : k <= lenN l -> lenN (firstn (N.to_nat k) l) = k.
Proof. intros H. unfold lenN in *. rewrite firstn_length. lia. Qed.
Lemma firstn_nth {A} (l : list A) k i : i < k -> nthN (firstn (N.to_nat k) l) i = nthN l i.
Proof.
  intros H. unfold nthN. revert l k H. induction (N.to_nat i) as [|j IH] eqn:E using nat_ind; intros l k H.
  - destruct (N.to_nat k) as [|m] eqn:K; [lia|]. destruct l; reflexivity.
  - clear IH. assert (G : forall j m (l : list A), (j < m)%nat -> nth_error (firstn m l) j = nth_error l j).
    { clear. induction j; intros [|m] [|x l] H; try lia; try reflexivity. cbn. apply IHj. lia. }
    apply G. lia.
Qed.
Lemma firstn_snoc {A} (l : list A) k x : nthN l k = Some x -> firstn (N.to_nat (k + 1)) l = firstn (N.to_nat k) l ++ [x].
Proof.
  unfold nthN. replace (N.to_nat (k + 1)) with (S (N.to_nat k)) by lia. generalize (N.to_nat k). intros j. revert l. induction j as [|j IH]; intros [|y l] H; try discriminate H.
  - cbn in H. injection H as ->. reflexivity.
  - cbn [firstn app]. f_equal. apply IH. exact H.
Qed.

Lemma fef_value_exact ptrs ids vs done v s : pointers_for ptrs (lenN ids) -> lenN ids < 2 ^ 64 -> values_of vs ids ptrs -> Forall (fun x => x < 2 ^ 64) vs ->
  nthN ids (lenN done) = Some v -> vinv2 ptrs vs done s -> exists s', fef_value ptrs s v = Ok s' /\ vinv2 ptrs vs (done ++ [v]) s'.
Proof.
  intros P Hn (VL & V) HF Hv I. pose proof (nthN_lt _ _ _ Hv) as Hd. unfold fef_value.
  assert (ST : exists s1, (if b_within s =? b_run s then
          ' (pi, start, end_, run) <- next_run (S (length ptrs)) ptrs (b_pi s) (b_end s) ;;
          back <- (if lenN (b_vals s) =? 0 then Ok 0 else rd (b_vals s) (lenN (b_vals s) - 1)) ;;
          Ok (mkfbs (b_vals s) back pi start end_ run 0)
        else Ok s) = Ok s1 /\ vinv2 ptrs vs done s1 /\ lenN done < b_end s1).
  { destruct I as (I1 & I2 & I3 & I4 & I5 & I6 & I7 & I8). assert (LV : lenN (b_vals s) = lenN done) by (rewrite I1; apply firstn_len; lia).
    destruct (N.eqb_spec (b_within s) (b_run s)) as [E|E].
    - assert (ED : b_end s = lenN done) by lia. rewrite ED in *.
      destruct (next_run_ok ptrs (lenN ids) P Hn (S (length ptrs)) (b_pi s) (lenN done) I4 Hd) as (pi' & e' & EN & A & B & C & D).
      { unfold lenN. lia. }
      rewrite EN. cbn [bind].
      assert (BK : (if lenN (b_vals s) =? 0 then Ok 0 else rd (b_vals s) (lenN (b_vals s) - 1)) = Ok (pv vs (lenN done))).
      { unfold pv. rewrite LV. destruct (N.eqb_spec (lenN done) 0); [reflexivity|].
        destruct (nthN_Some vs (lenN done - 1) ltac:(lia)) as (x & Hx). rewrite Hx. apply rd_nthN. rewrite I1, firstn_nth by lia. exact Hx. }
      rewrite BK. cbn [bind]. eexists. split; [reflexivity|]. unfold vinv2. cbn [b_vals b_prev b_pi b_start b_end b_run b_within].
      split; [|lia]. split; [assumption|]. split; [lia|]. split; [assumption|]. split; [assumption|]. split; [lia|]. split; [reflexivity|]. split; [lia|reflexivity].
    - exists s. split; [reflexivity|]. split; [|lia]. unfold vinv2. auto 12. }
  destruct ST as (s1 & E1 & (I1 & I2 & I3 & I4 & I5 & I6 & I7 & I8) & HE). rewrite E1. cbn [bind].
  assert (R : is_range ptrs (b_start s1) (b_end s1)).
  { exists (b_pi s1 - 1). split; [exact I3|]. replace (b_pi s1 - 1 + 1) with (b_pi s1) by lia. exact I4. }
  pose proof (V _ _ _ _ R (conj (proj1 I5) HE) Hv) as HV. pose proof (Forall_nthN _ _ _ _ HF HV) as HB. cbn beta in HB.
  rewrite I8, add64_small by exact HB. eexists. split; [reflexivity|]. unfold vinv2. cbn [b_vals b_prev b_pi b_start b_end b_run b_within].
  rewrite lenN_app. change (lenN [v]) with 1. rewrite I1. split; [symmetry; apply firstn_snoc; exact HV|].
  split; [assumption|]. split; [assumption|]. split; [assumption|]. split; [lia|]. split; [assumption|]. split; [lia|reflexivity].
Qed.

Lemma fef_values_exact ids ptrs vs : pointers_for ptrs (lenN ids) -> lenN ids < 2 ^ 64 -> values_of vs ids ptrs -> Forall (fun x => x < 2 ^ 64) vs -> fef_values ids ptrs = Ok vs.
Proof.
  intros P Hn VO HF. pose proof P as (P0 & P1 & P2 & P3). destruct (nthN_Some ptrs 1 ltac:(lia)) as (p1 & Hp1).
  unfold fef_values. rewrite (proj2 (rd_nthN _ _ _) P0), (proj2 (rd_nthN _ _ _) Hp1). cbn [bind]. pose proof (ptrs_le_n ptrs _ _ _ P Hp1).
  assert (G : forall rest done s, ids = done ++ rest -> vinv2 ptrs vs done s -> exists s', foldM (fef_value ptrs) rest s = Ok s' /\ vinv2 ptrs vs ids s').
  { induction rest as [|v rest IH]; intros done s E I.
    - exists s. split; [reflexivity|]. rewrite app_nil_r in E. rewrite E. exact I.
    - assert (Hv : nthN ids (lenN done) = Some v) by (rewrite E, nthN_app2, N.sub_diag by lia; reflexivity).
      destruct (fef_value_exact ptrs ids vs done v s P Hn VO HF Hv I) as (s1 & E1 & I1). cbn [foldM]. rewrite E1. cbn [bind].
      apply (IH (done ++ [v]) s1); [rewrite <- app_assoc; exact E|exact I1]. }
  destruct (G ids [] (mkfbs [] 0 1 0 p1 (sub64 p1 0) 0) eq_refl) as (s & E & I).
  - unfold vinv2. cbn [b_vals b_prev b_pi b_start b_end b_run b_within]. change (lenN (@nil N)) with 0. rewrite sub64_small by lia.
    repeat (split; [solve [assumption|reflexivity|lia]|]). reflexivity.
  - rewrite E. cbn [bind]. destruct I as (I1 & _). rewrite I1. f_equal. destruct VO as (VL & _). apply firstn_all2. unfold lenN in *. lia.
Qed.

(** ** histories *)
Definition pef_call (pd : pads) (f : pef) (e : pen) (c : call) : res (N * pen) :=
  match c with Get p => pef_get pd f e p | Find b r id => pef_find pd f e b r id end.
(** the state of the enumerator after a history of calls *)
Definition pef_after (pd : pads) (f : pef) (e : pen) (cs : list call) : res pen :=
  foldM (fun e c => ' (_, e) <- pef_call pd f e c ;; Ok e) cs e.
(** [k] calls of next() *)
Fixpoint pef_take (pd : pads) (f : pef) (e : pen) (k : nat) : res (list N * pen) :=
  match k with
  | O => Ok ([], e)
  | S k => ' (x, e) <- pef_next pd f e ;; ' (xs, e) <- pef_take pd f e k ;; Ok (x :: xs, e)
  end.

Lemma piece_log order : piece order = 2 ^ (if 2 <? order then 7 else 6).
Proof. unfold piece. destruct (2 <? order); reflexivity. Qed.

Section Hist.
Variables (ids ptrs vs : list N) (order x0 x1 : N).
Hypothesis P : pointers_for ptrs (lenN ids).
Hypothesis INC : increasing_in_ranges ids ptrs.
Hypothesis VO : stored_values vs ids ptrs.
Hypothesis Hn : 0 < lenN ids < 2 ^ 40.
Hypothesis HF : Forall (fun x => x < 2 ^ 56) vs.
Hypothesis SH : short_ok vs order.
Hypothesis Hx0 : x0 < 2 ^ 64.
Hypothesis Hx1 : x1 < 2 ^ 64.

Definition lg : N := if 2 <? order then 7 else 6.
Lemma lg_ok : lg = 6 \/ lg = 7.
Proof. unfold lg. destruct (2 <? order); auto. Qed.
Lemma vlen : lenN vs = lenN ids.
Proof. exact (proj1 VO). Qed.
Lemma vn : 0 < lenN vs < 2 ^ 40.
Proof. rewrite vlen. exact Hn. Qed.
Lemma vsorted : sortedN vs.
Proof.
  apply (values_sorted vs ids ptrs P); [|exact VO]. intros b e k x y R B1 B2 Hx Hy. apply N.lt_le_incl. exact (INC b e k x y R B1 B2 Hx Hy).
Qed.

Lemma built : exists parts f Bo e i0, is_parts vs lg parts /\ pef_build ids ptrs order = Ok f /\ prep vs lg parts f (va vs (lenN vs - 1)) Bo /\
    pef_init (pd x0 x1) f = Ok e /\ pst vs lg parts f Bo e 0 i0 /\ en_pos e = 0 /\ en_first e = true /\ clean vs lg parts f Bo e.
Proof.
  pose proof vn as Vn. pose proof (va_lt vs HF (lenN vs - 1)) as VL.
  destruct (write_ok vs (va vs (lenN vs - 1)) order x0 x1 Vn vsorted HF Hx0 Hx1) as (parts & f & Bo & e & i0 & W1 & W2 & W3).
  { change (2 ^ 57) with (2 * 2 ^ 56). lia. }
  { cbv zeta. rewrite <- piece_log. intros L. destruct (SH L) as (x & y & A & B & C & D).
    rewrite (va_nth vs) in A by lia. rewrite (va_nth vs) in B by lia. injection A as <-. injection B as <-. split; [|exact D]. destruct C as [C|C]; auto. }
  exists parts, f, Bo, e, i0. split; [exact W1|]. split; [|exact W3]. unfold pef_build.
  rewrite (fef_values_exact ids ptrs vs P); [|lia|exact VO|eapply Forall_impl; [|exact HF]; intros x Hx; cbv beta in Hx; lia].
  cbn [bind]. rewrite sub64_small by lia. rewrite (proj2 (rd_nthN _ _ _) (va_nth vs (lenN vs - 1) ltac:(lia))). cbn [bind]. exact W2.
Qed.

Section State.
Variables (parts : N) (f : pef) (Bo : N -> N).
Hypothesis PA : is_parts vs lg parts.
Hypothesis HP : prep vs lg parts f (va vs (lenN vs - 1)) Bo.
Let good (e : pen) : Prop := exists p i, pst vs lg parts f Bo e p i.

Lemma get_good e p v : good e -> nthN vs p = Some v -> exists e', pef_get (pd x0 x1) f e p = Ok (v, e') /\ good e'.
Proof.
  intros (q & i & S) Hv. pose proof (nthN_lt _ _ _ Hv) as L. rewrite (va_nth vs) in Hv by exact L. injection Hv as <-.
  destruct (move_ok vs lg lg_ok vn vsorted HF parts PA f _ x0 x1 Bo Hx0 Hx1 HP e q i p S L) as (e' & E & S' & _). exists e'. split; [exact E|]. eexists. eexists. exact S'.
Qed.

Lemma find_good e b r id : good e -> call_ok ids ptrs order (Find b r id) -> exists res e', pef_find (pd x0 x1) f e b r id = Ok (res, e') /\ good e' /\
  (clean vs lg parts f Bo e -> clean vs lg parts f Bo e') /\
  (b = r -> res = not_found) /\
  (id <> 0 -> res = not_found \/ nthN vs res = Some (id + before vs b)) /\
  (forall k, b <= k < r -> nthN ids k = Some id -> 0 < b \/ piece order < lenN ids \/ clean vs lg parts f Bo e -> res = k).
Proof.
  intros (p & i & S) (R & Hid & SE). pose proof (range_bounds ptrs _ b r P R) as RB. pose proof vlen as VL. pose proof lg_ok as LG. pose proof (psz_bound lg LG) as PB.
  destruct (N.eq_dec b r) as [->|NE].
  { exists not_found, e. unfold pef_find. rewrite N.eqb_refl. split; [reflexivity|]. split; [exists p, i; exact S|]. split; [auto|]. split; [auto|]. split; [auto|]. intros; lia. }
  destruct (N.eq_dec id 0) as [->|NZ].
  { exists b, e. unfold pef_find. destruct (N.eqb_spec b r); [contradiction|]. cbn [N.eqb]. split; [reflexivity|]. split; [exists p, i; exact S|]. split; [auto|]. split; [congruence|]. split; [congruence|].
    intros k Hk Hi _. destruct (N.eq_dec k b) as [->|NK]; [reflexivity|exfalso].
    destruct (nthN_Some ids (k - 1) ltac:(lia)) as (y & Hy). assert (X : y < 0); [|lia]. apply (INC b r (k - 1) y 0 R); try lia; [exact Hy|].
    replace (k - 1 + 1) with k by lia. exact Hi. }
  assert (PV : before vs b = prev vs b).
  { reflexivity. }
  assert (LAST : forall x, nthN ids (lenN ids - 1) = Some x -> r = lenN ids -> va vs (lenN vs - 1) = x + prev vs b).
  { intros x Hx Er. rewrite <- PV. pose proof (proj2 VO b r (lenN ids - 1) x R ltac:(lia) Hx) as H. rewrite <- VL in H. unfold va. rewrite H. reflexivity. }
  assert (PRV : prev vs b <= va vs (lenN vs - 1)).
  { unfold prev. destruct (N.eqb_spec b 0); [lia|]. apply (va_le vs lg LG vn vsorted); lia. }
  pose proof (va_lt vs HF (lenN vs - 1)) as VB.
  destruct (find_ok vs lg lg_ok vn vsorted HF parts PA f _ x0 x1 Bo Hx0 Hx1 HP e p i b r id S) as (res & e' & p' & i' & E & S' & C & _ & SND & CMP).
  { lia. } { exact NZ. } { change (2 ^ 64) with (2 * 2 ^ 63). lia. } { reflexivity. }
  { pose proof PA as (Q1 & Q2 & Q3). destruct (N.lt_ge_cases (r / 2 ^ lg) parts) as [L|L]; [left; exact L|right].
    assert (PR : parts * 2 ^ lg <= r).
    { pose proof (N.div_mod r (2 ^ lg) ltac:(lia)) as DM. assert (parts * 2 ^ lg <= r / 2 ^ lg * 2 ^ lg) by (apply N.mul_le_mono_r; exact L). rewrite N.mul_comm in DM. clear - DM H. generalize dependent (r / 2 ^ lg * 2 ^ lg). intros. lia. }
    assert (RN : r = lenN ids) by lia. destruct SE as [SE|[SE|(x & Hx & LX)]]; [lia|exfalso; apply SE|].
    - rewrite piece_log. fold lg. replace (lenN ids) with (parts * 2 ^ lg) by lia. apply N.mod_mul. lia.
    - rewrite (LAST x Hx RN). lia. }
  exists res, e'. split; [exact E|]. split; [exists p', i'; exact S'|]. split; [exact C|]. split; [congruence|]. split.
  { intros _. destruct SND as [->|(SN1 & SN2)]; [left; reflexivity|right]. rewrite (va_nth vs) by exact SN1. rewrite SN2. reflexivity. }
  intros k Hk Hi H. assert (VK : nthN vs k = Some (id + prev vs b)) by (rewrite <- PV; exact (proj2 VO b r k id R Hk Hi)).
  assert (VA : va vs k = id + prev vs b) by (unfold va; rewrite VK; reflexivity).
  assert (INR : forall a c, b <= a -> a < c -> c < r -> va vs a < va vs c).
  { intros a c B1 B2 B3. assert (ST : va vs a < va vs (a + 1)).
    { destruct (nthN_Some ids a ltac:(lia)) as (y & Hy). destruct (nthN_Some ids (a + 1) ltac:(lia)) as (z & Hz).
      pose proof (INC b r a y z R B1 ltac:(lia) Hy Hz). pose proof (proj2 VO b r a y R ltac:(lia) Hy) as A1. pose proof (proj2 VO b r (a + 1) z R ltac:(lia) Hz) as A2.
      unfold va. rewrite A1, A2. lia. }
    apply N.lt_le_trans with (va vs (a + 1)); [exact ST|]. apply (va_le vs lg LG vn vsorted); lia. }
  apply CMP; [exact Hk|exact VA| | |].
  - intros j Hj. destruct (N.le_gt_cases b j) as [B|B]; [apply INR; lia|]. rewrite VA. unfold prev. destruct (N.eqb_spec b 0); [lia|].
    pose proof (va_le vs lg LG vn vsorted j (b - 1) ltac:(lia) ltac:(lia)). lia.
  - intros j Hj. apply INR; lia.
  - destruct H as [H|[H|H]]; [left; exact H|right; left|right; right; exact H]. pose proof PA as (Q1 & Q2 & Q3). rewrite piece_log in H. fold lg in H. rewrite <- VL in H.
    destruct (N.lt_ge_cases 1 parts); [assumption|]. assert (parts = 1) by lia. subst parts. lia.
Qed.

Lemma after_ok cs : forall e, good e -> Forall (call_ok ids ptrs order) cs ->
  exists e', pef_after (pd x0 x1) f e cs = Ok e' /\ good e' /\ (clean vs lg parts f Bo e -> existsb is_get cs = false -> clean vs lg parts f Bo e').
Proof.
  induction cs as [|c cs IH]; intros e G F.
  { exists e. split; [reflexivity|]. split; [exact G|]. auto. }
  pose proof (Forall_inv F) as F1. pose proof (Forall_inv_tail F) as F2. unfold pef_after in *. cbn [foldM].
  assert (ST : exists x e1, pef_call (pd x0 x1) f e c = Ok (x, e1) /\ good e1 /\ (clean vs lg parts f Bo e -> is_get c = false -> clean vs lg parts f Bo e1)).
  { destruct c as [p|b r id]; cbn [pef_call].
    - destruct (nthN_Some vs p) as (v & Hv); [rewrite vlen; exact F1|]. destruct (get_good e p v G Hv) as (e1 & E1 & G1). exists v, e1. split; [exact E1|]. split; [exact G1|]. intros _ X. discriminate X.
    - destruct (find_good e b r id G F1) as (x & e1 & E1 & G1 & C1 & _). exists x, e1. split; [exact E1|]. split; [exact G1|]. intros C _. apply C1. exact C. }
  destruct ST as (x & e1 & E1 & G1 & C1). rewrite E1. cbn [bind]. destruct (IH e1 G1 F2) as (e' & E' & G' & C'). exists e'. split; [exact E'|]. split; [exact G'|].
  intros C X. cbn [existsb] in X. apply orb_false_iff in X. destruct X as [X1 X2]. apply C'; [apply C1; assumption|assumption].
Qed.
End State.
End Hist.

(** ** enumeration *)
Lemma take_ok vals log parts f U x0 x1 Bo e i : (log = 6 \/ log = 7) -> 0 < lenN vals < 2 ^ 40 -> sortedN vals -> Forall (fun x => x < 2 ^ 56) vals ->
  is_parts vals log parts -> x0 < 2 ^ 64 -> x1 < 2 ^ 64 -> prep vals log parts f U Bo -> pst vals log parts f Bo e 0 i -> en_first e = true -> en_pos e = 0 ->
  exists e' e'', pef_take (pd x0 x1) f e (length vals) = Ok (vals, e') /\ pef_next (pd x0 x1) f e' = Ok (U, e'').
Proof.
  intros Hlog Hn HS HF PA Hx0 Hx1 HP PS F0 Z0.
  assert (G : forall d k e, N.of_nat d + k + 1 = lenN vals -> nst vals log parts f Bo e k ->
     exists e', pef_take (pd x0 x1) f e d = Ok (skipn (N.to_nat (k + 1)) vals, e') /\ nst vals log parts f Bo e' (lenN vals - 1)).
  { induction d as [|d IH]; intros k e0 E N0; cbn [pef_take].
    - exists e0. rewrite skipn_all2 by (unfold lenN in E; lia). split; [reflexivity|]. replace (lenN vals - 1) with k by lia. exact N0.
    - destruct (next_next vals log Hlog Hn HS HF parts PA f U x0 x1 Bo Hx0 Hx1 HP e0 k N0 ltac:(lia)) as (e1 & E1 & N1). rewrite E1. cbn [bind]. cbv beta iota.
      destruct (IH (k + 1) e1 ltac:(lia) N1) as (e' & E' & N'). rewrite E'. cbn [bind]. cbv beta iota. exists e'. split; [|exact N']. do 2 f_equal.
      pose proof (va_nth vals (k + 1) ltac:(lia)) as V. unfold nthN in V. replace (N.to_nat (k + 1 + 1)) with (S (N.to_nat (k + 1))) by lia.
      clear - V. revert V. generalize (va vals (k + 1)). generalize (N.to_nat (k + 1)). intros m x V. revert m V. induction vals as [|y l IH]; intros [|m] V; try discriminate V.
      + cbn in V. injection V as ->. reflexivity.
      + cbn [skipn]. apply IH. exact V. }
  destruct (next_first vals log Hlog Hn HS HF parts PA f x0 x1 Bo Hx0 Hx1 e i PS F0 Z0) as (e1 & E1 & N1).
  destruct (G (length vals - 1)%nat 0 e1 ltac:(unfold lenN in *; lia) N1) as (e' & E' & N').
  destruct (next_end vals log Hlog Hn HS HF parts PA f U x0 x1 Bo Hx0 Hx1 HP e' (lenN vals - 1) N' ltac:(lia)) as (e'' & E'').
  exists e', e''. split; [|exact E'']. replace (length vals) with (S (length vals - 1)) by (unfold lenN in Hn; lia). cbn [pef_take]. rewrite E1. cbn [bind]. cbv beta iota. rewrite E'.
  cbn [bind]. cbv beta iota. do 2 f_equal. pose proof (va_nth vals 0 ltac:(lia)) as V. destruct vals as [|y l]; [discriminate V|]. reflexivity.
Qed.
