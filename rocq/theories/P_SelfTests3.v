(** * The self-check programs of the two sequences accept *)
From Verif Require Import Prelude BitFacts M_Word P_Word M_Bits Spec Spec_Pef P_Bits M_CompactVector M_HashVec M_DArray M_EF P_EF M_Mph P_MphTables M_FastEF P_FastEF P_FastEF2 P_FastEF3 M_Pef
  P_Pef4 P_Pef5 M_Save P_Trie1 M_SelfTests P_SelfTests1 P_SelfTests2 Props_Pef.

(** ** fast_ef_sequence *)
Lemma fef_build_vs h order ids ptrs vs : pointers_for ptrs (lenN ids) -> sorted_in_ranges ids ptrs -> ids <> [] -> lenN ids < 2 ^ 56 ->
  values_of vs ids ptrs -> Forall (fun v => v < 2 ^ 64) vs ->
  (long_starts 128 ptrs = [] \/ valid_order (hash_domain (lenN (long_starts 128 ptrs))) h (long_starts 128 ptrs) order) ->
  exists f, fef_build h order ids ptrs = Ok f /\ fef_rep h f ids ptrs vs.
Proof.
  intros P HS NE Hn V V64 HV. pose proof (fef_values_exact ids ptrs vs P ltac:(lia) V V64) as E.
  pose proof V as (VL & _). pose proof (values_sorted vs ids ptrs P HS V) as SV.
  assert (L0 : 0 < lenN vs) by (rewrite VL; destruct ids; [congruence|]; rewrite lenN_cons; lia).
  unfold fef_build. rewrite E. cbn [bind]. rewrite sub64_small by lia.
  destruct (nthN_Some vs (lenN vs - 1) ltac:(lia)) as (u & Hu). rewrite (proj2 (rd_nthN _ _ _) Hu). cbn [bind].
  destruct (fef_samplings_ok h order vs ptrs) as (off & samp & ES & SA); [rewrite VL; assumption|lia|assumption|]. rewrite ES. cbn [bind].
  destruct (efc_build_ok vs u SV) as (c & EC & RC).
  - apply Forall_forall. intros v Hv. apply In_nth_error in Hv. destruct Hv as (k & Hk).
    assert (Hk' : nthN vs (N.of_nat k) = Some v) by (unfold nthN; rewrite Nat2N.id; assumption).
    apply (sortedN_le vs SV (N.of_nat k) (lenN vs - 1)); auto. pose proof (nthN_lt _ _ _ Hk'). lia.
  - exact (Forall_nthN _ _ _ _ V64 Hu).
  - lia.
  - intros ->. change (lenN (@nil N)) with 0 in L0. lia.
  - rewrite EC. cbn [bind]. eexists. split; [reflexivity|]. unfold fef_rep. cbn [f_size f_core f_off f_samp].
    split; [assumption|]. split; [assumption|]. split; [assumption|]. split; [assumption|]. split; [assumption|]. split; [lia|]. exact SA.
Qed.

Lemma unique_in_range ids ptrs b e : increasing_in_ranges ids ptrs -> is_range ptrs b e -> e <= lenN ids ->
  forall d p q x y, b <= p -> q = p + N.of_nat d -> 0 < N.of_nat d -> q < e -> nthN ids p = Some x -> nthN ids q = Some y -> x < y.
Proof.
  intros INC R LE. induction d as [|d IH]; intros p q x y Bp Eq Hd Lq Hx Hy; [lia|].
  destruct d as [|d]; [apply (INC b e p x y R Bp ltac:(lia) Hx); replace (p + 1) with q by lia; exact Hy|].
  destruct (nthN_Some ids (p + N.of_nat (S d)) ltac:(lia)) as (z & Hz). specialize (IH p (p + N.of_nat (S d)) x z Bp eq_refl ltac:(lia) ltac:(lia) Hx Hz).
  assert (z < y); [|lia]. apply (INC b e (p + N.of_nat (S d)) z y R ltac:(lia) ltac:(lia) Hz). replace (p + N.of_nat (S d) + 1) with q by lia. exact Hy.
Qed.
Lemma same_in_range ids ptrs b e p q x : increasing_in_ranges ids ptrs -> is_range ptrs b e -> e <= lenN ids -> b <= p < e -> b <= q < e ->
  nthN ids p = Some x -> nthN ids q = Some x -> p = q.
Proof.
  intros INC R LE Hp Hq Xp Xq. destruct (N.lt_trichotomy p q) as [L|[E|L]]; [|exact E|]; exfalso.
  - pose proof (unique_in_range ids ptrs b e INC R LE (N.to_nat (q - p)) p q x x ltac:(lia) ltac:(lia) ltac:(lia) ltac:(lia) Xp Xq). lia.
  - pose proof (unique_in_range ids ptrs b e INC R LE (N.to_nat (p - q)) q p x x ltac:(lia) ltac:(lia) ltac:(lia) ltac:(lia) Xq Xp). lia.
Qed.

Section Data.
Variable R : list (list N).
Hypothesis GR : Forall good_run R.
Hypothesis RN : R <> [].
Let ids := concat R.
Let ptrs := psums 0 R.
Let vs := svals 0 R.

Lemma d_ptrs : pointers_for ptrs (lenN ids).
Proof. apply psums_pointers. exact RN. Qed.
Lemma d_nonempty b e : is_range ptrs b e -> b < e.
Proof. intros HR. exact (proj1 (runs_first R b e GR HR)). Qed.
(** what the programs subtract from the stored value *)
Lemma d_base b e i : is_range ptrs b e -> b <= i < e -> exists x y, nthN ids i = Some x /\ nthN vs i = Some y /\
  (if b =? 0 then y = x else exists z, nthN vs b = Some z /\ y = x + z).
Proof using GR RN.
  intros HR Hi. pose proof (range_bounds ptrs _ b e d_ptrs HR) as B. destruct (runs_stored R GR) as (VL & V). fold ids ptrs vs in VL, V.
  destruct (nthN_Some ids i ltac:(lia)) as (x & Hx). exists x, (x + before vs b). split; [exact Hx|]. split; [apply (V b e i x HR Hi Hx)|].
  destruct (N.eqb_spec b 0) as [->|NZ]; [unfold before; cbn; lia|].
  destruct (runs_first R b e GR HR) as (L & H0). exists (before vs b). split; [|lia]. pose proof (V b e b 0 HR ltac:(lia) H0) as E. rewrite N.add_0_l in E. exact E.
Qed.
End Data.

Section Fef.
Variables (h : N -> triple) (order : list N -> list edge) (n mx : N) (draw vdraw : N -> N).
Hypothesis Hn : 0 < n < 2 ^ 56.
Hypothesis Hmx : 0 < mx <= n.
Hypothesis HD : forall k, 1 <= draw k <= mx.
Hypothesis HV : forall k, 1 <= vdraw k <= 50.
Hypothesis HO : forall ptrs, cut_pointers draw n = Ok ptrs ->
  long_starts 128 ptrs = [] \/ valid_order (hash_domain (lenN (long_starts 128 ptrs))) h (long_starts 128 ptrs) (order ptrs).

Theorem test_fast_ef_ok : test_fast_ef h order n mx draw vdraw = Ok 0.
Proof.
  unfold test_fast_ef. destruct (N.ltb_spec n mx) as [X|_]; [lia|]. destruct (N.eqb_spec n 0) as [X|_]; [lia|]. destruct (N.eqb_spec mx 0) as [X|_]; [lia|]. cbn [orb].
  destruct (data_ok draw vdraw n mx ltac:(lia) ltac:(lia) ltac:(lia) HD HV) as (ptrs & R & EC & EP & EI & GR & RN & LN). specialize (HO ptrs EC).
  rewrite EC. cbn [bind]. rewrite EI. cbv zeta.
  pose proof (d_ptrs R RN) as P. pose proof (runs_stored R GR) as VO. pose proof (runs_increasing R GR) as INC. pose proof (svals_bound R GR 0) as VB. rewrite <- EP in *.
  set (ids := concat R) in *. set (vs := svals 0 R) in *.
  assert (V64 : Forall (fun v => v < 2 ^ 64) vs) by (eapply Forall_impl; [|exact VB]; cbv beta; intros x Hx; rewrite LN in Hx; lia).
  assert (SR : sorted_in_ranges ids ptrs) by (intros b e k x y HR B1 B2 Hx Hy; apply N.lt_le_incl; exact (INC b e k x y HR B1 B2 Hx Hy)).
  assert (NE : ids <> []) by (intros E; rewrite E in LN; change (lenN (@nil N)) with 0 in LN; lia).
  destruct (fef_build_vs h (order ptrs) ids ptrs vs P SR NE ltac:(lia) VO V64 HO) as (f & EB & FR). rewrite EB. cbn [bind].
  pose proof FR as (_ & RC & _). pose proof (proj1 VO) as VL.
  assert (NER : forall b e, is_range ptrs b e -> b < e) by (intros b e HR; subst ptrs; exact (d_nonempty R GR b e HR)).
  assert (IT : fef_iterate f n (ranges_of ptrs) ids = Ok tt).
  { unfold fef_iterate. destruct (efit_new_ok (f_core f) vs 0 RC ltac:(lia)) as (it & EN & IA). rewrite EN. cbn [bind].
    match goal with |- bind (foldM ?body _ _) _ = _ => destruct (foldM_range_inv (fun i (s : efit * N) => efit_at (f_core f) vs (fst s) i /\ at_range ptrs (snd s) i) body n (it, 0)) as (s & ES & _) end.
    - split; [exact IA|apply (at_range_0 ptrs _ P)].
    - intros i (it0 & j) Hi (A1 & A2). cbn [fst snd] in A1, A2. rewrite LN in P. destruct (range_at_ok ptrs n j i P NER Hi A2) as (j' & b & e & E1 & HR & HB & A2').
      rewrite E1. cbn [bind]. cbv beta iota. rewrite EP in HR. destruct (d_base R GR RN b e i HR HB) as (x & y & Hx & Hy & HZ). fold ids in Hx. fold vs in Hy, HZ.
      destruct (efit_next_ok (f_core f) vs it0 i y RC A1 Hy) as (it1 & E2 & A1'). rewrite E2. cbn [bind fst]. cbv beta iota.
      assert (G : exists z, (if b =? 0 then Ok 0 else fef_get f b) = Ok z /\ y = x + z).
      { destruct (N.eqb_spec b 0) as [Eb|Nb]; [exists 0; split; [reflexivity|lia]|]. destruct HZ as (z & Hz & E). exists z. split; [apply (efc_get_ok _ vs); assumption|exact E]. }
      destruct G as (z & Ez & E). rewrite Ez. cbn [bind]. rewrite (proj2 (rd_nthN _ _ _) Hx). cbn [bind].
      pose proof (Forall_nthN _ _ _ _ V64 Hy) as Y64. cbv beta in Y64. rewrite sub64_small by lia. replace (y - z) with x by lia. rewrite check_same. cbn [bind].
      exists (it1, j'). split; [reflexivity|]. split; [exact A1'|exact A2'].
    - rewrite ES. reflexivity. }
  rewrite IT. cbn [bind].
  assert (FI : fef_finds h f n (ranges_of ptrs) ids = Ok tt).
  { unfold fef_finds. match goal with |- bind (foldM ?body _ _) _ = _ => destruct (foldM_range_inv (fun i j => at_range ptrs j i) body n 0) as (s & ES & _) end.
    - apply (at_range_0 ptrs _ P).
    - intros i j Hi A. rewrite LN in P. destruct (range_at_ok ptrs n j i P NER Hi A) as (j' & b & e & E1 & HR & HB & A'). rewrite E1. cbn [bind]. cbv beta iota.
      destruct (nthN_Some ids i ltac:(lia)) as (x & Hx). rewrite (proj2 (rd_nthN _ _ _) Hx). cbn [bind].
      pose proof (range_bounds ptrs _ b e P HR) as RB.
      assert (X64 : x < 2 ^ 64) by (pose proof (proj2 VO b e i x HR HB Hx) as Y; pose proof (Forall_nthN _ _ _ _ V64 Y); cbv beta in *; lia).
      destruct (fef_find_ok h f ids ptrs vs b e x FR HR ltac:(lia) X64) as (r & Er & SRr). rewrite Er. cbn [bind].
      assert (r = i).
      { destruct SRr as [(Q1 & Q2)|(_ & Q2)]; [|exfalso; exact (Q2 i HB Hx)]. apply (same_in_range ids ptrs b e r i x INC HR ltac:(lia) Q1 HB Q2 Hx). }
      subst r. rewrite check_same. cbn [bind]. exists j'. split; [reflexivity|exact A'].
    - rewrite ES. reflexivity. }
  rewrite FI. reflexivity.
Qed.
End Fef.

(** ** uniform_pef_sequence *)
Lemma pef_take_step pd f : forall k e l it m l' it', pef_take pd f e k = Ok (l, it) -> (k < m)%nat -> pef_take pd f e m = Ok (l', it') ->
  exists x it1, pef_next pd f it = Ok (x, it1) /\ nth_error l' k = Some x /\ exists l1, pef_take pd f e (S k) = Ok (l1, it1).
Proof.
  induction k as [|k IH]; intros e l it m l' it' E Hm E'; (destruct m as [|m]; [lia|]); cbn [pef_take] in E, E'.
  - injection E as <- <-. apply bind_ok in E'. destruct E' as ((x & e1) & E1 & E'). cbv beta iota in E'. apply bind_ok in E'. destruct E' as ((xs & e2) & E2 & E'). injection E' as <- <-.
    exists x, e1. split; [exact E1|]. split; [reflexivity|]. exists [x]. cbn [pef_take]. rewrite E1. reflexivity.
  - apply bind_ok in E. destruct E as ((x & e1) & E1 & E). cbv beta iota in E. apply bind_ok in E. destruct E as ((xs & e2) & E2 & E). injection E as <- <-.
    rewrite E1 in E'. cbn [bind] in E'. apply bind_ok in E'. destruct E' as ((xs' & e2') & E2' & E'). injection E' as <- <-.
    destruct (IH e1 xs e2 m xs' e2' E2 ltac:(lia) E2') as (y & it1 & N1 & N2 & l1 & N3). exists y, it1. split; [exact N1|]. split; [exact N2|]. exists (x :: l1).
    cbn [pef_take]. rewrite E1. cbn [bind]. cbn [pef_take] in N3. rewrite N3. reflexivity.
Qed.
Lemma pef_after_app pd f e cs1 cs2 e1 : pef_after pd f e cs1 = Ok e1 -> pef_after pd f e (cs1 ++ cs2) = pef_after pd f e1 cs2.
Proof.
  unfold pef_after. revert e. induction cs1 as [|c cs1 IH]; intros e E; cbn [foldM app] in *; [injection E as <-; reflexivity|].
  apply bind_ok in E. destruct E as (e2 & E2 & E). rewrite E2. cbn [bind]. apply IH. exact E.
Qed.
Lemma pef_after_get pd f e cs e1 p x e2 : pef_after pd f e cs = Ok e1 -> pef_get pd f e1 p = Ok (x, e2) -> pef_after pd f e (cs ++ [Get p]) = Ok e2.
Proof. intros A G. rewrite (pef_after_app _ _ _ _ _ _ A). unfold pef_after. cbn [foldM pef_call]. rewrite G. reflexivity. Qed.
Lemma pef_after_find pd f e cs e1 b r id x e2 : pef_after pd f e cs = Ok e1 -> pef_find pd f e1 b r id = Ok (x, e2) -> pef_after pd f e (cs ++ [Find b r id]) = Ok e2.
Proof. intros A G. rewrite (pef_after_app _ _ _ _ _ _ A). unfold pef_after. cbn [foldM pef_call]. rewrite G. reflexivity. Qed.

Lemma running_facts draw n : (forall k, draw k <= 100) -> n < 2 ^ 40 ->
  lenN (running draw n) = n /\ (forall i x y, nthN (running draw n) i = Some x -> nthN (running draw n) (i + 1) = Some y -> x <= y) /\
  Forall (fun x => x <= 100 * n) (running draw n).
Proof.
  intros HD Hn. unfold running. rewrite grow_len, N2Nat.id. split; [reflexivity|].
  pose proof (grow_steps draw 0 100 (N.to_nat n) ltac:(intros k; specialize (HD k); lia) 0 0 ltac:(lia)) as HS. split.
  - intros i x y Hx Hy. specialize (HS (N.succ i) x y). rewrite nthN_succ in HS. replace (N.succ i + 1) with (N.succ (i + 1)) in HS by lia. rewrite nthN_succ in HS. specialize (HS Hx Hy). lia.
  - assert (B : forall i x, nthN (0 :: grow draw 0 0 (N.to_nat n)) i = Some x -> x <= 100 * i).
    { induction i as [|i IH] using N.peano_ind; intros x Hx; [injection Hx as <-; lia|]. pose proof (nthN_lt _ _ _ Hx) as L.
      destruct (nthN_Some (0 :: grow draw 0 0 (N.to_nat n)) i ltac:(lia)) as (y & Hy). specialize (IH y Hy). rewrite <- N.add_1_r in Hx. specialize (HS i y x Hy Hx). lia. }
    apply Forall_forall. intros x Hx. apply In_nthN in Hx. destruct Hx as (i & Hi). pose proof (nthN_lt _ _ _ Hi) as L. rewrite grow_len in L.
    pose proof (B (N.succ i) x) as Bx. rewrite nthN_succ in Bx. specialize (Bx Hi). lia.
Qed.
Lemma last_le l M : Forall (fun x : N => x <= M) l -> last l 0 <= M.
Proof. induction 1 as [|x l Hx F IH]; [cbn; lia|]. destruct l as [|y l]; [exact Hx|exact IH]. Qed.

Lemma pef_part1_ok x0 x1 n draw : x0 < 2 ^ 64 -> x1 < 2 ^ 64 -> 64 < n < 2 ^ 40 -> (forall k, draw k <= 100) -> pef_part1 (mkpads [x0] [x1]) n draw = Ok tt.
Proof.
  intros Hx0 Hx1 Hn HD. destruct (running_facts draw n HD ltac:(lia)) as (L & MONO & BD). unfold pef_part1. cbv zeta. set (vals := running draw n) in *.
  assert (V56 : Forall (fun x => x < 2 ^ 56) vals) by (eapply Forall_impl; [|exact BD]; cbv beta; intros x Hx; lia).
  destruct (C16_universe_get vals (last vals 0) 2 x0 x1 MONO ltac:(lia) V56) as (f & e & EB & EI & GET & (e' & e'' & TK & _)); try assumption.
  { pose proof (last_le vals _ BD). lia. }
  { change (piece 2) with 64. lia. }
  rewrite EB. cbn [bind]. rewrite EI. cbn [bind].
  assert (IT : pef_iterate_all (mkpads [x0] [x1]) f n vals = Ok tt).
  { unfold pef_iterate_all. rewrite EI. cbn [bind]. match goal with |- bind (foldM ?body _ _) _ = _ =>
      destruct (foldM_range_inv (fun i it => exists l, pef_take (mkpads [x0] [x1]) f e (N.to_nat i) = Ok (l, it)) body n e) as (s & ES & _) end.
    - exists []. reflexivity.
    - intros i it Hi (l & Hl). destruct (pef_take_step _ f _ e l it (length vals) vals e' Hl) as (x & it1 & N1 & N2 & N3); [unfold lenN in L; lia|exact TK|].
      rewrite N1. cbn [bind]. cbv beta iota. assert (Hx : nthN vals i = Some x) by exact N2. rewrite (proj2 (rd_nthN _ _ _) Hx). cbn [bind]. rewrite check_same. cbn [bind].
      exists it1. split; [reflexivity|]. replace (N.to_nat (i + 1)) with (S (N.to_nat i)) by lia. exact N3.
    - rewrite ES. reflexivity. }
  rewrite IT. cbn [bind]. unfold pef_get_all. match goal with |- bind (foldM ?body _ _) _ = _ =>
      destruct (foldM_range_inv (fun i e1 => exists ps, Forall (fun p => p < lenN vals) ps /\ pef_after (mkpads [x0] [x1]) f e (map Get ps) = Ok e1) body n e) as (s & ES & _) end.
  - exists []. split; [constructor|reflexivity].
  - intros i e1 Hi (ps & F & A). destruct (GET ps F) as (e1' & A' & G). rewrite A in A'. injection A' as <-.
    destruct (nthN_Some vals i ltac:(lia)) as (x & Hx). destruct (G i x Hx) as (e2 & E2). rewrite E2. cbn [bind]. cbv beta iota. rewrite (proj2 (rd_nthN _ _ _) Hx). cbn [bind]. rewrite check_same. cbn [bind].
    exists e2. split; [reflexivity|]. exists (ps ++ [i]). split; [apply Forall_app; split; [exact F|]; repeat constructor; lia|]. rewrite map_app. exact (pef_after_get _ _ _ _ _ _ _ _ A E2).
  - rewrite ES. reflexivity.
Qed.

Lemma pef_part2_ok x0 x1 n mx draw vdraw : x0 < 2 ^ 64 -> x1 < 2 ^ 64 -> 64 < n < 2 ^ 40 -> n + mx < 2 ^ 64 -> (forall k, 1 <= draw k <= mx) -> (forall k, 1 <= vdraw k <= 50) ->
  pef_part2 (mkpads [x0] [x1]) n draw vdraw = Ok tt.
Proof.
  intros Hx0 Hx1 Hn Hmx HD HV. unfold pef_part2.
  destruct (data_ok draw vdraw n mx ltac:(lia) ltac:(lia) ltac:(lia) HD HV) as (ptrs & R & EC & EP & EI & GR & RN & LN). rewrite EC. cbn [bind]. rewrite EI. cbv zeta.
  pose proof (d_ptrs R RN) as P. pose proof (runs_stored R GR) as VO. pose proof (runs_increasing R GR) as INC. pose proof (svals_bound R GR 0) as VB. rewrite <- EP in *.
  set (ids := concat R) in *. set (vs := svals 0 R) in *. pose proof (proj1 VO) as VL. fold ids in VL.
  assert (V56 : Forall (fun v => v < 2 ^ 56) vs) by (eapply Forall_impl; [|exact VB]; cbv beta; intros x Hx; rewrite LN in Hx; lia).
  assert (NER : forall b e, is_range ptrs b e -> b < e) by (intros b e HR; subst ptrs; exact (d_nonempty R GR b e HR)).
  assert (SH : short_ok vs 2) by (unfold short_ok; change (piece 2) with 64; lia).
  destruct (C16_get_and_find_partial ids ptrs vs 2 x0 x1 P INC VO ltac:(lia) V56 SH Hx0 Hx1) as (f & e & EB & _ & EN & CALLS).
  destruct (C16_enumeration ids ptrs vs 2 x0 x1 P INC VO ltac:(lia) V56 SH Hx0 Hx1) as (f' & e0 & eN & eE & EB' & EN' & TK & _).
  rewrite EB in EB'. injection EB' as <-. rewrite EN in EN'. injection EN' as <-. rewrite EB. cbn [bind]. rewrite EN. cbn [bind].
  set (pd := mkpads [x0] [x1]) in *.
  assert (IT : exists e1 cs, pef_iterate pd f e n (ranges_of ptrs) ids = Ok e1 /\ pef_after pd f e cs = Ok e1 /\ Forall (call_ok ids ptrs 2) cs).
  { unfold pef_iterate. rewrite EN. cbn [bind]. match goal with |- context [foldM ?body _ _] =>
      destruct (foldM_range_inv (fun i (s : pen * pen * N) => let '(it, e1, j) := s in (exists l, pef_take pd f e (N.to_nat i) = Ok (l, it)) /\
        (exists cs, pef_after pd f e cs = Ok e1 /\ Forall (call_ok ids ptrs 2) cs) /\ at_range ptrs j i) body n (e, e, 0)) as (((it2 & e2) & j2) & ES & _ & (cs & A & F) & _) end.
    - split; [exists []; reflexivity|]. split; [exists []; split; [reflexivity|constructor]|apply (at_range_0 ptrs _ P)].
    - intros i ((it & e1) & j) Hi ((l & Hl) & (cs & A & F) & AR). rewrite LN in P. destruct (range_at_ok ptrs n j i P NER Hi AR) as (j' & b & r & E1 & HR & HB & AR').
      rewrite E1. cbn [bind]. cbv beta iota. assert (HR' := HR). rewrite EP in HR'. destruct (d_base R GR RN b r i HR' HB) as (x & y & Hx & Hy & HZ). fold ids in Hx. fold vs in Hy, HZ.
      destruct (pef_take_step _ f _ e l it (length vs) vs eN Hl) as (y' & it1 & N1 & N2 & N3); [unfold lenN in *; lia|exact TK|].
      assert (Hy' : nthN vs i = Some y') by exact N2. assert (y' = y) by congruence. subst y'. rewrite N1. cbn [bind fst]. cbv beta iota.
      destruct (CALLS cs F) as (e1' & A' & GET & _). rewrite A in A'. injection A' as <-. pose proof (range_bounds ptrs _ b r P HR) as RB.
      assert (G : exists z e2, (if b =? 0 then Ok (0, e1) else pef_get pd f e1 b) = Ok (z, e2) /\ y = x + z /\ exists cs, pef_after pd f e cs = Ok e2 /\ Forall (call_ok ids ptrs 2) cs).
      { destruct (N.eqb_spec b 0) as [Eb|Nb]; [exists 0, e1; split; [reflexivity|]; split; [lia|exists cs; auto]|]. destruct HZ as (z & Hz & E). destruct (GET b z Hz) as (e2 & E2). exists z, e2. split; [exact E2|]. split; [exact E|].
        exists (cs ++ [Get b]). split; [exact (pef_after_get _ _ _ _ _ _ _ _ A E2)|]. apply Forall_app. split; [exact F|]. repeat constructor. cbn. lia. }
      destruct G as (z & e2 & Ez & E & CS). rewrite Ez. cbn [bind]. cbv beta iota. rewrite (proj2 (rd_nthN _ _ _) Hx). cbn [bind].
      pose proof (Forall_nthN _ _ _ _ V56 Hy) as Y56. cbv beta in Y56. rewrite sub64_small by lia. replace (y - z) with x by lia. rewrite check_same. cbn [bind].
      exists (it1, e2, j'). split; [reflexivity|]. split; [|split; [exact CS|exact AR']]. replace (N.to_nat (i + 1)) with (S (N.to_nat i)) by lia. exact N3.
    - exists e2, cs. rewrite ES. cbn [bind]. split; [reflexivity|]. split; assumption. }
  destruct IT as (e1 & cs & IT & A & F). rewrite IT. cbn [bind]. unfold pef_finds. match goal with |- bind (foldM ?body _ _) _ = _ =>
    destruct (foldM_range_inv (fun i (s : pen * N) => (exists cs, pef_after pd f e cs = Ok (fst s) /\ Forall (call_ok ids ptrs 2) cs) /\ at_range ptrs (snd s) i) body n (e1, 0)) as (s & ES & _) end.
  - split; [exists cs; auto|apply (at_range_0 ptrs _ P)].
  - clear cs A F. intros i (e2 & j) Hi ((cs & A & F) & AR). cbn [fst snd] in A, AR. rewrite LN in P. destruct (range_at_ok ptrs n j i P NER Hi AR) as (j' & b & r & E1 & HR & HB & AR').
    rewrite E1. cbn [bind fst snd]. cbv beta iota. destruct (CALLS cs F) as (e2' & A' & _ & FIND). rewrite A in A'. injection A' as <-. pose proof (range_bounds ptrs _ b r P HR) as RB.
    destruct (nthN_Some ids i ltac:(lia)) as (x & Hx). rewrite (proj2 (rd_nthN _ _ _) Hx). cbn [bind]. cbn [fst snd].
    destruct (FIND b r i x HR HB Hx) as (e3 & E3); [right; left; change (piece 2) with 64; lia|]. rewrite E3. cbn [bind]. cbv beta iota. rewrite check_same. cbn [bind].
    exists (e3, j'). split; [reflexivity|]. cbn [fst snd]. split; [|exact AR']. exists (cs ++ [Find b r x]). split; [exact (pef_after_find _ _ _ _ _ _ _ _ _ _ A E3)|].
    apply Forall_app. split; [exact F|]. constructor; [|constructor]. cbn [call_ok]. split; [exact HR|].
    assert (X56 : x < 2 ^ 56) by (pose proof (proj2 VO b r i x HR HB Hx) as Y; pose proof (Forall_nthN _ _ _ _ V56 Y); cbv beta in *; lia).
    split; [change (2 ^ 63) with (2 ^ 56 * 128); lia|]. unfold searchable. destruct (N.lt_ge_cases r (lenN ids)) as [Lr|Lr]; [left; exact Lr|right; right].
    destruct (nthN_Some ids (lenN ids - 1) ltac:(lia)) as (z & Hz). exists z. split; [exact Hz|].
    destruct (N.eq_dec i (lenN ids - 1)) as [->|NI]; [rewrite Hx in Hz; injection Hz as <-; lia|].
    pose proof (unique_in_range ids ptrs b r INC HR ltac:(lia) (N.to_nat (lenN ids - 1 - i)) i (lenN ids - 1) x z ltac:(lia) ltac:(lia) ltac:(lia) ltac:(lia) Hx Hz). lia.
  - rewrite ES. reflexivity.
Qed.
Theorem test_uniform_pef_ok x0 x1 y0 y1 n mx draw rdraw vdraw : x0 < 2 ^ 64 -> x1 < 2 ^ 64 -> y0 < 2 ^ 64 -> y1 < 2 ^ 64 -> 64 < n < 2 ^ 40 -> 0 < mx -> n + mx < 2 ^ 64 ->
  (forall k, draw k <= 100) -> (forall k, 1 <= rdraw k <= mx) -> (forall k, 1 <= vdraw k <= 50) ->
  test_uniform_pef (mkpads [x0] [x1]) (mkpads [y0] [y1]) n mx draw rdraw vdraw = Ok 0.
Proof.
  intros Hx0 Hx1 Hy0 Hy1 Hn Hm Hmx D1 D2 D3. unfold test_uniform_pef. destruct (N.eqb_spec n 0) as [X|_]; [lia|]. destruct (N.eqb_spec mx 0) as [X|_]; [lia|]. cbn [orb].
  rewrite (pef_part1_ok x0 x1 n draw) by assumption. cbn [bind]. rewrite (pef_part2_ok y0 y1 n mx) by assumption. reflexivity.
Qed.
