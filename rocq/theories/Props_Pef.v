(** * C16: uniform_pef_sequence
    [pef_build ids ptrs order] is build(); [pef_init] sets up the enumerator that
    operator[] and find() share (it is mutable, so answers could depend on the
    history of calls); [x0], [x1] are the words that follow the two arrays in memory
    (they are loaded, whatever they contain: see the refutation at the end). *)
From Verif Require Import Prelude BitFacts M_Word M_Bits Spec P_EF M_CompactVector M_FastEF P_FastEF P_FastEF3 M_Pef P_Pef3 P_Pef4 P_Pef5 Spec_Pef.

(** After any history of calls, operator[] returns the stored values and find
    returns the position of an id that is in the range.  _partial: see the
    refutations for what is excluded (absent ids, short sequences whose values are
    all equal or spread over 2^31, positions looked up before a search in the
    first range of a short sequence). *)
Theorem C16_get_and_find_partial : forall (ids ptrs vs : list N) (order x0 x1 : N),
  pointers_for ptrs (lenN ids) -> increasing_in_ranges ids ptrs -> stored_values vs ids ptrs ->
  0 < lenN ids < 2 ^ 40 -> Forall (fun x => x < 2 ^ 56) vs -> short_ok vs order -> x0 < 2 ^ 64 -> x1 < 2 ^ 64 ->
  exists f e, pef_build ids ptrs order = Ok f /\ pf_size f = lenN ids /\ pef_init (mkpads [x0] [x1]) f = Ok e /\
    forall cs, Forall (call_ok ids ptrs order) cs ->
    exists e', pef_after (mkpads [x0] [x1]) f e cs = Ok e' /\
      (forall p v, nthN vs p = Some v -> exists e'', pef_get (mkpads [x0] [x1]) f e' p = Ok (v, e'')) /\
      (forall b r k id, is_range ptrs b r -> b <= k < r -> nthN ids k = Some id ->
         0 < b \/ piece order < lenN ids \/ existsb is_get cs = false ->
         exists e'', pef_find (mkpads [x0] [x1]) f e' b r id = Ok (k, e'')).
Proof.
  intros ids ptrs vs order x0 x1 P INC VO Hn HF SH Hx0 Hx1.
  destruct (built ids ptrs vs order x0 x1 P INC VO Hn HF SH Hx0 Hx1) as (parts & f & Bo & e & i0 & PA & EB & HP & EI & PS & _ & _ & CL).
  exists f, e. split; [exact EB|]. split; [rewrite (rp_size _ _ _ _ _ _ HP); exact (proj1 VO)|]. split; [exact EI|]. intros cs F.
  assert (G : exists p i, pst vs (lg order) parts f Bo e p i) by (exists 0, i0; exact PS).
  destruct (after_ok ids ptrs vs order x0 x1 P INC VO Hn HF Hx0 Hx1 parts f Bo PA HP cs e G F) as (e' & E' & G' & C').
  exists e'. split; [exact E'|]. split.
  - intros p v Hv. destruct (get_good ids ptrs vs order x0 x1 P INC VO Hn HF Hx0 Hx1 parts f Bo PA HP e' p v G' Hv) as (e'' & E'' & _). exists e''. exact E''.
  - intros b r k id R Hk Hi H.
    assert (CO : call_ok ids ptrs order (Find b r id)).
    { split; [exact R|]. pose proof (proj2 VO b r k id R Hk Hi) as HV. pose proof (Forall_nthN _ _ _ _ HF HV) as HB. cbv beta in HB.
      split; [change (2 ^ 63) with (2 ^ 56 * 128); lia|]. pose proof (range_bounds ptrs _ b r P R) as RB. unfold searchable.
      destruct (N.lt_ge_cases r (lenN ids)) as [L|L]; [left; exact L|right; right]. destruct (nthN_Some ids (lenN ids - 1) ltac:(lia)) as (x & Hx). exists x. split; [exact Hx|].
      assert (SN : forall d, (d < N.to_nat (lenN ids - k))%nat -> exists y, nthN ids (k + N.of_nat d) = Some y /\ id <= y).
      { induction d as [|d IH]; intros Hd.
        - exists id. split; [rewrite N.add_0_r; exact Hi|lia].
        - destruct IH as (y & Hy & Ly); [lia|]. destruct (nthN_Some ids (k + N.of_nat (S d)) ltac:(lia)) as (z & Hz). exists z. split; [exact Hz|].
          assert (y < z); [|lia]. apply (INC b r (k + N.of_nat d) y z R); [lia|lia|exact Hy|]. replace (k + N.of_nat d + 1) with (k + N.of_nat (S d)) by lia. exact Hz. }
      destruct (SN (N.to_nat (lenN ids - 1 - k)) ltac:(lia)) as (y & Hy & Ly). replace (k + N.of_nat (N.to_nat (lenN ids - 1 - k))) with (lenN ids - 1) in Hy by lia. congruence. }
    destruct (find_good ids ptrs vs order x0 x1 P INC VO Hn HF Hx0 Hx1 parts f Bo PA HP e' b r id G' CO) as (res & e'' & E'' & _ & _ & _ & _ & CMP).
    rewrite (CMP k Hk Hi) in E''; [exists e''; exact E''|]. destruct H as [H|[H|H]]; [left; exact H|right; left; exact H|right; right; apply C'; assumption].
Qed.

(** Search for an id that may be absent: the answer is not_found or a position whose
    value is the one searched; so a position inside the range does hold the id,
    an id whose value occurs nowhere is not found, and an empty range holds nothing.
    _partial: the position may lie after the range (refuted below), and id 0 is excluded (refuted below). *)
Theorem C16_find_absent_partial : forall (ids ptrs vs : list N) (order x0 x1 : N),
  pointers_for ptrs (lenN ids) -> increasing_in_ranges ids ptrs -> stored_values vs ids ptrs ->
  0 < lenN ids < 2 ^ 40 -> Forall (fun x => x < 2 ^ 56) vs -> short_ok vs order -> x0 < 2 ^ 64 -> x1 < 2 ^ 64 ->
  exists f e, pef_build ids ptrs order = Ok f /\ pef_init (mkpads [x0] [x1]) f = Ok e /\
    forall cs, Forall (call_ok ids ptrs order) cs ->
    exists e', pef_after (mkpads [x0] [x1]) f e cs = Ok e' /\
      forall b r id, is_range ptrs b r -> id < 2 ^ 63 -> searchable ids order r id ->
      exists res e'', pef_find (mkpads [x0] [x1]) f e' b r id = Ok (res, e'') /\
        (b = r -> res = not_found) /\
        (id <> 0 -> (b <= res < r -> nthN ids res = Some id) /\
                    (~ In (id + before vs b) vs -> res = not_found) /\
                    (res = not_found \/ nthN vs res = Some (id + before vs b))).
Proof.
  intros ids ptrs vs order x0 x1 P INC VO Hn HF SH Hx0 Hx1.
  destruct (built ids ptrs vs order x0 x1 P INC VO Hn HF SH Hx0 Hx1) as (parts & f & Bo & e & i0 & PA & EB & HP & EI & PS & _ & _ & CL).
  exists f, e. split; [exact EB|]. split; [exact EI|]. intros cs F.
  assert (G : exists p i, pst vs (lg order) parts f Bo e p i) by (exists 0, i0; exact PS).
  destruct (after_ok ids ptrs vs order x0 x1 P INC VO Hn HF Hx0 Hx1 parts f Bo PA HP cs e G F) as (e' & E' & G' & C').
  exists e'. split; [exact E'|]. intros b r id R Hid SE.
  destruct (find_good ids ptrs vs order x0 x1 P INC VO Hn HF Hx0 Hx1 parts f Bo PA HP e' b r id G' (conj R (conj Hid SE))) as (res & e'' & E'' & _ & _ & EMP & SND & _).
  exists res, e''. split; [exact E''|]. split; [exact EMP|]. intros NZ. specialize (SND NZ). split; [|split; [|exact SND]].
  - intros Hr. pose proof (range_bounds ptrs _ b r P R) as RB. destruct (nthN_Some ids res ltac:(lia)) as (x & Hx). pose proof (proj2 VO b r res x R Hr Hx) as HV.
    destruct SND as [->|SND]; [exfalso; unfold not_found in Hr; lia|]. rewrite Hx. f_equal. rewrite HV in SND. injection SND as SND. lia.
  - intros NI. destruct SND as [->|SND]; [reflexivity|]. exfalso. apply NI. exact (nthN_In _ _ _ SND).
Qed.

(** next() from begin() enumerates the stored values; one more call returns the universe *)
Theorem C16_enumeration : forall (ids ptrs vs : list N) (order x0 x1 : N),
  pointers_for ptrs (lenN ids) -> increasing_in_ranges ids ptrs -> stored_values vs ids ptrs ->
  0 < lenN ids < 2 ^ 40 -> Forall (fun x => x < 2 ^ 56) vs -> short_ok vs order -> x0 < 2 ^ 64 -> x1 < 2 ^ 64 ->
  exists f e e' e'', pef_build ids ptrs order = Ok f /\ pef_init (mkpads [x0] [x1]) f = Ok e /\
    pef_take (mkpads [x0] [x1]) f e (length vs) = Ok (vs, e') /\ pef_next (mkpads [x0] [x1]) f e' = Ok (last vs 0, e'').
Proof.
  intros ids ptrs vs order x0 x1 P INC VO Hn HF SH Hx0 Hx1.
  destruct (built ids ptrs vs order x0 x1 P INC VO Hn HF SH Hx0 Hx1) as (parts & f & Bo & e & i0 & PA & EB & HP & EI & PS & EP & EF & CL).
  destruct (take_ok vs (lg order) parts f _ x0 x1 Bo e i0 (lg_ok order) (vn ids ptrs vs VO Hn) (vsorted ids ptrs vs P INC VO) HF PA Hx0 Hx1 HP PS EF EP) as (e' & e'' & T1 & T2).
  exists f, e, e', e''. split; [exact EB|]. split; [exact EI|]. split; [exact T1|]. unfold pd in T2. rewrite T2. do 2 f_equal.
  pose proof (vn ids ptrs vs VO Hn) as V. pose proof (last_nthN vs 0 ltac:(lia)) as L. unfold va. rewrite L. reflexivity.
Qed.

(** build(begin, n, universe): any non-decreasing sequence with a universe at least the last value *)
Theorem C16_universe_get : forall (vals : list N) (U order x0 x1 : N),
  (forall i x y, nthN vals i = Some x -> nthN vals (i + 1) = Some y -> x <= y) ->
  0 < lenN vals < 2 ^ 40 -> Forall (fun x => x < 2 ^ 56) vals -> last vals 0 <= U < 2 ^ 57 ->
  (lenN vals <= piece order -> (lenN vals = 1 \/ hd 0 vals < last vals 0 \/ U = last vals 0 + 1) /\ last vals 0 < hd 0 vals + (2 ^ 31 - 1)) ->
  x0 < 2 ^ 64 -> x1 < 2 ^ 64 ->
  exists f e, pef_build_u vals U order = Ok f /\ pef_init (mkpads [x0] [x1]) f = Ok e /\
    (forall ps, Forall (fun p => p < lenN vals) ps ->
       exists e', pef_after (mkpads [x0] [x1]) f e (map Get ps) = Ok e' /\
         forall p v, nthN vals p = Some v -> exists e'', pef_get (mkpads [x0] [x1]) f e' p = Ok (v, e'')) /\
    (exists e' e'', pef_take (mkpads [x0] [x1]) f e (length vals) = Ok (vals, e') /\ pef_next (mkpads [x0] [x1]) f e' = Ok (U, e'')).
Proof.
  intros vals U order x0 x1 HS Hn HF HU SH Hx0 Hx1.
  assert (VL : va vals (lenN vals - 1) = last vals 0) by (unfold va; rewrite (last_nthN vals 0) by lia; reflexivity).
  assert (VH : va vals 0 = hd 0 vals) by (destruct vals; reflexivity).
  destruct (write_ok vals U order x0 x1 Hn HS HF Hx0 Hx1) as (parts & f & Bo & e & i0 & PA & EB & HP & EI & PS & EP & EF & CL).
  { rewrite VL. exact HU. }
  { cbv zeta. rewrite <- piece_log, VL, VH. exact SH. }
  exists f, e. split; [exact EB|]. split; [exact EI|]. set (log := if 2 <? order then 7 else 6) in *. assert (Hlog : log = 6 \/ log = 7) by (unfold log; destruct (2 <? order); auto). split.
  - assert (GG : forall e0 p v, (exists q i, pst vals log parts f Bo e0 q i) -> nthN vals p = Some v ->
       exists e', pef_get (mkpads [x0] [x1]) f e0 p = Ok (v, e') /\ exists q i, pst vals log parts f Bo e' q i).
    { intros e0 p v (q & i & S) Hv. pose proof (nthN_lt _ _ _ Hv) as L. rewrite (va_nth vals) in Hv by exact L. injection Hv as <-.
      destruct (move_ok vals log Hlog Hn HS HF parts PA f _ x0 x1 Bo Hx0 Hx1 HP e0 q i p S L) as (e' & E & S' & _). exists e'. split; [exact E|]. eexists. eexists. exact S'. }
    intros ps F. assert (G : exists e', pef_after (mkpads [x0] [x1]) f e (map Get ps) = Ok e' /\ exists q i, pst vals log parts f Bo e' q i).
    { assert (S0 : exists q i, pst vals log parts f Bo e q i) by (exists 0, i0; exact PS). clear PS EP EF CL EI. revert e S0. induction ps as [|p ps IH]; intros e S0.
      - exists e. split; [reflexivity|exact S0].
      - pose proof (Forall_inv F) as F1. destruct (nthN_Some vals p F1) as (v & Hv). destruct (GG e p v S0 Hv) as (e1 & E1 & S1).
        unfold pef_after in *. cbn [map foldM pef_call]. rewrite E1. cbn [bind]. apply IH; [exact (Forall_inv_tail F)|exact S1]. }
    destruct G as (e' & E' & S'). exists e'. split; [exact E'|]. intros p v Hv. destruct (GG e' p v S' Hv) as (e'' & E'' & _). exists e''. exact E''.
  - destruct (take_ok vals log parts f _ x0 x1 Bo e i0 Hlog Hn HS HF PA Hx0 Hx1 HP PS EF EP) as (e' & e'' & T1 & T2). exists e', e''. split; [exact T1|exact T2].
Qed.

(** ** the hypotheses are met: 200 ids in four ranges (one empty), two pieces *)
Definition ids200 : list N := map (fun i => 3 * i) (range 100) ++ map (fun i => 1 + 7 * i) (range 100).
Definition ptrs200 : list N := [0; 100; 100; 150; 200].
Definition vs200 : list N := Eval vm_compute in match fef_values ids200 ptrs200 with Ok v => v | _ => [] end.
Example C16_ex_run : exists f e e' e'' e3,
  pef_build ids200 ptrs200 3 = Ok f /\ pef_init (mkpads [17] [99]) f = Ok e /\ pef_after (mkpads [17] [99]) f e [Get 5; Find 0 100 12; Get 199; Find 100 150 3] = Ok e' /\
  pef_find (mkpads [17] [99]) f e' 100 150 71 = Ok (110, e'') /\ pef_get (mkpads [17] [99]) f e'' 199 = Ok (1335, e3).
Proof. do 5 eexists. split; [vm_compute; reflexivity|]. split; [vm_compute; reflexivity|]. split; [vm_compute; reflexivity|]. split; [vm_compute; reflexivity|]. vm_compute; reflexivity. Qed.

Lemma forall_range (Q : N -> bool) n : forallb Q (range n) = true -> forall i, i < n -> Q i = true.
Proof. intros H i Hi. rewrite forallb_forall in H. apply H. unfold range. apply In_seqN. lia. Qed.
Lemma ranges200 : forall b e, is_range ptrs200 b e -> (b, e) = (0, 100) \/ (b, e) = (100, 100) \/ (b, e) = (100, 150) \/ (b, e) = (150, 200).
Proof.
  intros b e (j & J1 & J2). pose proof (nthN_lt _ _ _ J2) as L. change (lenN ptrs200) with 5 in L.
  assert (j = 0 \/ j = 1 \/ j = 2 \/ j = 3) as D by lia.
  destruct D as [->|[->|[->| ->]]]; cbn in J1, J2; injection J1 as <-; injection J2 as <-; auto.
Qed.
Example C16_ex_hyps : pointers_for ptrs200 (lenN ids200) /\ increasing_in_ranges ids200 ptrs200 /\ stored_values vs200 ids200 ptrs200 /\
  Forall (fun x => x < 2 ^ 56) vs200 /\ short_ok vs200 3 /\ Forall (call_ok ids200 ptrs200 3) [Get 5; Find 0 100 12; Get 199; Find 100 150 3].
Proof.
  split; [|split; [|split; [|split; [|split]]]].
  - split; [reflexivity|]. split; [vm_compute; discriminate|]. split; [reflexivity|]. intros i x y Hx Hy. pose proof (nthN_lt _ _ _ Hy) as L. change (lenN ptrs200) with 5 in L.
    assert (i = 0 \/ i = 1 \/ i = 2 \/ i = 3) as D by lia. destruct D as [->|[->|[->| ->]]]; cbn in Hx, Hy; injection Hx as <-; injection Hy as <-; lia.
  - intros b e k x y R B1 B2 Hx Hy. apply ranges200 in R.
    assert (C : forallb (fun k => (k =? 99) || (k =? 149) || match nthN ids200 k, nthN ids200 (k + 1) with Some x, Some y => x <? y | _, _ => true end) (range 200) = true) by (vm_compute; reflexivity).
    assert (K : k + 1 < 200 /\ k <> 99 /\ k <> 149) by (destruct R as [R|[R|[R|R]]]; injection R as -> ->; lia).
    pose proof (forall_range _ _ C k ltac:(lia)) as D. cbv beta in D. rewrite Hx, Hy in D. apply orb_true_iff in D. destruct D as [D|D]; [|apply N.ltb_lt; exact D].
    apply orb_true_iff in D. destruct D as [D|D]; apply N.eqb_eq in D; lia.
  - split; [reflexivity|]. intros b e k id R Hk Hi. apply ranges200 in R.
    assert (C : forallb (fun k => let b := if k <? 100 then 0 else if k <? 150 then 100 else 150 in
       match nthN ids200 k, nthN vs200 k with Some id, Some v => v =? id + before vs200 b | _, _ => false end) (range 200) = true) by (vm_compute; reflexivity).
    assert (K : k < 200 /\ b = (if k <? 100 then 0 else if k <? 150 then 100 else 150)).
    { destruct (N.ltb_spec k 100); [|destruct (N.ltb_spec k 150)]; destruct R as [R|[R|[R|R]]]; injection R as -> ->; lia. }
    destruct K as (K1 & K2). pose proof (forall_range _ _ C k K1) as D. cbv beta zeta in D. rewrite <- K2 in D. rewrite Hi in D. destruct (nthN vs200 k) as [v|]; [|discriminate D]. apply N.eqb_eq in D. congruence.
  - apply Forall_forall. intros x Hx. assert (C : forallb (fun x => x <? 2 ^ 56) vs200 = true) by (vm_compute; reflexivity). rewrite forallb_forall in C. apply N.ltb_lt. apply C. exact Hx.
  - intros L. exfalso. assert (lenN vs200 = 200) by reflexivity. change (piece 3) with 128 in L. lia.
  - repeat constructor; try (vm_compute; reflexivity); try (vm_compute; discriminate);
      try (exists 0; split; reflexivity); try (exists 2; split; reflexivity); left; vm_compute; reflexivity.
Qed.

(** ** what does not hold *)
(** id 0 is "found" in every non-empty range, present or not *)
Theorem C16_absent_zero_refuted : exists f e e', pef_build [3; 5; 8] [0; 3] 2 = Ok f /\ pef_init (mkpads [0] [0]) f = Ok e /\
  pef_find (mkpads [0] [0]) f e 0 3 0 = Ok (0, e') /\ ~ search_result [3; 5; 8] 0 3 0 0.
Proof.
  do 3 eexists. split; [vm_compute; reflexivity|]. split; [vm_compute; reflexivity|]. split; [vm_compute; reflexivity|].
  intros [[_ H]|[H _]]; discriminate H.
Qed.
(** the search is not limited to the range: an absent id is reported at a position of the next range *)
Theorem C16_past_range_refuted : exists f e e', pef_build [1; 2; 3; 4] [0; 2; 4] 2 = Ok f /\ pef_init (mkpads [0] [0]) f = Ok e /\
  pef_find (mkpads [0] [0]) f e 0 2 5 = Ok (2, e') /\ ~ search_result [1; 2; 3; 4] 0 2 5 2.
Proof.
  do 3 eexists. split; [vm_compute; reflexivity|]. split; [vm_compute; reflexivity|]. split; [vm_compute; reflexivity|].
  intros [[H _]|[H _]]; [lia|discriminate H].
Qed.
(** a short sequence whose values are all equal loses them: a present id is reported at the end *)
Theorem C16_equal_values_refuted : exists f e e', pef_build [7; 0] [0; 1; 2] 2 = Ok f /\ pef_init (mkpads [0] [0]) f = Ok e /\
  pef_find (mkpads [0] [0]) f e 0 1 7 = Ok (2, e') /\ nthN [7; 0] 0 = Some 7.
Proof. do 3 eexists. split; [vm_compute; reflexivity|]. split; [vm_compute; reflexivity|]. split; [vm_compute; reflexivity|reflexivity]. Qed.
(** a short sequence spread over 2^31 or more: the bound goes through an int *)
Theorem C16_wide_refuted : exists f e e', pef_build [1; 2 ^ 31 + 1] [0; 2] 2 = Ok f /\ pef_init (mkpads [0] [0]) f = Ok e /\
  pef_find (mkpads [0] [0]) f e 0 2 (2 ^ 31 + 1) = Ok (not_found, e') /\ nthN [1; 2 ^ 31 + 1] 1 = Some (2 ^ 31 + 1).
Proof. do 3 eexists. split; [vm_compute; reflexivity|]. split; [vm_compute; reflexivity|]. split; [vm_compute; reflexivity|reflexivity]. Qed.
(** the answer depends on the history: the same search before and after an operator[] *)
Theorem C16_history_refuted : exists f e e1 e2 e3, pef_build [4; 9; 0] [0; 2; 3] 2 = Ok f /\ pef_init (mkpads [0] [0]) f = Ok e /\
  pef_find (mkpads [0] [0]) f e 0 2 9 = Ok (1, e1) /\
  pef_get (mkpads [0] [0]) f e 2 = Ok (9, e2) /\ pef_find (mkpads [0] [0]) f e2 0 2 9 = Ok (2, e3).
Proof. do 5 eexists. split; [vm_compute; reflexivity|]. split; [vm_compute; reflexivity|]. split; [vm_compute; reflexivity|]. split; [vm_compute; reflexivity|]. vm_compute; reflexivity. Qed.
(** a search beyond the last piece runs off the two pieces there are: it reads the upper
    bounds of a piece 3 that does not exist, whatever is in memory there *)
Theorem C16_past_bounds_refuted : exists f e res e', pef_build (map (fun i => i + 1) (range 128)) [0; 128] 2 = Ok f /\ pef_init (mkpads [0] [0]) f = Ok e /\
  pef_find (mkpads [0] [0]) f e 0 128 1000 = Ok (res, e') /\ pf_parts f = 2 /\ en_part e' = 3.
Proof. do 4 eexists. split; [vm_compute; reflexivity|]. split; [vm_compute; reflexivity|]. split; [vm_compute; reflexivity|]. split; [vm_compute; reflexivity|]. vm_compute. reflexivity. Qed.
(** with no word after the upper bounds, even the set-up reads past the end *)
Theorem C16_overread_refuted : exists f, pef_build (map (fun i => i + 1) (range 128)) [0; 128] 2 = Ok f /\ pef_init (mkpads [0] []) f = UB.
Proof. eexists. split; [vm_compute; reflexivity|]. vm_compute; reflexivity. Qed.

Print Assumptions C16_get_and_find_partial.
Print Assumptions C16_find_absent_partial.
Print Assumptions C16_enumeration.
Print Assumptions C16_universe_get.
