(** * C16, continued: enumerating and reading every uniform_pef sequence

    [C16_enumeration] asks that a sequence of one piece has two different
    values ([short_ok]). Reading the whole sequence in order, or at given
    positions, does not need that: only searching does
    ([C16_equal_values_refuted]). *)
From Verif Require Import Prelude BitFacts M_Word M_Bits Spec M_CompactVector M_FastEF P_EF M_Pef P_Pef3 P_Pef4 P_Pef5 P_Pef6 Spec_Pef P_SavePef1 P_StatsPef1.
From Verif Require P_FastEF3.

(** A sequence of one piece (64 values for bigrams, 128 for longer n-grams) holds values less than
    2^31 - 1 apart *)
Definition narrow (vs : list N) (order : N) : Prop :=
  lenN vs <= piece order -> last vs 0 < hd 0 vs + (2 ^ 31 - 1).

Lemma narrow_span vs order : 0 < lenN vs -> narrow vs order -> span_ok vs order.
Proof.
  intros Hn H L. specialize (H L). pose proof (last_nthN vs 0 Hn) as LA. rewrite (va_nth vs) in LA by lia. injection LA as ->.
  destruct vs as [|v vs]; [change (lenN (@nil N)) with 0 in Hn; lia|]. cbn [hd] in H.
  replace (va (v :: vs) 0) with v by reflexivity. exact H.
Qed.

(** What build(begin, n, pointers, order) stores is read back, in order, by next(). *)
Theorem C16_scan : forall (ids ptrs vs : list N) (order x0 x1 : N),
  pointers_for ptrs (lenN ids) -> increasing_in_ranges ids ptrs -> stored_values vs ids ptrs ->
  0 < lenN ids < 2 ^ 40 -> Forall (fun x => x < 2 ^ 56) vs -> narrow vs order -> x0 < 2 ^ 64 -> x1 < 2 ^ 64 ->
  exists f e e', pef_build ids ptrs order = Ok f /\ pef_init (mkpads [x0] [x1]) f = Ok e /\
    pef_take (mkpads [x0] [x1]) f e (length vs) = Ok (vs, e').
Proof.
  intros ids ptrs vs order x0 x1 P INC VO Hn HF NA Hx0 Hx1. pose proof (vn ids ptrs vs VO Hn) as Vn. pose proof (vsorted ids ptrs vs P INC VO) as HS.
  pose proof (narrow_span vs order ltac:(lia) NA) as SP.
  destruct (build_u_get vs order x0 x1 Vn HS HF SP Hx0 Hx1) as (f & _ & _ & W & _). unfold pef_build_u in W.
  destruct (pef_scan vs order x0 x1 f Vn HS HF SP Hx0 Hx1 W) as (_ & _ & e & at_ & EI & A & NX).
  assert (T : forall l pre e0, vs = pre ++ l -> at_ e0 (lenN pre) -> exists e', pef_take (mkpads [x0] [x1]) f e0 (length l) = Ok (l, e')).
  { clear - NX. induction l as [|y l IH]; intros pre e0 E A; [exists e0; reflexivity|].
    destruct (NX e0 (lenN pre) y A) as (e1 & N1 & A1); [rewrite E; unfold nthN, lenN; rewrite Nat2N.id, nth_error_app2, Nat.sub_diag by lia; reflexivity|].
    destruct (IH (pre ++ [y]) e1) as (e2 & T2); [rewrite <- app_assoc; exact E|rewrite lenN_app, lenN_cons; exact A1|].
    exists e2. cbn [pef_take length]. rewrite N1. cbn [bind]. cbv beta iota. rewrite T2. reflexivity. }
  destruct (T vs [] e eq_refl A) as (e' & T'). exists f, e, e'. split; [|split; [exact EI|exact T']].
  unfold pef_build. rewrite (fef_values_exact ids ptrs vs P); [|lia|exact VO|eapply Forall_impl; [|exact HF]; intros x Hx; cbv beta in Hx; change (2 ^ 64) with (2 ^ 56 * 256); lia].
  cbn [bind]. rewrite sub64_small by lia. rewrite (proj2 (rd_nthN _ _ _) (va_nth vs (lenN vs - 1) ltac:(lia))). cbn [bind]. exact W.
Qed.

(** operator[] returns them too, after any number of other calls of operator[] *)
Theorem C16_read : forall (ids ptrs vs : list N) (order x0 x1 : N),
  pointers_for ptrs (lenN ids) -> increasing_in_ranges ids ptrs -> stored_values vs ids ptrs ->
  0 < lenN ids < 2 ^ 40 -> Forall (fun x => x < 2 ^ 56) vs -> narrow vs order -> x0 < 2 ^ 64 -> x1 < 2 ^ 64 ->
  exists f e, pef_build ids ptrs order = Ok f /\ pef_init (mkpads [x0] [x1]) f = Ok e /\
    forall ps, Forall (fun p => p < lenN vs) ps ->
      exists e', pef_after (mkpads [x0] [x1]) f e (map Get ps) = Ok e' /\
        forall p v, nthN vs p = Some v -> exists e'', pef_get (mkpads [x0] [x1]) f e' p = Ok (v, e'').
Proof.
  intros ids ptrs vs order x0 x1 P INC VO Hn HF NA Hx0 Hx1. pose proof (vn ids ptrs vs VO Hn) as Vn. pose proof (vsorted ids ptrs vs P INC VO) as HS.
  pose proof (narrow_span vs order ltac:(lia) NA) as SP.
  destruct (build_u_get vs order x0 x1 Vn HS HF SP Hx0 Hx1) as (f & e & G & W & _ & EI & G0 & GG). unfold pef_build_u in W.
  exists f, e. split; [|split; [exact EI|]].
  { unfold pef_build. rewrite (fef_values_exact ids ptrs vs P); [|lia|exact VO|eapply Forall_impl; [|exact HF]; intros x Hx; cbv beta in Hx; change (2 ^ 64) with (2 ^ 56 * 256); lia].
    cbn [bind]. rewrite sub64_small by lia. rewrite (proj2 (rd_nthN _ _ _) (va_nth vs (lenN vs - 1) ltac:(lia))). cbn [bind]. exact W. }
  intros ps HP. assert (A : exists e', pef_after (mkpads [x0] [x1]) f e (map Get ps) = Ok e' /\ G e').
  { clear - HP G0 GG. revert e G0 HP. induction ps as [|p ps IH]; intros e G0 HP; [exists e; split; [reflexivity|exact G0]|].
    inversion HP as [|? ? P1 P2]; subst. destruct (GG e p (va vs p) G0 (va_nth vs p P1)) as (e1 & E1 & G1). destruct (IH e1 G1 P2) as (e2 & E2 & G2).
    exists e2. split; [|exact G2]. unfold pef_after in *. cbn [map foldM]. unfold pef_call. rewrite E1. cbn [bind]. cbv beta iota. cbn [bind]. exact E2. }
  destruct A as (e' & EA & GA). exists e'. split; [exact EA|]. intros p v Hv. destruct (GG e' p v GA Hv) as (e'' & E'' & _). exists e''. exact E''.
Qed.

(** the ids 7 and 0 of two bigrams: two equal values, the case that [C16_enumeration] leaves out *)
Example C16_scan_ex_hyps : pointers_for [0; 1; 2] (lenN [7; 0]) /\ increasing_in_ranges [7; 0] [0; 1; 2] /\ stored_values [7; 7] [7; 0] [0; 1; 2] /\ narrow [7; 7] 2 /\ ~ short_ok [7; 7] 2.
Proof.
  assert (R : forall b e, is_range [0; 1; 2] b e -> (b, e) = (0, 1) \/ (b, e) = (1, 2)).
  { intros b e (j & J1 & J2). pose proof (nthN_lt _ _ _ J2) as L. change (lenN [0; 1; 2]) with 3 in L.
    assert (j = 0 \/ j = 1) as D by lia. destruct D as [->| ->]; cbn in J1, J2; injection J1 as <-; injection J2 as <-; auto. }
  split; [|split; [|split; [|split]]].
  - split; [reflexivity|]. split; [vm_compute; discriminate|]. split; [reflexivity|]. intros i x y Hx Hy. pose proof (nthN_lt _ _ _ Hy) as L. change (lenN [0; 1; 2]) with 3 in L.
    assert (i = 0 \/ i = 1) as D by lia. destruct D as [->| ->]; cbn in Hx, Hy; injection Hx as <-; injection Hy as <-; lia.
  - intros b e k x y H B1 B2 _ _. apply R in H. destruct H as [H|H]; injection H as -> ->; lia.
  - split; [reflexivity|]. intros b e k id H Hk Hi. apply R in H. destruct H as [H|H]; injection H as -> ->; [assert (k = 0) by lia|assert (k = 1) by lia]; subst k; cbn in Hi; injection Hi as <-; reflexivity.
  - intros _. cbn [last hd]. lia.
  - intros H. destruct (H ltac:(vm_compute; discriminate)) as (x & y & A & B & [C|C] & _); [discriminate C|]. cbn in A, B. injection A as <-. injection B as <-. lia.
Qed.
Print Assumptions C16_scan.
Print Assumptions C16_read.
