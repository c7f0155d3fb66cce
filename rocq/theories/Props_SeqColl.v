(** * Property C17: dictionaries of distinct values *)
From Verif Require Import Prelude BitFacts M_Word M_Bits Spec M_CompactVector P_CompactVector M_Text P_Text2 M_SeqColl P_SeqColl.
From Coq Require Import Permutation Sorting.Sorted.

(** number of occurrences of a value, and the distinct values with their numbers of occurrences:
    [freq v vs] and [with_freq vs] (P_SeqColl) unfold to *)
Lemma freq_is : forall v vs, freq v vs = lenN (filter (N.eqb v) vs).
Proof. reflexivity. Qed.
Lemma with_freq_is : forall vs, with_freq vs = map (fun v => (v, freq v vs)) (nodup N.eq_dec vs).
Proof. reflexivity. Qed.

(** ** C17 *)
(** [vss]: the values of each order; [sorts]: for each order, the distinct values with their
    frequencies, in whatever order the sort by decreasing frequency left them. *)
Theorem C17_rank_access : forall (vss : list (list N)) (sorts : list (list (N * N))),
  Forall (fun vs => vs <> [] /\ lenN vs < 2 ^ 57 /\ Forall (fun v => v < 2 ^ 64 - 1) vs) vss ->
  Forall2 (fun vs s => Permutation s (with_freq vs) /\ StronglySorted (fun x y => snd y <= snd x) s) vss sorts ->
  exists b, sc_add_all scb_empty vss sorts = Ok b /\
    forall o vs, nthN vss o = Some vs ->
      sc_size b o = Ok (lenN (nodup N.eq_dec vs)) /\
      (* each value has a rank below the number of distinct values, and the rank gives the value back *)
      (forall v, In v vs -> exists r, sc_rank b o v = Ok r /\ r < lenN (nodup N.eq_dec vs) /\ sc_access (sb_seqs b) o r = Ok v) /\
      (* every such rank is used *)
      (forall r, r < lenN (nodup N.eq_dec vs) -> exists v, In v vs /\ sc_rank b o v = Ok r) /\
      (* more frequent values have smaller ranks *)
      (forall v u r q, In v vs -> In u vs -> sc_rank b o v = Ok r -> sc_rank b o u = Ok q -> freq u vs < freq v vs -> r < q) /\
      (* a value that was not seen is reported, provided a smaller one was seen *)
      (forall v, ~ In v vs -> (exists u, In u vs /\ u < v) -> sc_rank b o v = Throw).
Proof.
  intros vss sorts HF H2.
  assert (H2' : Forall2 (fun vs s => Permutation s (fold_left eat_value vs [])) vss sorts).
  { clear HF. induction H2 as [|vs s l l' [P _] H2 IH]; constructor; [|exact IH]. eapply Permutation_trans; [exact P|apply eat_with_freq]. }
  destruct (sc_add_all_ok vss sorts scb_empty HF H2') as (ps & cs & E & L1 & L2 & D). exists (mkscb ps cs). split; [exact E|].
  intros o vs Ho. pose proof (nthN_lt _ _ _ Ho) as HoL. rewrite Forall_forall in HF.
  destruct (HF vs (nthN_In _ _ _ Ho)) as (A1 & A2 & A3).
  destruct (nthN_Some ps o ltac:(unfold lenN in *; lia)) as (p & Hp). destruct (nthN_Some cs o ltac:(unfold lenN in *; lia)) as (c & Hc).
  destruct (nthN_Some sorts o) as (s & Hs). { apply Forall2_len in H2. unfold lenN in *. lia. }
  assert (PS : Permutation s (with_freq vs) /\ StronglySorted (fun x y : N * N => snd y <= snd x) s).
  { clear - H2 Ho Hs. unfold nthN in *. revert Ho Hs. generalize (N.to_nat o). induction H2 as [|a b l l' P H2 IH]; intros k Ho Hs; destruct k; cbn in *; try discriminate.
    - injection Ho as <-. injection Hs as <-. exact P.
    - eapply IH; eauto. }
  destruct PS as [P1 P2]. rewrite <- (lenN_with_freq vs s P1). pose proof (D o vs s p c Ho Hs Hp Hc) as DO.
  assert (RK : forall v, In v vs -> exists r, sc_rank (mkscb ps cs) o v = Ok r /\ nthN (map fst s) r = Some v /\ r < lenN s /\ sc_access cs o r = Ok v).
  { intros v Hv. destruct (dict_rank p c vs s v DO A2 Hv) as (r & B1 & B2 & B3 & B4). exists r. split; [|split; [assumption|split; [assumption|]]].
    - unfold sc_rank. cbn [sb_pairs]. rewrite (proj2 (rd_nthN _ _ _) Hp). cbn [bind]. rewrite B1. reflexivity.
    - unfold sc_access. rewrite (proj2 (rd_nthN _ _ _) Hc). cbn [bind]. assumption. }
  destruct DO as (C1 & C2 & C3 & C4 & C5).
  split; [|split; [|split; [|split]]].
  - unfold sc_size. cbn [sb_seqs]. rewrite (proj2 (rd_nthN _ _ _) Hc). cbn [bind]. rewrite (cv_holds_size _ _ C1). f_equal. unfold lenN. rewrite map_length. reflexivity.
  - intros v Hv. destruct (RK v Hv) as (r & B1 & B2 & B3 & B4). exists r. auto.
  - intros r Hr. destruct (nthN_Some (map fst s) r ltac:(unfold lenN in *; rewrite map_length; assumption)) as (v & Hv). exists v.
    assert (HI : In v vs) by (apply C3; eapply nthN_In; eauto). split; [assumption|]. destruct (RK v HI) as (q & B1 & B2 & _). rewrite B1. f_equal.
    (* NoDup: equal values at equal places *)
    unfold nthN in *. assert (N.to_nat q = N.to_nat r); [|lia]. apply (proj1 (NoDup_nth_error (map fst s)) C2); [apply nth_error_Some; congruence|congruence].
  - intros v u r q Hv Hu Er Eq Hlt. destruct (RK v Hv) as (r' & B1 & B2 & _). destruct (RK u Hu) as (q' & B3 & B4 & _).
    rewrite Er in B1. injection B1 as <-. rewrite Eq in B3. injection B3 as <-.
    destruct (N.lt_trichotomy r q) as [H|[->|H]]; [assumption| |]; exfalso.
    + rewrite B2 in B4. injection B4 as ->. lia.
    + assert (W : forall k x, nthN (map fst s) k = Some x -> nthN s k = Some (x, freq x vs)).
      { intros k x Hx. unfold nthN in *. rewrite nth_error_map in Hx. destruct (nth_error s (N.to_nat k)) as [[y f]|] eqn:EE; [|discriminate].
        cbn in Hx. injection Hx as ->. apply nth_error_In in EE. apply (Permutation_in _ P1) in EE. unfold with_freq in EE. apply in_map_iff in EE.
        destruct EE as (z & EQ & _). congruence. }
      pose proof (ss_nthN _ _ P2 q r _ _ H (W _ _ B4) (W _ _ B2)) as K. cbn in K. lia.
  - intros v Hv Hm. unfold sc_rank. cbn [sb_pairs]. rewrite (proj2 (rd_nthN _ _ _) Hp). cbn [bind].
    rewrite (dict_absent p c vs s v); [reflexivity| |assumption|assumption|assumption]. repeat split; try assumption; apply C3.
Qed.
(** below the smallest value rank() reads out of bounds instead of throwing (see C37) *)
Theorem C17_rank_below_minimum_refuted :
  exists b, sc_add_all scb_empty [[7; 5; 7]] [[(7, 2); (5, 1)]] = Ok b /\ sc_rank b 0 3 = UB.
Proof. eexists. split; [vm_compute; reflexivity|]. vm_compute. reflexivity. Qed.
Example C17_example :
  (b <- sc_add_all scb_empty [[7; 5; 7; 9; 7; 9]; [1]] [[(7, 3); (9, 2); (5, 1)]; [(1, 1)]] ;;
   rs <- mapM (sc_rank b 0) [5; 7; 9] ;; vs <- mapM (sc_access (sb_seqs b) 0) rs ;; r <- sc_rank b 1 1 ;; Ok (rs, vs, r)) =
  Ok ([2; 0; 1], [5; 7; 9], 0) /\
  Permutation [(7, 3); (9, 2); (5, 1)] (with_freq [7; 5; 7; 9; 7; 9]).
Proof.
  split; [vm_compute; reflexivity|]. apply NoDup_Permutation.
  - repeat constructor; cbn; intuition discriminate.
  - vm_compute. repeat constructor; cbn; intuition discriminate.
  - intros [v f]. vm_compute. intuition congruence.
Qed.
Print Assumptions C17_rank_access.
