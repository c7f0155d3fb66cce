(** * C51: the Elias-Fano encoding written inside a bit vector (compact_elias_fano) *)
From Verif Require Import Prelude BitFacts M_Word P_Word M_Bits Spec P_Bits P_Builder P_Cursor P_BitProg P_EF P_HashVec P_CompactVector
  M_CompactVector M_Codes Spec_Codes P_Codes M_FastEF M_Pef M_CEF Spec_CEF P_Pef1 P_CEF1 P_CEF2 P_CEF3.

(** Some bits are written ([pre]), then the encoding of [vs] with universe [u], then some more bits ([post]).
    The result: where the encoding starts, where it ends, and the whole buffer. *)
Definition encode_between (pre : bprog) (vs : list N) (u : N) (post : bprog) : res (N * N * bvb) :=
  b <- brun pre ;; b1 <- cef_write b vs u ;; c <- brun post ;; b2 <- bvb_append b1 c ;; Ok (b_size b, b_size b1, b2).

Definition encodable (vs : list N) (u : N) : Prop := 0 < lenN vs < 2 ^ 40 /\ u < 2 ^ 57 /\ Forall (fun x => x < u) vs /\ sortedN vs.

Lemma encode_ok pre post vs u : bwf pre -> bwf post -> encodable vs u -> lenN (bden pre) < 2 ^ 61 -> lenN (bden post) < 2 ^ 60 ->
  exists b, encode_between pre vs u post = Ok (lenN (bden pre), lenN (bden pre) + lenN (gcode u vs), b) /\
    vrepl (bv_build b) (bden pre ++ gcode u vs ++ bden post) /\ lenN (bden pre ++ gcode u vs ++ bden post) < 2 ^ 62.
Proof.
  intros W1 W2 (Hn & Hu & F & S) L1 L2. unfold encode_between.
  destruct (brun_ok pre W1) as (b & E1 & R1 & _). destruct (brun_ok post W2) as (c & Ec & Rc & _). rewrite E1. cbn [bind].
  destruct (gwrite_ok b (bden pre) vs u R1 Hn Hu L1 F S) as (b1 & E2 & R2). rewrite E2. cbn [bind]. rewrite Ec. cbn [bind].
  pose proof (gcode_small u vs Hn Hu) as GS. change (2 ^ 55) with 36028797018963968 in GS. change (2 ^ 61) with 2305843009213693952 in L1. change (2 ^ 60) with 1152921504606846976 in L2.
  destruct (append_repl2 b1 _ c _ R2 Rc) as (b2 & E & R); [rewrite lenN_app; change (2 ^ 64) with 18446744073709551616; lia|]. rewrite E. cbn [bind]. exists b2.
  split.
  - destruct R1 as (_ & _ & _ & _ & S1 & _). destruct R2 as (_ & _ & _ & _ & S2 & _). rewrite S1, S2, lenN_app. reflexivity.
  - rewrite <- app_assoc in R. split; [exact (brep_build _ _ _ R)|]. rewrite !lenN_app. change (2 ^ 62) with 4611686018427387904. lia.
Qed.

(** Writing any non-empty sorted list of values below the universe succeeds, and any history of calls on an enumerator over it
    (move, next_geq, next, prev_value, in any order, forwards and backwards) gives the answers of a search in the list itself,
    whatever bits precede and follow the encoding and whatever word follows the buffer in memory. *)
Theorem C51_history : forall pre post vs u pad os,
  bwf pre -> bwf post -> lenN (bden pre) < 2 ^ 61 -> lenN (bden post) < 2 ^ 60 -> encodable vs u -> pad < 2 ^ 64 ->
  calls_ok vs u (lenN vs) os ->
  exists start end_ b c, encode_between pre vs u post = Ok (start, end_, b) /\ cen_new start u (lenN vs) = Ok c /\
    cen_calls (bv_build b) [pad] c os = Ok (answers vs u (lenN vs) os).
Proof.
  intros pre post vs u pad os W1 W2 L1 L2 EN HP HO. destruct (encode_ok pre post vs u W1 W2 EN L1 L2) as (b & E & R & T). destruct EN as (Hn & Hu & F & S).
  eexists. eexists. exists b. eexists. split; [exact E|]. assert (EC : cen_new (lenN (bden pre)) u (lenN vs) = Ok (mkcen (gof (lenN (bden pre)) u (lenN vs)) (lenN vs) u None)).
  { unfold cen_new. rewrite gof_new_ok by (lia || assumption). reflexivity. }
  split; [exact EC|]. apply (calls_run (bv_build b) (bden pre) (bden post) u vs pad R Hn Hu S F HP T os _ HO EC).
Qed.

(** the encoding leaves what was written before and after as it was, and takes exactly bitsize(u, n) bits *)
Theorem C51_size_and_frame : forall pre post vs u,
  bwf pre -> bwf post -> lenN (bden pre) < 2 ^ 61 -> lenN (bden post) < 2 ^ 60 -> encodable vs u ->
  exists s b, cef_bitsize u (lenN vs) = Ok s /\ encode_between pre vs u post = Ok (lenN (bden pre), lenN (bden pre) + s, b) /\
    v_size (bv_build b) = lenN (bden pre) + s + lenN (bden post) /\
    (forall i, i < lenN (bden pre) -> bv_get (bv_build b) i = Ok (N.b2n (bit_at (bden pre) i))) /\
    (forall i, i < lenN (bden post) -> bv_get (bv_build b) (lenN (bden pre) + s + i) = Ok (N.b2n (bit_at (bden post) i))).
Proof.
  intros pre post vs u W1 W2 L1 L2 EN. destruct (encode_ok pre post vs u W1 W2 EN L1 L2) as (b & E & R & T). destruct EN as (Hn & Hu & F & S).
  exists (lenN (gcode u vs)), b. split.
  { unfold cef_bitsize. rewrite gof_new_ok by (lia || assumption). cbn [bind gof of_end]. rewrite lenN_gcode. f_equal. lia. }
  split; [exact E|]. pose proof R as V. unfold vrepl in V. split; [|split].
  - destruct V as (_ & _ & _ & _ & V). rewrite V, !lenN_app. lia.
  - intros i Hi. rewrite (bv_get_ok _ _ _ _ V) by (rewrite lenN_app; lia). rewrite tb_num_of, bit_at_app. destruct (N.ltb_spec i (lenN (bden pre))); [reflexivity|lia].
  - intros i Hi. rewrite (bv_get_ok _ _ _ _ V) by (rewrite !lenN_app; lia). rewrite tb_num_of, !bit_at_app.
    destruct (N.ltb_spec (lenN (bden pre) + lenN (gcode u vs) + i) (lenN (bden pre))); [lia|].
    destruct (N.ltb_spec (lenN (bden pre) + lenN (gcode u vs) + i - lenN (bden pre)) (lenN (gcode u vs))); [lia|]. do 3 f_equal. lia.
Qed.

(** how many bits: floor(log2(u/n)) low bits a value, one high bit a value, one a high part up to the universe's, and the pointers,
    one for each 512 zeros and each 256 ones of the high bits *)
Theorem C51_bitsize : forall u n, 0 < n -> u < 2 ^ 57 ->
  let l := if u <? n then 0 else N.log2 (u / n) in
  let high := n + u / 2 ^ l + 2 in
  cef_bitsize u n = Ok (n * l + high + ((high - n) / 512 + n / 256) * N.log2_up high).
Proof.
  intros u n Hn Hu. cbv zeta. unfold cef_bitsize. rewrite gof_new_ok by assumption. cbn [bind gof of_end].
  assert (CL : clb u n = if u <? n then 0 else N.log2 (u / n)).
  { unfold clb, msb. destruct (N.ltb_spec n u) as [L|L].
    - assert (1 <= u / n) by (apply N.div_le_lower_bound; lia). destruct (N.eqb_spec (u / n) 0); [lia|]. destruct (N.ltb_spec u n); [lia|reflexivity].
    - destruct (N.ltb_spec u n) as [L1|L1]; [reflexivity|]. assert (u = n) by lia. subst u. rewrite N.div_same by lia. reflexivity. }
  assert (CE : forall x, 0 < x -> ceil_log2 x = N.log2_up x).
  { intros x Hx. apply N.le_antisymm; [apply ceil_log2_spec; apply N.log2_up_le_pow2; [exact Hx|apply N.le_refl]|apply N.log2_up_le_pow2; [exact Hx|]; apply ceil_log2_spec; apply N.le_refl]. }
  unfold cp0, cp1, cps, chl. rewrite CE by (apply N.add_pos_r; reflexivity). rewrite CL. set (l := if u <? n then 0 else N.log2 (u / n)). set (h := n + u / 2 ^ l + 2). f_equal. generalize (N.log2_up h) ((h - n) / 512) (n / 256). intros. ring.
Qed.

(** a list that is not sorted is refused *)
Theorem C51_unsorted_refused : forall pre vs u b, bwf pre -> brun pre = Ok b -> lenN (bden pre) < 2 ^ 61 -> lenN vs < 2 ^ 40 -> u < 2 ^ 57 ->
  Forall (fun x => x < u) vs -> ~ sortedN vs -> cef_write b vs u = Throw.
Proof.
  intros pre vs u b W E L Hn Hu F NS. destruct (brun_ok pre W) as (b' & E' & R & _). rewrite E in E'. injection E' as <-.
  apply (gwrite_unsorted b (bden pre)); assumption.
Qed.

(** ** instances: 1500 values, so that pointers to ones (from 256 on) and to zeros (from 512 high parts on) are stored and used *)
Definition cx_vs : list N := map (fun i => 5 * i) (range 1500).
Definition cx_u : N := 8000.
Definition cx_pre : bprog := BAppendBits (BNew 61 true) 5 3.
Definition cx_post : bprog := BAppendBits (BNew 5 true) 1 2.
(** backward and forward jumps, short and long, a search for an absent and for a present value, the end, and prev_value everywhere *)
Definition cx_calls : list ecall :=
  [EPrev; EMove 1300; EPrev; EMove 3; EMove 4; ENext; EPrev; EGeq 6001; EPrev; EGeq 6001; EGeq 12; EGeq 15; EMove 700; EGeq 5120; EMove 1499; ENext; EPrev; EGeq 8000; EMove 0; EPrev; EGeq 9000].

Example C51_example_ok : encodable cx_vs cx_u /\ bwf cx_pre /\ bwf cx_post /\ calls_ok cx_vs cx_u 1500 cx_calls.
Proof.
  assert (LV : lenN cx_vs = 1500) by reflexivity.
  split.
  { split; [rewrite LV; split; vm_compute; reflexivity|]. split; [vm_compute; reflexivity|]. split.
    - apply Forall_forall. intros x Hx. unfold cx_vs in Hx. apply in_map_iff in Hx. destruct Hx as (i & <- & Hi). unfold range in Hi. apply In_seqN in Hi. unfold cx_u. rewrite N2Nat.id in Hi. lia.
    - intros i x y Hx Hy. pose proof (nthN_lt _ _ _ Hx) as A1. pose proof (nthN_lt _ _ _ Hy) as A2. rewrite LV in A1, A2. unfold cx_vs in Hx, Hy.
      rewrite nthN_map, nthN_range in Hx, Hy by assumption. cbn [option_map] in Hx, Hy. injection Hx as <-. injection Hy as <-. lia. }
  split; [cbv; repeat split; intros H; discriminate H|]. split; [cbv; repeat split; intros H; discriminate H|].
  unfold cx_calls. cbn [calls_ok call_ok]. rewrite LV.
  repeat (match goal with |- _ /\ _ => split end); try exact I; try (vm_compute; discriminate); try (left; vm_compute; reflexivity); try (right; vm_compute; discriminate); vm_compute; reflexivity.
Qed.
Example C51_example :
  (' (start, end_, b) <- encode_between cx_pre cx_vs cx_u cx_post ;; s <- cef_bitsize cx_u 1500 ;;
   c <- cen_new start cx_u 1500 ;; a <- cen_calls (bv_build b) [77] c cx_calls ;; Ok (start, end_ - start - s, of_p0 (ce_of c), of_p1 (ce_of c), a)) =
  Ok (64, 0, 3, 5,
      [(1500, 7495); (1300, 6500); (1300, 6495); (3, 15); (4, 20); (5, 25); (5, 20); (1201, 6005); (1201, 6000); (1201, 6005); (3, 15); (3, 15);
       (700, 3500); (1024, 5120); (1499, 7495); (1500, 8000); (1500, 7495); (1500, 8000); (0, 0); (0, 0); (1500, 8000)]).
Proof. vm_compute. reflexivity. Qed.

(** The side condition on next_geq is needed: with the enumerator at the end, a search past the universe reports a position
    after the end, and on an enumerator that was never moved it uses a cursor that was never initialised. *)
Theorem C51_past_the_end_refuted :
  exists b c, encode_between (BNew 0 false) [1; 2; 3] 4 (BNew 0 false) = Ok (0, 9, b) /\ cen_new 0 4 3 = Ok c /\
    cen_calls (bv_build b) [0] c [EMove 0; EMove 3; EGeq 5] = Ok [(0, 1); (3, 4); (4, 4)] /\
    cen_calls (bv_build b) [0] c [EGeq 5] = UB.
Proof. eexists. eexists. split; [vm_compute; reflexivity|]. split; [vm_compute; reflexivity|]. split; vm_compute; reflexivity. Qed.

Print Assumptions C51_history.
Print Assumptions C51_size_and_frame.
Print Assumptions C51_bitsize.
Print Assumptions C51_unsorted_refused.
Print Assumptions C51_past_the_end_refuted.
