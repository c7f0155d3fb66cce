(** * Properties C05, C06: key/payload slots and triplets *)
From Verif Require Import Prelude BitFacts M_Word P_Word M_Bits Spec P_Bits P_Builder P_BitProg M_HashVec P_HashVec P_HashVec2.

(** ** C05 *)
(** hash_bits = 64 with any payload width 1..64, or hash_bits = 32 with payload width 1..32 or 64:
    after any history of set() calls every slot gives back the pair written last. *)
Theorem C05_set_history : forall (hb n w : N) (ops : list (N * (N * N))),
  (hb = 64 /\ 1 <= w <= 64) \/ (hb = 32 /\ (1 <= w <= 32 \/ w = 64)) ->
  n * (hb + w) <= 2 ^ hb -> n * (hb + w) < 2 ^ 64 ->
  Forall (fun o => fst o < n /\ fst (snd o) < 2 ^ hb /\ snd (snd o) < 2 ^ w) ops ->
  exists c, (c0 <- hcv_new hb n w ;; foldM (fun c o => hcv_set hb c (fst o) (fst (snd o)) (snd (snd o))) ops c0) = Ok c /\
    forall j, j < n -> hcv_get hb c j = Ok (last_set ops j (0, 0)).
Proof.
  intros hb n w ops HB H1 H2 HF. destruct (hrep_new hb n w HB H1 H2) as (c0 & E & R). rewrite E. cbn [bind].
  assert (G : forall ops c f, hrep hb c n w f -> Forall (fun o => fst o < n /\ fst (snd o) < 2 ^ hb /\ snd (snd o) < 2 ^ w) ops ->
    exists c', foldM (fun c o => hcv_set hb c (fst o) (fst (snd o)) (snd (snd o))) ops c = Ok c' /\
      forall j, j < n -> hcv_get hb c' j = Ok (last_set ops j (f j))).
  { clear. induction ops as [|[i [k v]] ops IH]; intros c f R HF.
    - exists c. split; [reflexivity|]. intros j Hj. cbn. apply (hcv_get_ok hb c n w f); assumption.
    - inversion HF as [|? ? [A1 [A2 A3]] HF']; subst. cbn [fst snd] in *.
      destruct (hcv_set_ok hb c n w f i k v R A1 A2 A3) as (c1 & E1 & R1). cbn [foldM fst snd]. rewrite E1. cbn [bind].
      destruct (IH c1 _ R1 HF') as (c2 & E2 & T). exists c2. split; [exact E2|]. intros j Hj. rewrite T by assumption.
      cbn [last_set fold_left fst snd]. unfold last_set. cbn [fold_left fst snd]. rewrite (N.eqb_sym j i). reflexivity. }
  destruct (G ops c0 _ R HF) as (c & Ec & T). exists c. split; [exact Ec|]. exact T.
Qed.
Example C05_example :
  (c <- hcv_new 64 3 37 ;; c <- hcv_set 64 c 2 (2 ^ 64 - 1) 77 ;; c <- hcv_set 64 c 0 5 (2 ^ 37 - 1) ;;
   c <- hcv_set 64 c 1 0xDEADBEEF 123456 ;; c <- hcv_set 64 c 0 6 1 ;; mapM (hcv_get 64 c) [0; 1; 2]) =
  Ok [(6, 1); (0xDEADBEEF, 123456); (2 ^ 64 - 1, 77)].
Proof. vm_compute. reflexivity. Qed.
Example C05_example32 :
  (c <- hcv_new 32 3 29 ;; c <- hcv_set 32 c 2 (2 ^ 32 - 1) 77 ;; c <- hcv_set 32 c 0 5 (2 ^ 29 - 1) ;;
   c <- hcv_set 32 c 1 0xDEADBEEF 123456 ;; mapM (hcv_get 32 c) [0; 1; 2]) =
  Ok [(5, 2 ^ 29 - 1); (0xDEADBEEF, 123456); (2 ^ 32 - 1, 77)].
Proof. vm_compute. reflexivity. Qed.

(** set in increasing order, each slot once: every width *)
Theorem C05_in_order : forall (hb n w : N) (f : N -> N * N),
  hb = 32 \/ hb = 64 -> 1 <= w <= 64 -> n * (hb + w) <= 2 ^ hb -> n * (hb + w) < 2 ^ 64 ->
  (forall i, i < n -> fst (f i) < 2 ^ hb /\ snd (f i) < 2 ^ w) ->
  exists c, (c0 <- hcv_new hb n w ;; foldM (fun c i => hcv_set hb c i (fst (f i)) (snd (f i))) (range n) c0) = Ok c /\
    forall i, i < n -> hcv_get hb c i = Ok (f i).
Proof. exact hcv_in_order. Qed.
Example C05_in_order_example :
  (c <- hcv_new 32 3 45 ;; c <- hcv_set 32 c 0 0xABCDEF (2 ^ 45 - 1) ;; c <- hcv_set 32 c 1 (2 ^ 32 - 1) 12345678901234 ;; c <- hcv_set 32 c 2 7 8 ;;
   mapM (hcv_get 32 c) [0; 1; 2]) = Ok [(0xABCDEF, 2 ^ 45 - 1); (2 ^ 32 - 1, 12345678901234); (7, 8)].
Proof. vm_compute. reflexivity. Qed.
(** With 32-bit keys and payload width 33 writing slot 0 destroys the key of slot 1. *)
Theorem C05_width33_refuted :
  exists c c', (c0 <- hcv_new 32 3 33 ;; c0 <- hcv_set 32 c0 1 0xABCDEF 7 ;; Ok c0) = Ok c /\
    hcv_get 32 c 1 = Ok (0xABCDEF, 7) /\ hcv_set 32 c 0 1 1 = Ok c' /\ hcv_get 32 c' 1 <> Ok (0xABCDEF, 7).
Proof.
  eexists. eexists. split; [vm_compute; reflexivity|]. split; [vm_compute; reflexivity|].
  split; [vm_compute; reflexivity|]. vm_compute. discriminate.
Qed.

(** ** C06 *)
Theorem C06_set_history : forall (n w1 w2 w3 : N) (ops : list (N * (N * N * N))),
  1 <= w1 <= 64 -> 1 <= w2 <= 64 -> 1 <= w3 <= 64 -> n * (w1 + w2 + w3) + 64 < 2 ^ 64 ->
  Forall (fun o => fst o < n /\ (let '(x, y, z) := snd o in x < 2 ^ w1 /\ y < 2 ^ w2 /\ z < 2 ^ w3)) ops ->
  exists b, (b0 <- ctb_new n w1 w2 w3 ;; foldM (fun b o => ctb_set b (fst o) (snd o)) ops b0) = Ok b /\
    forall j, j < n -> ct_get (ctb_build b) j = Ok (last_set ops j (0, 0, 0)).
Proof.
  intros n w1 w2 w3 ops H1 H2 H3 HN HF. destruct (ctb_new_ok n w1 w2 w3 H1 H2 H3 HN) as (b0 & E & R). rewrite E. cbn [bind].
  assert (G : forall ops b f, ctb_rep b n w1 w2 w3 f ->
    Forall (fun o : N * (N * N * N) => fst o < n /\ (let '(x, y, z) := snd o in x < 2 ^ w1 /\ y < 2 ^ w2 /\ z < 2 ^ w3)) ops ->
    exists b', foldM (fun b o => ctb_set b (fst o) (snd o)) ops b = Ok b' /\
      forall j, j < n -> ct_get (ctb_build b') j = Ok (last_set ops j (f j))).
  { clear. induction ops as [|[i [[x y] z]] ops IH]; intros b f R HF.
    - exists b. split; [reflexivity|]. intros j Hj. cbn. apply (ct_get_ok b n w1 w2 w3 f); assumption.
    - inversion HF as [|? ? [A1 A2] HF']; subst. cbn [fst snd] in *. destruct A2 as (A2 & A3 & A4).
      destruct (ctb_set_ok b n w1 w2 w3 f i x y z R A1 A2 A3 A4) as (b1 & E1 & R1). cbn [foldM fst snd]. rewrite E1. cbn [bind].
      destruct (IH b1 _ R1 HF') as (b2 & E2 & T). exists b2. split; [exact E2|]. intros j Hj. rewrite T by assumption.
      unfold last_set. cbn [fold_left fst snd]. rewrite (N.eqb_sym j i). reflexivity. }
  destruct (G ops b0 _ R HF) as (b & Eb & T). exists b. split; [exact Eb|]. exact T.
Qed.
Example C06_example :
  (b <- ctb_new 3 64 7 33 ;; b <- ctb_set b 2 (2 ^ 64 - 1, 127, 2 ^ 33 - 1) ;; b <- ctb_set b 0 (5, 6, 7) ;;
   b <- ctb_set b 1 (1, 2, 3) ;; b <- ctb_set b 0 (8, 9, 10) ;; mapM (ct_get (ctb_build b)) [0; 1; 2]) =
  Ok [(8, 9, 10); (1, 2, 3); (2 ^ 64 - 1, 127, 2 ^ 33 - 1)].
Proof. vm_compute. reflexivity. Qed.

Print Assumptions C05_set_history.
Print Assumptions C05_in_order.
Print Assumptions C05_width33_refuted.
Print Assumptions C06_set_history.
