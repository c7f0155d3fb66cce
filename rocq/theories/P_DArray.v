(** * Proofs about darray *)
From Verif Require Import Prelude BitFacts M_Word P_Word M_Bits Spec P_Bits P_Builder P_Cursor M_DArray.

Lemma foldM_app {A S} (f : S -> A -> res S) l l' s :
  foldM f (l ++ l') s = (s' <- foldM f l s ;; foldM f l' s').
Proof.
  revert s. induction l as [|a l IH]; intros s; [reflexivity|]. cbn [foldM app].
  destruct (f s a); cbn [bind]; auto.
Qed.
Lemma mapM_ok {A B} (f : A -> res B) g l : (forall a, In a l -> f a = Ok (g a)) -> mapM f l = Ok (map g l).
Proof.
  induction l as [|a l IH]; intros H; [reflexivity|]. cbn [mapM map].
  rewrite (H a) by (left; reflexivity). cbn [bind]. rewrite IH by (intros; apply H; right; assumption). reflexivity.
Qed.

(** the step "push one position" of the constructor *)
Definition d_push (s : dbuild) (p : N) : res dbuild :=
  let s1 := mkdbuild (db_cur s ++ [p]) (db_blk s) (db_sub s) (db_ovf s) (db_n s) in
  s2 <- (if lenN (db_cur s1) =? d_block_size then d_flush s1 else Ok s1) ;;
  Ok (mkdbuild (db_cur s2) (db_blk s2) (db_sub s2) (db_ovf s2) (db_n s2 + 1)).

Lemma d_scan_ok F size hi : forall fuel s p w,
  p <= hi -> (N.to_nat (hi - p) < fuel)%nat ->
  (forall j, N.testbit w j = (p + j <? hi) && F (p + j)) ->
  d_scan fuel size s p w = foldM d_push (fpos F p (N.min hi size)) s.
Proof.
  induction fuel as [|fuel IH]; intros s p w Hp Hf Hw; [lia|]. cbn [d_scan].
  destruct (lsb_opt w) as [l|] eqn:El.
  - apply lsb_opt_spec in El. destruct El as [L1 L2]. rewrite Hw in L1. apply andb_true_iff in L1.
    destruct L1 as [L1 L1']. apply N.ltb_lt in L1.
    assert (Z : forall i, p <= i < p + l -> F i = false).
    { intros i Hi. specialize (L2 (i - p) ltac:(lia)). rewrite Hw in L2.
      replace (p + (i - p)) with i in L2 by lia. destruct (N.ltb_spec i hi); [exact L2|lia]. }
    destruct (N.leb_spec size (p + l)).
    + rewrite fpos_none; [reflexivity|]. intros i Hi. apply Z. lia.
    + rewrite (fpos_split F p (p + l)) by lia. rewrite (fpos_none F p (p + l)) by assumption. cbn [app].
      rewrite (fpos_cons F (p + l)), L1' by lia. cbn [app foldM]. unfold d_push at 1. cbn [db_cur db_blk db_sub db_ovf db_n].
      rewrite bind_assoc. match goal with |- bind ?x _ = bind ?y _ => destruct y as [s2| |]; try reflexivity end.
      cbn [bind]. apply IH; [lia|lia|]. intros j. rewrite !tb_shr64, Hw. f_equal; f_equal; lia.
  - apply lsb_opt_none in El. subst w. rewrite fpos_none; [reflexivity|]. intros i Hi.
    specialize (Hw (i - p)). rewrite N.bits_0 in Hw. replace (p + (i - p)) with i in Hw by lia.
    destruct (N.ltb_spec i hi); [symmetry; exact Hw|lia].
Qed.

Lemma d_words_ok F neg ws size : reads F neg ws -> 64 * lenN ws < 2 ^ 64 ->
  forall n k s, k + N.of_nat n <= lenN ws ->
  foldM (fun s wi => w <- d_getter neg ws wi ;; d_scan 65 size s (shl wi 6) w) (seqN k n) s
  = foldM d_push (fpos F (64 * k) (N.min (64 * (k + N.of_nat n)) size)) s.
Proof.
  intros HR HL. induction n as [|n IH]; intros k s Hk.
  - cbn [seqN foldM]. rewrite fpos_empty by lia. reflexivity.
  - cbn [seqN foldM]. unfold d_getter at 1. rewrite rd_wd by lia. cbn [bind].
    assert (Sh : shl k 6 = 64 * k).
    { unfold shl. rewrite N.shiftl_mul_pow2. change (2 ^ 6) with 64. rewrite w64_small; lia. }
    rewrite Sh, (d_scan_ok F size (64 * k + 64)); [|lia|lia|].
    2:{ intros j. rewrite HR by lia. f_equal.
        destruct (N.ltb_spec j 64); destruct (N.ltb_spec (64 * k + j) (64 * k + 64)); try reflexivity; exfalso; lia. }
    transitivity (foldM d_push (fpos F (64 * k) (N.min (64 * k + 64) size) ++
                                fpos F (64 * k + 64) (N.min (64 * (k + N.of_nat (S n))) size)) s).
    + rewrite foldM_app. destruct (foldM d_push (fpos F (64 * k) (N.min (64 * k + 64) size)) s) as [s'| |]; cbn [bind]; try reflexivity.
      rewrite IH by lia. f_equal. f_equal; lia.
    + f_equal. destruct (N.le_ge_cases size (64 * k + 64)).
      * rewrite (fpos_empty F (64 * k + 64)) by lia. rewrite app_nil_r. f_equal. lia.
      * rewrite (N.min_l (64 * k + 64) size) by lia. rewrite <- fpos_split by lia. reflexivity.
Qed.

(** ** the inventory invariant *)
Definition idx_ok (P : list N) (blk : list Z) (sub ovf : list N) : Prop :=
  forall i q, nthN P i = Some q -> exists bp, nthN blk (i / 1024) = Some bp /\
    ((exists f r, bp = Z.of_N f /\ f < 2 ^ 63 /\ nthN sub (i / 32) = Some r /\ nthN P (32 * (i / 32)) = Some (f + r)) \/
     (exists o, bp = (- Z.of_N o - 1)%Z /\ o < 2 ^ 63 /\ nthN ovf (o + i mod 1024) = Some q)).

Definition dinv0 (P0 : list N) (s : dbuild) : Prop :=
  lenN P0 mod 1024 = 0 /\ lenN (db_blk s) = lenN P0 / 1024 /\ lenN (db_sub s) = lenN P0 / 32 /\
  lenN (db_ovf s) <= lenN P0 /\ idx_ok P0 (db_blk s) (db_sub s) (db_ovf s).

(** strictly increasing below [B] *)
Definition incr (P : list N) (B : N) : Prop :=
  (forall i j x y, i < j -> nthN P i = Some x -> nthN P j = Some y -> x < y) /\
  (forall x, In x P -> x < B).

Lemma lenN_steps n : lenN (d_steps n) = (n + 31) / 32.
Proof. unfold d_steps. rewrite lenN_map, lenN_range. reflexivity. Qed.
Lemma nthN_steps n k : k < (n + 31) / 32 -> nthN (d_steps n) k = Some (k * 32).
Proof. intros. unfold d_steps. rewrite nthN_map, nthN_range by assumption. reflexivity. Qed.

Lemma d_flush_ok P0 s : dinv0 P0 s -> 0 < lenN (db_cur s) <= 1024 ->
  incr (db_cur s) (2 ^ 63) -> lenN P0 < 2 ^ 63 ->
  exists s', d_flush s = Ok s' /\ db_cur s' = [] /\ db_n s' = db_n s /\
    lenN (db_blk s') = lenN P0 / 1024 + 1 /\
    lenN (db_sub s') = lenN P0 / 32 + (lenN (db_cur s) + 31) / 32 /\
    lenN (db_ovf s') <= lenN P0 + lenN (db_cur s) /\
    idx_ok (P0 ++ db_cur s) (db_blk s') (db_sub s') (db_ovf s').
Proof.
  intros (I1 & I2 & I3 & I4 & I5) Hc [Hinc Hlt] HP. set (cur := db_cur s) in *.
  destruct (nthN_Some cur 0 ltac:(lia)) as (front & Ef).
  destruct (nthN_Some cur (lenN cur - 1) ltac:(lia)) as (back & Eb).
  assert (Fl : front < 2 ^ 63) by (apply Hlt; eapply nthN_In; eauto).
  assert (Bl : back < 2 ^ 63) by (apply Hlt; eapply nthN_In; eauto).
  assert (FX : forall i x, nthN cur i = Some x -> front <= x <= back).
  { intros i x Hx. pose proof (nthN_lt _ _ _ Hx). split.
    - destruct (N.eq_dec i 0) as [->|]; [rewrite Ef in Hx; injection Hx as ->; lia|].
      pose proof (Hinc 0 i front x ltac:(lia) Ef Hx). lia.
    - destruct (N.eq_dec i (lenN cur - 1)) as [->|]; [rewrite Eb in Hx; injection Hx as ->; lia|].
      pose proof (Hinc i (lenN cur - 1) x back ltac:(lia) Hx Eb). lia. }
  pose proof (FX _ _ Eb) as FB.
  unfold d_flush. fold cur. rewrite (proj2 (rd_nthN cur 0 front) Ef). cbn [bind].
  rewrite sub64_small by lia. rewrite (proj2 (rd_nthN cur _ back) Eb). cbn [bind].
  rewrite sub64_small by lia.
  (* lifting the invariant of the old part *)
  assert (OLD : forall blk sub ovf, idx_ok P0 (db_blk s) (db_sub s) (db_ovf s) ->
     forall i q, i < lenN P0 -> nthN (P0 ++ cur) i = Some q -> exists bp, nthN (db_blk s ++ blk) (i / 1024) = Some bp /\
    ((exists f r, bp = Z.of_N f /\ f < 2 ^ 63 /\ nthN (db_sub s ++ sub) (i / 32) = Some r /\ nthN (P0 ++ cur) (32 * (i / 32)) = Some (f + r)) \/
     (exists o, bp = (- Z.of_N o - 1)%Z /\ o < 2 ^ 63 /\ nthN (db_ovf s ++ ovf) (o + i mod 1024) = Some q))).
  { intros blk sub ovf I i q Hi Hq. rewrite nthN_app1 in Hq by assumption.
    destruct (I i q Hq) as (bp & B1 & B2). exists bp.
    split; [rewrite nthN_app1; [assumption|eapply nthN_lt; eauto]|].
    destruct B2 as [(f & r & C1 & C2 & C3 & C4) | (o & C1 & C2 & C3)].
    - left. exists f, r. split; [assumption|]. split; [assumption|].
      split; [rewrite nthN_app1; [assumption|eapply nthN_lt; eauto]|].
      rewrite nthN_app1; [assumption|eapply nthN_lt; eauto].
    - right. exists o. split; [assumption|]. split; [assumption|].
      rewrite nthN_app1; [assumption|eapply nthN_lt; eauto]. }
  assert (P32 : lenN P0 = 32 * (lenN P0 / 32)) by dlia.
  assert (P1024 : lenN P0 = 1024 * (lenN P0 / 1024)) by dlia.
  unfold d_max_distance. destruct (N.ltb_spec (back - front) (2 ^ 16)) as [D|D].
  - rewrite (mapM_ok _ (fun i => match nthN cur i with Some x => x - front | None => 0 end)).
    2:{ intros a Ha. unfold d_steps in Ha. apply in_map_iff in Ha. destruct Ha as (k & <- & Hk).
        apply In_seqN in Hk. change d_subblock_size with 32 in *.
        destruct (nthN_Some cur (k * 32)) as (x & Ex). { dlia. }
        rewrite (proj2 (rd_nthN _ _ _) Ex). cbn [bind]. rewrite Ex. pose proof (FX _ _ Ex).
        rewrite sub64_small by lia. unfold u16. rewrite N.mod_small by lia. reflexivity. }
    cbn [bind]. eexists. split; [reflexivity|]. cbn [db_cur db_blk db_sub db_ovf db_n].
    split; [reflexivity|]. split; [reflexivity|].
    rewrite !lenN_app, lenN_map, lenN_steps. split; [rewrite I2; reflexivity|]. split; [rewrite I3; reflexivity|].
    split; [lia|]. intros i q Hq. pose proof (nthN_lt _ _ _ Hq) as Hi. rewrite lenN_app in Hi.
    destruct (N.lt_ge_cases i (lenN P0)) as [Hi0|Hi0].
    + destruct (OLD [to_i64 front] (map (fun i => match nthN cur i with Some x => x - front | None => 0 end) (d_steps (lenN cur))) [] I5 i q Hi0 Hq) as (bp & B1 & B2).
      exists bp. split; [assumption|]. rewrite app_nil_r in B2. exact B2.
    + exists (Z.of_N front).
      assert (Ei : i / 1024 = lenN (db_blk s)) by (rewrite I2; dlia).
      split; [rewrite Ei, nthN_snoc; unfold to_i64; destruct (N.ltb_spec front (2 ^ 63)); [reflexivity|lia]|].
      left. assert (K : i / 32 = lenN P0 / 32 + (i - lenN P0) / 32) by dlia.
      destruct (nthN_Some cur (((i - lenN P0) / 32) * 32)) as (x & Ex). { dlia. }
      exists front, (x - front). split; [reflexivity|]. split; [assumption|]. split.
      * rewrite nthN_app2 by (rewrite I3; dlia). rewrite nthN_map, I3.
        replace (i / 32 - lenN P0 / 32) with ((i - lenN P0) / 32) by dlia.
        rewrite nthN_steps by dlia. cbn [option_map]. rewrite Ex. reflexivity.
      * rewrite nthN_app2 by dlia. replace (32 * (i / 32) - lenN P0) with ((i - lenN P0) / 32 * 32) by dlia.
        rewrite Ex. f_equal. pose proof (FX _ _ Ex). lia.
  - eexists. split; [reflexivity|]. cbn [db_cur db_blk db_sub db_ovf db_n].
    split; [reflexivity|]. split; [reflexivity|].
    rewrite !lenN_app, lenN_map, lenN_steps. split; [rewrite I2; reflexivity|]. split; [rewrite I3; reflexivity|].
    split; [lia|]. intros i q Hq. pose proof (nthN_lt _ _ _ Hq) as Hi. rewrite lenN_app in Hi.
    destruct (N.lt_ge_cases i (lenN P0)) as [Hi0|Hi0].
    + apply OLD; assumption.
    + assert (Ei : i / 1024 = lenN (db_blk s)) by (rewrite I2; dlia).
      exists (- Z.of_N (lenN (db_ovf s)) - 1)%Z.
      split; [rewrite Ei, nthN_snoc; unfold to_i64; destruct (N.ltb_spec (lenN (db_ovf s)) (2 ^ 63)); [reflexivity|lia]|].
      right. exists (lenN (db_ovf s)). split; [reflexivity|]. split; [lia|].
      rewrite nthN_app2 by lia. rewrite nthN_app2 in Hq by lia. rewrite <- Hq. f_equal. dlia.
Qed.

(** after pushing [P] *)
Definition dinv (P : list N) (s : dbuild) : Prop :=
  exists P0, P = P0 ++ db_cur s /\ dinv0 P0 s /\ lenN (db_cur s) < 1024 /\ db_n s = lenN P.

Lemma incr_app_l P Q B : incr (P ++ Q) B -> incr P B.
Proof.
  intros [H1 H2]. split.
  - intros i j x y Hij Hx Hy. apply (H1 i j x y Hij); rewrite nthN_app1; auto; eapply nthN_lt; eauto.
  - intros x Hx. apply H2. apply in_or_app. left. assumption.
Qed.
Lemma incr_app_r P Q B : incr (P ++ Q) B -> incr Q B.
Proof.
  intros [H1 H2]. split.
  - intros i j x y Hij Hx Hy. apply (H1 (lenN P + i) (lenN P + j) x y); [lia| |];
    rewrite nthN_app2 by lia; [rewrite <- Hx|rewrite <- Hy]; f_equal; lia.
  - intros x Hx. apply H2. apply in_or_app. right. assumption.
Qed.

Lemma d_push_ok P s p : dinv P s -> incr (P ++ [p]) (2 ^ 63) -> lenN P < 2 ^ 63 ->
  exists s', d_push s p = Ok s' /\ dinv (P ++ [p]) s'.
Proof.
  intros (P0 & E & I & L & C) HI HP. pose proof I as (I1 & I2 & I3 & I4 & I5).
  assert (LP : lenN P = lenN P0 + lenN (db_cur s)) by (rewrite E, lenN_app; reflexivity).
  unfold d_push. cbn [db_cur]. rewrite lenN_app. change (lenN [p]) with 1. unfold d_block_size.
  destruct (N.eqb_spec (lenN (db_cur s) + 1) 1024) as [F|F].
  - destruct (d_flush_ok P0 (mkdbuild (db_cur s ++ [p]) (db_blk s) (db_sub s) (db_ovf s) (db_n s)))
      as (s' & E' & R1 & R2 & R3 & R4 & R5 & R6); cbn [db_cur db_blk db_sub db_ovf db_n] in *.
    + split; [assumption|]. split; [assumption|]. split; [assumption|]. split; assumption.
    + rewrite lenN_app. change (lenN [p]) with 1. lia.
    + apply (incr_app_r P0). rewrite app_assoc, <- E. assumption.
    + lia.
    + rewrite E'. cbn [bind]. eexists. split; [reflexivity|]. exists (P ++ [p]). cbn [db_cur db_blk db_sub db_ovf db_n].
      rewrite R1, app_nil_r. split; [reflexivity|].
      rewrite app_assoc, <- E in R6. rewrite lenN_app in R4, R5. change (lenN [p]) with 1 in *.
      split; [|split; [reflexivity|rewrite R2, lenN_app; change (lenN [p]) with 1; lia]].
      unfold dinv0. cbn [db_cur db_blk db_sub db_ovf db_n]. rewrite lenN_app. change (lenN [p]) with 1.
      split; [dlia|]. split; [rewrite R3; dlia|]. split; [rewrite R4; dlia|]. split; [lia|assumption].
  - cbn [bind]. eexists. split; [reflexivity|]. exists P0. cbn [db_cur db_blk db_sub db_ovf db_n].
    split; [rewrite E at 1; apply eq_sym, app_assoc|]. split; [exact I|]. rewrite !lenN_app. change (lenN [p]) with 1. lia.
Qed.

Lemma d_pushes_ok Q : forall P s, dinv P s -> incr (P ++ Q) (2 ^ 63) -> lenN (P ++ Q) < 2 ^ 63 ->
  exists s', foldM d_push Q s = Ok s' /\ dinv (P ++ Q) s'.
Proof.
  induction Q as [|p Q IH]; intros P s HI Hinc HL.
  - exists s. rewrite app_nil_r. split; [reflexivity|assumption].
  - rewrite lenN_app, lenN_cons in HL. replace (P ++ p :: Q) with ((P ++ [p]) ++ Q) in * by (rewrite <- app_assoc; reflexivity).
    destruct (d_push_ok P s p HI (incr_app_l _ _ _ Hinc) ltac:(lia)) as (s' & E & I').
    cbn [foldM]. rewrite E. cbn [bind]. apply IH; auto. rewrite !lenN_app. change (lenN [p]) with 1. lia.
Qed.

Definition darr_ok (P : list N) (d : darr) : Prop :=
  d_pos d = lenN P /\ idx_ok P (d_blk d) (d_sub d) (d_ovf d).

Lemma incr_fpos F a b B : b <= B -> incr (fpos F a b) B.
Proof.
  intros Hb. split.
  - intros i j x y Hij Hx Hy. apply nthN_fpos in Hx, Hy. destruct Hx as (X1 & X2 & X3), Hy as (Y1 & Y2 & Y3).
    destruct (N.lt_ge_cases x y) as [|H]; [assumption|]. exfalso.
    rewrite (fpos_split F a y x) in X3 by lia. rewrite lenN_app in X3. lia.
  - intros x Hx. apply In_fpos in Hx. lia.
Qed.
Lemma lenN_fpos_le F a b : lenN (fpos F a b) <= b - a.
Proof.
  unfold fpos, lenN.
  assert (L : forall {A} (f : A -> bool) l, (length (filter f l) <= length l)%nat).
  { intros A f. induction l as [|x l IH]; cbn; [lia|]. destruct (f x); cbn; lia. }
  pose proof (L _ F (seqN a (N.to_nat (b - a)))) as H. rewrite length_seqN in H. lia.
Qed.

Lemma reads_xor neg v V n : vrep v V n -> reads (fun i => xorb neg (N.testbit V i)) neg (v_bits v).
Proof.
  intros R b Hb j. destruct neg; [rewrite (reads_zeros v V n R) by assumption|rewrite (reads_bits v V n R) by assumption];
  destruct (N.testbit V (64 * b + j)); reflexivity.
Qed.

Theorem d_build_ok neg v V n : vrep v V n -> n < 2 ^ 63 ->
  exists d, d_build neg v = Ok d /\ darr_ok (fpos (fun i => xorb neg (N.testbit V i)) 0 n) d.
Proof.
  intros R Hn. pose proof R as (R1 & R2 & R3 & R4 & R5). unfold d_build.
  set (F := fun i => xorb neg (N.testbit V i)).
  assert (RF : reads F neg (v_bits v)).
  { apply reads_xor with (n := n). assumption. }
  assert (L64 : 64 * lenN (v_bits v) < 2 ^ 64) by (rewrite R2; unfold words_for; dlia).
  unfold range. rewrite (d_words_ok F neg (v_bits v) (v_size v) RF L64) by lia.
  rewrite R5. replace (N.min (64 * (0 + N.of_nat (N.to_nat (lenN (v_bits v))))) n) with n
    by (rewrite R2; unfold words_for; dlia).
  change (64 * 0) with 0.
  destruct (d_pushes_ok (fpos F 0 n) [] (mkdbuild [] [] [] [] 0)) as (s & E & I); cbn [app] in *.
  - exists []. split; [reflexivity|]. split; [|split; reflexivity].
    split; [reflexivity|]. split; [reflexivity|]. split; [reflexivity|]. split; [reflexivity|].
    intros i q H. apply nthN_lt in H. rewrite lenN_nil in H. lia.
  - apply incr_fpos. lia.
  - pose proof (lenN_fpos_le F 0 n). lia.
  - rewrite E. cbn [bind]. destruct I as (P0 & EP & I & L & C). pose proof I as (I1 & I2 & I3 & I4 & I5).
    destruct (N.eqb_spec (lenN (db_cur s)) 0) as [Z|Z].
    + cbn [bind]. eexists. split; [reflexivity|]. split; [exact C|].
      destruct (db_cur s) as [|x r]; [|rewrite lenN_cons in Z; lia]. rewrite app_nil_r in EP. rewrite EP. exact I5.
    + destruct (d_flush_ok P0 s I ltac:(lia)) as (s' & E' & F1 & F2 & F3 & F4 & F5 & F6).
      * apply (incr_app_r P0). rewrite <- EP. apply incr_fpos. lia.
      * pose proof (lenN_fpos_le F 0 n). rewrite EP, lenN_app in H. lia.
      * rewrite E'. cbn [bind]. eexists. split; [reflexivity|]. split; cbn [d_pos d_blk d_sub d_ovf].
        -- rewrite F2. exact C.
        -- rewrite EP. exact F6.
Qed.

(** ** select *)
Lemma d_sel_loop_ok F neg ws : reads F neg ws -> forall fuel b p word rem q,
  buf_at F b p word -> b < lenN ws -> (N.to_nat (lenN ws - b) <= fuel)%nat ->
  nthN (fpos F p (64 * lenN ws)) rem = Some q ->
  exists word' rem' r, d_sel_loop fuel neg ws b word rem = Ok (q / 64, word', rem') /\ word' < 2 ^ 64 /\
     nthN (ones_pos word' 64) rem' = Some r /\ q = 64 * (q / 64) + r.
Proof.
  intros HR. induction fuel as [|fuel IH]; intros b p word rem q Hb Hl Hf Hq; [lia|]. cbn [d_sel_loop].
  pose proof (buf_lt _ _ _ _ Hb) as Hlt. rewrite popcount_correct by assumption.
  pose proof (buf_ones _ _ _ _ Hb) as BO.
  assert (LB : lenN (ones_pos word 64) = lenN (fpos F p (64 * b + 64))) by (rewrite BO, lenN_map; reflexivity).
  pose proof Hb as [Hp Hbits]. rewrite (fpos_split F p (64 * b + 64)) in Hq by lia.
  destruct (N.ltb_spec rem (lenN (ones_pos word 64))) as [L|L].
  - rewrite nthN_app1 in Hq by lia. rewrite BO, nthN_map in Hq.
    destruct (nthN (ones_pos word 64) rem) as [r|] eqn:Er; [|discriminate]. cbn [option_map] in Hq. injection Hq as <-.
    pose proof (nthN_In _ _ _ Er) as Ir. rewrite fpos_ones in Ir. apply In_fpos in Ir.
    exists word, rem, r. replace ((64 * b + r) / 64) with b by dlia. split; [reflexivity|]. split; [assumption|]. split; [assumption|reflexivity].
  - rewrite nthN_app2 in Hq by lia.
    assert (NB : b + 1 < lenN ws).
    { destruct (N.lt_ge_cases (b + 1) (lenN ws)); [assumption|].
      rewrite fpos_empty in Hq by lia. apply nthN_lt in Hq. rewrite lenN_nil in Hq. lia. }
    unfold d_getter. rewrite rd_wd by assumption. cbn [bind].
    apply (IH (b + 1) (64 * (b + 1))); auto; try lia.
    + apply buf_next; assumption.
    + replace (64 * (b + 1)) with (64 * b + 64) by lia. rewrite <- Hq. f_equal. lia.
Qed.

Lemma land31 x : N.land x 31 = x mod 32.
Proof. change 31 with (N.ones 5). apply N.land_ones. Qed.
Lemma land1023 x : N.land x 1023 = x mod 1024.
Proof. change 1023 with (N.ones 10). apply N.land_ones. Qed.

Lemma of_i64_small z : (0 <= z < 2 ^ 63)%Z -> of_i64 z = Z.to_N z.
Proof. intros H. unfold of_i64. rewrite Z.mod_small by lia. reflexivity. Qed.

Lemma fpos_from F a b i s r : nthN (fpos F a b) i = Some s -> nthN (fpos F s b) r = nthN (fpos F a b) (i + r).
Proof.
  intros H. apply nthN_fpos in H. destruct H as (H1 & H2 & H3).
  rewrite (fpos_split F a s b) by lia. rewrite nthN_app2 by lia. f_equal. lia.
Qed.

Theorem d_select_ok neg d v V n idx q : vrep v V n -> n + 64 < 2 ^ 64 ->
  darr_ok (fpos (fun i => xorb neg (N.testbit V i)) 0 n) d ->
  nthN (fpos (fun i => xorb neg (N.testbit V i)) 0 n) idx = Some q ->
  d_select neg d v idx = Ok q.
Proof.
  intros R Hn [D1 D2] Hq. pose proof R as (R1 & R2 & R3 & R4 & R5).
  set (F := fun i => xorb neg (N.testbit V i)) in *.
  assert (RF : reads F neg (v_bits v)).
  { apply reads_xor with (n := n). assumption. }
  destruct (D2 idx q Hq) as (bp & B1 & B2). unfold d_select, d_block_size, d_subblock_size.
  rewrite (proj2 (rd_nthN _ _ _) B1). cbn [bind].
  destruct B2 as [(f & r & C1 & C2 & C3 & C4) | (o & C1 & C2 & C3)].
  - subst bp. destruct (Z.ltb_spec (Z.of_N f) 0); [lia|]. rewrite (proj2 (rd_nthN _ _ _) C3). cbn [bind].
    rewrite of_i64_small, N2Z.id by lia. change (32 - 1) with 31. rewrite land31.
    destruct (N.eqb_spec (idx mod 32) 0) as [Z|Z].
    + replace (32 * (idx / 32)) with idx in C4 by dlia. congruence.
    + set (s := f + r) in *.
      pose proof (nthN_fpos _ _ _ _ _ C4) as (S1 & S2 & S3).
      assert (LW : n <= 64 * lenN (v_bits v)) by (rewrite R2; unfold words_for; dlia).
      assert (Hq' : nthN (fpos F s (64 * lenN (v_bits v))) (idx mod 32) = Some q).
      { rewrite (fpos_split F s n) by lia. pose proof (fpos_from F 0 n _ s (idx mod 32) C4) as FF.
        replace (32 * (idx / 32) + idx mod 32) with idx in FF by dlia. rewrite Hq in FF.
        rewrite nthN_app1; [assumption|]. eapply nthN_lt; eauto. }
      unfold d_getter. rewrite shr6, land63, rd_wd by dlia. cbn [bind].
      assert (BA : buf_at F (s / 64) s (N.land (if neg then not64 (wd (v_bits v) (s / 64)) else wd (v_bits v) (s / 64)) (shl (N.ones 64) (s mod 64)))).
      { apply (buf_mask F (s / 64) (64 * (s / 64)) _ (s mod 64) s); try dlia. apply buf_next; [assumption|dlia]. }
      edestruct (d_sel_loop_ok F neg (v_bits v) RF (S (length (v_bits v))) (s / 64) s) as (word' & rem' & r' & E & E1 & E2 & E3);
        [exact BA|dlia|unfold lenN; lia|exact Hq'|].
      rewrite E. cbn [bind]. rewrite (select_ok _ _ r') by assumption. cbn [bind]. f_equal.
      unfold shl. rewrite N.shiftl_mul_pow2. change (2 ^ 6) with 64.
      pose proof (nthN_fpos _ _ _ _ _ Hq'). assert (64 * lenN (v_bits v) < 2 ^ 64) by (rewrite R2; unfold words_for; dlia).
      rewrite w64_small by lia. lia.
  - subst bp. destruct (Z.ltb_spec (- Z.of_N o - 1) 0); [|lia].
    rewrite of_i64_small by lia. replace (Z.to_N (- (- Z.of_N o - 1) - 1)) with o by lia.
    change (1024 - 1) with 1023. rewrite land1023. apply rd_nthN. assumption.
Qed.
