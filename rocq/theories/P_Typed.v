(** * Built structures hold values of their C++ types: indexes, sequences, hash tables *)
From Coq Require Import Floats.SpecFloat.
From Verif Require Import Prelude BitFacts M_Word P_Word M_Bits Spec P_Bits P_Builder P_Cursor M_CompactVector P_CompactVector M_DArray P_DArray M_EF P_EF P_EF2
  M_HashVec P_HashVec M_Mph P_Mph P_MphTables M_FastEF P_FastEF3 M_SeqColl P_SeqColl M_Trie M_MphCount M_Score M_Quant M_MphProb M_Save Spec_Save.

Lemma u64_le a b : a <= b -> b < 2 ^ 64 -> is_u64 a. Proof. unfold is_u64. lia. Qed.
Lemma words_for_le n : words_for n <= n. Proof. unfold words_for. destruct (N.eq_dec n 0) as [->|]; [vm_compute; discriminate|]. apply N.div_le_upper_bound; lia. Qed.
Lemma is_vec_words ws n : words ws -> lenN ws = words_for n -> n < 2 ^ 64 -> is_vec is_u64 ws.
Proof. intros W L H. split; [exact W|]. eapply u64_le; [|exact H]. rewrite L. apply words_for_le. Qed.
Lemma vrep_typed v V n : vrep v V n -> n < 2 ^ 64 -> t_bv v.
Proof. intros (W & L & _ & _ & S) H. split; [unfold is_u64; lia|]. eapply is_vec_words; eauto. Qed.
Lemma cv_rep_typed c n w V : cv_rep c n w V -> t_cv c.
Proof.
  intros (H1 & H2 & H3 & H4 & H5 & H6 & H7 & H8). assert (n <= n * w) by nia. split; [unfold is_u64; lia|]. split; [unfold is_u64; lia|].
  split; [|eapply is_vec_words; eauto; lia]. rewrite H3. unfold is_u64. rewrite N.ones_equiv. pose proof (pow2_pos w).
  assert (2 ^ w <= 2 ^ 64) by (apply N.pow_le_mono_r; lia). lia.
Qed.
Lemma cv_holds_typed c vs : cv_holds c vs -> t_cv c.
Proof. intros (w & V & R & _). eapply cv_rep_typed; eauto. Qed.

(** ** darray *)
Definition dt (P : N) (s : dbuild) : Prop :=
  Forall is_u64 (db_cur s) /\ Forall is_i64 (db_blk s) /\ Forall is_u16 (db_sub s) /\ Forall is_u64 (db_ovf s) /\
  lenN (db_blk s) + lenN (db_cur s) <= P /\ lenN (db_sub s) + lenN (db_cur s) <= P /\ lenN (db_ovf s) + lenN (db_cur s) <= P /\ db_n s <= P.
Lemma to_i64_ok x : is_u64 x -> is_i64 (to_i64 x).
Proof. unfold is_u64, is_i64, to_i64. intros H. destruct (N.ltb_spec x (2 ^ 63)); lia. Qed.
Lemma u16_ok x : is_u16 (u16 x). Proof. apply N.mod_lt. discriminate. Qed.
Lemma bind_inv {A B} (r : res A) (f : A -> res B) b : bind r f = Ok b -> exists a, r = Ok a /\ f a = Ok b.
Proof. destruct r; cbn; intros H; try discriminate. eauto. Qed.
Lemma rd_inv {A} (l : list A) i a : rd l i = Ok a -> nthN l i = Some a. Proof. apply rd_nthN. Qed.
Lemma mapM_Forall {A B} (f : A -> res B) (P : B -> Prop) l : (forall a b, In a l -> f a = Ok b -> P b) -> forall l', mapM f l = Ok l' -> Forall P l' /\ length l' = length l.
Proof.
  induction l as [|a l IH]; intros H l' E; cbn [mapM] in E; [injection E as <-; split; [constructor|reflexivity]|].
  apply bind_inv in E. destruct E as (b & E1 & E). apply bind_inv in E. destruct E as (bs & E2 & E). injection E as <-.
  destruct (IH (fun a b I => H a b (or_intror I)) bs E2). split; [constructor; [|assumption]|cbn; congruence]. eapply H; [left; reflexivity|eassumption].
Qed.
Lemma foldM_inv {A S} (I : S -> Prop) (f : S -> A -> res S) l : (forall s a s', In a l -> I s -> f s a = Ok s' -> I s') -> forall s s', I s -> foldM f l s = Ok s' -> I s'.
Proof.
  induction l as [|a l IH]; intros H s s' Hs E; cbn [foldM] in E; [injection E as <-; assumption|].
  apply bind_inv in E. destruct E as (s1 & E1 & E). eapply IH; [|eapply H; [left; reflexivity|exact Hs|exact E1]|exact E]. intros. eapply H; eauto. right. assumption.
Qed.

Lemma d_flush_typed P s s' : P < 2 ^ 64 -> dt P s -> d_flush s = Ok s' -> dt P s' /\ db_cur s' = [].
Proof.
  intros HP (H1 & H2 & H3 & H4 & H5 & H6 & H7 & H8) E. unfold d_flush in E. cbv zeta in E.
  apply bind_inv in E. destruct E as (front & Ef & E). apply bind_inv in E. destruct E as (back & Eb & E). apply rd_inv in Ef.
  pose proof (nthN_lt _ _ _ Ef) as LC. pose proof (Forall_nthN _ _ _ _ H1 Ef) as FU. cbn in FU.
  assert (LS : (lenN (db_cur s) + 31) / 32 <= lenN (db_cur s)) by (apply N.div_le_upper_bound; lia).
  destruct (_ <? d_max_distance).
  - apply bind_inv in E. destruct E as (subs & Es & E). injection E as <-.
    apply (mapM_Forall _ is_u16) in Es. 2: { intros a b _ Hab. apply bind_inv in Hab. destruct Hab as (y & _ & Hab). injection Hab as <-. apply u16_ok. }
    destruct Es as (F & L).
    split; [|reflexivity]. unfold dt. cbn [db_cur db_blk db_sub db_ovf db_n]. change (lenN (@nil N)) with 0.
    split; [constructor|]. split; [apply Forall_app; split; [assumption|constructor; [apply to_i64_ok; assumption|constructor]]|].
    split; [apply Forall_app; split; assumption|]. split; [assumption|].
    assert (LL : lenN subs = (lenN (db_cur s) + 31) / 32) by (rewrite <- lenN_steps; unfold lenN; rewrite L; reflexivity).
    rewrite !lenN_app, LL. change (lenN [to_i64 front]) with 1. lia.
  - injection E as <-. split; [|reflexivity]. unfold dt. cbn [db_cur db_blk db_sub db_ovf db_n]. change (lenN (@nil N)) with 0.
    split; [constructor|]. split; [apply Forall_app; split; [assumption|constructor; [|constructor]]|].
    { pose proof (to_i64_ok (lenN (db_ovf s)) ltac:(unfold is_u64; lia)) as Z. unfold is_i64 in *. lia. }
    split; [apply Forall_app; split; [assumption|apply Forall_map, Forall_forall; intros; apply u16_ok]|]. split; [apply Forall_app; split; assumption|].
    rewrite !lenN_app, lenN_map, lenN_steps. change (lenN [_]) with 1. lia.
Qed.

Lemma d_scan_typed P size : P < 2 ^ 64 -> size < 2 ^ 64 -> forall fuel s p w s', dt (P - N.of_nat fuel) s -> N.of_nat fuel <= P -> d_scan fuel size s p w = Ok s' -> dt P s'.
Proof.
  intros HP HS. assert (W : forall a b s, dt a s -> a <= b -> dt b s).
  { intros a b s (H1 & H2 & H3 & H4 & H5 & H6 & H7 & H8) L. unfold dt. split; [assumption|]. split; [assumption|]. split; [assumption|]. split; [assumption|]. lia. }
  induction fuel as [|fuel IH]; intros s p w s' H HF E; cbn [d_scan] in E; [discriminate|].
  destruct (lsb_opt w) as [l|]; [|injection E as <-; eapply W; [exact H|lia]].
  destruct (N.leb_spec size (p + l)) as [L|L]; [injection E as <-; eapply W; [exact H|lia]|].
  apply bind_inv in E. destruct E as (s2 & E2 & E). eapply IH; [|lia|exact E].
  set (s1 := mkdbuild (db_cur s ++ [p + l]) (db_blk s) (db_sub s) (db_ovf s) (db_n s)) in *.
  assert (D1 : dt (P - N.of_nat fuel) s1 /\ db_n s1 + 1 <= P - N.of_nat fuel).
  { destruct H as (H1 & H2 & H3 & H4 & H5 & H6 & H7 & H8). unfold s1, dt. cbn [db_cur db_blk db_sub db_ovf db_n]. rewrite lenN_app. change (lenN [p + l]) with 1.
    split; [|lia]. split; [apply Forall_app; split; [assumption|constructor; [unfold is_u64; lia|constructor]]|].
    split; [assumption|]. split; [assumption|]. split; [assumption|]. lia. }
  assert (D2 : dt (P - N.of_nat fuel) s2 /\ db_n s2 + 1 <= P - N.of_nat fuel).
  { destruct (lenN (db_cur s1) =? d_block_size); [|injection E2 as <-; exact D1].
    assert (NN : db_n s2 = db_n s1). { clear - E2. unfold d_flush in E2. cbv zeta in E2. apply bind_inv in E2. destruct E2 as (front & Ef & E). apply bind_inv in E. destruct E as (back & Eb & E).
      destruct (_ <? d_max_distance); [apply bind_inv in E; destruct E as (subs & Es & E)|]; injection E as <-; reflexivity. }
    rewrite NN. split; [|apply D1]. eapply d_flush_typed; [|apply D1|exact E2]. lia. }
  destruct D2 as ((H1 & H2 & H3 & H4 & H5 & H6 & H7 & H8) & D2). unfold dt. cbn [db_cur db_blk db_sub db_ovf db_n].
  split; [assumption|]. split; [assumption|]. split; [assumption|]. split; [assumption|]. lia.
Qed.
Theorem d_build_typed neg v d : t_bv v -> 65 * lenN (v_bits v) < 2 ^ 64 -> d_build neg v = Ok d -> t_darr d.
Proof.
  intros (HS & _) HL E. unfold d_build in E. apply bind_inv in E. destruct E as (s & E1 & E). apply bind_inv in E. destruct E as (s2 & E2 & E). injection E as <-.
  assert (D : dt (65 * lenN (v_bits v)) s).
  { assert (G : forall l i s s', dt (65 * i) s -> 65 * (i + lenN l) < 2 ^ 64 ->
      foldM (fun s wi => w <- d_getter neg (v_bits v) wi ;; d_scan 65 (v_size v) s (shl wi 6) w) l s = Ok s' -> dt (65 * (i + lenN l)) s').
    { clear - HS. induction l as [|wi l IH]; intros i s s' D B E; cbn [foldM] in E.
      - injection E as <-. change (lenN (@nil N)) with 0. rewrite N.add_0_r. assumption.
      - rewrite lenN_cons in *. apply bind_inv in E. destruct E as (s1 & E1 & E). apply bind_inv in E1. destruct E1 as (w & _ & E1).
        replace (i + (1 + lenN l)) with (i + 1 + lenN l) in * by lia.
        eapply IH; [|lia|exact E]. eapply (d_scan_typed (65 * (i + 1))); [lia|exact HS| | |exact E1].
        + replace (65 * (i + 1) - N.of_nat 65) with (65 * i) by lia. assumption.
        + lia. }
    pose proof (G (range (lenN (v_bits v))) 0 (mkdbuild [] [] [] [] 0) s) as G'. rewrite lenN_range, N.add_0_l in G'. apply G'; [|assumption|assumption].
    unfold dt. cbn [db_cur db_blk db_sub db_ovf db_n]. change (lenN (@nil N)) with 0. change (lenN (@nil Z)) with 0. split; [constructor|]. split; [constructor|]. split; [constructor|]. split; [constructor|]. lia. }
  assert (D2 : dt (65 * lenN (v_bits v)) s2). { destruct (lenN (db_cur s) =? 0); [injection E2 as <-; assumption|]. eapply d_flush_typed; eauto. }
  destruct D2 as (H1 & H2 & H3 & H4 & H5 & H6 & H7 & H8). unfold t_darr, is_vec, is_u64. cbn [d_pos d_blk d_sub d_ovf].
  split; [lia|]. split; [split; [assumption|lia]|]. split; [split; [assumption|lia]|split; [assumption|lia]].
Qed.
Lemma d_build_vrep neg v V n d : vrep v V n -> n < 2 ^ 63 -> d_build neg v = Ok d -> t_darr d.
Proof.
  intros R H E. eapply d_build_typed; [eapply vrep_typed; [exact R|lia]| |exact E]. destruct R as (_ & -> & _).
  assert (64 * words_for n <= n + 63) by (unfold words_for; pose proof (N.mul_div_le (n + 63) 64); lia). lia.
Qed.

(** ** Elias-Fano sequences *)
Lemma efc_typed vs vs2 u c : efc_build vs u = Ok c -> efc_rep c vs2 -> t_efc c.
Proof.
  intros E (VH & NH & Hl & Hn & HN & VR & _ & _ & VL & _). unfold efc_build in E. cbv zeta in E.
  apply bind_inv in E. destruct E as (s & _ & E). apply bind_inv in E. destruct E as (d1 & E1 & E). injection E as <-. cbn [e_l e_high e_low e_d1] in *.
  split; [unfold is_u8; cbn [e_l]; lia|]. split; [eapply vrep_typed; [exact VR|lia]|]. split; [eapply d_build_vrep; eauto|].
  eapply vrep_typed; [exact VL|]. rewrite lenN_lows. cbn [e_l] in *. nia.
Qed.
Lemma fpos_split_count F a b : lenN (fpos F a b) + lenN (fpos (fun i => negb (F i)) a b) = b - a.
Proof.
  unfold fpos. assert (G : forall l : list N, lenN (filter F l) + lenN (filter (fun i => negb (F i)) l) = lenN l).
  { induction l as [|x l IH]; [reflexivity|]. cbn [filter]. destruct (F x); cbn [negb]; rewrite !lenN_cons; lia. }
  rewrite G. unfold lenN. rewrite length_seqN. lia.
Qed.
Lemma ef_typed vs u z e : ef_build vs u z = Ok e -> ef_rep e vs -> vs <> [] -> t_ef e /\ ef_size e <> 0.
Proof.
  intros E (R & S) NE. unfold ef_build in E. apply bind_inv in E. destruct E as (c & Ec & E). apply bind_inv in E. destruct E as (d0 & Ed & E). injection E as <-.
  cbn [ef_core ef_size] in *. assert (0 < lenN vs) by (destruct vs; [congruence|rewrite lenN_cons; lia]). split; [|cbn [ef_size]; lia].
  split; [eapply efc_typed; eauto|]. pose proof R as (VH & NH & Hl & Hn & HN & VR & FP & _ & _ & _ & HB).
  split; [|unfold is_u64; cbn [ef_size]; lia]. cbn [ef_d0]. destruct z; [|injection Ed as <-; exact I]. apply bind_inv in Ed. destruct Ed as (d & Ed & E'). injection E' as <-.
  split; [eapply d_build_vrep; eauto|]. destruct (d_build_ok true _ _ _ VR HN) as (d' & Ed' & (DP & _)). rewrite Ed in Ed'. injection Ed' as <-. rewrite DP.
  destruct vs as [|v vs]; [congruence|]. specialize (HB v (or_introl eq_refl)).
  pose proof (fpos_split_count (N.testbit VH) 0 NH) as C. rewrite FP, lenN_hpos in C.
  revert HB C. generalize (v / 2 ^ e_l c). intros q HB C.
  change (fpos (fun i => xorb true (N.testbit VH i)) 0 NH) with (fpos (fun i => negb (N.testbit VH i)) 0 NH). lia.
Qed.
Lemma icw_typed vs x : icw_build vs = Ok x -> icw_rep x vs -> t_icw x /\ v_size (ic_idx x) <> 0.
Proof.
  intros E (VI & H1 & H2 & H3 & H4 & H5 & _). pose proof H5 as (_ & _ & _ & _ & S).
  split; [|lia]. unfold icw_build in E. cbv zeta in E. apply bind_inv in E. destruct E as ([[cws idx] pos] & _ & E). apply bind_inv in E. destruct E as (idx' & _ & E).
  apply bind_inv in E. destruct E as (d1 & Ed & E). injection E as <-. cbn [ic_size ic_cw ic_idx ic_d1] in *.
  assert (LC : lenN vs <= clens vs).
  { clear - H3. induction H3 as [|v vs H F IH]; [vm_compute; discriminate|]. rewrite lenN_cons. unfold clens in *. cbn [map]. rewrite sumN_cons. destruct (clen_spec v H) as ((K & _) & _). lia. }
  split; [unfold is_u64; cbn [ic_size]; lia|]. split; [eapply vrep_typed; [exact H4|]; rewrite lenN_codes; lia|]. split; [eapply vrep_typed; [exact H5|lia]|].
  eapply d_build_vrep; [exact H5|lia|exact Ed].
Qed.
Lemma pss_typed vs order p : pss_build vs order = Ok p -> vs <> [] -> sumN vs < 2 ^ 64 -> lenN vs < 2 ^ 56 -> t_pss p /\ ef_size (ps_seq p) <> 0.
Proof.
  intros E NE HS HL. unfold pss_build in E. cbv zeta in E. apply bind_inv in E. destruct E as (last & El & E). apply bind_inv in E. destruct E as (s & Es & E). injection E as <-.
  cbn [ps_size ps_seq]. set (ps := prefix_sums 0 vs) in *. assert (LP : lenN ps = lenN vs) by apply lenN_prefix_sums.
  assert (NP : forall i, i < lenN vs -> nthN ps i = Some (sumN (firstn (N.to_nat (i + 1)) vs))).
  { intros i Hi. unfold ps. rewrite nthN_prefix_sums by lia. reflexivity. }
  assert (L0 : 0 < lenN vs) by (destruct vs; [congruence|rewrite lenN_cons; lia]).
  apply rd_inv in El. rewrite sub64_small in El by lia.
  assert (SP : sortedN ps).
  { intros i x y Hx Hy. pose proof (nthN_lt _ _ _ Hx). pose proof (nthN_lt _ _ _ Hy). rewrite NP in Hx, Hy by lia. injection Hx as <-. injection Hy as <-.
    destruct (nthN_Some vs (i + 1) ltac:(lia)) as (v & Hv). rewrite (firstn_succ vs (i + 1) v Hv), sumN_app. lia. }
  assert (LL : last = sumN vs).
  { rewrite NP in El by lia. injection El as <-. f_equal. rewrite LP. replace (N.to_nat (lenN vs - 1 + 1)) with (length vs) by (unfold lenN in *; lia). apply firstn_all. }
  destruct (ef_build_ok ps last (negb (order =? 0)) SP) as (e & Ee & Re).
  - apply Forall_forall. intros x Hx. apply In_nth_error in Hx. destruct Hx as (k & Hk). assert (Hk' : nthN ps (N.of_nat k) = Some x) by (unfold nthN; rewrite Nat2N.id; assumption).
    pose proof (nthN_lt _ _ _ Hk'). rewrite NP in Hk' by lia. injection Hk' as <-. rewrite LL. apply sumN_firstn_le.
  - lia.
  - lia.
  - intros Z. rewrite Z in LP. change (lenN (@nil N)) with 0 in LP. lia.
  - rewrite Es in Ee. injection Ee as <-. destruct (ef_typed _ _ _ _ Es Re) as (T & B).
    { intros Z. rewrite Z in LP. change (lenN (@nil N)) with 0 in LP. lia. }
    split; [|exact B]. split; [unfold is_u64; cbn [ps_size]; lia|exact T].
Qed.
Lemma ranks_typed kd vs order r : vs <> [] -> lenN vs < 2 ^ 31 -> Forall (fun v => v < 2 ^ 31) vs -> ranks_build kd vs order = Ok r ->
  t_ranks kd r /\ match r with RIC x => v_size (ic_idx x) <> 0 | RPS p => ef_size (ps_seq p) <> 0 end.
Proof.
  intros NE L F E. destruct kd; cbn [ranks_build] in E; apply bind_inv in E; destruct E as (s & E & E2); injection E2 as <-; cbn [t_ranks].
  - assert (CL : clens vs <= lenN vs * 64).
    { clear - F. unfold clens. induction vs as [|v vs IH]; [apply N.le_0_l|]. inversion F; subst. cbn [map]. rewrite sumN_cons, lenN_cons.
      pose proof (IH H2). destruct (clen_spec v ltac:(lia)) as (K & _). lia. }
    destruct (icw_build_ok vs) as (s' & E' & R); [lia|eapply Forall_impl; [|exact F]; cbn; intros; lia|].
    rewrite E in E'. injection E' as <-. eapply icw_typed; eauto.
  - assert (S : sumN vs <= lenN vs * 2 ^ 31).
    { clear - F. induction vs as [|v vs IH]; [apply N.le_0_l|]. inversion F; subst. rewrite sumN_cons, lenN_cons. pose proof (IH H2). lia. }
    eapply pss_typed; eauto; [nia|lia].
Qed.
Lemma ptr_typed ps e : ptr_build ps = Ok e -> sortedN ps -> ps <> [] -> Forall (fun p => p < 2 ^ 64) ps -> lenN ps < 2 ^ 56 -> t_ef e /\ ef_size e <> 0.
Proof.
  intros E S NE F L. destruct (ptr_build_ok ps S NE F L) as (e' & E' & R). rewrite E in E'. injection E' as <-.
  unfold ptr_build in E. apply bind_inv in E. destruct E as (last & _ & E). eapply ef_typed; eauto.
Qed.

(** ** hash functions and tables *)
Lemma Forall_set_nth {A} (P : A -> Prop) l i a : Forall P l -> P a -> Forall P (set_nth l i a).
Proof.
  intros F. revert i. induction F as [|x l H F IH]; intros [|i] HA; cbn [set_nth]; constructor; auto.
Qed.
Lemma mph_build_typed n dom order m : n < 2 ^ 64 -> dom < 2 ^ 62 -> mph_build n dom order = Ok m -> t_mphf m /\ lenN (m_bv m) = 3 * dom.
Proof.
  intros Hn Hd E. unfold mph_build in E. apply bind_inv in E. destruct E as (bv & E & E2). injection E2 as <-. unfold t_mphf. cbn [m_n m_dom m_bv].
  assert (G : Forall (fun x => x < 4) bv /\ lenN bv = 3 * dom).
  { refine (foldM_inv (fun bv => Forall (fun x => x < 4) bv /\ lenN bv = 3 * dom) mph_assign order _ _ _ _ E).
    - intros s [[v0 v1] v2] s' _ (F & L) E0. unfold mph_assign in E0. apply bind_inv in E0. destruct E0 as (a1 & _ & E0). apply bind_inv in E0. destruct E0 as (a2 & _ & E0). cbv zeta in E0.
      set (x := _ mod 3) in E0. assert (X : x < 3) by (apply N.mod_lt; discriminate). unfold wr in E0. destruct (v0 <? lenN s); [|discriminate]. injection E0 as <-.
      split.
      + apply Forall_set_nth; [assumption|]. destruct (x =? 0); lia.
      + rewrite <- L. unfold lenN. rewrite length_set_nth. reflexivity.
    - split; [apply Forall_rep; lia|apply lenN_rep]. }
  destruct G as (G1 & G2). split; [|exact G2]. split; [exact Hn|]. split; [unfold is_u64; lia|]. split; [exact G1|]. unfold is_u64. lia.
Qed.

Definition hsame (hb : N) (ws ws' : list N) : Prop := Forall (fun x => x < 2 ^ hb) ws -> Forall (fun x => x < 2 ^ hb) ws' /\ lenN ws' = lenN ws.
Lemma updh_typed hb ws i f ws' : updh hb ws i f = Ok ws' -> hsame hb ws ws'.
Proof.
  intros E F. unfold updh, upd in E. apply bind_inv in E. destruct E as (w & _ & E). unfold wr in E. destruct (i <? lenN ws); [|discriminate]. injection E as <-.
  split; [apply Forall_set_nth; [assumption|apply trunc_lt]|]. unfold lenN. rewrite length_set_nth. reflexivity.
Qed.
Lemma hsame_trans hb a b c : hsame hb a b -> hsame hb b c -> hsame hb a c.
Proof. intros H1 H2 F. destruct (H1 F) as (F1 & L1). destruct (H2 F1) as (F2 & L2). split; [assumption|congruence]. Qed.
Lemma hsame_refl hb a : hsame hb a a. Proof. intros F. auto. Qed.
Lemma updh_bind {A} hb ws i f (k : list N -> res A) r (Q : A -> Prop) : (forall ws', hsame hb ws ws' -> k ws' = Ok r -> Q r) -> bind (updh hb ws i f) k = Ok r -> Q r.
Proof. intros H E. apply bind_inv in E. destruct E as (ws' & E1 & E). eapply H; [eapply updh_typed; eauto|exact E]. Qed.
Lemma hcv_set_typed hb c i k v c' : hcv_set hb c i k v = Ok c' ->
  h_size c' = h_size c /\ h_width c' = h_width c /\ h_mask c' = h_mask c /\ hsame hb (h_bits c) (h_bits c').
Proof.
  intros E. unfold hcv_set in E. cbv zeta in E. apply bind_inv in E. destruct E as (ws & E & E2). injection E2 as <-. cbn [h_size h_width h_mask h_bits].
  split; [reflexivity|]. split; [reflexivity|]. split; [reflexivity|].
  assert (K : forall ws0 i0 f0, updh hb ws0 i0 f0 = Ok ws -> hsame hb (h_bits c) ws0 -> hsame hb (h_bits c) ws).
  { intros. eapply hsame_trans; [eassumption|]. eapply updh_typed; eauto. }
  destruct (negb _).
  - revert E. apply updh_bind. intros w1 S1. apply updh_bind. intros w2 S2. apply updh_bind. intros w3 S3. apply updh_bind. intros w4 S4. apply updh_bind. intros w5 S5.
    apply updh_bind. intros w6 S6.
    assert (S : hsame hb (h_bits c) w6) by (eauto 8 using hsame_trans). clear S1 S2 S3 S4 S5 S6.
    destruct (_ <? _).
    + apply updh_bind. intros w7 S7. apply updh_bind. intros w8 S8. assert (S' : hsame hb (h_bits c) w8) by (eauto using hsame_trans).
      destruct (_ && _).
      * apply updh_bind. intros w9 S9 E. apply (K _ _ _ E). eauto using hsame_trans.
      * intros E. injection E as <-. assumption.
    + intros E. injection E as <-. assumption.
  - revert E. apply updh_bind. intros w1 S1. apply updh_bind. intros w2 S2. apply updh_bind. intros w3 S3.
    assert (S : hsame hb (h_bits c) w3) by (eauto 8 using hsame_trans).
    destruct (_ && _).
    + apply updh_bind. intros w4 S4 E. apply (K _ _ _ E). eauto using hsame_trans.
    + intros E. injection E as <-. assumption.
Qed.
Lemma hcv_new_typed hb n w c : hb = 32 \/ hb = 64 -> n < 2 ^ 64 -> hcv_new hb n w = Ok c -> t_hcv hb c.
Proof.
  intros HB Hn E. unfold hcv_new in E. destruct (w =? 0); [discriminate|]. destruct (N.ltb_spec 64 w); [discriminate|]. injection E as <-.
  unfold t_hcv. cbn [h_size h_width h_mask h_bits]. unfold is_u64. split; [assumption|]. split; [lia|]. split.
  - unfold h_mask_of. destruct (_ || _); [vm_compute; reflexivity|]. unfold sub64. apply w64_lt.
  - assert (H64 : mul64 n (hb + w) < 2 ^ 64) by apply w64_lt.
    split; [apply Forall_rep; apply pow2_pos|]. unfold is_u64. rewrite lenN_rep. destruct HB; subst hb; apply N.div_lt_upper_bound; lia.
Qed.
Lemma svt_build_typed {K} hb (h : K -> triple) dom order keys vals t : hb = 32 \/ hb = 64 -> c_size vals < 2 ^ 64 -> lenN keys < 2 ^ 64 -> dom < 2 ^ 62 ->
  svt_build hb h dom order keys vals = Ok t -> t_svt hb t.
Proof.
  intros HB Hc Hk Hd E. unfold svt_build in E. apply bind_inv in E. destruct E as (data & E1 & E). apply bind_inv in E. destruct E as (m & E2 & E).
  apply bind_inv in E. destruct E as (vs & _ & E). apply bind_inv in E. destruct E as (data' & E3 & E). injection E as <-.
  split; [exact (proj1 (mph_build_typed _ _ _ _ Hk Hd E2))|]. cbn [sv_data].
  refine (foldM_inv (t_hcv hb) _ _ _ _ _ (hcv_new_typed _ _ _ _ HB Hc E1) E3).
  intros s iv s' _ (T1 & T2 & T3 & T4 & T5) E0. apply bind_inv in E0. destruct E0 as (k & _ & E0). apply bind_inv in E0. destruct E0 as (pos & _ & E0).
  destruct (hcv_set_typed _ _ _ _ _ _ E0) as (R1 & R2 & R3 & R4). unfold t_hcv. rewrite R1, R2, R3. destruct (R4 T4) as (F & L). split; [assumption|]. split; [assumption|]. split; [assumption|]. split; [assumption|]. unfold is_u64 in *. rewrite L. assumption.
Qed.
Lemma hash_domain_lt n : n < 2 ^ 63 -> hash_domain n < 2 ^ 62.
Proof. intros H. unfold hash_domain. apply N.div_lt_upper_bound; [lia|]. assert ((n * 123 + 99) / 100 < 3 * 2 ^ 62 - 2); [|lia]. apply N.div_lt_upper_bound; lia. Qed.
Lemma hash_domain_pos n : 0 < n -> 0 < hash_domain n.
Proof. intros H. unfold hash_domain. apply N.div_str_pos. assert (1 <= (n * 123 + 99) / 100); [|lia]. apply N.div_le_lower_bound; lia. Qed.

(** ** compact vectors written in place *)
Definition wsame (ws ws' : list N) : Prop := words ws -> words ws' /\ lenN ws' = lenN ws.
Lemma upd_typed ws i f ws' : (forall w, w < 2 ^ 64 -> f w < 2 ^ 64) -> upd ws i f = Ok ws' -> wsame ws ws'.
Proof.
  intros HF E W. unfold upd in E. apply bind_inv in E. destruct E as (w & R & E). apply rd_inv in R. unfold wr in E. destruct (i <? lenN ws); [|discriminate]. injection E as <-.
  split; [apply Forall_set_nth; [assumption|apply HF; exact (Forall_nthN _ _ _ _ W R)]|]. unfold lenN. rewrite length_set_nth. reflexivity.
Qed.
Lemma wsame_trans a b c : wsame a b -> wsame b c -> wsame a c.
Proof. intros H1 H2 F. destruct (H1 F) as (F1 & L1). destruct (H2 F1) as (F2 & L2). split; [assumption|congruence]. Qed.
Lemma land_lt64 w x : w < 2 ^ 64 -> N.land w x < 2 ^ 64.
Proof.
  intros H. replace (N.land w x) with (N.land (N.land w (N.ones 64)) x) by (rewrite N.land_ones, N.mod_small by assumption; reflexivity).
  rewrite <- N.land_assoc, (N.land_comm (N.ones 64)), N.land_assoc, N.land_ones. apply N.mod_lt. discriminate.
Qed.
Lemma shr_lt64 v s : v < 2 ^ 64 -> shr v s < 2 ^ 64.
Proof. intros H. unfold shr. rewrite N.shiftr_div_pow2. eapply N.le_lt_trans; [|exact H]. apply N.div_le_upper_bound; [apply N.pow_nonzero; lia|]. pose proof (pow2_pos s). nia. Qed.
Lemma store_field_typed ws pos mask v len ws' : v < 2 ^ 64 -> store_field ws pos mask v len = Ok ws' -> wsame ws ws'.
Proof.
  intros HV E. unfold store_field in E. cbv zeta in E.
  assert (A1 : forall x w, w < 2 ^ 64 -> N.land w (not64 x) < 2 ^ 64) by (intros; apply land_lt64; assumption).
  assert (A2 : forall x s w, w < 2 ^ 64 -> N.lor w (shl x s) < 2 ^ 64) by (intros; apply lor_lt; [assumption|apply w64_lt]).
  apply bind_inv in E. destruct E as (w1 & E1 & E). apply bind_inv in E. destruct E as (w2 & E2 & E).
  assert (S : wsame ws w2) by (eapply wsame_trans; (eapply upd_typed; [|eassumption]); cbv beta; auto).
  destruct (_ <? _); [|injection E as <-; assumption].
  apply bind_inv in E. destruct E as (ms & _ & E). apply bind_inv in E. destruct E as (x & E3 & E). apply bind_inv in E. destruct E as (w3 & E4 & E).
  unfold shrU in E3. destruct (_ <? 64); [|discriminate]. injection E3 as <-.
  eapply wsame_trans; [exact S|]. eapply wsame_trans; (eapply upd_typed; [|eassumption]); cbv beta; auto. intros w Hw. apply lor_lt; [assumption|apply shr_lt64; assumption].
Qed.
Definition t_cvb (n : N) (b : cvb) : Prop :=
  cb_size b = n /\ cb_width b <= 64 /\ words (cb_bits b) /\ lenN (cb_bits b) = words_for (mul64 n (cb_width b)).
Lemma cvb_new_typed n w b : cvb_new n w = Ok b -> t_cvb n b.
Proof.
  intros E. unfold cvb_new in E. destruct (N.ltb_spec 64 (cv_width w)); [discriminate|]. injection E as <-. unfold t_cvb. cbn [cb_size cb_width cb_bits].
  split; [reflexivity|]. split; [assumption|]. split; [apply words_rep, pow2_pos|apply lenN_rep].
Qed.
Lemma cvb_set_typed n b i v b' : v < 2 ^ 64 -> t_cvb n b -> cvb_set b i v = Ok b' -> t_cvb n b'.
Proof.
  intros HV (H1 & H2 & H3 & H4) E. unfold cvb_set in E. cbv zeta in E. apply bind_inv in E. destruct E as (ws & E & E2). injection E2 as <-.
  unfold t_cvb. cbn [cb_size cb_width cb_bits]. destruct (store_field_typed _ _ _ _ _ _ HV E H3) as (F & L). split; [assumption|]. split; [assumption|]. split; [assumption|]. congruence.
Qed.
Lemma width_mask_lt j w : width_mask j w < 2 ^ 64.
Proof.
  unfold width_mask, sub64. apply lor_lt; [|apply w64_lt]. destruct (w =? 64); vm_compute; reflexivity.
Qed.
Lemma cv_of_builder_typed n b : n < 2 ^ 64 -> t_cvb n b -> t_cv (cv_of_builder b).
Proof.
  intros Hn (H1 & H2 & H3 & H4). unfold cv_of_builder, t_cv, is_u64. cbn [c_size c_width c_mask c_bits]. split; [congruence|]. split; [lia|].
  split; [apply width_mask_lt|]. eapply is_vec_words; eauto. apply w64_lt.
Qed.
Lemma umpht_build_typed h dom order from to t : lenN from < 2 ^ 64 -> dom < 2 ^ 62 -> 0 < dom -> lenN to < 2 ^ 64 -> Forall (fun v => v < 2 ^ 64) to ->
  umpht_build h dom order from to = Ok t -> t_umph t /\ m_bv (ut_h t) <> [].
Proof.
  intros Hf Hd Hd0 Ht F E. unfold umpht_build in E. apply bind_inv in E. destruct E as (m & Em & E). apply bind_inv in E. destruct E as (back & _ & E).
  apply bind_inv in E. destruct E as (b & Eb & E). apply bind_inv in E. destruct E as (b' & Ef & E). injection E as <-. unfold t_umph. cbn [ut_h ut_values].
  destruct (mph_build_typed _ _ _ _ Hf Hd Em) as (T & L). split; [split; [assumption|]|intros Z; rewrite Z in L; change (lenN (@nil N)) with 0 in L; lia].
  apply (cv_of_builder_typed (lenN to)); [assumption|]. refine (foldM_inv (t_cvb (lenN to)) _ _ _ _ _ (cvb_new_typed _ _ _ Eb) Ef).
  intros s it s' HI T0 E0. apply bind_inv in E0. destruct E0 as (x & _ & E0). apply bind_inv in E0. destruct E0 as (pos & _ & E0).
  eapply cvb_set_typed; [|exact T0|exact E0]. destruct it as [a v]. apply in_combine_r in HI. rewrite Forall_forall in F. apply F. exact HI.
Qed.

(** ** fast_ef_sequence *)
Lemma fill_node_typed vals q low samp i q' low' samp' : Forall (fun v => v < 2 ^ 64) vals -> Forall is_u64 samp -> fill_node vals (q, low, samp) i = Ok (q', low', samp') -> Forall is_u64 samp'.
Proof.
  intros V F E. unfold fill_node in E. apply bind_inv in E. destruct E as ([l h] & _ & E). cbv zeta in E. apply bind_inv in E. destruct E as (x & Ex & E). injection E as _ _ <-.
  apply Forall_app. split; [assumption|]. constructor; [|constructor]. apply rd_inv in Ex. exact (Forall_nthN _ _ _ _ V Ex).
Qed.
Lemma fill_samplings_typed lo hi height vals samp samp' : Forall (fun v => v < 2 ^ 64) vals -> Forall is_u64 samp -> fill_samplings lo hi height vals samp = Ok samp' -> Forall is_u64 samp'.
Proof.
  intros V F E. unfold fill_samplings in E. apply bind_inv in E. destruct E as ([[q low] s1] & E & E2). injection E2 as <-.
  refine (foldM_inv (fun s : list (N * N) * N * list N => Forall is_u64 (snd s)) _ _ _ ([(lo, hi)], 0, samp) (q, low, s1) F E).
  intros s h s' _ Hs E0. apply bind_inv in E0. destruct E0 as (nodes & _ & E0).
  refine (foldM_inv (fun s : list (N * N) * N * list N => Forall is_u64 (snd s)) _ _ _ _ _ Hs E0).
  intros [[q1 l1] sa] i [[q2 l2] sb] _ H1 E1. cbn [snd] in *. exact (fill_node_typed _ _ _ _ _ _ _ _ V H1 E1).
Qed.
Lemma samp_step_typed vals b from to samp e b' from' to' samp' : Forall (fun v => v < 2 ^ 64) vals -> Forall is_u64 samp ->
  samp_step vals (b, from, to, samp) e = Ok (b', from', to', samp') -> Forall is_u64 samp'.
Proof.
  intros V F E. unfold samp_step in E. cbv zeta in E. destruct (_ <=? _); [|injection E as _ _ _ <-; assumption].
  apply bind_inv in E. destruct E as (prev & Ep & E). apply bind_inv in E. destruct E as (s1 & E1 & E). injection E as _ _ _ <-.
  eapply fill_samplings_typed; [exact V| |exact E1]. apply Forall_app. split; [assumption|]. constructor; [|constructor].
  destruct (b =? 0); [injection Ep as <-; vm_compute; reflexivity|]. apply rd_inv in Ep. exact (Forall_nthN _ _ _ _ V Ep).
Qed.
Theorem fef_build_typed h order ids ptrs M f : pointers_for ptrs (lenN ids) -> sorted_in_ranges ids ptrs -> ids <> [] -> lenN ids < 2 ^ 56 ->
  Forall (fun v => v <= M) ids -> lenN ptrs * M < 2 ^ 64 -> lenN ptrs < 2 ^ 63 ->
  (long_starts 128 ptrs = [] \/ valid_order (hash_domain (lenN (long_starts 128 ptrs))) h (long_starts 128 ptrs) order) ->
  fef_build h order ids ptrs = Ok f -> t_fef f /\ f_size f <> 0.
Proof.
  intros P S NE Hn HF HM HP HV E. destruct (fef_build_ok h order ids ptrs M P S NE Hn HF HM HV) as (f' & vs & E' & R). rewrite E in E'. injection E' as <-.
  destruct (fef_values_ok ids ptrs M P ltac:(lia) HM HF) as (vs' & EV & (VL & _) & V64).
  unfold fef_build in E. rewrite EV in E. cbn [bind] in E. apply bind_inv in E. destruct E as (u & Eu & E). apply bind_inv in E. destruct E as ([off samp] & ES & E).
  apply bind_inv in E. destruct E as (c & EC & E). injection E as <-. destruct R as (RS & RC & (VL' & _) & _). cbn [f_size f_core] in *.
  assert (L0 : 0 < lenN ids) by (destruct ids; [congruence|rewrite lenN_cons; lia]).
  split; [|cbn [f_size]; lia].
  assert (TC : t_efc c).
  { eapply efc_typed; eauto. }
  split; [unfold is_u64; cbn [f_size]; lia|]. cbn [f_off f_samp f_core].
  unfold fef_samplings in ES. pose proof P as (P0 & P1 & P2 & P3). destruct ptrs as [|p0 rest]; [discriminate|]. assert (p0 = 0) as -> by (change (Some p0 = Some 0) in P0; congruence).
  apply bind_inv in ES. destruct ES as ([[[b' from] to] samp'] & EF & ES). apply bind_inv in ES. destruct ES as (off' & EO & ES). injection ES as <- <-.
  destruct (samp_steps_ok vs' ltac:(lia) rest [] 0 [] [] []) as ([[[b2 from2] to2] samp2] & E2 & I1 & I2 & I3 & I4 & I5).
  - unfold sinv. cbn [filter map]. split; [reflexivity|]. split; [reflexivity|]. change (lenN (@nil N)) with 0. split; [lia|]. split; [left; reflexivity|]. intros lo hi [].
  - exact P3.
  - apply Forall_forall. intros p Hp. apply In_nth_error in Hp. destruct Hp as (k & Hk). rewrite VL. apply (ptrs_le_n (0 :: rest) (lenN ids) (N.of_nat k + 1)); [assumption|].
    rewrite nthN_cons. destruct (N.eqb_spec (N.of_nat k + 1) 0); [lia|]. replace (N.of_nat k + 1 - 1) with (N.of_nat k) by lia. unfold nthN. rewrite Nat2N.id. assumption.
  - rewrite EF in E2. injection E2 as <- <- <- <-.
    assert (LS : b' <= lenN ids).
    { assert (B : forall rest b f t s s', foldM (samp_step vs') rest (b, f, t, s) = Ok s' -> Forall (fun p => p <= lenN ids) (b :: rest) -> fst (fst (fst s')) <= lenN ids).
      { clear. induction rest as [|e rest IH]; intros b f t s s' H F; [cbn in H; injection H as <-; inversion F; assumption|].
        cbn [foldM] in H. inversion F as [|? ? _ F']; subst. destruct (samp_step vs' (b, f, t, s) e) as [[[[b1 f1] t1] s1]| |] eqn:E; cbn [bind] in H; try discriminate.
        assert (b1 = e). { unfold samp_step in E. destruct (_ <=? _); [|congruence].
          destruct (if b =? 0 then _ else _); cbn [bind] in E; try discriminate. destruct (fill_samplings _ _ _ _ _); cbn [bind] in E; try discriminate. congruence. }
        subst b1. eapply IH; eauto. }
      specialize (B _ _ _ _ _ _ EF). cbn [fst] in B. apply B. apply Forall_forall. intros p Hp. apply In_nth_error in Hp. destruct Hp as (k & Hk).
      apply (ptrs_le_n (0 :: rest) (lenN ids) (N.of_nat k)); [assumption|]. unfold nthN. rewrite Nat2N.id. assumption. }
    split; [|split; [|exact TC]].
    + destruct from as [|f0 from']; [injection EO as <-; exact I|]. set (from := f0 :: from') in *. apply bind_inv in EO. destruct EO as (t & Et & E3). injection E3 as <-. cbn [t_opt].
      destruct I4 as [->|(back & J1 & J2 & J3)]; [discriminate|].
      assert (LT : lenN to = lenN from) by (unfold lenN; lia). assert (0 < lenN from) by (unfold from; rewrite lenN_cons; lia).
      eapply umpht_build_typed; [| | | | |exact Et]; [lia|apply hash_domain_lt; lia|apply hash_domain_pos; assumption|lia|].
      eapply Forall_impl; [|exact J2]. cbv beta. intros; lia.
    + split; [|unfold is_u64; lia].
      refine (foldM_inv (fun s : N * list N * list N * list N => Forall is_u64 (snd s)) _ _ _ (0, [], [], []) (b', from, to, samp') (Forall_nil _) EF).
      intros [[[b1 f1] t1] s1] e [[[b3 f3] t3] s3] _ H1 E1. cbn [snd] in *. exact (samp_step_typed _ _ _ _ _ _ _ _ _ _ V64 H1 E1).
Qed.
