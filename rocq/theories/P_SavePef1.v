(** * uniform_pef: a built sequence holds values of its types; it is restored *)
From Verif Require Import Prelude BitFacts M_Word P_Word M_Bits Spec P_Bits P_Builder P_EF M_CompactVector P_CompactVector M_DArray M_EF
  M_HashVec M_Mph M_FastEF M_SeqColl M_Pef P_Pef1 P_Pef2 P_Pef3 P_Pef4 P_Pef5 P_Pef6 Spec_Pef M_Trie M_TriePef
  M_Save Spec_Save P_Save P_Typed M_SavePef Spec_SavePef.

Lemma pef_ok f : t_pef f -> restores save_pef load_pef f.
Proof.
  intros (H1 & H2 & H3 & H4 & H5 & H6) tail. unfold save_pef, load_pef. rewrite <- ?app_assoc.
  rewrite pod8_ok by exact H1. cbn [bind]. cbv beta iota. rewrite pod8_ok by exact H2. cbn [bind]. cbv beta iota. rewrite pod8_ok by exact H3. cbn [bind]. cbv beta iota.
  rewrite cv_ok by exact H4. cbn [bind]. cbv beta iota. rewrite bv_ok by exact H5. cbn [bind]. cbv beta iota. rewrite pod1_ok by exact H6. cbn [bind]. destruct f; reflexivity.
Qed.
Lemma t_pef0 : t_pef pef0.
Proof. split; [apply u64_0|]. split; [apply u64_0|]. split; [apply u64_0|]. split; [apply t_cv0|]. split; [apply t_bv0|]. reflexivity. Qed.

(** ** what pef_write returns *)
Lemma write_members vals U order f : pef_write vals U order = Ok f ->
  pf_size f = lenN vals /\ pf_univ f = U /\ pf_log f = (if 2 <? order then 7 else 6) /\ (pf_parts f = 1 -> pf_ubs f = cv_of_builder cvb_empty).
Proof.
  intros E. unfold pef_write in E. destruct vals as [|v0 vals0] eqn:EV; [discriminate|]. rewrite <- EV in *. cbv zeta in E.
  apply bind_inv in E. destruct E as (parts & EP & E). destruct (N.eqb_spec parts 1) as [->|NP].
  - apply bind_inv in E. destruct E as (b1 & E1 & E). apply bind_inv in E. destruct E as (b2 & E2 & E). apply bind_inv in E. destruct E as (b3 & E3 & E).
    injection E as <-. cbn [pf_size pf_univ pf_log pf_parts pf_ubs]. auto.
  - apply bind_inv in E. destruct E as ([[[s0 s1] s2] s3] & E1 & E). cbv beta iota in E. apply bind_inv in E. destruct E as (u1 & E2 & E). apply bind_inv in E. destruct E as (u2 & E3 & E).
    apply bind_inv in E. destruct E as (b1 & E4 & E). apply bind_inv in E. destruct E as (b2 & E5 & E). apply bind_inv in E. destruct E as (b3 & E6 & E).
    injection E as <-. cbn [pf_size pf_univ pf_log pf_parts pf_ubs]. split; [reflexivity|]. split; [reflexivity|]. split; [reflexivity|]. intros; contradiction.
Qed.
Lemma empty_ubs_typed : t_cv (cv_of_builder cvb_empty).
Proof. unfold t_cv. cbn. split; [reflexivity|]. split; [reflexivity|]. split; [reflexivity|]. apply is_vec0. Qed.

Theorem pef_typed vals order f : 0 < lenN vals < 2 ^ 40 -> sortedN vals -> Forall (fun x => x < 2 ^ 56) vals -> span_ok vals order ->
  pef_write vals (va vals (lenN vals - 1)) order = Ok f -> t_pef f /\ pf_size f <> 0.
Proof.
  intros Hn HS HF SP E. destruct (write_members _ _ _ _ E) as (M1 & M2 & M3 & M4).
  set (log := if 2 <? order then 7 else 6) in *. assert (Hlog : log = 6 \/ log = 7) by (unfold log; destruct (2 <? order); auto).
  pose proof (va_lt vals HF (lenN vals - 1)) as VL. unfold span_ok in SP. rewrite piece_log in SP. fold log in SP.
  destruct (is_parts_exists vals log Hlog Hn) as (parts & HP). pose proof (psz_bound log Hlog) as PB. pose proof HP as (Q1 & Q2 & Q3).
  assert (V01 : va vals 0 <= va vals (lenN vals - 1)) by (apply (va_le vals log Hlog Hn HS); lia).
  assert (UU : is_u64 (va vals (lenN vals - 1))) by (unfold is_u64; change (2 ^ 64) with (2 ^ 56 * 256); lia).
  assert (UN : is_u64 (lenN vals)) by (unfold is_u64; change (2 ^ 64) with (2 ^ 40 * 2 ^ 24); lia).
  assert (UL : is_u8 log) by (unfold is_u8; destruct Hlog as [-> | ->]; reflexivity).
  assert (G : is_u64 (pf_parts f) /\ t_cv (pf_ubs f) /\ t_bv (pf_data f)).
  2: { destruct G as (G1 & G2 & G3). unfold t_pef. rewrite M1, M2, M3. split; [|lia]. auto 7. }
  destruct (N.eq_dec parts 1) as [P1|P1].
  1: destruct (N.eq_dec (lenN vals) 1) as [N1|N1]; [|destruct (N.eq_dec (va vals 0) (va vals (lenN vals - 1))) as [EQ|NE]].
  2: { destruct (eq_build vals log Hlog Hn HS HF parts HP 0 0 ltac:(reflexivity) P1 ltac:(lia) EQ order eq_refl) as (f' & l1 & e & W & SZ & I & (G1 & G2 & _) & _).
       rewrite E in W. injection W as <-.
       assert (PF : pf_parts f = 1).
       { unfold pef_write in E. destruct vals as [|v0 vals0] eqn:EV; [change (lenN (@nil N)) with 0 in Hn; lia|]. rewrite <- EV in *. cbv zeta in E. fold log in E.
         assert (CD : ceil_div (lenN vals) (shl 1 log) = Ok 1).
         { replace (shl 1 log) with (2 ^ log) by (clear - Hlog; destruct Hlog as [-> | ->]; reflexivity). unfold ceil_div. destruct (N.eqb_spec (2 ^ log) 0) as [Z|_]; [lia|]. f_equal.
           rewrite add64_small by (change (2 ^ 64) with (2 ^ 40 * 2 ^ 24); lia). rewrite sub64_small by (change (2 ^ 64) with (2 ^ 40 * 2 ^ 24); lia).
           symmetry. rewrite P1 in *. apply (N.div_unique _ _ _ (lenN vals - 1)); lia. }
         rewrite CD in E. cbn [bind] in E. cbn [N.eqb Pos.eqb] in E.
         apply bind_inv in E. destruct E as (b1 & _ & E). apply bind_inv in E. destruct E as (b2 & _ & E). apply bind_inv in E. destruct E as (b3 & _ & E). injection E as <-. reflexivity. }
       split; [rewrite PF; reflexivity|]. split; [rewrite (M4 PF); apply empty_ubs_typed|]. eapply vrep_typed; [exact G1|]. change (2 ^ 64) with (4 * 2 ^ 62). lia. }
  all: destruct (write_ok vals (va vals (lenN vals - 1)) order 0 0 Hn HS HF ltac:(reflexivity) ltac:(reflexivity)) as (parts' & f' & Bo & e & i0 & PA & EB & HPR & EI & PS & _);
    [change (2 ^ 57) with (2 * 2 ^ 56); lia|cbv zeta; fold log; intros LE; split; [|apply SP; exact LE]|].
  1: { left; exact N1. }
  2: { right; left; lia. }
  3: { exfalso. assert (parts = 1); [|contradiction]. destruct (N.lt_ge_cases 1 parts) as [M|M]; [|lia]. exfalso. assert (1 * 2 ^ log <= (parts - 1) * 2 ^ log) by (apply N.mul_le_mono_r; lia). lia. }
  all: rewrite E in EB; injection EB as <-; fold log in HPR, PA; pose proof (rp_parts _ _ _ _ _ _ HPR) as RP; destruct PA as (A1 & A2 & A3);
    destruct (rp_data _ _ _ _ _ _ HPR 0 ltac:(lia)) as (l1 & l2 & D1 & D2 & _);
    (assert (TD : t_bv (pf_data f)) by (eapply vrep_typed; [exact D1|change (2 ^ 64) with (4 * 2 ^ 62); lia]));
    (split; [|split; [|exact TD]]).
  1, 3, 5: unfold is_u64; rewrite RP; clear - A1 A2 A3 PB Hn; assert ((parts' - 1) * 1 <= (parts' - 1) * 2 ^ log) by (apply N.mul_le_mono_l; lia); change (2 ^ 64) with (2 ^ 40 * 2 ^ 24); lia.
  all: destruct (N.eq_dec (pf_parts f) 1) as [PF|PF]; [rewrite (M4 PF); apply empty_ubs_typed|]; refine (cv_holds_typed _ _ (proj1 (rp_ubs _ _ _ _ _ _ HPR _))); lia.
Qed.
