(** * uniform_pef built with a universe: operator[] on a short sequence whose values are all equal

    init() then computes an upper bound of -1 and sets up the partition with universe 0,
    while it was written with universe 1: the low bits are looked for one place earlier,
    but there are none (width 0), so operator[] is not affected. *)
From Verif Require Import Prelude BitFacts M_Word P_Word M_Bits Spec P_Bits P_Builder P_Cursor P_BitProg P_EF P_HashVec P_CompactVector
  M_CompactVector M_Codes Spec_Codes P_Codes M_FastEF M_Pef P_Pef1 P_Pef2 P_Pef3 P_Pef4 P_Pef5 Spec_Pef.

(** the same cursor, with the offsets [o] and the value [x] *)
Definition swap (o : cof) (x : N) (c : cen) : cen := mkcen o (ce_pos c) x (ce_hi c).

Lemma swap_move v pad c O' x p d : of_n O' = of_n (ce_of c) -> of_ho O' = of_ho (ce_of c) -> of_lb O' = 0 -> of_lb (ce_of c) = 0 ->
  of_mask O' = 0 -> of_mask (ce_of c) = 0 -> p < of_n O' -> p < 256 -> (ce_pos c < of_n O' -> x = ce_val c) ->
  ce_pos c <= of_n O' ->
  (exists w, word56 v pad (of_lo O') = Ok w) -> cen_move v pad c p = Ok d -> cen_move v pad (swap O' x c) p = Ok (swap O' (ce_val d) d).
Proof.
  intros A1 A2 A3 A4 A5 A6 Hp Hp2 Hx Hc (w & Hw) E. 
  pose proof (eq_refl : ce_of (swap O' x c) = O') as W1. pose proof (eq_refl : ce_pos (swap O' x c) = ce_pos c) as W2. pose proof (eq_refl : ce_hi (swap O' x c) = ce_hi c) as W3.
  pose proof (eq_refl : ce_val (swap O' x c) = x) as W4. assert (W5 : swap O' x c = mkcen O' (ce_pos c) x (ce_hi c)) by reflexivity.
  set (c' := swap O' x c) in *. clearbody c'. unfold cen_move in *. rewrite W1, W2.
  assert (LO : forall q, cen_low v pad O' q = Ok 0). { intros q. unfold cen_low. rewrite A3, A5, N.mul_0_r, N.add_0_r, Hw. cbn [bind]. rewrite N.land_0_r. reflexivity. }
  assert (LC : forall q y, cen_low v pad (ce_of c) q = Ok y -> y = 0).
  { intros q y H. unfold cen_low in H. rewrite A6 in H. destruct (word56 v pad (of_lo (ce_of c) + q * of_lb (ce_of c))) as [z| |]; cbn [bind] in H; try discriminate H. rewrite N.land_0_r in H. congruence. }
  assert (JO : forall h q y, cen_join O' h q y = cen_join (ce_of c) h q y). { intros. unfold cen_join. rewrite A2, A3, A4. reflexivity. }
  assert (NE : (p =? of_n O') = false) by (apply N.eqb_neq; lia).
  destruct (N.eqb_spec p (ce_pos c)) as [EP|EP].
  - injection E as <-. rewrite W5. unfold swap. f_equal. f_equal. apply Hx. lia.
  - destruct ((ce_pos c <? p) && (sub64 p (ce_pos c) <=? pef_linear)).
    + rewrite NE. rewrite <- A1, NE in E. unfold hi_of in *. rewrite W3. destruct (ce_hi c) as [it|]; cbn [bind] in *; [|discriminate].
      destruct (uit_nexts _ v it) as [it'| |]; cbn [bind] in *; try discriminate. rewrite LO. destruct (cen_low v pad (ce_of c) p) as [y| |] eqn:EL; cbn [bind] in *; try discriminate.
      injection E as <-. rewrite (LC _ _ EL). unfold swap. cbn [ce_pos ce_val ce_hi]. rewrite JO. reflexivity.
    + unfold cen_slow_move in *. rewrite W1, W2. rewrite NE. rewrite <- A1, NE in E.
      assert (Z : shr p log_sampling1 = 0) by (rewrite shr_div; unfold log_sampling1; apply N.div_small; change (2 ^ 8) with 256; lia).
      rewrite Z in *. unfold hi_of, cen_pointer in *. cbn [N.eqb] in *. rewrite A2, W3.
      cbv zeta in *. destruct (if (ce_pos c <? p) && _ then _ else _) as [[he k]| |]; cbn [bind] in *; try discriminate.
      destruct (uit_skip v he k) as [it'| |]; cbn [bind] in *; try discriminate. destruct (uit_next v it') as [[h it2]| |]; cbn [bind] in *; try discriminate.
      rewrite LO. destruct (cen_low v pad (ce_of c) p) as [y| |] eqn:EL; cbn [bind] in *; try discriminate.
      injection E as <-. rewrite (LC _ _ EL). unfold swap. cbn [ce_pos ce_val ce_hi]. rewrite JO. reflexivity.
Qed.

Section Equal.
Variable vals : list N.
Variable log : N.
Hypothesis Hlog : log = 6 \/ log = 7.
Hypothesis Hn : 0 < lenN vals < 2 ^ 40.
Hypothesis HS : sortedN vals.
Hypothesis HF : Forall (fun x => x < 2 ^ 56) vals.
Variable parts : N.
Hypothesis Hparts : is_parts vals log parts.
Variables x0 x1 : N.
Hypothesis Hx0 : x0 < 2 ^ 64.
Hypothesis P1 : parts = 1.
Hypothesis HB : 1 < lenN vals.
Hypothesis HE : va vals 0 = va vals (lenN vals - 1).
Notation n := (lenN vals).
Notation psz := (2 ^ log).
Notation U := (va vals (lenN vals - 1)).

(** the state of the enumerator *)
Definition eqst (f : pef) (l1 : list bool) (e : pen) : Prop :=
  vrepl (pf_data f) (l1 ++ cef_code 1 (cur vals log 0) ++ []) /\ lenN (l1 ++ cef_code 1 (cur vals log 0) ++ []) < 2 ^ 62 /\
  en_begin e = 0 /\ en_end e = n /\ en_base e = U /\
  exists c i, cst (pf_data f) l1 [] 1 (cur vals log 0) c i /\ i <= n /\
    en_cef e = swap (cof_of (lenN l1) 0 n) (ce_val (en_cef e)) c /\ (i < n -> ce_val (en_cef e) = ce_val c).

Lemma eq_facts : ubl vals log 0 = U /\ ubl vals log 1 = U /\ pu vals log 0 = 1 /\ plen vals log 0 = n /\ lenN (cur vals log 0) = n /\ n <= 128 /\ back vals = 0.
Proof.
  pose proof (psz_bound log Hlog) as PB. pose proof Hparts as (Q1 & Q2 & Q3). rewrite P1, N.mul_1_l in Q1.
  assert (U0 : ubl vals log 0 = U) by (rewrite <- HE; unfold ubl; f_equal; lia).
  assert (U1 : ubl vals log 1 = U) by (unfold ubl; f_equal; lia).
  split; [exact U0|]. split; [exact U1|]. split; [unfold pu; replace (0 + 1) with 1 by lia; rewrite U0, U1; lia|]. split; [unfold plen; lia|].
  split; [rewrite lenN_cur; unfold plen; lia|]. split; [lia|]. unfold back. lia.
Qed.

Lemma eq_get f l1 e p v : eqst f l1 e -> nthN vals p = Some v -> exists e', pef_get (mkpads [x0] [x1]) f e p = Ok (v, e') /\ eqst f l1 e'.
Proof.
  intros (A1 & A2 & A3 & A4 & A5 & c & i & C & Hi & EC & EV) Hv. pose proof (nthN_lt _ _ _ Hv) as L. destruct eq_facts as (F1 & F2 & F3 & F4 & F5 & F6 & F7).
  assert (VE : forall q w, nthN vals q = Some w -> w = U).
  { intros q w Hw. pose proof (nthN_lt _ _ _ Hw) as Lq. rewrite (va_nth vals) in Hw by exact Lq. injection Hw as <-.
    pose proof (va_le vals log Hlog Hn HS 0 q ltac:(lia) Lq). pose proof (va_le vals log Hlog Hn HS q (n - 1) ltac:(lia) ltac:(lia)). lia. }
  assert (CU : forall q, q < n -> nthN (cur vals log 0) q = Some 0).
  { intros q Hq. rewrite nth_cur by (try assumption; lia). f_equal. rewrite F1, N.mul_0_l, N.add_0_l. rewrite (VE q (va vals q) (va_nth vals q Hq)). lia. }
  unfold pef_get, pef_move. rewrite A3, A4. destruct (N.leb_spec 0 p); [|lia]. destruct (N.ltb_spec p n); [|lia]. cbn [andb].
  rewrite sub64_small by lia. rewrite N.sub_0_r.
  assert (HFC : Forall (fun y => y < 1) (cur vals log 0)) by (rewrite <- F3; apply (cur_lt vals log Hlog Hn HS parts); lia).
  assert (HSC : sortedN (cur vals log 0)) by (apply (cur_sorted vals log Hlog Hn HS parts); lia).
  destruct (cen_move_ok (pf_data f) l1 [] 1 (cur vals log 0) x0 A1 ltac:(lia) ltac:(reflexivity) HSC HFC Hx0 A2 c i p C ltac:(lia)) as (d & ED & CD).
  pose proof C as (C1 & C2 & C3).
  assert (LB1 : clb 1 n = 0) by (unfold clb; destruct (N.ltb_spec n 1); [lia|reflexivity]).
  assert (LB0 : clb 0 n = 0) by (unfold clb; destruct (N.ltb_spec n 0); [lia|reflexivity]).
  assert (SM : cen_move (pf_data f) [x0] (swap (cof_of (lenN l1) 0 n) (ce_val (en_cef e)) c) p = Ok (swap (cof_of (lenN l1) 0 n) (ce_val d) d)).
  { apply swap_move; rewrite ?C1; cbn [of_n of_ho of_lb of_mask of_lo cof_of]; rewrite ?C2, ?F5, ?LB0, ?LB1; try reflexivity; try lia; try exact EV; try exact ED.
    - destruct (word56_ok (pf_data f) _ _ x0 (lenN l1 + chl 0 n) 0 A1 Hx0 ltac:(lia)) as (w & Ew & _); [|exists w; exact Ew].
      rewrite !lenN_app, lenN_cef_code, F5. unfold chl. rewrite LB0, LB1. change (0 / 2 ^ 0) with 0. change (1 / 2 ^ 0) with 1. lia. }
  rewrite EC. change (pd_data {| pd_data := [x0]; pd_ubs := [x1] |}) with [x0]. rewrite SM. cbn [bind].
  destruct CD as (D1 & D2 & D3). assert (DV : ce_val d = 0).
  { destruct D3 as [(it & T1 & _)|(T1 & _)]; [rewrite CU in T1 by lia; congruence|lia]. }
  cbn [swap ce_val]. rewrite A5, DV. pose proof (va_lt vals HF (n - 1)) as VL. rewrite add64_small by (change (2 ^ 64) with (2 ^ 56 * 256); lia). rewrite N.add_0_r, (VE p v Hv).
  eexists. split; [reflexivity|]. unfold eqst, with_cef. cbn [en_begin en_end en_base en_cef ce_val swap]. split; [exact A1|]. split; [exact A2|]. split; [exact A3|]. split; [exact A4|]. split; [exact A5|].
  exists d, p. split; [split; [exact D1|split; [exact D2|exact D3]]|]. split; [lia|]. split; [reflexivity|intros _; symmetry; exact DV].
Qed.

Lemma eq_build order : log = (if 2 <? order then 7 else 6) ->
  exists f l1 e, pef_write vals U order = Ok f /\ pf_size f = n /\ pef_init (mkpads [x0] [x1]) f = Ok e /\ eqst f l1 e /\ en_pos e = 0 /\ en_first e = true.
Proof.
  intros HO. destruct eq_facts as (F1 & F2 & F3 & F4 & F5 & F6 & F7). pose proof (psz_bound log Hlog) as PB. pose proof Hparts as (Q1 & Q2 & Q3). rewrite P1, N.mul_1_l in Q1.
  pose proof (va_lt vals HF (n - 1)) as VL. change (2 ^ 56) with 72057594037927936 in VL.
  set (ub := ceil_log2 (U + 1)). assert (UBL : ub <= 57) by (apply ceil_log2_lt; change (2 ^ 57) with 144115188075855872; lia).
  assert (VU : va vals 0 < 2 ^ ub) by (pose proof (lt_ceil_log2 U); unfold ub; lia).
  assert (SC : cur vals log 0 = map (fun v => sub64 v (va vals 0)) vals).
  { rewrite HE, <- F1. rewrite <- (slice_cur vals log Hlog Hn HS HF parts 0) by lia. f_equal. unfold slice. rewrite N.mul_0_l. change (skipn (N.to_nat 0) vals) with vals. apply firstn_all2. unfold lenN in Q1. lia. }
  assert (LC : last (cur vals log 0) 0 = 0). { rewrite (last_cur vals log Hlog Hn parts Hparts 0) by lia. rewrite F3. reflexivity. }
  destruct (append_repl (bvb_new 0 false) [] (va vals 0) ub) as (b1 & E1 & R1).
  { apply bvb_new0_rep. } { lia. } { exact VU. } { change (lenN (@nil bool)) with 0. lia. }
  cbn [app] in R1. assert (LB1 : lenN (bits_of (va vals 0) ub) = ub) by apply lenN_bits_of.
  destruct (write_delta_ok b1 _ 0 R1) as (b2 & E2 & R2); [reflexivity|rewrite LB1; change (lenN (delta_code 0)) with 1; lia|].
  set (h := bits_of (va vals 0) ub ++ delta_code 0) in *.
  assert (SL : lenN h < 2000). { unfold h. rewrite lenN_app, LB1. change (lenN (delta_code 0)) with 1. lia. }
  destruct (cef_write_ok b2 h (cur vals log 0) 1 R2) as (b3 & E3 & R3).
  { lia. } { reflexivity. } { lia. } { rewrite <- F3. apply (cur_lt vals log Hlog Hn HS parts). lia. } { apply (cur_sorted vals log Hlog Hn HS parts). lia. }
  set (f := mkpef n U parts (cv_of_builder cvb_empty) (bv_build b3) log).
  assert (WR : pef_write vals U order = Ok f).
  { unfold pef_write.
    assert (V0 : exists x l, vals = x :: l /\ x = va vals 0).
    { pose proof (va_nth vals 0 ltac:(lia)) as V0. clear - V0. destruct vals as [|x l]; [discriminate V0|]. exists x, l. split; reflexivity. }
    destruct V0 as (x & l & EV & EX). rewrite EV at 1. rewrite EX. cbv zeta. rewrite <- HO.
    assert (PS : shl 1 log = psz). { clear - Hlog. destruct Hlog as [-> | ->]; reflexivity. }
    rewrite PS.
    assert (CD : ceil_div n psz = Ok parts).
    { unfold ceil_div. destruct (N.eqb_spec psz 0) as [Z|_]; [lia|]. f_equal. rewrite add64_small by lia. rewrite sub64_small by lia.
      rewrite P1. symmetry. apply (N.div_unique _ _ _ (n - 1)); lia. }
    rewrite CD. cbn [bind]. destruct (N.eqb_spec parts 1) as [_|Z]; [|lia]. rewrite <- SC, LC. rewrite (add64_small U) by lia. fold ub.
    rewrite E1. cbn [bind]. destruct (N.ltb_spec 1 n); [|lia]. rewrite HE.
    rewrite (add64_small U 0) by lia. rewrite add64_small by lia. destruct (N.eqb_spec (U + 0 + 1) U) as [Z|_]; [lia|].
    rewrite E2. cbn [bind]. change (add64 0 1) with 1. rewrite E3. reflexivity. }
  assert (VR : vrepl (bv_build b3) (h ++ cef_code 1 (cur vals log 0))) by (apply brep_build; exact R3).
  assert (CL : lenN (cef_code 1 (cur vals log 0)) <= 8192) by (rewrite <- F3; fold (code vals log 0); pose proof (code_len vals log Hlog Hn HF parts Hparts 0 ltac:(lia)) as X; change (2 ^ 13) with 8192 in X; lia).
  exists f, h.
  unfold pef_init. cbn [pf_data pf_parts pf_univ pf_size f]. destruct (N.eqb_spec parts 1) as [_|Z]; [|lia]. rewrite (add64_small U) by lia. fold ub.
  pose proof VR as VR1. unfold h in VR1. rewrite <- app_assoc in VR1.
  destruct (bit_get_sok (bv_build b3) _ _ (bit_new 0) 0 ub VR1) as (it & EI & SI).
  { apply sinv_new. } { lia. } { rewrite !lenN_app, LB1. lia. }
  rewrite EI. cbn [bind]. cbv beta iota.
  assert (FV : forall z, field (num_of (bits_of (va vals 0) ub ++ z)) 0 ub = va vals 0) by (intros z; exact (field_mid [] (va vals 0) ub z VU)).
  rewrite FV. rewrite N.add_0_l in SI. destruct (N.ltb_spec 1 n) as [_|Z]; [|lia].
  destruct (read_delta_ok (bv_build b3) (bits_of (va vals 0) ub) 0 (cef_code 1 (cur vals log 0)) it VR1) as (it' & ED & SI'); [rewrite LB1; exact SI|lia|].
  rewrite ED. cbn [bind]. cbv beta iota. cbn [N.eqb]. rewrite HE. replace (sub64 U U) with 0 by (rewrite sub64_small; lia).
  replace (i32 (sub64 0 1)) with (2 ^ 64 - 1) by (vm_compute; reflexivity). destruct (N.eqb_spec (2 ^ 64 - 1) (2 ^ 31 - 1)) as [Z|_]; [lia|].
  change (add64 (2 ^ 64 - 1) 1) with 0. destruct SI' as ((SP & _) & _). fold h in SP. rewrite SP.
  unfold cen_new. rewrite cof_new_ok by lia. cbn [bind]. eexists. split; [exact WR|]. split; [reflexivity|]. split; [reflexivity|]. split; [|split; reflexivity].
  unfold eqst. cbn [pf_data f en_begin en_end en_base en_cef ce_val]. rewrite app_nil_r. split; [exact VR|]. split; [rewrite lenN_app; lia|]. split; [reflexivity|]. split; [reflexivity|]. split; [reflexivity|].
  destruct (cen_new_ok (bv_build b3) h [] 1 (cur vals log 0) ltac:(lia) ltac:(reflexivity)) as (cc & EC & CC).
  exists cc, n. rewrite F5 in *. split; [exact CC|]. split; [lia|]. split; [|intros; lia].
  unfold cen_new in EC. rewrite cof_new_ok in EC by lia. cbn [bind] in EC. injection EC as <-. reflexivity.
Qed.
End Equal.

(** ** any sequence built with its last value as the universe *)
Definition span_ok (vals : list N) (order : N) : Prop :=
  lenN vals <= piece order -> va vals (lenN vals - 1) < va vals 0 + (2 ^ 31 - 1).

Theorem build_u_get vals order x0 x1 : 0 < lenN vals < 2 ^ 40 -> sortedN vals -> Forall (fun x => x < 2 ^ 56) vals -> span_ok vals order -> x0 < 2 ^ 64 -> x1 < 2 ^ 64 ->
  exists f e (G : pen -> Prop), pef_build_u vals (va vals (lenN vals - 1)) order = Ok f /\ pf_size f = lenN vals /\ pef_init (mkpads [x0] [x1]) f = Ok e /\ G e /\
    forall e p v, G e -> nthN vals p = Some v -> exists e', pef_get (mkpads [x0] [x1]) f e p = Ok (v, e') /\ G e'.
Proof.
  intros Hn HS HF SP Hx0 Hx1. set (log := if 2 <? order then 7 else 6). assert (Hlog : log = 6 \/ log = 7) by (unfold log; destruct (2 <? order); auto).
  pose proof (va_lt vals HF (lenN vals - 1)) as VL. unfold span_ok in SP. rewrite piece_log in SP. fold log in SP.
  destruct (is_parts_exists vals log Hlog Hn) as (parts & HP). pose proof (psz_bound log Hlog) as PB. pose proof HP as (Q1 & Q2 & Q3).
  assert (V01 : va vals 0 <= va vals (lenN vals - 1)) by (apply (va_le vals log Hlog Hn HS); lia).
  destruct (N.eq_dec parts 1) as [P1|P1].
  1: destruct (N.eq_dec (lenN vals) 1) as [N1|N1]; [|destruct (N.eq_dec (va vals 0) (va vals (lenN vals - 1))) as [EQ|NE]].
  2: { destruct (eq_build vals log Hlog Hn HS HF parts HP x0 x1 Hx0 P1 ltac:(lia) EQ order eq_refl) as (f & l1 & e & W & SZ & I & G & _).
       exists f, e, (eqst vals log f l1). split; [exact W|]. split; [exact SZ|]. split; [exact I|]. split; [exact G|].
       intros e0 p v G0 Hv. exact (eq_get vals log Hlog Hn HS HF parts HP x0 x1 Hx0 P1 ltac:(lia) EQ f l1 e0 p v G0 Hv). }
  all: destruct (write_ok vals (va vals (lenN vals - 1)) order x0 x1 Hn HS HF Hx0 Hx1) as (parts' & f & Bo & e & i0 & PA & EB & HPR & EI & PS & _);
    [change (2 ^ 57) with (2 * 2 ^ 56); lia|cbv zeta; fold log; intros LE; split; [|apply SP; exact LE]|].
  1: { left; exact N1. }
  2: { right; left; lia. }
  3: { exfalso. assert (parts = 1); [|contradiction]. destruct (N.lt_ge_cases 1 parts) as [M|M]; [|lia]. exfalso. assert (1 * 2 ^ log <= (parts - 1) * 2 ^ log) by (apply N.mul_le_mono_r; lia). lia. }
  all: fold log in PA, HPR, PS; exists f, e, (fun e => exists q i, pst vals log parts' f Bo e q i); split; [exact EB|]; split; [apply (rp_size _ _ _ _ _ _ HPR)|]; split; [exact EI|];
    split; [exists 0, i0; exact PS|]; intros e0 p v (q & i & S0) Hv; pose proof (nthN_lt _ _ _ Hv) as L; rewrite (va_nth vals) in Hv by exact L; injection Hv as <-;
    destruct (move_ok vals log Hlog Hn HS HF parts' PA f _ x0 x1 Bo Hx0 Hx1 HPR e0 q i p S0 L) as (e' & E & S' & _); exists e'; split; [exact E|]; eexists; eexists; exact S'.
Qed.
