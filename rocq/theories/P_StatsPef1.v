(** * Reading a uniform_pef_sequence from its beginning with next() *)
From Verif Require Import Prelude BitFacts M_Word P_Word M_Bits Spec P_Bits P_Builder P_EF P_CompactVector M_CompactVector M_FastEF P_FastEF P_FastEF2 P_FastEF3
  M_Pef P_Pef1 P_Pef2 P_Pef3 P_Pef4 P_Pef5 P_Pef6 Spec_Pef P_Typed P_SavePef1.

(** ** a short sequence whose values are all equal *)
Lemma swap_next v pad c O' x d : of_n O' = of_n (ce_of c) -> of_ho O' = of_ho (ce_of c) -> of_lb O' = 0 -> of_lb (ce_of c) = 0 ->
  of_mask O' = 0 -> of_mask (ce_of c) = 0 -> ce_pos c + 1 < of_n O' ->
  (exists w, word56 v pad (of_lo O') = Ok w) -> cen_next v pad c = Ok d -> cen_next v pad (swap O' x c) = Ok (swap O' (ce_val d) d).
Proof.
  intros A1 A2 A3 A4 A5 A6 Hp (w & Hw) E. unfold cen_next in *. cbn [swap ce_of ce_pos ce_hi] in *. rewrite <- A1 in E.
  assert (LO : forall q, cen_low v pad O' q = Ok 0). { intros q. unfold cen_low. rewrite A3, A5, N.mul_0_r, N.add_0_r, Hw. cbn [bind]. rewrite N.land_0_r. reflexivity. }
  assert (LC : forall q y, cen_low v pad (ce_of c) q = Ok y -> y = 0).
  { intros q y H. unfold cen_low in H. rewrite A6 in H. destruct (word56 v pad (of_lo (ce_of c) + q * of_lb (ce_of c))) as [z| |]; cbn [bind] in H; try discriminate H. rewrite N.land_0_r in H. congruence. }
  destruct (N.ltb_spec (ce_pos c + 1) (of_n O')); [|lia]. unfold hi_of in *. cbn [swap ce_hi] in *. destruct (ce_hi c) as [it|]; cbn [bind] in *; [|discriminate].
  destruct (uit_next v it) as [[h it2]| |]; cbn [bind] in *; try discriminate. rewrite LO. destruct (cen_low v pad (ce_of c) (ce_pos c + 1)) as [y| |] eqn:EL; cbn [bind] in *; try discriminate.
  injection E as <-. rewrite (LC _ _ EL). unfold swap, cen_join. cbn [ce_pos ce_val ce_hi]. rewrite A2, A3, A4. reflexivity.
Qed.

Section Equal.
Variable vals : list N.
Variable log : N.
Hypothesis Hlog : log = 6 \/ log = 7.
Hypothesis Hn : 0 < lenN vals < 2 ^ 40.
Hypothesis HS : sortedN vals.
Hypothesis HF : Forall (fun x => x < 2 ^ 56) vals.
Variable parts : N.
Hypothesis Hparts : is_parts vals log parts.
Variables x0 x1 : N.
Hypothesis Hx0 : x0 < 2 ^ 64.
Hypothesis P1 : parts = 1.
Hypothesis HB : 1 < lenN vals.
Hypothesis HE : va vals 0 = va vals (lenN vals - 1).
Notation n := (lenN vals).
Notation U := (va vals (lenN vals - 1)).

(** the next value is the i-th *)
Definition eq_at (f : pef) (l1 : list bool) (e : pen) (i : N) : Prop :=
  vrepl (pf_data f) (l1 ++ cef_code 1 (cur vals log 0) ++ []) /\ lenN (l1 ++ cef_code 1 (cur vals log 0) ++ []) < 2 ^ 62 /\
  en_end e = n /\ en_base e = U /\
  exists c j, cst (pf_data f) l1 [] 1 (cur vals log 0) c j /\ j <= n /\
    en_cef e = swap (cof_of (lenN l1) 0 n) (ce_val (en_cef e)) c /\ (j < n -> ce_val (en_cef e) = ce_val c) /\
    (i = 0 -> en_first e = true /\ en_pos e = 0) /\ (0 < i -> en_first e = false /\ en_pos e = i - 1 /\ j = i - 1).

Lemma eq_value q : q < n -> va vals q = U.
Proof using Hlog Hn HS HE.
  clear P1 HB Hx0 x0 x1 Hparts parts. intros Lq. pose proof (va_le vals log Hlog Hn HS 0 q ltac:(lia) Lq). pose proof (va_le vals log Hlog Hn HS q (n - 1) ltac:(lia) ltac:(lia)). lia.
Qed.
Lemma eq_next f l1 e i v : eq_at f l1 e i -> nthN vals i = Some v -> exists e', pef_next (mkpads [x0] [x1]) f e = Ok (v, e') /\ eq_at f l1 e' (i + 1).
Proof.
  intros (A1 & A2 & A4 & A5 & c & j & C & Hj & EC & EV & I0 & I1) Hv. pose proof (nthN_lt _ _ _ Hv) as L.
  destruct (eq_facts vals log Hlog Hn parts Hparts x0 Hx0 P1 HB HE) as (F1 & F2 & F3 & F4 & F5 & F6 & F7).
  assert (VU : v = U) by (rewrite (va_nth vals) in Hv by exact L; injection Hv as <-; apply eq_value; exact L).
  assert (CU : forall q, q < n -> nthN (cur vals log 0) q = Some 0).
  { intros q Hq. rewrite nth_cur by (try assumption; lia). f_equal. rewrite F1, N.mul_0_l, N.add_0_l. rewrite (eq_value q Hq). lia. }
  assert (HFC : Forall (fun y => y < 1) (cur vals log 0)) by (rewrite <- F3; apply (cur_lt vals log Hlog Hn HS parts); lia).
  assert (HSC : sortedN (cur vals log 0)) by (apply (cur_sorted vals log Hlog Hn HS parts); lia).
  assert (LB1 : clb 1 n = 0) by (unfold clb; destruct (N.ltb_spec n 1); [lia|reflexivity]).
  assert (LB0 : clb 0 n = 0) by (unfold clb; destruct (N.ltb_spec n 0); [lia|reflexivity]).
  assert (W56 : exists w, word56 (pf_data f) [x0] (lenN l1 + chl 0 n) = Ok w).
  { destruct (word56_ok (pf_data f) _ _ x0 (lenN l1 + chl 0 n) 0 A1 Hx0 ltac:(lia)) as (w & Ew & _); [|exists w; exact Ew].
    rewrite !lenN_app, lenN_cef_code, F5. unfold chl. rewrite LB0, LB1. change (0 / 2 ^ 0) with 0. change (1 / 2 ^ 0) with 1. lia. }
  pose proof C as (C1 & C2 & C3). pose proof (va_lt vals HF (n - 1)) as VL.
  assert (DV : forall d p, cst (pf_data f) l1 [] 1 (cur vals log 0) d p -> p < n -> ce_val d = 0).
  { intros d p (D1 & D2 & D3) Hp. destruct D3 as [(it & T1 & _)|(T1 & _)]; [rewrite CU in T1 by lia; congruence|lia]. }
  destruct (N.eq_dec i 0) as [Z|NZ].
  - destruct (I0 Z) as (FI & PZ). subst i. unfold pef_next. rewrite FI.
    destruct (cen_move_ok (pf_data f) l1 [] 1 (cur vals log 0) x0 A1 ltac:(lia) ltac:(reflexivity) HSC HFC Hx0 A2 c j 0 C ltac:(lia)) as (d & ED & CD).
    assert (SM : cen_move (pf_data f) [x0] (swap (cof_of (lenN l1) 0 n) (ce_val (en_cef e)) c) 0 = Ok (swap (cof_of (lenN l1) 0 n) (ce_val d) d)).
    { apply swap_move; rewrite ?C1; cbn [of_n of_ho of_lb of_mask of_lo cof_of]; rewrite ?C2, ?F5, ?LB0, ?LB1; try reflexivity; try lia; try exact EV; try exact ED. exact W56. }
    rewrite EC. change (pd_data {| pd_data := [x0]; pd_ubs := [x1] |}) with [x0]. rewrite SM. cbn [bind].
    pose proof (DV d 0 CD ltac:(lia)) as D0. cbn [swap ce_val]. rewrite A5, D0. rewrite add64_small by (change (2 ^ 64) with (2 ^ 56 * 256); lia). rewrite N.add_0_r, VU.
    eexists. split; [reflexivity|]. unfold eq_at. cbn [en_end en_base en_cef ce_val swap en_first en_pos]. split; [exact A1|]. split; [exact A2|]. split; [exact A4|]. split; [reflexivity|].
    exists d, 0. split; [exact CD|]. split; [lia|]. split; [reflexivity|]. split; [intros _; symmetry; exact D0|]. split; [lia|]. intros _. split; [reflexivity|]. split; [rewrite PZ; lia|lia].
  - destruct (I1 ltac:(lia)) as (FI & PZ & JI). unfold pef_next. rewrite FI, PZ, A4. replace (i - 1 + 1) with i by lia. destruct (N.ltb_spec i n); [|lia].
    destruct (cen_next_ok (pf_data f) l1 [] 1 (cur vals log 0) x0 A1 ltac:(lia) ltac:(reflexivity) HSC HFC Hx0 A2 c j C ltac:(lia)) as (d & ED & CD).
    assert (SM : cen_next (pf_data f) [x0] (swap (cof_of (lenN l1) 0 n) (ce_val (en_cef e)) c) = Ok (swap (cof_of (lenN l1) 0 n) (ce_val d) d)).
    { apply swap_next; rewrite ?C1; cbn [of_n of_ho of_lb of_mask of_lo cof_of]; rewrite ?C2, ?F5, ?LB0, ?LB1; try reflexivity; try lia; try exact ED. exact W56. }
    rewrite EC. change (pd_data {| pd_data := [x0]; pd_ubs := [x1] |}) with [x0]. rewrite SM. cbn [bind].
    replace (j + 1) with i in CD by lia. pose proof (DV d i CD ltac:(lia)) as D0. cbn [swap ce_val]. rewrite A5, D0. rewrite add64_small by (change (2 ^ 64) with (2 ^ 56 * 256); lia). rewrite N.add_0_r, VU.
    eexists. split; [reflexivity|]. unfold eq_at, with_cef. cbn [en_end en_base en_cef ce_val swap en_first en_pos]. split; [exact A1|]. split; [exact A2|]. split; [exact A4|]. split; [exact A5|].
    exists d, i. split; [exact CD|]. split; [lia|]. split; [reflexivity|]. split; [intros _; symmetry; exact D0|]. split; [lia|]. intros _. split; [exact FI|]. split; [lia|lia].
Qed.
End Equal.

(** ** any sequence built with its last value as the universe *)
Theorem pef_scan vals order x0 x1 f : 0 < lenN vals < 2 ^ 40 -> sortedN vals -> Forall (fun x => x < 2 ^ 56) vals -> span_ok vals order -> x0 < 2 ^ 64 -> x1 < 2 ^ 64 ->
  pef_write vals (va vals (lenN vals - 1)) order = Ok f ->
  pf_size f = lenN vals /\ pf_univ f = va vals (lenN vals - 1) /\
  exists e (at_ : pen -> N -> Prop), pef_init (mkpads [x0] [x1]) f = Ok e /\ at_ e 0 /\
    forall e i v, at_ e i -> nthN vals i = Some v -> exists e', pef_next (mkpads [x0] [x1]) f e = Ok (v, e') /\ at_ e' (i + 1).
Proof.
  intros Hn HS HF SP Hx0 Hx1 EF. destruct (write_members _ _ _ _ EF) as (M1 & M2 & _). split; [exact M1|]. split; [exact M2|].
  set (log := if 2 <? order then 7 else 6). assert (Hlog : log = 6 \/ log = 7) by (unfold log; destruct (2 <? order); auto).
  pose proof (va_lt vals HF (lenN vals - 1)) as VL. unfold span_ok in SP. rewrite piece_log in SP. fold log in SP.
  destruct (is_parts_exists vals log Hlog Hn) as (parts & HP). pose proof (psz_bound log Hlog) as PB. pose proof HP as (Q1 & Q2 & Q3).
  assert (V01 : va vals 0 <= va vals (lenN vals - 1)) by (apply (va_le vals log Hlog Hn HS); lia).
  destruct (N.eq_dec parts 1) as [P1|P1].
  1: destruct (N.eq_dec (lenN vals) 1) as [N1|N1]; [|destruct (N.eq_dec (va vals 0) (va vals (lenN vals - 1))) as [EQ|NE]].
  2: { destruct (eq_build vals log Hlog Hn HS HF parts HP x0 x1 Hx0 P1 ltac:(lia) EQ order eq_refl) as (f' & l1 & e & W & SZ & I & G & G1 & G2).
       rewrite EF in W. injection W as <-. exists e, (eq_at vals log f l1). split; [exact I|]. split.
       - destruct G as (A1 & A2 & A3 & A4 & A5 & c & i & C & Hi & EC & EV). split; [exact A1|]. split; [exact A2|]. split; [exact A4|]. split; [exact A5|].
         exists c, i. split; [exact C|]. split; [exact Hi|]. split; [exact EC|]. split; [exact EV|]. split; [intros _; split; assumption|lia].
       - intros e0 i v G0 Hv. exact (eq_next vals log Hlog Hn HS HF parts HP x0 x1 Hx0 P1 ltac:(lia) EQ f l1 e0 i v G0 Hv). }
  all: destruct (write_ok vals (va vals (lenN vals - 1)) order x0 x1 Hn HS HF Hx0 Hx1) as (parts' & f' & Bo & e & i0 & PA & EB & HPR & EI & PS & F1 & F2 & _);
    [change (2 ^ 57) with (2 * 2 ^ 56); lia|cbv zeta; fold log; intros LE; split; [|apply SP; exact LE]|].
  1: { left; exact N1. }
  2: { right; left; lia. }
  3: { exfalso. assert (parts = 1); [|contradiction]. destruct (N.lt_ge_cases 1 parts) as [M|M]; [|lia]. exfalso. assert (1 * 2 ^ log <= (parts - 1) * 2 ^ log) by (apply N.mul_le_mono_r; lia). lia. }
  all: fold log in PA, HPR, PS; rewrite EF in EB; injection EB as <-;
    exists e, (fun e i => (i = 0 -> pst vals log parts' f Bo e 0 i0 /\ en_first e = true /\ en_pos e = 0) /\ (0 < i -> nst vals log parts' f Bo e (i - 1)));
    (split; [exact EI|]); (split; [split; [intros _; split; [exact PS|split; assumption]|lia]|]);
    intros e0 i v (I0 & I1) Hv; pose proof (nthN_lt _ _ _ Hv) as L; rewrite (va_nth vals) in Hv by exact L; injection Hv as <-;
    (destruct (N.eq_dec i 0) as [Z|NZ];
     [destruct (I0 Z) as (J1 & J2 & J3); destruct (next_first vals log Hlog Hn HS HF parts' PA f x0 x1 Bo Hx0 Hx1 e0 i0 J1 J2 J3) as (e1 & E1 & N1')
     |destruct (next_next vals log Hlog Hn HS HF parts' PA f _ x0 x1 Bo Hx0 Hx1 HPR e0 (i - 1) (I1 ltac:(lia)) ltac:(lia)) as (e1 & E1 & N1'); replace (i - 1 + 1) with i in * by lia];
     exists e1; (split; [first [exact E1|rewrite Z; exact E1]|]); (split; [lia|]); intros _; replace (i + 1 - 1) with i by lia; first [exact N1'|rewrite Z; exact N1']).
Qed.
