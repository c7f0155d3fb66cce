(** * Corner cases of C18, C32, C44, C49 and C54 *)
From Coq Require Import Floats.SpecFloat.
From Verif Require Import Prelude BitFacts M_Word M_Bits Spec M_CompactVector M_DArray M_EF M_HashVec M_Mph M_FastEF M_Pef M_SeqColl M_Trie M_Text P_Text P_Text2 M_ArpaFile M_GramFile P_ArpaFile P_GramFile
  M_Score M_Quant P_BitProg M_Save M_Save2 M_SavePef P_Save M_Stats M_StatsPef P_Stats6 M_SelfTests.

(** ** numbers in files: optional blanks, an optional sign, digits *)
Definition blank (c : N) : Prop := c = 32 \/ 9 <= c <= 13.
Definition digit (c : N) : Prop := 48 <= c <= 57.
(** [sign]: nothing, '+' or '-' *)
Definition is_sign (s : list N) : Prop := s = [] \/ s = [43] \/ s = [45].
(** the digits end at [rest]; without digits and sign, [rest] is not itself the start of a number *)
Definition stops (sign ds rest : list N) : Prop :=
  match rest with
  | [] => True
  | c :: _ => ~ digit c /\ (ds = [] -> sign = [] -> ~ blank c /\ c <> 43 /\ c <> 45)
  end.
(** the value modulo 2^64 of a number with a sign *)
Definition signed (sign ds : list N) : N :=
  match sign with 45 :: _ => (2 ^ 64 - dec_value ds) mod 2 ^ 64 | _ => dec_value ds end.

Lemma blank_space c : blank c -> is_space c = true.
Proof. unfold blank, is_space. intros [->|H]; [reflexivity|]. apply orb_true_iff. right. apply andb_true_iff. split; apply N.leb_le; lia. Qed.
Lemma not_blank c : ~ blank c -> is_space c = false.
Proof. intros H. destruct (is_space c) eqn:E; [|reflexivity]. exfalso. apply H. unfold is_space in E. apply orb_true_iff in E. unfold blank. rewrite andb_true_iff, !N.leb_le, N.eqb_eq in E. lia. Qed.
Lemma digit_is c : digit c -> is_digit c = true. Proof. unfold digit, is_digit. intros H. apply andb_true_iff. split; apply N.leb_le; lia. Qed.
Lemma not_digit c : ~ digit c -> is_digit c = false.
Proof. intros H. destruct (is_digit c) eqn:E; [|reflexivity]. exfalso. apply H. unfold is_digit in E. rewrite andb_true_iff, !N.leb_le in E. exact E. Qed.
Lemma skip_blanks bs : Forall blank bs -> forall pre c post fuel, (length bs < fuel)%nat -> is_space c = false ->
  skip_space fuel (pre ++ bs ++ c :: post) (lenN pre) = Ok (lenN pre + lenN bs).
Proof.
  induction bs as [|b bs IH]; intros HF pre c post fuel Hf Hc; (destruct fuel as [|f]; [cbn in Hf; lia|]).
  - cbn [skip_space app]. rewrite rd_app_at. cbn [bind]. rewrite Hc, lenN_nil, N.add_0_r. reflexivity.
  - apply Forall_cons_iff in HF. destruct HF as [Hb HF]. cbn [skip_space app]. rewrite rd_app_at. cbn [bind]. rewrite (blank_space b Hb).
    replace (pre ++ b :: bs ++ c :: post) with ((pre ++ [b]) ++ bs ++ c :: post) by (rewrite <- app_assoc; reflexivity).
    replace (lenN pre + 1) with (lenN (pre ++ [b])) by (rewrite lenN_app, lenN_cons, lenN_nil; lia).
    rewrite IH by (assumption || (cbn in Hf; lia)). f_equal. rewrite lenN_app, !lenN_cons, lenN_nil. lia.
Qed.
Lemma dec_digits_is ds : Forall digit ds -> Forall (fun c => is_digit c = true) ds.
Proof. intros H. eapply Forall_impl; [|exact H]. apply digit_is. Qed.
(** where the sign and the digits of a number start, and the number read *)
Lemma number_parts pre blanks sign ds rest fuel : Forall blank blanks -> is_sign sign -> Forall digit ds -> stops sign ds rest ->
  (length (pre ++ blanks ++ sign ++ ds ++ rest ++ [0%N]) < fuel)%nat ->
  let buf := pre ++ blanks ++ sign ++ ds ++ rest ++ [0] in
  exists p c, skip_space fuel buf (lenN pre) = Ok p /\ rd buf p = Ok c /\ (c =? 45) = (match sign with 45 :: _ => true | _ => false end) /\
    (let p := if (c =? 45) || (c =? 43) then p + 1 else p in
     p = lenN (pre ++ blanks ++ sign) /\
     (exists d, rd buf p = Ok d /\ is_digit d = match ds with [] => false | _ => true end) /\
     read_digits fuel buf p 0 = Ok (dec_value ds)).
Proof.
  intros HB HS HD HR HL buf.
  assert (HT : exists e t, rest ++ [0] = e :: t /\ is_digit e = false /\ (ds = [] -> sign = [] -> is_space e = false /\ (e =? 45) = false /\ (e =? 43) = false)).
  { destruct rest as [|e t]; [exists 0, []; repeat split; reflexivity|]. exists e, (t ++ [0]). destruct HR as (RA & RB). split; [reflexivity|]. split; [apply not_digit; exact RA|].
    intros E1 E2. destruct (RB E1 E2) as (A & B & C). split; [apply not_blank; exact A|]. split; apply N.eqb_neq; assumption. }
  destruct HT as (e & t & ET & Ee & Es). unfold buf. rewrite ET in *. clear buf.
  assert (RD : read_digits fuel ((pre ++ blanks ++ sign) ++ ds ++ e :: t) (lenN (pre ++ blanks ++ sign)) 0 = Ok (dec_value ds)).
  { rewrite (read_digits_ok ds (dec_digits_is ds HD)); [reflexivity| |exact Ee]. rewrite !app_length in HL. lia. }
  assert (DD : exists d, rd ((pre ++ blanks ++ sign) ++ ds ++ e :: t) (lenN (pre ++ blanks ++ sign)) = Ok d /\ is_digit d = match ds with [] => false | _ => true end).
  { destruct ds as [|d ds]; [exists e; split; [cbn [app]; apply rd_app_at|exact Ee]|exists d; split; [cbn [app]; apply rd_app_at|]]. apply digit_is. apply Forall_inv in HD. exact HD. }
  rewrite <- !app_assoc in RD, DD.
  assert (BL : (length blanks < fuel)%nat) by (rewrite !app_length in HL; lia).
  assert (KEY : forall c q, sign ++ ds ++ e :: t = c :: q -> is_space c = false ->
    skip_space fuel (pre ++ blanks ++ sign ++ ds ++ e :: t) (lenN pre) = Ok (lenN (pre ++ blanks)) /\ rd (pre ++ blanks ++ sign ++ ds ++ e :: t) (lenN (pre ++ blanks)) = Ok c).
  { intros c q E HC. rewrite E. rewrite (skip_blanks blanks HB pre c q fuel BL HC), lenN_app. split; [reflexivity|]. rewrite <- lenN_app, app_assoc. apply rd_app_at. }
  destruct HS as [-> | [-> | ->]].
  - cbn [app] in *. rewrite app_nil_r in *. destruct ds as [|d ds].
    + cbn [app] in *. destruct (Es eq_refl eq_refl) as (A & B & C). destruct (KEY e t eq_refl A) as [K1 K2]. exists (lenN (pre ++ blanks)), e. split; [exact K1|]. split; [exact K2|]. split; [exact B|].
      cbv zeta. rewrite B, C. cbn [orb]. split; [reflexivity|]. split; [exact DD|exact RD].
    + pose proof (Forall_inv HD) as D. cbv beta in D. assert (A : is_space d = false) by (apply not_blank; unfold blank, digit in *; lia).
      destruct (KEY d (ds ++ e :: t) eq_refl A) as [K1 K2]. exists (lenN (pre ++ blanks)), d. split; [exact K1|]. split; [exact K2|]. assert (B : (d =? 45) = false) by (unfold digit in D; lia). assert (C : (d =? 43) = false) by (unfold digit in D; lia).
      split; [exact B|]. cbv zeta. rewrite B, C. cbn [orb]. split; [reflexivity|]. split; [exact DD|exact RD].
  - destruct (KEY 43 _ eq_refl eq_refl) as [K1 K2]. exists (lenN (pre ++ blanks)), 43. split; [exact K1|]. split; [exact K2|]. split; [reflexivity|]. cbv zeta. cbn [N.eqb Pos.eqb orb].
    assert (EP : lenN (pre ++ blanks) + 1 = lenN (pre ++ blanks ++ [43])) by (rewrite !lenN_app, lenN_cons, lenN_nil; lia). rewrite EP. split; [reflexivity|]. split; [exact DD|exact RD].
  - destruct (KEY 45 _ eq_refl eq_refl) as [K1 K2]. exists (lenN (pre ++ blanks)), 45. split; [exact K1|]. split; [exact K2|]. split; [reflexivity|]. cbv zeta. cbn [N.eqb Pos.eqb orb].
    assert (EP : lenN (pre ++ blanks) + 1 = lenN (pre ++ blanks ++ [45])) by (rewrite !lenN_app, lenN_cons, lenN_nil; lia). rewrite EP. split; [reflexivity|]. split; [exact DD|exact RD].
Qed.
Lemma sub0 v : v < 2 ^ 64 -> sub64 0 v = (2 ^ 64 - v) mod 2 ^ 64.
Proof. intros H. unfold sub64. rewrite !w64_mod, (N.mod_small v) by exact H. rewrite N.mod_0_l by discriminate. reflexivity. Qed.

(** A count line is a gram, a tab and a number; blanks and a sign may come before the digits and anything but a digit after them.
    Numbers above 2^64 - 1 are read as 2^64 - 1 whatever their sign, and a minus sign negates modulo 2^64. *)
Theorem C32_any_number : forall gram blanks sign ds rest,
  ~ In 9 gram -> Forall blank blanks -> is_sign sign -> Forall digit ds -> stops sign ds rest ->
  let line := gram ++ 9 :: blanks ++ sign ++ ds ++ rest in
  exists r, parse_count_line line = Ok (r, if 2 ^ 64 <=? dec_value ds then 2 ^ 64 - 1 else signed sign ds) /\ holds_text line r gram.
Proof.
  intros gram blanks sign ds rest HG HB HS HD HR line. exists (0, lenN gram). split.
  2: { apply (holds_mid [] gram (9 :: blanks ++ sign ++ ds ++ rest)); reflexivity. }
  unfold parse_count_line, split_upon_check_end.
  assert (EL : c_str line = [] ++ gram ++ (9 :: blanks ++ sign ++ ds ++ rest) ++ [0]) by (unfold c_str, line; rewrite <- app_assoc; reflexivity).
  rewrite EL. change 0 with (lenN (@nil N)) at 2. rewrite (seek_end_ok c_tab gram HG [] (9 :: blanks ++ sign ++ ds ++ rest)).
  3: { right. split; [eexists; reflexivity|]. unfold line. rewrite lenN_app, lenN_cons, lenN_nil. lia. }
  2: { rewrite app_length. cbn [length app]. rewrite app_length. lia. }
  cbn [bind snd]. rewrite lenN_nil, N.add_0_l. destruct (N.eqb_spec (lenN gram) (lenN line)) as [X|_]; [unfold line in X; rewrite lenN_app, lenN_cons in X; lia|].
  replace ([] ++ gram ++ (9 :: blanks ++ sign ++ ds ++ rest) ++ [0]) with ((gram ++ [9]) ++ blanks ++ sign ++ ds ++ rest ++ [0]).
  2: { cbn [app]. rewrite <- !app_assoc. reflexivity. }
  replace (lenN gram + 1) with (lenN (gram ++ [9])) by (rewrite lenN_app, lenN_cons, lenN_nil; lia).
  unfold strtoull. destruct (number_parts (gram ++ [9]) blanks sign ds rest (S (length ((gram ++ [9]) ++ blanks ++ sign ++ ds ++ rest ++ [0]))) HB HS HD HR (Nat.lt_succ_diag_r _)) as (p & c & E1 & E2 & E3 & E4 & E5 & E6).
  rewrite E1. cbn [bind]. rewrite E2. cbn [bind]. rewrite E6. cbn [bind]. rewrite E3. do 2 f_equal.
  destruct (N.leb_spec (2 ^ 64) (dec_value ds)) as [_|L]; [reflexivity|]. unfold signed. destruct HS as [-> | [-> | ->]]; try reflexivity. apply sub0. exact L.
Qed.
Print Assumptions C32_any_number.
(** "a\t  -1,5": read as 2^64 - 1 *)
Example C32_any_number_example : ~ In 9 [97] /\ Forall blank [32; 32] /\ is_sign [45] /\ Forall digit [49] /\ stops [45] [49] [44; 53].
Proof.
  unfold blank, digit, is_sign, stops. split; [cbn; intuition discriminate|]. split; [repeat constructor; auto|]. split; [auto|]. split; [repeat constructor; discriminate|].
  split; [unfold digit; lia|discriminate].
Qed.

(** The first line of a count file is a number in the same sense; the file is refused when it has no digit, when it is above 2^64 - 1
    and when it is 0; otherwise that many lines are read. *)
Theorem C44_any_first_line : forall blanks sign ds rest lines,
  Forall blank blanks -> is_sign sign -> Forall digit ds -> stops sign ds rest ->
  ~ In 10 (blanks ++ sign ++ ds ++ rest) ->
  let first := blanks ++ sign ++ ds ++ rest in
  let n := signed sign ds in
  if (2 ^ 64 <=? dec_value ds) || (n =? 0) || (match ds with [] => true | _ => false end)
  then gram_lines (first ++ 10 :: lines) = Throw
  else exists s, gp_open (first ++ 10 :: lines) = Ok (n, s) /\ left_of s lines.
Proof.
  intros blanks sign ds rest lines HB HS HD HR HN first n. unfold gram_lines, gp_open.
  destruct (getline_nl _ first lines [] (left_start _) HN) as (s & -> & LS).
  destruct (number_parts [] blanks sign ds rest (S (length (c_str first))) HB HS HD HR) as (p & c & E1 & E2 & E3 & E4 & (d & E5 & E5') & E6).
  { unfold c_str, first. rewrite <- !app_assoc. apply Nat.lt_succ_diag_r. }
  assert (EC : c_str first = [] ++ blanks ++ sign ++ ds ++ rest ++ [0]) by (unfold c_str, first; rewrite <- !app_assoc; reflexivity).
  rewrite <- EC in E1, E2, E5, E6. rewrite lenN_nil in E1.
  assert (ST : stoull first = if (match ds with [] => true | _ => false end) || (2 ^ 64 <=? dec_value ds) then Throw else Ok n).
  { unfold stoull. cbv zeta. rewrite E1. cbn [bind]. rewrite E2. cbn [bind]. rewrite E5. cbn [bind]. rewrite E5'. destruct ds as [|x ds]; [reflexivity|]. cbn [negb orb]. rewrite E6. cbn [bind].
    destruct (N.leb_spec (2 ^ 64) (dec_value (x :: ds))) as [_|L]; [reflexivity|]. rewrite E3. f_equal. unfold n, signed. destruct HS as [-> | [-> | ->]]; try reflexivity. apply sub0. exact L. }
  assert (EF : first = [] -> ds = []). { intros X. unfold first in X. apply app_eq_nil in X. destruct X as [_ X]. apply app_eq_nil in X. destruct X as [_ X]. apply app_eq_nil in X. tauto. }
  destruct first as [|x first'] eqn:EFi.
  - rewrite (EF eq_refl). rewrite orb_true_r. reflexivity.
  - rewrite ST. destruct ds as [|y ds]; [rewrite orb_true_r; reflexivity|]. cbn [orb]. rewrite orb_false_r. destruct (2 ^ 64 <=? dec_value (y :: ds)); [reflexivity|]. cbn [orb bind].
    destruct (n =? 0); [reflexivity|]. exists s. split; [reflexivity|exact LS].
Qed.
Print Assumptions C44_any_first_line.
(** "\r +2 lines" *)
Example C44_any_first_line_example : Forall blank [13; 32] /\ is_sign [43] /\ Forall digit [50] /\ stops [43] [50] [32; 108] /\ ~ In 10 ([13; 32] ++ [43] ++ [50] ++ [32; 108]) /\ signed [43] [50] = 2.
Proof.
  unfold blank, digit, is_sign, stops. split; [constructor; [right; lia|constructor; [left; reflexivity|constructor]]|]. split; [auto|]. split; [repeat constructor; discriminate|].
  split; [split; [unfold digit; lia|discriminate]|]. split; [cbn; intuition discriminate|reflexivity].
Qed.

(** ** C18: without values every centre is minus infinity (and the first centre of back-offs is 0) *)
Lemma shl1e q : q < 64 -> shl 1 q = 2 ^ q.
Proof. intros H. unfold shl. rewrite N.shiftl_1_l. apply w64_small. apply N.pow_lt_mono_r; lia. Qed.
Lemma bins_nil m k : 0 < m -> forall i av, (forall x, nthN av (lenN av - 1) = Some x -> 0 < i -> x = S754_infinity true) -> (0 < i -> 0 < lenN av) ->
  make_bins_loop k [] m i 0 av = Ok (av ++ repeat (S754_infinity true) k).
Proof.
  intros Hm. induction k as [|k IH]; intros i av HA HL; [cbn [make_bins_loop repeat]; rewrite app_nil_r; reflexivity|].
  cbn [make_bins_loop]. change (lenN (@nil F)) with 0. unfold mul64. rewrite N.mul_0_l. change (w64 0) with 0. rewrite N.div_0_l by lia. cbn [N.eqb].
  assert (E : (if i =? 0 then Ok fninf else rd av (lenN av - 1)) = Ok (S754_infinity true)).
  { destruct (N.eqb_spec i 0) as [_|X]; [reflexivity|]. destruct (nthN_Some av (lenN av - 1)) as (x & Hx); [specialize (HL ltac:(lia)); lia|]. rewrite (proj2 (rd_nthN _ _ _) Hx). f_equal. apply (HA x Hx). lia. }
  rewrite E. cbn [bind]. rewrite IH.
  - rewrite <- app_assoc. reflexivity.
  - intros x Hx _. rewrite lenN_app, lenN_cons, lenN_nil in Hx. replace (lenN av + (1 + 0) - 1) with (lenN av) in Hx by lia. rewrite nthN_snoc in Hx. congruence.
  - intros _. rewrite lenN_app, lenN_cons. lia.
Qed.
Theorem C18_no_values : forall b q,
  (2 <= q <= 31 -> build_probs b [] q = Ok (mkqsc (q_bits b ++ [q]) (q_seqs b ++ [repeat (S754_infinity true) (N.to_nat (2 ^ q))]))) /\
  (2 <= q <= 32 -> build_backoffs b [] q = Ok (mkqsc (q_bits b ++ [q]) (q_seqs b ++ [S754_zero false :: repeat (S754_infinity true) (N.to_nat (2 ^ q - 1))]))).
Proof.
  intros b q. split; intros Hq.
  - unfold build_probs, check_qbits. destruct (N.ltb_spec q 2); [lia|]. destruct (N.ltb_spec 32 q); [lia|]. change (lenN (@nil F)) with 0. cbn [orb N.ltb N.compare andb bind]. rewrite shl1e by lia.
    assert (P : 2 ^ q <= 2 ^ 31) by (apply N.pow_le_mono_r; lia). assert (P0 : 0 < 2 ^ q) by (apply N.neq_0_lt_0, N.pow_nonzero; lia).
    unfold make_bins. destruct (N.ltb_spec (2 ^ q) (2 ^ 32)) as [_|X]; [|exfalso; change (2 ^ 31) with 2147483648 in P; change (2 ^ 32) with 4294967296 in X; clear - P X; lia].
    rewrite (bins_nil (2 ^ q) _ P0) by (intros; lia). reflexivity.
  - unfold build_backoffs, check_qbits. destruct (N.ltb_spec q 2); [lia|]. destruct (N.ltb_spec 32 q); [lia|]. change (lenN (@nil F)) with 0. cbn [orb N.ltb N.compare andb bind]. rewrite shl1e by lia.
    assert (P : 2 ^ q <= 2 ^ 32) by (apply N.pow_le_mono_r; lia). assert (P0 : 2 ^ 2 <= 2 ^ q) by (apply N.pow_le_mono_r; lia).
    unfold make_bins. destruct (N.ltb_spec (2 ^ q - 1) (2 ^ 32)) as [_|X]; [|exfalso; change (2 ^ 2) with 4 in P0; clear - P P0 X; lia].
    rewrite (bins_nil (2 ^ q - 1) _) by (try (intros; lia); change (2 ^ 2) with 4 in P0; clear - P0; lia). reflexivity.
Qed.
Print Assumptions C18_no_values.

(** ** C49: the bytes reported for a component against the bytes it takes in a file.
    They differ by the eight bytes of length in front of every vector; [vo] is what essentials::vec_bytes counts for those of std::vector. *)
Theorem C49_component_bytes : forall vo, vo <= 8 ->
  (forall v, lenN (save_bv v) = bytes_bv v + 8) /\
  (forall c, lenN (save_cv c) = bytes_cv c + 8) /\
  (forall hb c, lenN (save_hcv hb c) = bytes_hcv hb c + 8) /\
  (forall c, lenN (save_ct c) = bytes_ct c + 8) /\
  (forall d, lenN (save_darr d) = bytes_darr vo d + 3 * (8 - vo)) /\
  (forall e, lenN (save_ef e) = bytes_ef vo e + 16 + 6 * (8 - vo)) /\
  (forall s, lenN (save_icw s) = bytes_icw vo s + 16 + 3 * (8 - vo)) /\
  (forall p, lenN (save_pss p) = bytes_pss vo p + 16 + 6 * (8 - vo)) /\
  (forall x f, lenN (save_fef x f) = bytes_fef vo f + lenN (save_mphf x (match f_off f with Some t => ut_h t | None => mphf0 x end)) + 32 + 3 * (8 - vo)) /\
  (forall f, lenN (save_pef f) = bytes_pef f + 16).
Proof.
  intros vo HV. assert (D : forall d, lenN (save_darr d) = bytes_darr vo d + 3 * (8 - vo)).
  { intros d. unfold save_darr, bytes_darr, vec_bytes. rewrite !lenN_app, len_pod, !len_vec, lenN_map. change (N.of_nat 8) with 8. change (N.of_nat 2) with 2. lia. }
  assert (E : forall e, lenN (save_ef e) = bytes_ef vo e + 16 + 6 * (8 - vo)).
  { intros e. unfold save_ef, bytes_ef, save_opt, of_opt. cbv zeta. rewrite !lenN_app, !len_pod, !len_bv, !D. change (N.of_nat 8) with 8. change (N.of_nat 1) with 1. lia. }
  split; [exact len_bv|]. split; [exact len_cv|]. split; [exact len_hcv|]. split; [exact len_ct|]. split; [exact D|]. split; [exact E|]. split; [|split; [|split]].
  - intros s. unfold save_icw, bytes_icw. rewrite !lenN_app, len_pod, !len_bv, D. change (N.of_nat 8) with 8. lia.
  - intros p. unfold save_pss, bytes_pss. rewrite lenN_app, len_pod, E. change (N.of_nat 8) with 8. lia.
  - intros x f. unfold save_fef, bytes_fef, save_opt. cbv zeta. rewrite !lenN_app, !len_pod, !len_bv, len_vec, D. change (N.of_nat 8) with 8. change (N.of_nat 1) with 1.
    destruct (f_off f) as [t|]; unfold save_umph; rewrite lenN_app, len_cv; cbn [umph0 ut_values ut_h]; lia.
  - intros f. unfold save_pef, bytes_pef. rewrite !lenN_app, !len_pod, len_cv, len_bv. change (N.of_nat 8) with 8. change (N.of_nat 1) with 1. lia.
Qed.
Print Assumptions C49_component_bytes.

(** ** C54: arguments the programs refuse, before anything is drawn or built *)
Theorem C54_refused :
  (forall n w draw, n = 0 \/ w = 0 \/ 64 < w -> test_compact_vector n w draw = Ok 1) /\
  (forall n hash_width w draw, n = 0 \/ (hash_width <> 32 /\ hash_width <> 64) -> test_hash_compact_vector n hash_width w draw = Throw) /\
  (forall h order n max_range_len range_draw value_draw, n = 0 \/ max_range_len = 0 \/ n < max_range_len ->
     test_fast_ef h order n max_range_len range_draw value_draw = Ok 1) /\
  (forall pd1 pd2 n max_range_len draw range_draw value_draw, n = 0 \/ max_range_len = 0 ->
     test_uniform_pef pd1 pd2 n max_range_len draw range_draw value_draw = Throw).
Proof.
  split; [|split; [|split]].
  - intros n w draw H. unfold test_compact_vector. destruct (N.ltb_spec 64 w); [reflexivity|]. destruct (N.eqb_spec n 0); [reflexivity|]. destruct (N.eqb_spec w 0); [reflexivity|]. lia.
  - intros n hw w draw H. unfold test_hash_compact_vector. destruct (N.eqb_spec n 0); [reflexivity|]. destruct (N.eqb_spec hw 32); [lia|]. destruct (N.eqb_spec hw 64); [lia|]. reflexivity.
  - intros h order n mx rdr vdr H. unfold test_fast_ef. destruct (N.ltb_spec n mx); [reflexivity|]. destruct (N.eqb_spec n 0); [reflexivity|]. destruct (N.eqb_spec mx 0); [reflexivity|]. lia.
  - intros pd1 pd2 n mx d rdr vdr H. unfold test_uniform_pef. destruct (N.eqb_spec n 0); [reflexivity|]. destruct (N.eqb_spec mx 0); [reflexivity|]. lia.
Qed.
Print Assumptions C54_refused.

(** ** C04: a builder after init() is a new empty builder, so the histories of C04_builder_history apply from there *)
Theorem C04_init : forall b, bvb_init b = bvb_new 0 false.
Proof. intros b. reflexivity. Qed.
Print Assumptions C04_init.
