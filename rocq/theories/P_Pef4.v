(** * Proofs for uniform_pef: building *)
From Verif Require Import Prelude BitFacts M_Word P_Word M_Bits Spec P_Bits P_Builder P_Cursor P_BitProg P_EF P_HashVec P_CompactVector
  M_CompactVector M_Codes Spec_Codes P_Codes M_FastEF M_Pef P_Pef1 P_Pef2 P_TrieProb2 P_TrieProb3 P_Pef3.

Lemma fold_range {S} (I : N -> S -> Prop) (g : S -> N -> res S) m : (forall k s, k < m -> I k s -> exists s', g s k = Ok s' /\ I (k + 1) s') ->
  forall s, I 0 s -> exists s', foldM g (range m) s = Ok s' /\ I m s'.
Proof.
  intros H. assert (G : forall k a s, a + N.of_nat k = m -> I a s -> exists s', foldM g (seqN a k) s = Ok s' /\ I m s').
  { induction k as [|k IH]; intros a s E Ha; cbn [seqN foldM].
    - exists s. split; [reflexivity|]. replace m with a by lia. exact Ha.
    - destruct (H a s ltac:(lia) Ha) as (s1 & E1 & H1). rewrite E1. cbn [bind]. apply IH; [lia|rewrite <- N.add_1_r; exact H1]. }
  intros s Hs. apply (G (N.to_nat m) 0 s); [lia|exact Hs].
Qed.

Lemma range_snoc k : range (k + 1) = range k ++ [k].
Proof.
  unfold range. replace (N.to_nat (k + 1)) with (N.to_nat k + 1)%nat by lia. rewrite seqN_app. f_equal. cbn [seqN]. f_equal. lia.
Qed.
Lemma last_nthN {A} (l : list A) (d : A) : 0 < lenN l -> nthN l (lenN l - 1) = Some (last l d).
Proof.
  intros H. destruct (exists_last (l := l)) as (l' & x & ->). { intros ->. change (lenN (@nil A)) with 0 in H. lia. }
  rewrite last_last. unfold nthN, lenN. rewrite app_length. cbn [length]. rewrite nth_error_app2 by lia.
  replace (N.to_nat (N.of_nat (length l' + 1) - 1) - length l')%nat with 0%nat by lia. reflexivity.
Qed.
Lemma ceil_log2_lt x k : x < 2 ^ k -> ceil_log2 (x + 1) <= k.
Proof. intros H. apply ceil_log2_spec. lia. Qed.
Lemma lt_ceil_log2 x : x < 2 ^ ceil_log2 (x + 1).
Proof. pose proof (proj1 (ceil_log2_spec (x + 1) (ceil_log2 (x + 1))) (N.le_refl _)). lia. Qed.

Lemma resize_new m w : cvb_resize cvb_empty m w = cvb_new m w.
Proof.
  unfold cvb_resize, cvb_new. destruct (64 <? cv_width w); [reflexivity|]. f_equal. unfold cvb_empty. cbn [cb_back cb_block cb_shift cb_bits].
  f_equal. unfold vec_resize. rewrite firstn_nil. change (lenN (@nil N)) with 0. rewrite N.sub_0_r. reflexivity.
Qed.

(** ** the codes of a list of partitions *)
Section Build.
Variable vals : list N.
Variable log : N.
Hypothesis Hlog : log = 6 \/ log = 7.
Hypothesis Hn : 0 < lenN vals < 2 ^ 40.
Hypothesis HS : sortedN vals.
Hypothesis HF : Forall (fun x => x < 2 ^ 56) vals.
Notation n := (lenN vals).
Notation psz := (2 ^ log).
Notation va := (va vals).
Notation ubl := (ubl vals log).
Notation plen := (plen vals log).
Notation cur := (cur vals log).
Notation pu := (pu vals log).
Notation code := (code vals log).
Variable parts : N.
Hypothesis Hparts : is_parts vals log parts.

Definition codes (a k : N) : list bool := concat (map code (seqN a (N.to_nat k))).
Definition pre (p : N) : N := lenN (codes 0 p).

Lemma codes_snoc k : codes 0 (k + 1) = codes 0 k ++ code k.
Proof.
  unfold codes. fold (range (k + 1)). rewrite range_snoc, map_app, concat_app. cbn [map concat]. rewrite app_nil_r. reflexivity.
Qed.
Lemma pre_S k : pre (k + 1) = pre k + lenN (code k).
Proof. unfold pre. rewrite codes_snoc, lenN_app. reflexivity. Qed.
Lemma code_len p : p < parts -> 2 <= lenN (code p) <= 2 ^ 13.
Proof.
  intros Hp. unfold P_Pef3.code. rewrite lenN_cef_code. rewrite lenN_cur by assumption. pose proof (plen_bound vals log Hlog Hn parts Hparts p Hp) as PB.
  destruct (clb_bound (pu p) (plen p) ltac:(lia)) as (B1 & B2).
  { apply pu_lt; assumption. }
  unfold chl. change (2 ^ 13) with 8192. assert (plen p * clb (pu p) (plen p) <= plen p * 56) by (apply N.mul_le_mono_l; exact B1).
  generalize dependent (pu p / 2 ^ clb (pu p) (plen p)). intros z Hz. lia.
Qed.
Lemma pre_le p q : p <= q -> pre p <= pre q.
Proof.
  intros H. replace q with (p + (q - p)) by lia. generalize (q - p). intros d. induction d as [|d IH] using N.peano_ind; [rewrite N.add_0_r; lia|].
  replace (p + N.succ d) with (p + d + 1) by lia. rewrite pre_S. lia.
Qed.
Lemma pre_bound p : p <= parts -> pre p <= p * 2 ^ 13.
Proof.
  induction p as [|p IH] using N.peano_ind; intros H; [reflexivity|].
  replace (N.succ p) with (p + 1) in * by lia. rewrite pre_S. pose proof (code_len p ltac:(lia)). specialize (IH ltac:(lia)). lia.
Qed.
Lemma total_lt : pre parts < 2 ^ 53.
Proof.
  pose proof (pre_bound parts ltac:(lia)). pose proof (parts_lt vals log Hlog Hn parts Hparts 0 0 eq_refl eq_refl).
  change (2 ^ 53) with (2 ^ 40 * 2 ^ 13). change (2 ^ 13) with 8192 in *. lia.
Qed.
Lemma codes_split p : p < parts -> codes 0 parts = codes 0 p ++ code p ++ codes (p + 1) (parts - (p + 1)).
Proof.
  intros H. unfold codes. replace (N.to_nat parts) with (N.to_nat p + (1 + N.to_nat (parts - (p + 1))))%nat by lia.
  rewrite seqN_app, map_app, concat_app. f_equal. rewrite seqN_app, map_app, concat_app. cbn [seqN map concat]. rewrite app_nil_r.
  replace (0 + N.of_nat (N.to_nat p)) with p by lia. replace (p + N.of_nat 1) with (p + 1) by lia. reflexivity.
Qed.

(** ** the partitions are written one after the other *)
Definition winv (k : N) (s : bvb * N * list N * list N) : Prop :=
  let '(b, base, ends, ubs) := s in
  brepl b (codes 0 k) /\ base = ubl k /\ ends = map (fun p => pre (p + 1)) (range k) /\ ubs = map ubl (range (k + 1)).

Lemma slice_len p : p < parts -> lenN (slice vals (p * psz) psz) = plen p.
Proof. intros Hp. rewrite (lenN_slice' vals log Hlog Hn). reflexivity. Qed.
Lemma slice_last p : p < parts -> last (slice vals (p * psz) psz) 0 = ubl (p + 1).
Proof.
  intros Hp. pose proof (plen_bound vals log Hlog Hn parts Hparts p Hp) as PB. pose proof (slice_len p Hp) as SL.
  pose proof (last_nthN (slice vals (p * psz) psz) 0 ltac:(lia)) as H. rewrite SL in H.
  rewrite nthN_slice in H. assert (PL : plen p - 1 < psz) by (unfold P_Pef3.plen in *; pose proof (psz_bound log Hlog); lia).
  destruct (N.ltb_spec (plen p - 1) psz) as [_|]; [|lia].
  rewrite (va_nth vals) in H by (unfold P_Pef3.plen in *; lia). injection H as H. rewrite <- H. apply (last_va vals log Hlog Hn parts Hparts p Hp).
Qed.
Lemma slice_cur p : p < parts -> map (fun v => sub64 v (ubl p)) (slice vals (p * psz) psz) = cur p.
Proof.
  intros Hp. unfold P_Pef3.cur. apply map_ext_in. intros x Hx. apply In_nth_error in Hx. destruct Hx as (k & Hk).
  assert (E : nthN (slice vals (p * psz) psz) (N.of_nat k) = Some x) by (unfold nthN; rewrite Nat2N.id; exact Hk).
  pose proof (nthN_lt _ _ _ E) as L. rewrite slice_len in L by exact Hp. rewrite nthN_slice in E.
  destruct (N.ltb_spec (N.of_nat k) psz) as [_|C]; [|discriminate].
  rewrite (va_nth vals) in E by (unfold P_Pef3.plen in *; lia). injection E as <-. pose proof (ubl_base vals log Hlog Hn HS parts p _ Hp L).
  pose proof (va_lt vals HF (p * psz + N.of_nat k)). rewrite sub64_small; [reflexivity|lia|lia].
Qed.
Lemma last_cur p : p < parts -> last (cur p) 0 = pu p - 1.
Proof.
  intros Hp. pose proof (plen_bound vals log Hlog Hn parts Hparts p Hp) as PB. pose proof (last_nthN (cur p) 0) as H. rewrite lenN_cur in H by assumption.
  specialize (H ltac:(lia)). rewrite (cur_last vals log Hlog Hn parts Hparts p Hp) in H. injection H as H. symmetry. exact H.
Qed.

Lemma part_ok k s : k < parts -> winv k s -> exists s', pef_part psz vals s k = Ok s' /\ winv (k + 1) s'.
Proof.
  intros Hk. destruct s as [[[b base] ends] ubs]. intros (W1 & W2 & W3 & W4). unfold pef_part. fold (slice vals (k * psz) psz).
  pose proof (plen_bound vals log Hlog Hn parts Hparts k Hk) as PB. pose proof (slice_len k Hk) as SL.
  assert (NE : exists x l, slice vals (k * psz) psz = x :: l).
  { destruct (slice vals (k * psz) psz) as [|x l]; [change (lenN (@nil N)) with 0 in SL; lia|]. exists x, l. reflexivity. }
  pose proof (slice_last k Hk) as LS. pose proof (slice_cur k Hk) as SC. rewrite <- W2 in SC. destruct NE as (x & l & NE). rewrite NE in *. rewrite SC, LS.
  rewrite last_cur by exact Hk. assert (P1 : 1 <= pu k) by (unfold P_Pef3.pu; lia). pose proof (pu_lt vals log Hlog Hn HF k) as P2.
  rewrite add64_small by lia. replace (pu k - 1 + 1) with (pu k) by lia.
  pose proof total_lt as TL. pose proof (pre_le k parts ltac:(lia)) as PL.
  destruct (cef_write_ok b (codes 0 k) (cur k) (pu k) W1) as (b' & E & W').
  - rewrite lenN_cur by assumption. exact PB.
  - exact P2.
  - change (lenN (codes 0 k)) with (pre k). lia.
  - apply (cur_lt vals log Hlog Hn HS parts); assumption.
  - apply (cur_sorted vals log Hlog Hn HS parts); assumption.
  - rewrite E. cbn [bind]. eexists. split; [reflexivity|]. fold (code k) in W'. rewrite <- codes_snoc in W'. split; [exact W'|]. split; [reflexivity|].
    split.
    + rewrite range_snoc, map_app, W3. cbn [map]. do 2 f_equal. destruct W' as (_ & _ & _ & _ & W5 & _). exact W5.
    + rewrite range_snoc, map_app, W4. reflexivity.
Qed.

Lemma parts_ok : exists b, foldM (pef_part psz vals) (range parts) (bvb_new 0 false, va 0, [], [va 0]) =
  Ok (b, ubl parts, map (fun p => pre (p + 1)) (range parts), map ubl (range (parts + 1))) /\ brepl b (codes 0 parts).
Proof.
  destruct (fold_range winv (pef_part psz vals) parts (fun k s Hk => part_ok k s Hk) (bvb_new 0 false, va 0, [], [va 0])) as (s & E & W).
  - split; [apply bvb_new0_rep|]. split; [unfold P_Pef3.ubl; rewrite N.mul_0_l; f_equal; lia|]. split; [reflexivity|].
    change (range (0 + 1)) with [0]. cbn [map]. unfold P_Pef3.ubl. rewrite N.mul_0_l. do 2 f_equal; lia.
  - destruct s as [[[b base] ends] ubs]. destruct W as (W1 & -> & -> & ->). exists b. split; [exact E|exact W1].
Qed.

Variables U x0 x1 : N.
Hypothesis Hx0 : x0 < 2 ^ 64.
Hypothesis Hx1 : x1 < 2 ^ 64.
Hypothesis HU : va (n - 1) <= U < 2 ^ 57.

Lemma gamma_len m : lenN (gamma_code m) = 2 * N.log2 (m + 1) + 1.
Proof. unfold gamma_code. cbv zeta. rewrite !lenN_app, lenN_rep, lenN_bits_of. change (lenN [true]) with 1. lia. Qed.
Lemma delta_len m : lenN (delta_code m) = 2 * N.log2 (N.log2 (m + 1) + 1) + 1 + N.log2 (m + 1).
Proof. unfold delta_code. cbv zeta. rewrite lenN_app, gamma_len, lenN_bits_of. reflexivity. Qed.

(** ** several partitions *)
Definition fields (w : N) (xs : list N) : list bool := concat (map (fun e => bits_of e w) xs).
Lemma fields_len w xs : lenN (fields w xs) = lenN xs * w.
Proof.
  induction xs as [|x xs IH]; [reflexivity|]. unfold fields in *. cbn [map concat]. rewrite lenN_app, lenN_bits_of, IH, lenN_cons. lia.
Qed.
Lemma append_all w : w <= 64 -> forall xs b l, brepl b l -> Forall (fun x => x < 2 ^ w) xs -> lenN l + lenN xs * w + 64 < 2 ^ 64 ->
  exists b', foldM (fun b e => bvb_append_bits b e w) xs b = Ok b' /\ brepl b' (l ++ fields w xs).
Proof.
  intros Hw. induction xs as [|x xs IH]; intros b l R F L.
  - exists b. split; [reflexivity|]. unfold fields. cbn [map concat]. rewrite app_nil_r. exact R.
  - rewrite lenN_cons in L. pose proof (Forall_inv F) as F1. pose proof (Forall_inv_tail F) as F2. cbn beta in F1.
    destruct (append_repl b l x w R Hw F1 ltac:(lia)) as (b1 & E1 & R1). cbn [foldM]. rewrite E1. cbn [bind].
    destruct (IH b1 _ R1 F2) as (b' & E' & R'). { rewrite lenN_app, lenN_bits_of. lia. }
    exists b'. split; [exact E'|]. unfold fields in *. cbn [map concat]. rewrite app_assoc. exact R'.
Qed.

Definition ebits : N := ceil_log2 (pre parts + 1).
Definition ends : list N := map (fun p => pre (p + 1)) (range (parts - 1)).
Definition hdr : list bool := gamma_code ebits ++ fields ebits ends.

Lemma ebits_le : ebits <= 53.
Proof. apply ceil_log2_lt. apply total_lt; assumption. Qed.
Lemma ends_lt : Forall (fun x => x < 2 ^ ebits) ends.
Proof.
  apply Forall_forall. intros x Hx. unfold ends in Hx. apply in_map_iff in Hx. destruct Hx as (p & <- & Hp). unfold range in Hp. apply In_seqN in Hp.
  pose proof (lt_ceil_log2 (pre parts)) as A. fold ebits in A. pose proof (pre_le (p + 1) parts ltac:(lia)). lia.
Qed.
Lemma hdr_len : lenN hdr = lenN (gamma_code ebits) + (parts - 1) * ebits /\ lenN hdr < 2 ^ 47.
Proof.
  assert (E : lenN hdr = lenN (gamma_code ebits) + (parts - 1) * ebits).
  { unfold hdr. rewrite lenN_app, fields_len. unfold ends. rewrite lenN_map, lenN_range. reflexivity. }
  split; [exact E|]. rewrite E, gamma_len. pose proof ebits_le as B. assert (N.log2 (ebits + 1) <= 53).
  { pose proof (N.log2_le_mono (ebits + 1) 63 ltac:(lia)) as X. change (N.log2 63) with 5 in X. lia. }
  pose proof (parts_lt vals log Hlog Hn parts Hparts 0 0 eq_refl eq_refl) as P.
  assert ((parts - 1) * ebits <= (parts - 1) * 53) by (apply N.mul_le_mono_l; exact B).
  change (2 ^ 47) with 140737488355328. change (2 ^ 40) with 1099511627776 in P. generalize dependent ((parts - 1) * ebits). generalize dependent (N.log2 (ebits + 1)). clear - P. intros. lia.
Qed.

Lemma multi_ok : 1 < parts -> exists f Bo e, (forall order, log = (if 2 <? order then 7 else 6) -> pef_write vals U order = Ok f) /\ prep vals log parts f U Bo /\
  pef_init (pd x0 x1) f = Ok e /\ pst vals log parts f Bo e 0 0 /\ en_pos e = 0 /\ en_first e = true /\ clean vals log parts f Bo e.
Proof.
  intros M. destruct parts_ok as (b & EF & RB). pose proof ebits_le as EB. destruct hdr_len as (HL1 & HL2). pose proof total_lt as TL.
  pose proof (parts_lt vals log Hlog Hn parts Hparts 0 0 eq_refl eq_refl) as PL.
  (* the upper bounds *)
  assert (UB : exists c, (ub <- cvb_resize cvb_empty (lenN (map ubl (range (parts + 1)))) (ceil_log2 (add64 (last (map ubl (range (parts + 1))) 0) 1)) ;;
     ub <- foldM cvb_push_back (map ubl (range (parts + 1))) ub ;; Ok (cv_of_builder ub)) = Ok c /\ cv_holds c (map ubl (range (parts + 1))) /\ c_width c <= 57).
  { set (ubs := map ubl (range (parts + 1))). assert (UL : lenN ubs = parts + 1) by (unfold ubs; rewrite lenN_map, lenN_range; reflexivity).
    assert (F56 : Forall (fun v => v < 2 ^ 56) ubs).
    { apply Forall_forall. intros x Hx. unfold ubs in Hx. apply in_map_iff in Hx. destruct Hx as (q & <- & _). apply va_lt. exact HF. }
    destruct (cv_build_holds ubs) as (c & EC & HC).
    { rewrite UL. change (2 ^ 64) with (2 ^ 40 * 2 ^ 24). change (2 ^ 24) with 16777216. generalize dependent (2 ^ 40). intros. lia. }
    { eapply Forall_impl; [|exact F56]. intros x Hx. cbv beta in Hx |- *. lia. }
    exists c. split; [|split; [exact HC|]].
    - rewrite resize_new. unfold cv_build in EC. fold (maxN ubs) in EC.
      assert (LM : last ubs 0 = maxN ubs).
      { unfold ubs. rewrite range_snoc, map_app. cbn [map]. rewrite last_last. apply N.le_antisymm.
        - apply maxN_ge. apply in_or_app. right. left. reflexivity.
        - assert (MX : maxN (map ubl (range parts) ++ [ubl parts]) < ubl parts + 1); [|lia]. apply maxN_lt; [lia|]. apply Forall_app. split; [|constructor; [lia|constructor]].
          apply Forall_forall. intros x Hx. apply in_map_iff in Hx. destruct Hx as (q & <- & Hq). unfold range in Hq. apply In_seqN in Hq.
          pose proof (ubl_le vals log Hlog Hn HS q parts ltac:(lia)). lia. }
      rewrite LM. unfold cvb_fill in EC. destruct (cvb_new (lenN ubs) (ceil_log2 (add64 (maxN ubs) 1))) as [b0| |] eqn:EN; cbn [bind] in *; try discriminate.
      destruct (cb_width b0 =? 0); [discriminate EC|]. exact EC.
    - apply (cv_build_width ubs c 57 EC); [lia|]. eapply Forall_impl; [|exact F56]. intros x Hx. cbv beta in Hx |- *. change (2 ^ 57) with (2 * 2 ^ 56). lia. }
  destruct UB as (c & EU & HC & WC).
  (* the data *)
  pose proof RB as (_ & _ & _ & _ & BS & _). change (lenN (codes 0 parts)) with (pre parts) in BS.
  destruct (write_gamma_ok (bvb_new 0 false) [] ebits) as (b1 & E1 & R1).
  { apply bvb_new0_rep. } { lia. } { change (lenN (@nil bool)) with 0. lia. }
  cbn [app] in R1. destruct (append_all ebits ltac:(lia) ends b1 _ R1 ends_lt) as (b2 & E2 & R2).
  { unfold ends. rewrite lenN_map, lenN_range. lia. }
  fold hdr in R2. destruct (append_repl2 b2 hdr b (codes 0 parts) R2 RB) as (b3 & E3 & R3).
  { change (lenN (codes 0 parts)) with (pre parts). lia. }
  assert (RL : removelast (map (fun p => pre (p + 1)) (range parts)) = ends).
  { unfold ends. replace parts with (parts - 1 + 1) at 1 by lia. rewrite range_snoc, map_app. cbn [map]. rewrite removelast_last. reflexivity. }
  set (f := mkpef n U parts c (bv_build b3) log).
  assert (WR : forall order, log = (if 2 <? order then 7 else 6) -> pef_write vals U order = Ok f).
  { intros order HO. unfold pef_write.
    assert (V0 : exists x l, vals = x :: l /\ x = va 0).
    { pose proof (va_nth vals 0 ltac:(lia)) as V0. clear - V0. destruct vals as [|x l]; [discriminate V0|]. exists x, l. split; reflexivity. }
    destruct V0 as (x & l & EV & EX). rewrite EV at 1. rewrite EX. cbv zeta. rewrite <- HO.
    assert (PS : shl 1 log = psz). { clear - Hlog. destruct Hlog as [-> | ->]; reflexivity. }
    rewrite PS.
    assert (CD : ceil_div n psz = Ok parts).
    { pose proof (psz_bound log Hlog) as PB. unfold ceil_div. destruct (N.eqb_spec psz 0) as [Z|_]; [lia|]. f_equal. rewrite add64_small by lia. rewrite sub64_small by lia.
      destruct Hparts as (Q1 & Q2 & Q3). symmetry. apply (N.div_unique _ _ _ (n + psz - 1 - parts * psz)); nia. }
    rewrite CD. cbn [bind]. destruct (N.eqb_spec parts 1) as [Z|_]; [lia|]. rewrite EF. cbn [bind]. cbv beta iota.
    rewrite RL, BS. rewrite (add64_small (pre parts) 1) by lia. fold ebits.
    destruct (cvb_resize cvb_empty _ _) as [u1| |]; cbn [bind] in *; try discriminate EU. destruct (foldM cvb_push_back _ u1) as [u2| |]; cbn [bind] in *; try discriminate EU.
    rewrite E1. cbn [bind]. rewrite E2. cbn [bind]. rewrite E3. cbn [bind]. injection EU as EU. rewrite EU. reflexivity. }
  set (Bo := fun p => lenN hdr + pre p).
  assert (VR : vrepl (bv_build b3) (hdr ++ codes 0 parts)) by (apply brep_build; exact R3).
  assert (LT : lenN (hdr ++ codes 0 parts) < 2 ^ 62).
  { rewrite lenN_app. change (lenN (codes 0 parts)) with (pre parts). lia. }
  assert (HPR : prep vals log parts f U Bo).
  { split; try reflexivity.
    - intros p Hp. exists (hdr ++ codes 0 p), (codes (p + 1) (parts - (p + 1))). unfold data_at. cbn [pf_data f].
      rewrite (codes_split p Hp) in VR, LT. rewrite <- app_assoc. split; [exact VR|]. split; [exact LT|]. rewrite lenN_app. reflexivity.
    - intros _. split; [exact HC|exact WC]. }
  assert (EC : forall e, en_eoff e = lenN (gamma_code ebits) -> en_ebits e = ebits -> en_soff e = lenN hdr -> econst parts f Bo e).
  { intros e A1 A2 A3 _ p Hp. rewrite A1, A2, A3. destruct (N.eqb_spec p 0) as [->|NZ].
    { exists 0. split; [reflexivity|]. unfold Bo. change (pre 0) with 0. reflexivity. }
    exists (pre p). split; [|reflexivity]. cbn [pf_data f].
    assert (NE : nthN ends (p - 1) = Some (pre p)).
    { unfold ends. rewrite nthN_map, nthN_range by lia. cbn [option_map]. do 2 f_equal. lia. }
    destruct (nthN_decomp _ _ _ NE) as (a & z & EE & LA).
    assert (HD : hdr ++ codes 0 parts = (gamma_code ebits ++ fields ebits a) ++ bits_of (pre p) ebits ++ (fields ebits z ++ codes 0 parts)).
    { unfold hdr. rewrite EE. unfold fields. rewrite map_app, concat_app. cbn [map concat]. rewrite <- !app_assoc. reflexivity. }
    assert (LL : lenN (gamma_code ebits ++ fields ebits a) = lenN (gamma_code ebits) + (p - 1) * ebits) by (rewrite lenN_app, fields_len, LA; reflexivity).
    pose proof VR as VR'. unfold vrepl in VR'. rewrite HD in VR'. rewrite <- LL.
    rewrite (bv_get_bits_ok _ _ _ _ _ VR'); [|lia|rewrite !lenN_app, lenN_bits_of; lia].
    f_equal. apply field_mid. exact (Forall_nthN _ _ _ _ ends_lt NE). }
  (* init *)
  assert (IN : exists e, pef_init (pd x0 x1) f = Ok e /\ pst vals log parts f Bo e 0 0 /\ en_pos e = 0 /\ en_first e = true).
  { unfold pef_init. cbn [pf_data pf_parts f]. destruct (N.eqb_spec parts 1) as [Z|_]; [lia|].
    pose proof VR as VR'. unfold hdr in VR'. rewrite <- app_assoc in VR'.
    destruct (read_gamma_ok (bv_build b3) [] ebits (fields ebits ends ++ codes 0 parts) (bit_new 0)) as (it & ER & IT).
    { exact VR'. } { apply sinv_new. } { lia. }
    cbn [app] in ER, IT. rewrite ER. cbn [bind]. cbv beta iota zeta.
    destruct (cen_new 0 0 1) as [c0| |] eqn:C0; [|vm_compute in C0; discriminate C0|vm_compute in C0; discriminate C0]. cbn [bind]. clear C0.
    destruct IT as ((IP & _) & _). rewrite IP. set (e0 := mkpen _ _ _ 0 0 0 0 0 0 c0 true).
    assert (EC0 : econst parts f Bo e0). { apply EC; try reflexivity. cbn [en_soff e0]. rewrite HL1. lia. }
    unfold pef_slow_move. cbn [pf_size pf_log f]. destruct (N.eqb_spec 0 n) as [Z|_]; [lia|].
    replace (shr 0 log) with 0 by (rewrite shr_div, N.div_0_l; [reflexivity|apply N.pow_nonzero; lia]).
    destruct (switch_ok vals log Hlog Hn HS HF parts Hparts f U x0 x1 Bo Hx0 Hx1 HPR e0 0 M EC0 ltac:(lia)) as (e1 & ES & PS & EP & EF1). rewrite ES. cbn [bind].
    pose proof PS as (_ & _ & PB & _). rewrite PB, N.mul_0_l. change (sub64 0 0) with 0.
    destruct (cef_move_ok vals log Hlog Hn HS HF parts Hparts f x0 x1 Bo Hx0 e1 0 _ 0 PS (N.le_0_l _)) as (cc & EM & PM). rewrite EM. cbn [bind].
    eexists. split; [reflexivity|]. split; [apply PM|]. split; [reflexivity|]. exact EF1. }
  destruct IN as (e & I1 & I2 & I3 & I4). exists f, Bo, e. split; [exact WR|]. split; [exact HPR|]. split; [exact I1|]. split; [exact I2|]. split; [exact I3|]. split; [exact I4|]. left. exact M.
Qed.

(** ** one partition *)
Definition back : N := va (n - 1) - va 0.
Definition sdelta : N := if va 0 + back + 1 =? U then 0 else back.
Definition shdr : list bool := bits_of (va 0) (ceil_log2 (U + 1)) ++ (if 1 <? n then delta_code sdelta else []).

Lemma i32_small x : x < 2 ^ 31 -> i32 x = x.
Proof. intros H. unfold i32. cbv zeta. rewrite N.mod_small by (change (2 ^ 32) with (2 * 2 ^ 31); lia). destruct (N.ltb_spec x (2 ^ 31)); [reflexivity|lia]. Qed.

Lemma single_ok : parts = 1 -> n = 1 \/ va 0 < va (n - 1) \/ U = va (n - 1) + 1 -> va (n - 1) < va 0 + (2 ^ 31 - 1) ->
  exists f Bo e, (forall order, log = (if 2 <? order then 7 else 6) -> pef_write vals U order = Ok f) /\ prep vals log parts f U Bo /\
  pef_init (pd x0 x1) f = Ok e /\ pst vals log parts f Bo e 0 n /\ en_pos e = 0 /\ en_first e = true /\ clean vals log parts f Bo e.
Proof.
  intros P1 HB HI. pose proof (psz_bound log Hlog) as PB. pose proof Hparts as (Q1 & Q2 & Q3). rewrite P1, N.mul_1_l in Q1.
  assert (U0 : ubl 0 = va 0) by (unfold P_Pef3.ubl; f_equal; lia). assert (U1 : ubl 1 = va (n - 1)) by (unfold P_Pef3.ubl; f_equal; lia).
  assert (V01 : va 0 <= va (n - 1)) by (apply (va_le vals log Hlog Hn HS); lia). pose proof (va_lt vals HF (n - 1)) as VL.
  assert (PU : pu 0 = back + 1) by (unfold P_Pef3.pu, back; rewrite U0; replace (0 + 1) with 1 by lia; rewrite U1; lia).
  assert (PN : plen 0 = n) by (unfold P_Pef3.plen; lia).
  set (ub := ceil_log2 (U + 1)). assert (UBL : ub <= 57) by (apply ceil_log2_lt; lia).
  assert (VU : va 0 < 2 ^ ub) by (pose proof (lt_ceil_log2 U); unfold ub; lia).
  assert (SC : cur 0 = map (fun v => sub64 v (va 0)) vals).
  { rewrite <- U0. rewrite <- (slice_cur 0) by lia. f_equal. unfold slice. rewrite N.mul_0_l. change (skipn (N.to_nat 0) vals) with vals. apply firstn_all2. unfold lenN in Q1. lia. }
  assert (LC : last (cur 0) 0 = back) by (rewrite last_cur by lia; lia).
  assert (SD : sdelta < 2 ^ 57). { unfold sdelta. destruct (_ =? U); [lia|]. unfold back. lia. }
  assert (DL : lenN (delta_code sdelta) < 1000).
  { rewrite delta_len. assert (N.log2 (sdelta + 1) < 58) by (apply N.log2_lt_pow2; lia).
    pose proof (N.log2_le_mono (N.log2 (sdelta + 1) + 1) 63 ltac:(lia)) as X. change (N.log2 63) with 5 in X. lia. }
  destruct (append_repl (bvb_new 0 false) [] (va 0) ub) as (b1 & E1 & R1).
  { apply bvb_new0_rep. } { lia. } { exact VU. } { change (lenN (@nil bool)) with 0. lia. }
  cbn [app] in R1. assert (LB1 : lenN (bits_of (va 0) ub) = ub) by apply lenN_bits_of.
  assert (DW : exists b2, (if 1 <? n then if add64 (add64 (va 0) back) 1 =? U then write_delta b1 0 else write_delta b1 back else Ok b1) = Ok b2 /\ brepl b2 shdr).
  { unfold shdr. fold ub. rewrite (add64_small (va 0)) by (unfold back; lia). rewrite add64_small by (unfold back; lia).
    destruct (1 <? n); [|exists b1; split; [reflexivity|rewrite app_nil_r; exact R1]].
    destruct (write_delta_ok b1 _ sdelta R1) as (b2 & E2 & R2); [lia|lia|]. exists b2. split; [|exact R2]. rewrite <- E2. unfold sdelta. destruct (_ =? U); reflexivity. }
  destruct DW as (b2 & E2 & R2).
  assert (SL : lenN shdr < 2000). { unfold shdr. rewrite lenN_app. fold ub. rewrite LB1. destruct (1 <? n); [lia|]. change (lenN (@nil bool)) with 0. lia. }
  destruct (cef_write_ok b2 shdr (cur 0) (pu 0) R2) as (b3 & E3 & R3).
  { rewrite lenN_cur by assumption. lia. } { apply pu_lt; assumption. } { lia. } { apply (cur_lt vals log Hlog Hn HS parts). lia. } { apply (cur_sorted vals log Hlog Hn HS parts). lia. }
  fold (code 0) in R3. set (f := mkpef n U parts (cv_of_builder cvb_empty) (bv_build b3) log).
  assert (WR : forall order, log = (if 2 <? order then 7 else 6) -> pef_write vals U order = Ok f).
  { intros order HO. unfold pef_write.
    assert (V0 : exists x l, vals = x :: l /\ x = va 0).
    { pose proof (va_nth vals 0 ltac:(lia)) as V0. clear - V0. destruct vals as [|x l]; [discriminate V0|]. exists x, l. split; reflexivity. }
    destruct V0 as (x & l & EV & EX). rewrite EV at 1. rewrite EX. cbv zeta. rewrite <- HO.
    assert (PS : shl 1 log = psz). { clear - Hlog. destruct Hlog as [-> | ->]; reflexivity. }
    rewrite PS.
    assert (CD : ceil_div n psz = Ok parts).
    { unfold ceil_div. destruct (N.eqb_spec psz 0) as [Z|_]; [lia|]. f_equal. rewrite add64_small by lia. rewrite sub64_small by lia.
      rewrite P1. symmetry. apply (N.div_unique _ _ _ (n - 1)); lia. }
    rewrite CD. cbn [bind]. destruct (N.eqb_spec parts 1) as [_|Z]; [|lia]. rewrite <- SC, LC. rewrite (add64_small U) by lia. fold ub.
    rewrite E1. cbn [bind]. rewrite E2. cbn [bind]. rewrite (add64_small back) by (unfold back; lia). rewrite <- PU, E3. reflexivity. }
  set (Bo := fun _ : N => lenN shdr).
  assert (VR : vrepl (bv_build b3) (shdr ++ code 0)) by (apply brep_build; exact R3).
  assert (CL : lenN (code 0) <= 8192) by (apply code_len; lia).
  assert (LT : lenN (shdr ++ code 0) < 2 ^ 62) by (rewrite lenN_app; lia).
  assert (DA : data_at vals log f Bo shdr [] 0).
  { unfold data_at. cbn [pf_data f]. rewrite app_nil_r. split; [exact VR|]. split; [exact LT|reflexivity]. }
  assert (HPR : prep vals log parts f U Bo).
  { split; try reflexivity; [|intros; lia]. intros p Hp. assert (p = 0) as -> by lia. exists shdr, []. exact DA. }
  assert (IN : exists e, pef_init (pd x0 x1) f = Ok e /\ pst vals log parts f Bo e 0 n /\ en_pos e = 0 /\ en_first e = true).
  { unfold pef_init. cbn [pf_data pf_parts pf_univ pf_size f]. destruct (N.eqb_spec parts 1) as [_|Z]; [|lia]. rewrite (add64_small U) by lia. fold ub.
    pose proof VR as VR1. unfold shdr in VR1. fold ub in VR1. rewrite <- app_assoc in VR1.
    destruct (bit_get_sok (bv_build b3) _ _ (bit_new 0) 0 ub VR1) as (it & EI & SI).
    { apply sinv_new. } { lia. } { rewrite !lenN_app, LB1. lia. }
    rewrite EI. cbn [bind]. cbv beta iota.
    assert (FV : forall z, field (num_of (bits_of (va 0) ub ++ z)) 0 ub = va 0) by (intros z; exact (field_mid [] (va 0) ub z VU)).
    rewrite FV. rewrite N.add_0_l in SI.
    assert (RD : exists it', (if 1 <? n then ' (d, it) <- read_delta (bv_build b3) it ;; Ok (i32 (if d =? 0 then sub64 (sub64 U (va 0)) 1 else d), it) else Ok (0, it)) = Ok (back, it') /\ bi_pos it' = lenN shdr).
    { unfold shdr. fold ub. destruct (N.ltb_spec 1 n) as [L|L].
      - destruct (read_delta_ok (bv_build b3) (bits_of (va 0) ub) sdelta (code 0) it VR1) as (it' & ED & SI'); [rewrite LB1; exact SI|lia|].
        rewrite ED. cbn [bind]. cbv beta iota. exists it'. destruct SI' as ((SP & _) & _). split; [|exact SP]. do 2 f_equal.
        assert (D : (if sdelta =? 0 then sub64 (sub64 U (va 0)) 1 else sdelta) = back).
        { unfold sdelta. destruct (N.eqb_spec (va 0 + back + 1) U) as [T|T]; cbn [N.eqb].
          - rewrite (sub64_small U) by lia. rewrite sub64_small by lia. lia.
          - assert (0 < back) by (unfold back in *; lia). destruct (N.eqb_spec back 0); [lia|reflexivity]. }
        rewrite D. apply i32_small. unfold back. lia.
      - exists it. assert (n = 1) by lia. split; [do 2 f_equal; unfold back; replace (n - 1) with 0 by lia; lia|]. destruct SI as ((SP & _) & _). rewrite app_nil_r, LB1. exact SP. }
    destruct RD as (it' & ER & EP). rewrite ER. cbn [bind]. cbv beta iota. destruct (N.eqb_spec back (2 ^ 31 - 1)) as [Z|_]; [unfold back in Z; lia|].
    rewrite EP, (add64_small back) by (unfold back; lia). rewrite <- PU.
    destruct (cen_new_ok (bv_build b3) shdr [] (pu 0) (cur 0)) as (cc & EC & CC).
    { rewrite lenN_cur by assumption. lia. } { apply pu_lt; assumption. }
    rewrite lenN_cur, PN in EC, CC by assumption. rewrite EC. cbn [bind]. eexists. split; [reflexivity|]. split; [|split; reflexivity].
    split; [lia|]. cbn [en_part en_begin en_end en_base en_ub en_cef]. split; [reflexivity|]. split; [lia|]. split; [lia|]. split; [symmetry; exact U0|].
    split; [replace (0 + 1) with 1 by lia; rewrite U1, add64_small; unfold back; lia|]. split; [intros Z; lia|]. exists shdr, []. split; [exact DA|exact CC]. }
  destruct IN as (e & I1 & I2 & I3 & I4). exists f, Bo, e. split; [exact WR|]. split; [exact HPR|]. split; [exact I1|]. split; [exact I2|]. split; [exact I3|]. split; [exact I4|].
  right. intros i Pi Li. destruct (pst_unique _ _ _ _ _ _ _ _ _ _ I2 Pi) as (_ & <-). lia.
Qed.
End Build.

(** ** the sequence built from [vals] *)
Lemma is_parts_exists vals log : (log = 6 \/ log = 7) -> 0 < lenN vals < 2 ^ 40 -> exists parts, is_parts vals log parts.
Proof.
  intros Hlog Hn. pose proof (psz_bound log Hlog) as PB. exists ((lenN vals - 1) / 2 ^ log + 1).
  pose proof (N.div_mod (lenN vals - 1) (2 ^ log) ltac:(lia)) as E. pose proof (N.mod_lt (lenN vals - 1) (2 ^ log) ltac:(lia)) as L.
  rewrite N.mul_comm in E. set (q := (lenN vals - 1) / 2 ^ log) in *. set (r := (lenN vals - 1) mod 2 ^ log) in *. clearbody q r. clear - E L Hn PB.
  unfold is_parts. replace (q + 1 - 1) with q by lia. rewrite N.mul_add_distr_r, N.mul_1_l. generalize dependent (q * 2 ^ log). intros z E. split; [lia|]. split; lia.
Qed.

Theorem write_ok vals U order x0 x1 : 0 < lenN vals < 2 ^ 40 -> sortedN vals -> Forall (fun x => x < 2 ^ 56) vals -> x0 < 2 ^ 64 -> x1 < 2 ^ 64 ->
  va vals (lenN vals - 1) <= U < 2 ^ 57 ->
  let log := if 2 <? order then 7 else 6 in
  (lenN vals <= 2 ^ log -> (lenN vals = 1 \/ va vals 0 < va vals (lenN vals - 1) \/ U = va vals (lenN vals - 1) + 1) /\ va vals (lenN vals - 1) < va vals 0 + (2 ^ 31 - 1)) ->
  exists parts f Bo e i0, is_parts vals log parts /\ pef_write vals U order = Ok f /\ prep vals log parts f U Bo /\
    pef_init (pd x0 x1) f = Ok e /\ pst vals log parts f Bo e 0 i0 /\ en_pos e = 0 /\ en_first e = true /\ clean vals log parts f Bo e.
Proof.
  intros Hn HS HF Hx0 Hx1 HU log H1. assert (Hlog : log = 6 \/ log = 7) by (unfold log; destruct (2 <? order); auto).
  destruct (is_parts_exists vals log Hlog Hn) as (parts & HP). exists parts. pose proof (psz_bound log Hlog) as PB. pose proof HP as (Q1 & Q2 & Q3).
  destruct (N.lt_ge_cases 1 parts) as [M|M].
  - destruct (multi_ok vals log Hlog Hn HS HF parts HP U x0 x1 Hx0 Hx1 HU M) as (f & Bo & e & W & R & I & P & E1 & E2 & C).
    exists f, Bo, e, 0. split; [exact HP|]. split; [apply W; reflexivity|]. auto 7.
  - assert (E1 : parts = 1) by lia. destruct H1 as (A1 & A2). { rewrite E1, N.mul_1_l in Q1. exact Q1. }
    destruct (single_ok vals log Hlog Hn HS HF parts HP U x0 x1 Hx0 Hx1 HU E1 A1 A2) as (f & Bo & e & W & R & I & P & E2 & E3 & C).
    exists f, Bo, e, (lenN vals). split; [exact HP|]. split; [apply W; reflexivity|]. auto 7.
Qed.
