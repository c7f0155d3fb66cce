(** * Statistics: the hash models *)
From Coq Require Import Floats.SpecFloat.
From Verif Require Import Prelude BitFacts M_Word P_Word M_Bits Spec P_Bits M_CompactVector P_CompactVector M_DArray M_EF P_EF2 M_HashVec M_Mph P_Mph P_MphTables M_FastEF M_Text M_SeqColl P_SeqColl
  M_Pool M_Trie Spec_Trie P_Trie4 P_Trie5 M_MphCount Props_MphCount M_Score Spec_Katz M_Quant M_MphProb Spec_Arpa P_Values P_MphProb M_TrieProb M_Save M_Save2 P_Save P_Typed P_Typed3
  M_Stats Spec_Stats P_Stats6.
From Coq Require Import Permutation.

Lemma hcv_new_bits hb n w c : hb = 32 \/ hb = 64 -> n < 2 ^ 56 -> hcv_new hb n w = Ok c -> n <= lenN (h_bits c) /\ Forall (fun x => x < 2 ^ hb) (h_bits c).
Proof.
  intros HB Hn E. unfold hcv_new in E. destruct (w =? 0); [discriminate|]. destruct (N.ltb_spec 64 w); [discriminate|]. injection E as <-. cbn [h_bits].
  split; [|apply Forall_rep; apply pow2_pos]. rewrite lenN_rep.
  assert (M : mul64 n (hb + w) = n * (hb + w)). { unfold mul64, w64. rewrite N.land_ones. apply N.mod_small. destruct HB; subst hb; nia. }
  rewrite M. apply N.div_le_lower_bound; [destruct HB; subst hb; lia|]. destruct HB; subst hb; nia.
Qed.
Lemma svt_build_bits {K} hb (h : K -> triple) dom order keys vals t : hb = 32 \/ hb = 64 -> c_size vals < 2 ^ 56 ->
  svt_build hb h dom order keys vals = Ok t -> c_size vals <= lenN (h_bits (sv_data t)).
Proof.
  intros HB Hn E. unfold svt_build in E. apply bind_inv in E. destruct E as (data & E1 & E). apply bind_inv in E. destruct E as (m & E2 & E).
  apply bind_inv in E. destruct E as (vs & _ & E). apply bind_inv in E. destruct E as (data' & E3 & E). injection E as <-. cbn [sv_data].
  refine (proj1 (foldM_inv (fun c => c_size vals <= lenN (h_bits c) /\ Forall (fun x => x < 2 ^ hb) (h_bits c)) _ _ _ _ _ (hcv_new_bits _ _ _ _ HB Hn E1) E3)).
  intros s iv s' _ (T1 & T2) E0. apply bind_inv in E0. destruct E0 as (k & _ & E0). apply bind_inv in E0. destruct E0 as (pos & _ & E0).
  destruct (hcv_set_typed _ _ _ _ _ _ E0) as (_ & _ & _ & R4). destruct (R4 T2) as (F & L). split; [rewrite L; assumption|assumption].
Qed.
Lemma push_size b v b' : cvb_push_back b v = Ok b' -> cb_size b' = cb_size b.
Proof.
  unfold cvb_push_back. intros H. do 5 (apply bind_inv in H; destruct H as (? & _ & H)).
  match type of H with context[let '(_, _) := ?z in _] => destruct z as [[? ?] ?] end. cbv zeta in H. destruct (_ =? 64); injection H as <-; reflexivity.
Qed.
Lemma cvb_new_size n w c : cvb_new n w = Ok c -> cb_size c = n.
Proof. unfold cvb_new. destruct (64 <? cv_width w); [discriminate|]. intros E. injection E as <-. reflexivity. Qed.

(** ** the shares *)
Lemma fold_add l : forall a, fold_left N.add l a = a + sumN l.
Proof. induction l as [|x l IH]; intros a; cbn [fold_left]; [change (sumN []) with 0; lia|]. rewrite IH. change (sumN (x :: l)) with (x + sumN l). lia. Qed.
Lemma tables_size_ok ts : lenN ts <= 8 -> Forall (fun t => m_n (sv_h t) < 2 ^ 31) ts -> tables_size ts = sumN (map (fun t => m_n (sv_h t)) ts).
Proof.
  intros L F. unfold tables_size.
  assert (K : forall l acc, Forall (fun t => m_n (sv_h t) < 2 ^ 31) l -> acc + lenN l * 2 ^ 31 < 2 ^ 64 -> fold_left (fun s t => add64 s (m_n (sv_h t))) l acc = acc + sumN (map (fun t => m_n (sv_h t)) l)).
  { clear. induction l as [|t l IH]; intros acc HF HL; cbn [fold_left map]; [rewrite N.add_0_r; reflexivity|]. rewrite lenN_cons in HL. inversion HF; subst.
    rewrite add64_small by lia. rewrite IH by (assumption || lia). rewrite sumN_cons. lia. }
  rewrite K by (assumption || lia). lia.
Qed.
Lemma keys_le hb ts : Forall (fun t => m_n (sv_h t) <= lenN (h_bits (sv_data t))) ts ->
  hb / 8 * sumN (map (fun t => m_n (sv_h t)) ts) <= sumN (map (fun t => bytes_hcv hb (sv_data t)) ts).
Proof.
  induction 1 as [|t l H F IH]; [cbn [map]; change (sumN []) with 0; lia|]. cbn [map]. rewrite !sumN_cons. set (T := sumN (map (fun t => bytes_hcv hb (sv_data t)) l)) in *. set (M := sumN (map (fun t => m_n (sv_h t)) l)) in *. unfold bytes_hcv. pose proof (N.mul_le_mono_l _ _ (hb / 8) H). lia.
Qed.
Lemma len_tables x hb ts : sumN (map (fun t => bytes_hcv hb (sv_data t)) ts) <= lenN (save_seq (save_svt x hb) ts).
Proof.
  unfold save_seq. induction ts as [|t ts IH]; [reflexivity|]. cbn [map concat]. rewrite sumN_cons, lenN_app. pose proof (len_svt x hb t). lia.
Qed.
Lemma shares_ok hb bytes n values tables keys ranks functions : bytes < 2 ^ 64 -> values + sumN tables <= bytes -> hb / 8 * n <= sumN tables ->
  mph_shares hb bytes n values tables = (keys, ranks, functions) -> keys = hb / 8 * n /\ keys + ranks = values + sumN tables /\ keys + ranks + functions = bytes.
Proof.
  intros HB HV HN E. unfold mph_shares in E. rewrite fold_add in E. rewrite !sub64_small in E by lia. injection E as <- <- <-. lia.
Qed.

(** ** distinct counts *)
Lemma dict_sizes vss sorts cb : Forall (fun vs => vs <> [] /\ lenN vs < 2 ^ 57 /\ Forall (fun v => v < 2 ^ 64 - 1) vs) vss ->
  Forall2 (fun vs s => Permutation s (with_freq vs)) vss sorts -> sc_add_all scb_empty vss sorts = Ok cb ->
  map c_size (sb_seqs cb) = map distinct vss.
Proof.
  intros F F2 E. destruct (sc_add_all_ok vss sorts scb_empty F) as (ps & cs & E' & L1 & L2 & DK).
  { clear - F2. induction F2 as [|a b l l' P F IH]; constructor; [|exact IH]. eapply Permutation_trans; [exact P|apply eat_with_freq]. }
  rewrite E in E'. injection E' as ->. cbn [sb_seqs scb_empty app]. apply nthN_ext. intros i. rewrite !nthN_map.
  destruct (nthN vss i) as [vs|] eqn:Hv.
  - pose proof (nthN_lt _ _ _ Hv) as LI. destruct (nthN_Some ps i ltac:(unfold lenN in *; lia)) as (p & Hp). destruct (nthN_Some cs i ltac:(unfold lenN in *; lia)) as (c & Hc).
    destruct (nthN_Some sorts i) as (s & Hs). { apply Forall2_len in F2. unfold lenN in *. lia. }
    destruct (DK i vs s p c Hv Hs Hp Hc) as (D1 & _). rewrite Hc. cbn [option_map]. f_equal. rewrite (cv_holds_size _ _ D1), lenN_map.
    unfold distinct. apply lenN_with_freq. apply (Forall2_nthN _ _ _ _ _ _ F2 Hv Hs).
  - assert (LI : lenN cs <= i). { destruct (N.le_gt_cases (lenN cs) i); [assumption|]. destruct (nthN_Some vss i) as (z & Hz); [unfold lenN in *; lia|congruence]. }
    destruct (nthN cs i) eqn:Hc; [apply nthN_lt in Hc; lia|reflexivity].
Qed.
Lemma mapM_rd_size (l : list cv) n : n = lenN l -> mapM (fun i => c <- rd l i ;; Ok (c_size c)) (range n) = Ok (map c_size l).
Proof. intros ->. apply mapM_range. intros i c H. rewrite (proj2 (rd_nthN _ _ _) H). reflexivity. Qed.
