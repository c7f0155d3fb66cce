(** * Statistics: the entropy loop *)
From Verif Require Import Prelude BitFacts M_Word P_Word M_Bits Spec P_Bits M_CompactVector P_CompactVector M_DArray M_EF P_EF P_EF2
  M_HashVec M_Mph M_FastEF P_FastEF P_FastEF3 M_SeqColl P_SeqColl M_Trie Spec_Trie P_Trie1 P_Trie6 M_Save M_Stats Spec_Stats P_Typed P_Stats1.
From Coq Require Import Permutation Sorting.Sorted.

Lemma w32_small x : x < 2 ^ 32 -> w32 x = x.
Proof. intros H. unfold w32. rewrite N.land_ones. apply N.mod_small. exact H. Qed.
Lemma freq_le v vs : freq v vs <= lenN vs.
Proof. unfold freq. apply filter_lenN. Qed.
Lemma occ_add_eat occs vs x : fmap_ok occs vs -> lenN vs + 1 < 2 ^ 32 -> x < 2 ^ 32 -> occ_add occs x = eat_value occs x.
Proof.
  intros [_ FM] L X. unfold occ_add, eat_value. rewrite (w32_small x X). destruct (existsb (fun p => fst p =? x) occs); [|reflexivity].
  apply map_ext_in. intros [v f] H. apply FM in H. destruct H as [_ ->]. cbn [fst snd]. destruct (v =? x); [|reflexivity].
  rewrite w32_small; [reflexivity|]. pose proof (freq_le v vs). lia.
Qed.

Lemma last_at (l : list N) v : nthN l (lenN l - 1) = Some v -> last l 0 = v.
Proof.
  destruct l as [|x l] using rev_ind; [intros H; apply nthN_lt in H; change (lenN (@nil N)) with 0 in H; lia|]. rewrite last_last, lenN_app. change (lenN [x]) with 1.
  replace (lenN l + 1 - 1) with (lenN l) by lia. rewrite nthN_app2, N.sub_diag by lia. intros H. injection H as <-. reflexivity.
Qed.
(** an iterator over the values [vs]: [at_ it i] says that the next value is the i-th *)
Definition iterates {I} (next : I -> res (N * I)) (at_ : I -> N -> Prop) (vs : list N) : Prop :=
  forall it i v, at_ it i -> nthN vs i = Some v -> exists it', next it = Ok (v, it') /\ at_ it' (i + 1).
Section Entropy.
Variables (e : ef) (ptrs ids vs : list N).
Variables (I : Type) (next : I -> res (N * I)) (at_ : I -> N -> Prop).
Hypothesis RE : ef_rep e ptrs.
Hypothesis NX : iterates next at_ vs.
Hypothesis V64 : Forall (fun v => v < 2 ^ 64) vs.
Hypothesis VO : values_of vs ids ptrs.
Hypothesis PF : pointers_for ptrs (lenN ids).
Hypothesis LI : lenN ids < 2 ^ 31.
Hypothesis IB : Forall (fun v => v < 2 ^ 32) ids.
Hypothesis LP : lenN ptrs < 2 ^ 63.
Definition occs_of (n : N) : list (N * N) := fold_left eat_value (firstn (N.to_nat n) ids) [].
Lemma occs_of_ok n : fmap_ok (occs_of n) (firstn (N.to_nat n) ids).
Proof using Type. apply eat_all_ok. Qed.
Lemma occs_of_S n x : nthN ids n = Some x -> occs_of (n + 1) = eat_value (occs_of n) x.
Proof using Type. intros H. unfold occs_of. rewrite (firstn_S_nthN ids n x H), fold_left_app. reflexivity. Qed.
Lemma ptr_le j p : nthN ptrs j = Some p -> p <= lenN ids.
Proof using PF. clear LP LI.
  intros H. pose proof PF as (P0 & P1 & P2 & P3). apply (sortedN_le ptrs P3 j (lenN ptrs - 1) p (lenN ids)); [apply nthN_lt in H; lia|exact H|exact P2].
Qed.

Definition ginv (b c : N) (j : N) (s : I * N * list (N * N)) : Prop :=
  let '(it, upper, occs) := s in
  at_ it (b + j) /\ upper = (if (j =? c - b) && (b <? c) then pv vs c else pv vs b) /\ occs = occs_of (b + j).
Lemma gram_step_ok b c j s : is_range ptrs b c -> b <= c -> j < c - b -> ginv b c j s -> exists s', gram_step next (c - b) s j = Ok s' /\ ginv b c (j + 1) s'.
Proof.
  intros R BC J. destruct s as [[it upper] occs]. intros (A1 & A2 & A3). pose proof R as (i & R1 & R2). pose proof (ptr_le _ _ R2) as CL.
  destruct (nthN_Some ids (b + j) ltac:(lia)) as (x & Hx). destruct VO as (VL & VV). pose proof (VV b c (b + j) x R ltac:(lia) Hx) as Hv.
  destruct (NX _ (b + j) _ A1 Hv) as (it' & EN & AT').
  unfold gram_step. rewrite EN. cbn [bind]. cbv beta iota zeta.
  destruct (N.eqb_spec j (c - b)) as [Z|Z]; [lia|]. cbn [andb] in A2. subst upper.
  assert (W64 : x + pv vs b < 2 ^ 64) by (rewrite Forall_forall in V64; apply V64; eapply nthN_In; eauto).
  rewrite !sub64_small by lia. replace (x + pv vs b - pv vs b) with x by lia.
  assert (X32 : x < 2 ^ 32). { rewrite Forall_forall in IB. apply IB. eapply nthN_In; eauto. }
  subst occs. eexists. split; [reflexivity|]. split; [replace (b + (j + 1)) with (b + j + 1) by lia; exact AT'|]. split.
  - destruct (N.eqb_spec j (c - b - 1)) as [E|E]; destruct (N.eqb_spec (j + 1) (c - b)) as [E'|E']; try lia; cbn [andb].
    + destruct (N.ltb_spec b c); [|lia]. unfold pv at 2. destruct (N.eqb_spec c 0); [lia|]. replace (c - 1) with (b + j) by lia. rewrite Hv. reflexivity.
    + reflexivity.
  - replace (b + (j + 1)) with (b + j + 1) by lia. rewrite (occs_of_S _ _ Hx). apply (occ_add_eat _ (firstn (N.to_nat (b + j)) ids)); [apply occs_of_ok| |exact X32].
    unfold lenN. rewrite firstn_length. unfold lenN in LI. lia.
Qed.
Definition rinv (i : N) (s : hstat I) : Prop :=
  exists b, nthN ptrs i = Some b /\ efit_at (ef_core e) ptrs (hs_pit s) (i + 1) /\ hs_begin s = b /\
    at_ (hs_git s) b /\ hs_upper s = pv vs b /\ hs_occs s = occs_of b /\ hs_terms s = pos_only (gaps ptrs i).
Lemma range_step_ok i s : i + 1 < lenN ptrs -> rinv i s -> exists s', range_step next e s i = Ok s' /\ rinv (i + 1) s'.
Proof.
  intros Hi (b & Hb & AT & EB & AG & EU & EO & ET). destruct (nthN_Some ptrs (i + 1) Hi) as (c & Hc).
  destruct (efit_next_ok _ ptrs _ (i + 1) c (proj1 RE) AT Hc) as (pit & EN & AT'). unfold range_step. rewrite EN. cbn [bind]. cbv beta iota zeta.
  pose proof PF as (P0 & P1 & P2 & P3). pose proof (P3 i b c Hb Hc) as BC. pose proof (ptr_le _ _ Hc) as CL.
  rewrite EB, sub64_small by lia.
  assert (R : is_range ptrs b c) by (exists i; split; assumption).
  destruct (foldM_rng (ginv b c) (gram_step next (c - b)) (c - b) (hs_git s, hs_upper s, hs_occs s)) as ([[it upper] occs] & EF & G1 & G2 & G3).
  { split; [rewrite N.add_0_r; exact AG|]. rewrite N.add_0_r. split; [|exact EO]. rewrite EU. destruct (N.eqb_spec 0 (c - b)); cbn [andb]; [|reflexivity]. destruct (N.ltb_spec b c); [lia|reflexivity]. }
  { intros j a J GI. apply gram_step_ok; assumption. }
  rewrite EF. cbn [bind]. cbv beta iota. eexists. split; [reflexivity|]. replace (b + (c - b)) with c in * by lia.
  exists c. cbn [hs_pit hs_begin hs_git hs_upper hs_occs hs_terms]. split; [exact Hc|]. split; [exact AT'|]. split; [reflexivity|]. split; [exact G1|]. split; [|split; [exact G3|]].
  - rewrite N.eqb_refl in G2. cbn [andb] in G2. destruct (N.ltb_spec b c); [exact G2|]. replace c with b by lia. exact G2.
  - unfold gaps. rewrite range_snoc, map_app. cbn [map]. rewrite pos_only_snoc. fold (gaps ptrs i). rewrite <- ET.
    assert (GE : gap ptrs i = c - b). { unfold gap. rewrite (nth_nthN _ _ _ Hb), (nth_nthN _ _ _ Hc). reflexivity. } rewrite GE. reflexivity.
Qed.
Lemma entropy_loop git : 0 < lenN ids -> at_ git 0 -> exists pit b s, efit_new (ef_core e) 0 = Ok pit /\ efit_next (ef_core e) pit = Ok (0, b) /\
  foldM (range_step next e) (range (sub64 (ef_size e) 1)) (mkhstat b 0 git 0 [] []) = Ok s /\
  hs_terms s = pos_only (gaps ptrs (lenN ptrs - 1)) /\ hs_occs s = fold_left eat_value ids [].
Proof.
  intros NE AG. pose proof RE as [RC RS]. pose proof PF as (P0 & P1 & P2 & P3). pose proof VO as (VL & _).
  destruct (efit_new_ok (ef_core e) ptrs 0 RC ltac:(lia)) as (it & EN & AT).
  destruct (efit_next_ok _ ptrs _ 0 0 RC AT P0) as (it' & EX & AT').
  destruct (foldM_rng rinv (range_step next e) (lenN ptrs - 1) (mkhstat it' 0 git 0 [] [])) as (s & ES & b & B1 & _ & _ & _ & _ & B5 & B6).
  { exists 0. split; [exact P0|]. split; [exact AT'|]. split; [reflexivity|]. split; [exact AG|]. split; [reflexivity|]. split; reflexivity. }
  { intros i a Hi IA. apply range_step_ok; [lia|exact IA]. }
  exists it, it', s. split; [exact EN|]. split; [exact EX|]. rewrite RS, sub64_small by lia. split; [exact ES|]. split; [exact B6|]. rewrite B5.
  rewrite P2 in B1. injection B1 as <-. unfold occs_of. rewrite firstn_all2; [reflexivity|]. unfold lenN. lia.
Qed.
End Entropy.
(** a view of a gram sequence that holds the values [vs] *)
Definition view_holds (g : gview) (vs : list N) : Prop :=
  gv_size g = lenN vs /\ Forall (fun v => v < 2 ^ 64) vs /\ gv_univ g = Ok (last vs 0) /\
  exists at_ it, gv_begin g = Ok it /\ at_ it 0 /\ iterates (gv_next g) at_ vs.
Lemma entropy_stats_ok e g ptrs ids vs : ef_rep e ptrs -> view_holds g vs -> values_of vs ids ptrs -> pointers_for ptrs (lenN ids) -> lenN ids < 2 ^ 31 ->
  Forall (fun v => v < 2 ^ 32) ids -> lenN ptrs < 2 ^ 63 -> 0 < lenN ids ->
  entropy_stats g (Some e) = Ok (pos_only (gaps ptrs (lenN ptrs - 1)), fold_left eat_value ids []).
Proof.
  intros RE (_ & V64 & _ & at_ & it & EB & A0 & NX) VO PF LI IB LP NE.
  destruct (entropy_loop e ptrs ids vs _ (gv_next g) at_ RE NX V64 VO PF LI IB LP it NE A0) as (pit & b & s & E1 & E2 & E3 & E4 & E5).
  unfold entropy_stats. cbn [of_opt]. rewrite E1. cbn [bind]. rewrite E2. cbn [bind]. cbv beta iota. rewrite EB. cbn [bind]. rewrite E3. cbn [bind]. rewrite E4, E5. reflexivity.
Qed.
Lemma view_fef_holds f vs : f_size f = lenN vs -> efc_rep (f_core f) vs -> 0 < lenN vs < 2 ^ 63 -> view_holds (view_fef (Some f)) vs.
Proof.
  intros HS RF HL. unfold view_holds, view_fef. cbn [of_opt gv_size gv_univ gv_it gv_begin gv_next]. split; [exact HS|].
  split; [destruct RF as (? & ? & _ & _ & _ & _ & _ & _ & _ & F64 & _); exact F64|]. split.
  - rewrite HS, sub64_small by lia. destruct (nthN_Some vs (lenN vs - 1) ltac:(lia)) as (v & Hv). rewrite (efc_get_ok _ vs _ _ RF Hv). f_equal. symmetry. apply last_at. exact Hv.
  - destruct (efit_new_ok (f_core f) vs 0 RF ltac:(lia)) as (it & EN & AT). exists (fun it i => efit_at (f_core f) vs it i), it. split; [exact EN|]. split; [exact AT|].
    intros it0 i v A Hv. apply (efit_next_ok _ vs _ i v RF A Hv).
Qed.
