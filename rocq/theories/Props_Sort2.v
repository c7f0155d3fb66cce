(** * C28, C43, continued: the memory granted to the sort

    --ram only decides how the input is cut into batches. *)
From Coq Require Import Floats.SpecFloat.
From Verif Require Import Prelude BitFacts M_Mph Spec M_Text P_Text P_SeqColl M_Pool P_Pool M_Trie P_Trie3 M_Sort Spec_Sort P_Sort P_Sort2 Props_Sort
  M_ArpaFile Spec_Arpa Spec_ArpaFile Spec_SortArpa M_SortArpa Props_SortArpa.
From Coq Require Import Sorting.Sorted Permutation.

(** records of different n-grams in order can be listed in one way only *)
Lemma in_order_unique {A} fwd V (a : list (list (list N) * A)) : NoDup V -> NoDup (map fst a) ->
  forall b, in_order fwd V a -> in_order fwd V b -> Permutation a b -> a = b.
Proof.
  intros NV. induction a as [|x a IH]; intros ND b SA SB P; [apply Permutation_nil in P; congruence|].
  destruct b as [|y b]; [apply Permutation_sym, Permutation_nil in P; discriminate|].
  inversion SA as [|? ? SA1 SA2]; subst. inversion SB as [|? ? SB1 SB2]; subst. rewrite Forall_forall in SA2, SB2. cbn [map] in ND. inversion ND as [|? ? N1 N2]; subst.
  assert (E : x = y).
  { pose proof (Permutation_in x P (or_introl eq_refl)) as [Q|I1]; [congruence|]. pose proof (Permutation_in y (Permutation_sym P) (or_introl eq_refl)) as [Q|I2]; [congruence|].
    exfalso. destruct (SA2 y I2) as [Q|Q1]; [apply N1; rewrite Q; apply in_map; exact I2|]. destruct (SB2 x I1) as [Q|Q2]; [apply N1; rewrite <- Q; apply in_map; exact I2|].
    exact (bfrom_irrefl V NV fwd _ (bfrom_trans V NV fwd _ _ _ Q1 Q2)). }
  subst y. f_equal. apply IH; [exact N2|exact SA1|exact SB1|exact (Permutation_cons_inv P)].
Qed.
Lemma vocab_once env vocab : sort_env_ok env vocab -> NoDup (map fst vocab).
Proof. intros EO. destruct (sort_vocabulary_ok env vocab EO) as (v & _ & ND & _). exact ND. Qed.

(** Two runs of sort_grams on the same file of different n-grams, with different amounts of memory,
    different hash functions and different (correct) implementations of std::sort, write the same file. *)
Theorem C28_memory_irrelevant : forall env1 env2 vocab srt1 srt2 k rs bs1 bs2 out0,
  sort_env_ok env1 vocab -> sort_env_ok env2 vocab -> std_sort srt1 -> std_sort srt2 -> 0 < k < 2 ^ 32 ->
  se_ram env1 < 2 ^ 63 -> se_ram env2 < 2 ^ 63 -> sort_input vocab k (se_ram env1) rs -> sort_input vocab k (se_ram env2) rs ->
  2 <= lenN rs < 2 ^ 64 -> NoDup (map fst rs) ->
  batches (se_ram env1) rs bs1 -> (forall bs' r, bs1 <> bs' ++ [[r]]) ->
  batches (se_ram env2) rs bs2 -> (forall bs' r, bs2 <> bs' ++ [[r]]) ->
  exists out, sort_grams env1 srt1 (vocab_lines vocab) (lenN rs) (map line rs) out0 = Ok out /\
              sort_grams env2 srt2 (vocab_lines vocab) (lenN rs) (map line rs) out0 = Ok out.
Proof.
  intros env1 env2 vocab srt1 srt2 k rs bs1 bs2 out0 EO1 EO2 S1 S2 HK M1 M2 F1 F2 HN ND B1 G1 B2 G2.
  destruct (C28_sorted_partial env1 vocab srt1 k rs bs1 out0 EO1 S1 HK M1 F1 HN B1 G1) as (r1 & E1 & P1 & O1).
  destruct (C28_sorted_partial env2 vocab srt2 k rs bs2 out0 EO2 S2 HK M2 F2 HN B2 G2) as (r2 & E2 & P2 & O2).
  assert (E : r1 = r2).
  { apply (in_order_unique true (map fst vocab) r1 (vocab_once _ _ EO1)); [|exact O1|exact O2|exact (Permutation_trans (Permutation_sym P1) P2)].
    apply (Permutation_NoDup (Permutation_map fst P1) ND). }
  subst r2. eexists. split; [exact E1|exact E2].
Qed.

(** the same for sort_arpa *)
Theorem C43_memory_irrelevant : forall env1 env2 vocab srt1 srt2 data secs order lines es bs1 bs2,
  sort_env_ok (ae_s env1) vocab -> sort_env_ok (ae_s env2) vocab -> ae_sd env1 = ae_sd env2 -> ae_fmt env1 = ae_fmt env2 -> prints (ae_sd env1) (ae_fmt env1) ->
  std_sort srt1 -> std_sort srt2 -> se_ram (ae_s env1) < 2 ^ 63 -> se_ram (ae_s env2) < 2 ^ 63 ->
  plain_arpa data secs -> 1 <= order -> nthN secs (order - 1) = Some lines -> Forall2 (arpa_line (ae_sd env1)) es lines ->
  arpa_input (map fst vocab) order (se_ram (ae_s env1)) es -> arpa_input (map fst vocab) order (se_ram (ae_s env2)) es ->
  2 <= lenN es -> NoDup (map fst es) ->
  batches (se_ram (ae_s env1)) es bs1 -> (forall bs' e, bs1 <> bs' ++ [[e]]) ->
  batches (se_ram (ae_s env2)) es bs2 -> (forall bs' e, bs2 <> bs' ++ [[e]]) ->
  exists out, sort_arpa env1 srt1 (vocab_lines vocab) order data = Ok out /\ sort_arpa env2 srt2 (vocab_lines vocab) order data = Ok out.
Proof.
  intros env1 env2 vocab srt1 srt2 data secs order lines es bs1 bs2 EO1 EO2 ED EF PR S1 S2 M1 M2 PA HO N0 FE A1 A2 L2 ND B1 G1 B2 G2.
  destruct (C43_sorted_partial env1 vocab srt1 data secs order lines es bs1 EO1 PR S1 M1 PA HO N0 FE A1 L2 B1 G1) as (r1 & E1 & P1 & O1).
  rewrite ED in FE, PR. rewrite EF in PR.
  destruct (C43_sorted_partial env2 vocab srt2 data secs order lines es bs2 EO2 PR S2 M2 PA HO N0 FE A2 L2 B2 G2) as (r2 & E2 & P2 & O2).
  assert (E : r1 = r2).
  { apply (in_order_unique false (map fst vocab) r1 (vocab_once _ _ EO1)); [|exact O1|exact O2|exact (Permutation_trans (Permutation_sym P1) P2)].
    apply (Permutation_NoDup (Permutation_map fst P1) ND). }
  subst r2. eexists. split; [exact E1|]. rewrite E2, EF. reflexivity.
Qed.

(** Too little memory is not noticed.  The percentage of --ram is not checked against (0,100]; when no n-gram fits in the
    memory granted, every record is dropped and nothing is written. *)
Theorem C28_no_room_refuted : forall env vocab srt k rs out0,
  sort_env_ok env vocab -> 0 < k < 2 ^ 32 -> 0 < lenN rs < 2 ^ 64 ->
  Forall (fun r => vgram (map fst vocab) k (fst r) /\ snd r < 2 ^ 64 /\ se_ram env < lenN (join (fst r)) < 2 ^ 62) rs ->
  sort_grams env srt (vocab_lines vocab) (lenN rs) (map line rs) out0 = Ok out0.
Proof.
  intros env vocab srt k rs out0 EO HK HN F. unfold sort_grams. destruct (sort_vocabulary_ok env vocab EO) as (v & EV & ND & LK). rewrite EV. cbn [bind].
  destruct (N.eqb_spec (lenN rs) 0) as [Z|_]; [lia|]. destruct EO as [SW SS _ _].
  assert (VW : Forall vword (map fst vocab)). { apply Forall_map. eapply Forall_impl; [|exact SW]. intros e [? _]. assumption. }
  assert (VL : lenN (map fst vocab) < 2 ^ 64 - 1) by (rewrite lenN_map; lia).
  set (look := vlook (se_h env) v) in *. set (V := map fst vocab) in *.
  assert (AP : forall (r : list (list N) * N) p, vgram V k (fst r) /\ snd r < 2 ^ 64 /\ se_ram env < lenN (join (fst r)) < 2 ^ 62 -> p_max p = se_ram env -> append_line p (line r) = Ok (false, p)).
  { intros r p (Q1 & Q2 & Q3) PM. assert (Q : rec_ok (fun c : N => c < 2 ^ 64) V k (2 ^ 62) r) by (split; [exact Q1|split; [exact Q2|apply N.lt_le_incl, Q3]]).
    assert (HM : 2 ^ 62 < 2 ^ 63) by reflexivity. unfold append_line. rewrite (parse_line_rec V k (2 ^ 62) VW r Q). cbn [bind].
    destruct (line_holds V k (2 ^ 62) VL HK HM r Q) as (HL & _). rewrite (bytes_at_ok _ _ _ HL). cbn [bind]. unfold pool_append. rewrite PM.
    destruct (N.eqb_spec (lenN (join (fst r))) 0) as [Z|_]; [lia|]. destruct (N.ltb_spec (se_ram env) (lenN (p_data p) + lenN (join (fst r)))) as [_|Z]; [reflexivity|lia]. }
  assert (G : forall rs' fuel num, num + lenN rs' = lenN rs -> Forall (fun r => vgram V k (fst r) /\ snd r < 2 ^ 64 /\ se_ram env < lenN (join (fst r)) < 2 ^ 62) rs' -> (length rs' <= fuel)%nat ->
     batch_loop fuel true look srt (lenN rs) (mkso (lenN rs) [] out0) (pool_new (se_ram env)) (crit_of num (map line rs')) num = Ok (mkso (lenN rs) [] out0)).
  { clear - AP HN. induction rs' as [|r rs' IH]; intros fuel num EN F Hf.
    - change (lenN (@nil (list (list N) * N))) with 0 in EN. destruct fuel; cbn [batch_loop]; rewrite sub64_small by lia; (destruct (N.ltb_spec num (lenN rs - 1)) as [Z|_]; [lia|reflexivity]).
    - rewrite lenN_cons in EN. destruct fuel as [|f]; [cbn [length] in Hf; lia|]. cbn [batch_loop]. rewrite sub64_small by lia. destruct (N.ltb_spec num (lenN rs - 1)) as [LT|_]; [|reflexivity].
      inversion F as [|? ? Q F']; subst. cbn [map crit_of cr_line]. rewrite (AP r (pool_new (se_ram env)) Q eq_refl). cbn [bind]. cbv beta iota.
      assert (EC : cr_next (mkcrit num (line r) (map line rs')) = crit_of (num + 1) (map line rs')) by (unfold cr_next; cbn [cr_rest cr_num]; destruct (map line rs'); reflexivity). rewrite EC.
      destruct rs' as [|r' rs']; [change (lenN (@nil (list (list N) * N))) with 0 in EN; lia|]. inversion F' as [|? ? Q' F'']; subst. rewrite lenN_cons in EN.
      assert (FI : fill (N.to_nat (lenN rs)) (lenN rs) (pool_new (se_ram env)) (crit_of (num + 1) (map line (r' :: rs'))) num = Ok (pool_new (se_ram env), crit_of (num + 1) (map line (r' :: rs')), num)).
      { cbn [map crit_of]. destruct (N.to_nat (lenN rs)) as [|m] eqn:EM; [lia|]. cbn [fill cr_num]. destruct (N.eqb_spec (num + 1) (lenN rs)) as [Z|_]; [lia|]. cbn [cr_line].
        rewrite (AP r' (pool_new (se_ram env)) Q' eq_refl). reflexivity. }
      rewrite FI. cbn [bind]. unfold so_sort at 1. cbn [p_index pool_new]. cbn [bind]. rewrite add64_small by lia. change (pool_clear (pool_new (se_ram env))) with (@pool_new N (se_ram env)).
      apply IH; [rewrite lenN_cons; lia|exact F'|cbn [length] in *; lia]. }
  change (cr_begin (map line rs)) with (crit_of 0 (map line rs)). rewrite (G rs _ 0); [|lia|exact F|unfold lenN; lia]. cbn [bind so_files length merge_batches]. reflexivity.
Qed.

(** instances: the four bigrams of the example of C28, with 6 and with 60 bytes, and with 2 bytes *)
Example C28_memory_example : NoDup (map fst exs_rs) /\
  sort_grams (exs_env 6) isort (vocab_lines exs_vocab) 4 (map line exs_rs) [] = sort_grams (exs_env 60) isort (vocab_lines exs_vocab) 4 (map line exs_rs) [] /\
  Forall (fun r => vgram (map fst exs_vocab) 2 (fst r) /\ snd r < 2 ^ 64 /\ se_ram (exs_env 2) < lenN (join (fst r)) < 2 ^ 62) exs_rs.
Proof.
  split; [|split; [vm_compute; reflexivity|]].
  - unfold exs_rs. cbn [map fst]. repeat constructor; cbn; intuition discriminate.
  - unfold exs_rs. repeat (apply Forall_cons; [split; [split; [reflexivity|repeat (apply Forall_cons; [vm_compute; repeat (first [left; reflexivity|right])|]); constructor]|split; [reflexivity|split; reflexivity]]|]). constructor.
Qed.
Print Assumptions C28_memory_irrelevant.
Print Assumptions C43_memory_irrelevant.
Print Assumptions C28_no_room_refuted.
