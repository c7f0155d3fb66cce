(** * Ids 0 and first choices *)
From Verif Require Import Prelude BitFacts Spec Spec_Pef M_Pef M_Trie M_TriePef Spec_Trie Spec_TriePef P_Trie1 P_Trie2 P_Trie3 P_Trie4 P_Trie7 P_TriePef1.

Section Zero.
Variable D : list (list (gram * N)).
Variable remap : N.
Hypothesis C : collection D remap.
Notation G := (grams D).
Notation voc := (grams D 0).

(** [x] is a gram of k + 1 words of the vocabulary, whose suffix of remap + 1 words is listed if it is needed *)
Definition suffix_listed k (g : gram) : Prop := remap <> 0 -> remap < k -> In (skipn (N.to_nat (k - remap)) g) (G remap).
Lemma listed_pos k s : k <> 0 -> In s (G k) -> exists i p, nthN (G k) i = Some s /\ nthN (G (k - 1)) p = Some (removelast s) /\ kids D k p <= i < kids D k (p + 1) /\
  i = posn (G k) s /\ p = posn (G (k - 1)) (removelast s).
Proof.
  intros Hk Hs. pose proof (posn_In _ _ Hs) as P1. pose proof (posn_In _ _ (lev_PRE D remap C k ltac:(lia) s Hs)) as P2. eexists _, _. split; [exact P1|]. split; [exact P2|].
  split; [|auto]. apply (kid_range D remap C k _ s); [lia|exact P1|exact P2].
Qed.
Lemma lid_zero_any k g : In [last g []] voc -> suffix_listed k g -> (lid D remap k g = 0 <-> first_choice D remap k g).
Proof.
  intros HL HS. unfold lid, first_choice. destruct ((remap =? 0) || (k <=? remap)) eqn:E.
  - pose proof (vid_In D _ HL) as V. split.
    + intros Z. rewrite Z in V. exact V.
    + intros Z. exact (NoDup_nthN _ _ _ _ (voc_NoDup D remap C) V Z).
  - apply orb_false_iff in E. destruct E as [E1 E2]. apply N.eqb_neq in E1. apply N.leb_gt in E2.
    specialize (HS E1 E2). destruct (listed_pos remap _ E1 HS) as (i & p & I1 & I2 & I3 & _ & _).
    set (s := skipn (N.to_nat (k - remap)) g) in *. cbv zeta.
    assert (L4 : posn (G remap) s - kids D remap (posn (G (remap - 1)) (removelast s)) = i - kids D remap p).
    { rewrite (posn_nthN _ _ _ (lev_NoDup D remap C remap) I1), (posn_nthN _ _ _ (lev_NoDup D remap C (remap - 1)) I2). reflexivity. }
    rewrite L4. split.
    + intros Z i' j h Hi Hj Eh. pose proof (NoDup_nthN _ _ _ _ (lev_NoDup D remap C remap) I1 Hi) as EI.
      assert (P : nthN (G (remap - 1)) p = Some (removelast h)) by (rewrite Eh; exact I2).
      pose proof (kid_range D remap C remap j h p ltac:(lia) Hj P) as KR. lia.
    + intros FC. assert (L : kids D remap p < lenN (G remap)) by (apply nthN_lt in I1; lia).
      destruct (nthN_Some (G remap) (kids D remap p) L) as (h & Hh).
      assert (Ph : removelast h = removelast s).
      { pose proof (lev_PRE D remap C remap ltac:(lia) h (nthN_In _ _ _ Hh)) as Hp. apply In_nthN in Hp. destruct Hp as (p' & Hp').
        pose proof (kid_range D remap C remap _ h p' ltac:(lia) Hh Hp') as KR.
        assert (p' = p); [|congruence].
        pose proof (proj1 (kid_cnt D remap C remap i s p p' ltac:(lia) I1 I2)) as K1.
        pose proof (proj2 (kid_cnt D remap C remap _ h p' p ltac:(lia) Hh Hp')) as K2.
        pose proof (proj1 (kid_cnt D remap C remap _ h p' p ltac:(lia) Hh Hp')) as K3.
        assert (~ p' < p) by (intros X; specialize (K3 X); lia).
        assert (~ p < p') by (intros X; specialize (K1 X); lia). lia. }
      pose proof (FC i _ h I1 Hh Ph). lia.
Qed.

Lemma lid_zero k g : In g (G k) -> (lid D remap k g = 0 <-> first_choice D remap k g).
Proof.
  intro Hg. apply lid_zero_any; [apply (last_voc D remap C k g Hg)|]. intros R0 RK. apply (suffix_facts D remap C k g ltac:(lia) RK Hg).
Qed.
(** siblings, listed or not: the later last word has the larger id *)
Lemma lid_later k g h : removelast g = removelast h -> length g = N.to_nat (k + 1) -> length h = N.to_nat (k + 1) -> suffix_listed k g -> suffix_listed k h ->
  word_lt voc (last g []) (last h []) -> lid D remap k g < lid D remap k h.
Proof.
  intros ER LG LH SG SH W. destruct (N.eq_dec remap 0) as [R0|R0]; [rewrite !lid_plain by (left; exact R0); apply vid_word_lt with (remap := remap); auto|].
  destruct (N.le_gt_cases k remap) as [K|K]; [rewrite !lid_plain by (right; exact K); apply vid_word_lt with (remap := remap); auto|].
  specialize (SG R0 K). specialize (SH R0 K). rewrite !lid_mapped by assumption. cbv zeta.
  assert (NG : g <> []) by (intro Z; rewrite Z in LG; cbn in LG; lia). assert (NH : h <> []) by (intro Z; rewrite Z in LH; cbn in LH; lia).
  assert (EG : skipn (N.to_nat (k - remap)) g = skipn (N.to_nat (k - remap)) (removelast g) ++ [last g []]).
  { rewrite (snoc_removelast g [] NG) at 1. apply skipn_snoc. rewrite length_removelast. lia. }
  assert (EH : skipn (N.to_nat (k - remap)) h = skipn (N.to_nat (k - remap)) (removelast h) ++ [last h []]).
  { rewrite (snoc_removelast h [] NH) at 1. apply skipn_snoc. rewrite length_removelast. lia. }
  rewrite <- ER in EH. rewrite EG in SG |- *. rewrite EH in SH |- *. set (c := skipn (N.to_nat (k - remap)) (removelast g)) in *. rewrite !removelast_last.
  destruct (listed_pos remap _ R0 SG) as (i & p & I1 & I2 & I3 & Ei & Ep). destruct (listed_pos remap _ R0 SH) as (j & q & J1 & J2 & J3 & Ej & Eq).
  rewrite removelast_last in *. rewrite <- Ei, <- Ej, <- Ep. assert (q = p) by congruence. subst q.
  assert (i < j); [|lia]. destruct (N.lt_trichotomy i j) as [L|[L|L]]; [exact L| |]; exfalso.
  - rewrite L in I1. rewrite J1 in I1. injection I1 as I1. apply app_inj_tail in I1. destruct I1 as [_ I1]. rewrite I1 in W.
    pose proof (vid_word_lt D remap C _ _ W). lia.
  - pose proof (sib_lt D remap C remap j i _ _ J1 I1 ltac:(rewrite !removelast_last; reflexivity) L) as W'. rewrite !last_last in W'.
    pose proof (vid_word_lt D remap C _ _ W). pose proof (vid_word_lt D remap C _ _ W'). lia.
Qed.
Lemma told_missing k p x : 0 < k -> nthN (G (k - 1)) p = Some (removelast x) -> In [last x []] voc -> length x = N.to_nat (k + 1) -> suffix_listed k x -> ~ In x (G k) ->
  told_apart D remap k x -> sib_missing D remap k p (lid D remap k x).
Proof.
  intros Hk Hp HL LX SX NX (NF & w & W & I). assert (NE : x <> []) by (intro Z; rewrite Z in LX; cbn in LX; lia).
  split; [|split].
  - intro Z. apply NF. apply (lid_zero_any k x HL SX). exact Z.
  - apply In_nthN in I. destruct I as (i & Hi). exists (removelast x ++ [w]), i. split; [exact Hi|]. rewrite removelast_last. split; [exact Hp|].
    apply lid_later; [rewrite removelast_last; reflexivity|exact LX| |exact SX| |rewrite last_last; exact W].
    + apply (gram_len D remap C k). eapply nthN_In; exact Hi.
    + intros R0 RK. apply (suffix_facts D remap C k _ ltac:(lia) RK (nthN_In _ _ _ Hi)).
  - intros y Hy Hpy EL. apply NX. rewrite <- (lid_inj D remap C k y x); auto; congruence.
Qed.

Lemma searchable_lids k : level_searchable D remap k -> lenN (G k) <= piece (k + 1) ->
  lenN (G k) = 1 \/ Forall (fun x => x = 0) (lids D remap k) \/ exists i x, 0 < i /\ nthN (lids D remap k) i = Some x /\ x <> 0.
Proof.
  intros LS L. destruct (LS L) as [H|[H|(i & g & H1 & H2 & H3)]]; [left; exact H|right; left|right; right].
  - unfold lids. apply Forall_forall. intros x Hx. apply in_map_iff in Hx. destruct Hx as (g & <- & Hg). apply lid_zero; [exact Hg|].
    rewrite Forall_forall in H. auto.
  - exists i, (lid D remap k g). split; [exact H1|]. split; [unfold lids; rewrite nthN_map, H2; reflexivity|]. intros Z. apply H3. apply lid_zero; [eapply nthN_In; eauto|exact Z].
Qed.
End Zero.
