(** * Proofs for the sorted directory *)
From Verif Require Import Prelude BitFacts M_Word M_Text M_Pool M_Trie M_Sort M_ArpaFile M_GramFile M_Programs M_Pipeline
  Spec Spec_Trie Spec_Sort Spec_ArpaFile Spec_GramFile Spec_Programs Spec_Pipeline P_Trie3 P_Trie4 P_Programs Props_GramFile.
From Verif Require P_Sort2 Props_Sort.
From Coq Require Import Permutation Sorting.Sorted.

Lemma before_gram_lt voc V xs ys : voc = map (fun w => [w]) V -> length xs = length ys -> before V xs ys -> gram_lt voc xs ys.
Proof.
  intros -> HL (p & x & y & s & t & i & j & -> & -> & Hi & Hj & L). induction p as [|a p IH]; cbn [app] in *.
  - apply gram_lt_here; [cbn in HL; lia|]. exists i, j. rewrite !nthN_map, Hi, Hj. auto.
  - apply gram_lt_next. apply IH. cbn in HL. lia.
Qed.

Section P.
Variable U : list (list (gram * N)).
Variable remap : N.
Hypothesis HU : unsorted U remap.
Variable l0 : list (gram * N).
Hypothesis H0 : nthN U 0 = Some l0.
Notation vocab := (words_of l0).

Lemma uni_word e : In e l0 -> exists w, fst e = [w].
Proof.
  intros He. destruct (us_words _ _ HU 0 (fst e)) as [L _]; [unfold grams; rewrite H0; apply in_map; exact He|].
  destruct (fst e) as [|w [|w2 r]]; [change (lenN (@nil (list N))) with 0 in L; lia|exists w; reflexivity|rewrite !lenN_cons in L; lia].
Qed.
Lemma voc_grams : grams U 0 = map (fun w => [w]) (map fst vocab).
Proof.
  unfold grams. rewrite H0. unfold words_of. rewrite !map_map. apply map_ext_in. intros e He. destruct (uni_word e He) as (w & E). cbn [fst]. rewrite E. cbn [concat]. rewrite app_nil_r. reflexivity.
Qed.
Lemma voc_lines : P_Sort2.vocab_lines vocab = map line l0.
Proof.
  unfold P_Sort2.vocab_lines, words_of. rewrite map_map. apply map_ext_in. intros e He. destruct (uni_word e He) as (w & E). unfold line. cbn [fst snd]. rewrite E. cbn [concat join]. rewrite app_nil_r. reflexivity.
Qed.
Lemma In_voc w : In [w] (grams U 0) <-> In w (map fst vocab).
Proof.
  rewrite voc_grams. split; intros H; [|apply (in_map (fun w => [w])) in H; exact H]. apply in_map_iff in H. destruct H as (x & E & H). injection E as <-. exact H.
Qed.

Hypothesis NN : no_newlines U.
Lemma file_lines k l : nthN U k = Some l -> gram_lines (count_file (lenN l) (map line l)) = Ok (map line l).
Proof.
  intros Hl. destruct (us_size _ _ HU k l Hl) as [NE L]. rewrite <- (lenN_map line l), <- (app_nil_r (count_file _ _)). apply C44_lines.
  - destruct l; [congruence|discriminate].
  - rewrite lenN_map. change (2 ^ 31) with 2147483648 in L. change (2 ^ 64) with 18446744073709551616. lia.
  - apply Forall_forall. intros x Hx. apply in_map_iff in Hx. destruct Hx as ([g c] & <- & He). apply line_no_nl.
    + pose proof (Forall_nthN _ _ _ _ (us_counts _ _ HU) Hl) as F. rewrite Forall_forall in F. exact (F _ He).
    + intros w Hw. apply (NN l g c w); [exact (nthN_In _ _ _ Hl)|exact He|exact Hw].
Qed.

Lemma sorted_level env srt k l bs : 0 < k -> nthN U k = Some l -> P_Sort2.sort_env_ok env vocab -> std_sort srt -> se_ram env < 2 ^ 63 ->
  (forall r, In r l -> lenN (join (fst r)) <= se_ram env) -> 2 <= lenN l -> batches (se_ram env) l bs -> (forall bs' r, bs <> bs' ++ [[r]]) ->
  exists l', sort_grams_file env srt (count_file (lenN l0) (map line l0)) (count_file (lenN l) (map line l)) [] = Ok (count_file (lenN l') (map line l')) /\
    Permutation l l' /\ StronglySorted (gram_lt (grams U 0)) (map fst l').
Proof.
  intros Hk Hl EO SRT HM HB H2 B NS. unfold sort_grams_file. rewrite (file_lines 0 l0 H0), (file_lines k l Hl). cbn [bind]. rewrite lenN_map, <- voc_lines.
  pose proof (nthN_lt _ _ _ Hl) as KD. pose proof (us_order _ _ HU) as UO. destruct (us_size _ _ HU k l Hl) as [_ SZ].
  assert (IG : forall e, In e l -> In (fst e) (grams U k)) by (intros e He; unfold grams; rewrite Hl; apply in_map; exact He).
  assert (SI : Props_Sort.sort_input vocab (k + 1) (se_ram env) l).
  { apply Forall_forall. intros e He. destruct (us_words _ _ HU k (fst e) (IG e He)) as [W1 W2]. split; [split; [exact W1|]|split; [|exact (HB e He)]].
    - eapply Forall_impl; [|exact W2]. intros w (_ & _ & IW). apply In_voc. exact IW.
    - pose proof (Forall_nthN _ _ _ _ (us_counts _ _ HU) Hl) as F. rewrite Forall_forall in F. exact (F _ He). }
  destruct (Props_Sort.C28_sorted_partial env vocab srt (k + 1) l bs [] EO SRT ltac:(change (2 ^ 32) with 4294967296; lia) HM SI) as (l' & E & P & O); [|exact B|exact NS|].
  { change (2 ^ 31) with 2147483648 in SZ. change (2 ^ 64) with 18446744073709551616. lia. }
  rewrite E. cbn [bind app]. exists l'. split; [|split; [exact P|]].
  - unfold count_file, text_of, bytes_of_lines, decimal. replace (lenN l') with (lenN l) by (unfold lenN; f_equal; apply Permutation_length; exact P). reflexivity.
  - assert (ND : NoDup (map fst l')). { eapply Permutation_NoDup; [apply Permutation_map; exact P|]. pose proof (us_once _ _ HU k) as Q. unfold grams in Q. rewrite Hl in Q. exact Q. }
    assert (LN : forall e, In e l' -> lenN (fst e) = k + 1).
    { intros e He. apply (us_words _ _ HU k). apply IG. apply (Permutation_in _ (Permutation_sym P)). exact He. }
    clear - O ND LN H0 HU. unfold in_order in O. induction O as [|e r O IH F]; [constructor|]. cbn [map] in *. inversion ND as [|? ? N1 N2]; subst. constructor.
    + apply IH; [exact N2|]. intros x Hx. apply LN. right. exact Hx.
    + apply Forall_map. rewrite Forall_forall in *. intros x Hx. destruct (F x Hx) as [Q|Q]; [exfalso; apply N1; rewrite Q; apply in_map; exact Hx|].
      apply (before_gram_lt _ (map fst vocab)); [exact voc_grams| |exact Q].
      pose proof (LN e (or_introl eq_refl)) as L1. pose proof (LN x (or_intror Hx)) as L2. unfold lenN in *. lia.
Qed.
End P.

Lemma choose_list {A B} (R : N -> A -> B -> Prop) (L : list A) : (forall i a, nthN L i = Some a -> exists b, R i a b) ->
  exists M, lenN M = lenN L /\ forall i a b, nthN L i = Some a -> nthN M i = Some b -> R i a b.
Proof.
  induction L as [|x L IH] using rev_ind; intros H.
  - exists []. split; [reflexivity|]. intros i a b Ha. apply nthN_lt in Ha. change (lenN (@nil A)) with 0 in Ha. lia.
  - destruct IH as (M & LM & HM). { intros i a Ha. apply H. rewrite nthN_app1; [exact Ha|]. apply nthN_lt in Ha. exact Ha. }
    destruct (H (lenN L) x) as (y & Hy); [apply nthN_snoc|]. exists (M ++ [y]). split; [rewrite !lenN_app, LM; reflexivity|].
    intros i a b Ha Hb. pose proof (nthN_lt _ _ _ Ha) as LI. rewrite lenN_app in LI. change (lenN [x]) with 1 in LI. destruct (N.eq_dec i (lenN L)) as [->|NE].
    + rewrite nthN_snoc in Ha. injection Ha as <-. rewrite <- LM, nthN_snoc in Hb. injection Hb as <-. exact Hy.
    + rewrite nthN_app1 in Ha by lia. rewrite nthN_app1 in Hb by lia. exact (HM i a b Ha Hb).
Qed.
Lemma Forall2_of_nthN {A B} (R : A -> B -> Prop) : forall L M, lenN M = lenN L -> (forall i a b, nthN L i = Some a -> nthN M i = Some b -> R a b) -> Forall2 R L M.
Proof.
  induction L as [|x L IH]; intros [|y M] HL H; rewrite ?lenN_cons in HL; [constructor|change (lenN (@nil A)) with 0 in HL; lia|change (lenN (@nil B)) with 0 in HL; lia|]. constructor.
  - exact (H 0 x y eq_refl eq_refl).
  - apply IH; [lia|]. intros i a b Ha Hb. apply (H (i + 1)); rewrite nthN_S by lia; replace (i + 1 - 1) with i by lia; assumption.
Qed.
