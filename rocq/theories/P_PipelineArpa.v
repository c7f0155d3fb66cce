(** * Proofs for sorted ARPA sections *)
From Coq Require Import Floats.SpecFloat.
From Verif Require Import Prelude BitFacts M_Word M_Text M_Pool M_Trie M_Sort M_SortArpa
  Spec Spec_Trie Spec_Sort Spec_Arpa Spec_ArpaFile Spec_SortArpa Spec_Pipeline Spec_PipelineArpa P_Trie4 P_Pipeline Props_SortArpa.
From Verif Require P_Sort2 Props_Sort.
From Coq Require Import Permutation Sorting.Sorted.

Lemma rereads_prints sd fmt rr : rereads sd fmt rr -> prints sd fmt.
Proof. intros R x. destruct (R x) as (A & B & _ & C & _). split; [exact A|]. split; [exact B|]. intros post. rewrite C. reflexivity. Qed.

Lemma printed_reread sd fmt rr e : rereads sd fmt rr -> arpa_line sd (reread rr e) (printed fmt e).
Proof.
  intros R. destruct e as [g [p b]]. destruct (R p) as (_ & _ & _ & R1 & _).
  assert (NZ : fst (sd ((fmt p ++ 9 :: join g ++ 9 :: fmt b) ++ [0]) (lenN (fmt p) + 1 + lenN (join g))) = rr b).
  { destruct (R b) as (_ & _ & _ & _ & R2).
    replace ((fmt p ++ 9 :: join g ++ 9 :: fmt b) ++ [0]) with ((fmt p ++ 9 :: join g) ++ 9 :: fmt b ++ [0]) by (rewrite <- !app_assoc; cbn [app]; rewrite <- app_assoc; reflexivity).
    replace (lenN (fmt p) + 1 + lenN (join g)) with (lenN (fmt p ++ 9 :: join g)) by (rewrite lenN_app, lenN_cons; lia). apply R2. }
  unfold printed, reread. cbn [fst snd]. destruct b as [s|s| |s m x].
  - exists (fmt p), [], (rr p). cbn [fst snd]. split; [reflexivity|]. split; [rewrite <- app_assoc; cbn [app]; apply R1|]. split; [reflexivity|]. left. split; reflexivity.
  - eexists (fmt p), _, (rr p). cbn [fst snd]. split; [reflexivity|]. split; [rewrite <- app_assoc; cbn [app]; apply R1|]. split; [reflexivity|]. right. eexists. split; [reflexivity|exact NZ].
  - eexists (fmt p), _, (rr p). cbn [fst snd]. split; [reflexivity|]. split; [rewrite <- app_assoc; cbn [app]; apply R1|]. split; [reflexivity|]. right. eexists. split; [reflexivity|exact NZ].
  - eexists (fmt p), _, (rr p). cbn [fst snd]. split; [reflexivity|]. split; [rewrite <- app_assoc; cbn [app]; apply R1|]. split; [reflexivity|]. right. eexists. split; [reflexivity|exact NZ].
Qed.

Lemma join_rev_len : forall g, lenN (join (rev g)) = lenN (join g).
Proof.
  assert (J : forall g, g <> [] -> lenN (join g) = sumN (map lenN g) + lenN g - 1).
  { induction g as [|w g IH]; intros NE; [congruence|]. destruct g as [|w2 g].
    - cbn [join map]. change (sumN [lenN w]) with (lenN w + 0). change (lenN [w]) with 1. lia.
    - change (join (w :: w2 :: g)) with (w ++ 32 :: join (w2 :: g)). rewrite lenN_app, lenN_cons, IH by discriminate.
      cbn [map]. change (sumN (lenN w :: lenN w2 :: map lenN g)) with (lenN w + sumN (lenN w2 :: map lenN g)). rewrite (lenN_cons w). rewrite (lenN_cons w2). lia. }
  intros g. destruct g as [|w g]; [reflexivity|]. rewrite !J; [|discriminate|intros E; apply (f_equal (@rev _)) in E; rewrite rev_involutive in E; discriminate].
  assert (P : Permutation (rev (w :: g)) (w :: g)) by (apply Permutation_sym, Permutation_rev).
  replace (lenN (rev (w :: g))) with (lenN (w :: g)) by (unfold lenN; rewrite rev_length; reflexivity).
  assert (S : sumN (map lenN (rev (w :: g))) = sumN (map lenN (w :: g))); [|lia]. apply (Permutation_map lenN) in P. revert P. generalize (map lenN (rev (w :: g))) (map lenN (w :: g)). clear.
  intros a b P. induction P as [|x a b P IH|x y a|a b c P1 IH1 P2 IH2]; cbn [sumN fold_right] in *; unfold sumN in *; cbn [fold_right] in *; lia.
Qed.

(** suffix order is the order of the reversed grams *)
Lemma suffix_sorted {A} voc V k (es : list (gram * A)) : voc = map (fun w => [w]) V -> NoDup (map fst es) -> (forall e, In e es -> lenN (fst e) = k) ->
  in_order false V es -> StronglySorted (gram_lt voc) (map (fun e => rev (fst e)) es).
Proof.
  intros EV ND LN O. unfold in_order in O. induction O as [|e r O IH F]; [constructor|]. cbn [map] in *. inversion ND as [|? ? N1 N2]; subst. constructor.
  - apply IH; [exact N2|]. intros x Hx. apply LN. right. exact Hx.
  - apply Forall_map. rewrite Forall_forall in *. intros x Hx. destruct (F x Hx) as [Q|Q]; [exfalso; apply N1; rewrite Q; apply in_map; exact Hx|].
    apply (before_gram_lt _ V); [reflexivity| |exact Q]. rewrite !rev_length.
    pose proof (LN e (or_introl eq_refl)) as L1. pose proof (LN x (or_intror Hx)) as L2. unfold lenN in *. lia.
Qed.
Lemma map_fst_reread rr l : map fst (map (reread rr) l) = map fst l.
Proof. rewrite map_map. reflexivity. Qed.
Lemma grams_reversed {A} (D : list (list (gram * A))) k : grams (reversed D) k = map (@rev _) (grams D k).
Proof. unfold grams, reversed. rewrite nthN_map. destruct (nthN D k); [|reflexivity]. cbn [option_map]. rewrite !map_map. reflexivity. Qed.
