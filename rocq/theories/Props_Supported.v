(** * Property C25: tables that do not list the parts of their n-grams *)
From Coq Require Import Floats.SpecFloat.
From Verif Require Import Prelude BitFacts M_Word P_Word M_Bits Spec P_Bits P_Builder M_CompactVector P_CompactVector
  M_HashVec M_Mph P_Mph P_MphTables M_Text P_Text P_Text2 M_Pool P_Pool M_Trie Spec_Trie P_Trie1 P_Trie3 P_Trie4 P_Trie5 M_SeqColl P_SeqColl
  M_Score Spec_Katz P_Score1 P_Score2 P_Score3 Props_Score M_Quant P_Quant M_MphProb Spec_Arpa P_Sentence P_Values P_MphProb Spec_Supported P_Supported Props_MphProb.
From Coq Require Import Permutation.

(** The table of the examples of C25 with the trigram "a b b" instead of "c a a".  The bigram "b b" is not listed. *)
Definition ucE : list (list (gram * (N * N))) := [
  [([[97]], (1, 2)); ([[98]], (2, 3)); ([[99]], (3, 1))];
  [([[97]; [98]], (1, 2)); ([[98]; [99]], (2, 3)); ([[99]; [97]], (3, 4)); ([[97]; [97]], (4, 1))];
  [([[97]; [98]; [99]], (1, 0)); ([[98]; [99]; [97]], (2, 0)); ([[99]; [97]; [98]], (3, 0)); ([[97]; [98]; [98]], (4, 0))]].
Definition ucD : entries := map (map exent) ucE.
Definition ucsecs : list (list (list N)) := map (map exline) ucE.
Definition uch (k : N) (s : list N) : triple :=
  let i := fix go (l : list (gram * (N * N))) (i : N) := match l with [] => 9 | e :: l => if list_eq_dec N.eq_dec (join (fst e)) s then i else go l (i + 1) end in
  match i (nth (N.to_nat k) ucE []) 0 with
  | 0 => (0, 0, 0)
  | 1 => (1, 0, 0)
  | 2 => (0, 1, 0)
  | 3 => (0, 0, 1)
  | _ => (1, 1, 1)
  end.
Definition ucenv : penv := mkpenv 64 uch
  (fun k => if k =? 0 then [(0, 2, 4); (1, 2, 4); (3, 0, 4)] else [(0, 2, 4); (1, 2, 4); (3, 0, 4); (5, 0, 2)]) (fun l => l) exsd 100.
Definition ucm : mpl := match mp_build ucenv ucsecs 3 default_unk 2 2 with Ok m => m | _ => mkmpl 0 fzero qsc_empty qsc_empty [] end.
Definition ucMq := quantized ucD (qfun (mp_probs ucm) 0) (qfun (mp_backoffs ucm) 1).
Definition ucws : list (list N) := [[97]; [98]; [98]].
Lemma ucks k l : nthN ucD k = Some l -> k = 0 \/ k = 1 \/ k = 2.
Proof. intro H. apply nthN_lt in H. change (lenN ucD) with 3 in H. lia. Qed.
Example C25_unclosed_hyps : arpa_file ucD /\ prob_inputs_ok ucD ucsecs ucenv 2 2.
Proof.
  split.
  - split.
    + vm_compute. split; discriminate.
    + intros k l H. destruct (ucks k l H) as [->|[->| ->]]; injection H as <-; (split; [discriminate|reflexivity]).
    + intros k l e H I. destruct (ucks k l H) as [->|[->| ->]]; injection H as <-; cbn [map ucD ucE exent In fst snd] in I;
        repeat (destruct I as [I|I]; [subst e; split; [reflexivity|]; cbn [fst]; repeat (constructor; [split; [split; [discriminate|cbn; intuition discriminate]|cbn; intuition discriminate]|]); constructor|]); destruct I.
    + intro k. unfold grams, level. destruct (nthN (ucD) k) as [l|] eqn:H; [|constructor]. destruct (ucks k l H) as [->|[->| ->]]; injection H as <-; cbn [map ucD ucE exent fst];
        repeat (constructor; [cbn; intuition discriminate|]); constructor.
    + intros k l e H I. destruct (ucks k l H) as [->|[->| ->]]; injection H as <-; cbn [map ucD ucE exent In fst snd] in I;
        repeat (destruct I as [I|I]; [subst e; split; vm_compute; reflexivity|]); destruct I.
  - split.
    + unfold ucD, ucsecs. generalize (fun (x : gram * (N * N)) => x). intros _.
      assert (L : Forall (Forall (fun e => arpa_line exsd (exent e) (exline e))) (ucE)).
      { repeat constructor; unfold arpa_line; cbn [exent exline fst snd].
        all: match goal with |- context [exline (_, (?a, ?b))] => exists [48 + a], (if b =? 0 then [] else [9; 48 + b]), (exf a); split; [reflexivity|]; split; [vm_compute; reflexivity|]; split; [vm_compute; reflexivity|] end.
        all: first [left; split; vm_compute; reflexivity | right; eexists; split; [reflexivity|vm_compute; reflexivity]]. }
      clear - L. induction L as [|l E HL L IH]; constructor; [|exact IH]. clear - HL. induction HL; constructor; assumption.
    + left. reflexivity.
    + intros k l H.
      assert (V4 : forall h ks, map (h : list N -> triple) ks = [(0, 0, 0); (1, 0, 0); (0, 1, 0); (0, 0, 1)] -> valid_order 2 h ks [(0, 2, 4); (1, 2, 4); (3, 0, 4); (5, 0, 2)]).
      { intros h ks Em. destruct ks as [|a [|b [|c [|d [|? ?]]]]]; try discriminate Em. cbn [map] in Em. injection Em as E1 E2 E3 E4. split.
        - exists [a; b; c; d]. split; [apply Permutation_refl|]. constructor; [|constructor; [|constructor; [|constructor; [|constructor]]]]; unfold edge_of; rewrite ?E1, ?E2, ?E3, ?E4; cbn.
          + apply Permutation_refl.
          + apply Permutation_refl.
          + apply perm_swap.
          + apply (Permutation_cons_append [0; 2] 5).
        - repeat constructor; cbn; intros I; repeat (destruct I as [I|I]; [discriminate|]); destruct I. }
      assert (V3 : forall h ks, map (h : list N -> triple) ks = [(0, 0, 0); (1, 0, 0); (0, 1, 0)] -> valid_order 2 h ks [(0, 2, 4); (1, 2, 4); (3, 0, 4)]).
      { intros h ks Em. destruct ks as [|a [|b [|c [|? ?]]]]; try discriminate Em. cbn [map] in Em. injection Em as E1 E2 E3. split.
        - exists [a; b; c]. split; [apply Permutation_refl|]. constructor; [|constructor; [|constructor; [|constructor]]]; unfold edge_of; rewrite ?E1, ?E2, ?E3; cbn.
          + apply Permutation_refl.
          + apply Permutation_refl.
          + apply perm_swap.
        - repeat constructor; cbn; intros I; repeat (destruct I as [I|I]; [discriminate|]); destruct I. }
      destruct (ucks k l H) as [->|[->| ->]]; injection H as <-; [apply V3|apply V4|apply V4]; vm_compute; reflexivity.
    + intro l. apply Permutation_refl.
    + intros k l H. destruct (ucks k l H) as [->|[->| ->]]; injection H as <-; vm_compute; discriminate.
    + split; [lia|]. intros k l Hk H. destruct (ucks k l H) as [->|[->| ->]]; [lia| |]; injection H as <-; vm_compute; discriminate.
    + split; [lia|]. intros k l Hk Hk2 H. destruct (ucks k l H) as [->|[->| ->]]; [lia| |]; injection H as <-; [right; vm_compute; discriminate|exfalso; vm_compute in Hk2; discriminate].
Qed.

Example C25_unclosed_distinguished : forall a g c, ucws = a ++ g ++ c -> 1 <= lenN g <= lenN ucD -> entry ucD g = None -> distinguished ucD ucenv ucm g.
Proof.
  intros a g c E L EN. assert (I : In g (infixes ucws)).
  { apply In_infixes. split; [intro; subst g; change (lenN (@nil (list N))) with 0 in L; lia|eauto]. }
  cbn in I. repeat (destruct I as [I|I]; [subst g; try (vm_compute in EN; discriminate EN)|]); [|destruct I].
  intros l t Hl Ht. vm_compute in Hl. injection Hl as <-. vm_compute in Ht. injection Ht as <-. split; [vm_compute; discriminate|].
  intros e I. cbn [In] in I. repeat (destruct I as [I|I]; [subst e; vm_compute; discriminate|]). destruct I.
Qed.
(** the trigram is listed and not supported; the scores are those of the supported n-grams *)
Example C25_unclosed_scores : ucMq ucws <> None /\ supported ucMq ucws = None /\ supported ucMq [[97]; [98]; [99]] = ucMq [[97]; [98]; [99]] /\ ucMq [[97]; [98]; [99]] <> None /\
  (s0 <- mp_state ucm ;; outcome (mp_sentence ucenv ucm (join ucws) s0 (word_ranges 0 ucws)))
  = Ok (combine (kept_scores (supported ucMq) default_unk 3 ucws) [false; false; false]).
Proof. split; [vm_compute; discriminate|]. split; [vm_compute; reflexivity|]. split; [vm_compute; reflexivity|]. split; [vm_compute; discriminate|]. vm_compute. reflexivity. Qed.

(** Without [closed] Katz back-off over the whole table is not what is computed, even if all the other conditions of
    C25_mph_katz_partial hold: the listed trigram "a b b" is ignored because "b b" is not listed. *)
Theorem C25_unclosed_refuted : exists D secs env pq bq unk m s0 buf p ws out s2, arpa_file D /\ prob_inputs_ok D secs env pq bq /\
  mp_build env secs (lenN D) unk pq bq = Ok m /\ mp_state m = Ok s0 /\
  extended_nonzero (quantized D (qfun (mp_probs m) 0) (qfun (mp_backoffs m) 1)) /\
  (forall a g c, ws = a ++ g ++ c -> 1 <= lenN g <= lenN D -> entry D g = None -> distinguished D env m g) /\
  entry D ws <> None /\ lenN ws = lenN D /\ holds_text buf (p, p + lenN (join ws)) (join ws) /\
  mp_sentence env m buf s0 (word_ranges p ws) = Ok (out, s2) /\
  ~ Forall2 feq (map fst out) (katz_scores (quantized D (qfun (mp_probs m) 0) (qfun (mp_backoffs m) 1)) (unk_prob D unk) (N.to_nat (lenN D)) ws).
Proof.
  destruct (mp_state ucm) as [s0| |] eqn:E0; [|vm_compute in E0; discriminate|vm_compute in E0; discriminate].
  destruct (mp_sentence ucenv ucm (join ucws) s0 (word_ranges 0 ucws)) as [[out s2]| |] eqn:ES;
    [|vm_compute in E0; injection E0 as <-; vm_compute in ES; discriminate|vm_compute in E0; injection E0 as <-; vm_compute in ES; discriminate].
  destruct C25_unclosed_hyps as (H1 & H2).
  exists ucD, ucsecs, ucenv, 2, 2, default_unk, ucm, s0, (join ucws), 0, ucws, out, s2.
  split; [exact H1|]. split; [exact H2|]. split; [vm_compute; reflexivity|]. split; [exact E0|].
  split; [apply nonzerob_ok; vm_compute; reflexivity|]. split; [exact C25_unclosed_distinguished|]. split; [vm_compute; discriminate|]. split; [reflexivity|].
  split; [split; vm_compute; [split; discriminate|reflexivity]|]. split; [exact ES|].
  vm_compute in E0. injection E0 as <-. vm_compute in ES. injection ES as <- <-. vm_compute. intro F.
  inversion F as [|? ? ? ? _ F2 Q1 Q2]; subst. inversion F2 as [|? ? ? ? _ F3 Q1 Q2]; subst. inversion F3 as [|? ? ? ? [Q|[Q _]] _ Q1 Q2]; discriminate.
Qed.
Print Assumptions C25_unclosed_refuted.
