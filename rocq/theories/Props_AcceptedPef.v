(** * Property C58 does not hold of tries over uniform_pef: unsorted input is accepted and indexed wrongly

    uniform_pef_sequence.hpp (write, lines 100-149) checks the order of values only within a partition of 64 (orders 1 and 2) or
    128 values: a partition that lies below the one before it is stored with differences that wrap around. *)
From Coq Require Import Sorting.Sorted Permutation.
From Verif Require Import Prelude BitFacts M_Word M_Bits Spec M_HashVec M_Mph M_Text P_Text P_Text2 M_Pool M_Trie Spec_Trie P_Trie1 P_SeqColl P_Trie3 Props_Trie M_Pef Spec_Pef M_TriePef Spec_TriePef Props_TriePef Spec_Complete P_Complete Props_Complete P_Accept P_Accept3 Props_Accepted.

(** 127 words of one byte; the bigrams are the first word followed by words 0, 2, .., 126, and then, in the 65th line, by word 125 *)
Definition late_word (i : N) : list N := [128 + i].
Definition late_D : list (list (gram * N)) :=
  [map (fun i => ([late_word i], 1)) (range 127);
   map (fun i => ([late_word 0; late_word (2 * i)], 1 + i)) (range 64) ++ [([late_word 0; late_word 125], 77)]].
(** every word has a node of its own *)
Definition late_h (w : list N) : triple :=
  match w with
  | x :: _ => let i := x - 128 in if i <? 52 then (1 + i, 0, 0) else if i <? 104 then (0, 1 + (i - 52), 0) else (0, 0, 1 + (i - 104))
  | [] => (0, 0, 0) end.
Definition late_order : list edge :=
  map (fun i => if i <? 52 then (1 + i, 53, 106) else if i <? 104 then (53 + 1 + (i - 52), 0, 106) else (106 + 1 + (i - 104), 0, 53)) (range 127).
Definition late_env (pef : bool) : penv :=
  mkpenv (mktenv late_h late_order (fun _ _ => (0, 0, 0)) (fun _ => []) (map (fun l => with_freq (map snd l)) late_D) IC false 200) pef false (fun _ => mkpads [0] [0]) (fun _ => mkpads [7] [3]) false.
Definition late_build (pef : bool) := ptrie_build (late_env pef) (map (map line) late_D) 2 0.
Definition late_ask (pef : bool) (q : gram) : res (list N) := t <- late_build pef ;; ask_all (late_env pef) t ex_statics [(join q, (0, lenN (join q)))].

(** checkers *)
Definition memb {A} (eqb : A -> A -> bool) (x : A) (l : list A) : bool := existsb (eqb x) l.
Fixpoint nodupb {A} (eqb : A -> A -> bool) (l : list A) : bool := match l with [] => true | x :: l => negb (memb eqb x l) && nodupb eqb l end.
Lemma nodupb_ok {A} (eqb : A -> A -> bool) l : (forall x, eqb x x = true) -> nodupb eqb l = true -> NoDup l.
Proof.
  intros R. induction l as [|x l IH]; intros H; constructor; cbn in H; apply andb_true_iff in H; destruct H as [H1 H2].
  - intros I. apply negb_true_iff in H1. assert (memb eqb x l = true) by (apply existsb_exists; exists x; split; [exact I|apply R]). congruence.
  - apply IH. exact H2.
Qed.
Definition eqw : list N -> list N -> bool := fun a b => if list_eq_dec N.eq_dec a b then true else false.
Definition eqg : gram -> gram -> bool := fun a b => if list_eq_dec (list_eq_dec N.eq_dec) a b then true else false.
Lemma eqg_refl g : eqg g g = true.
Proof. unfold eqg. destruct (list_eq_dec _ g g); [reflexivity|congruence]. Qed.
Lemma eqw_refl g : eqw g g = true.
Proof. unfold eqw. destruct (list_eq_dec _ g g); [reflexivity|congruence]. Qed.
Fixpoint pairsb (l : list edge) : bool := match l with [] => true | e :: l => forallb (fun e' => negb (existsb (N.eqb (edge_v0 e')) (edge_nodes e))) l && pairsb l end.
Lemma pairsb_ok l : pairsb l = true -> ForallOrdPairs (fun ei ej => ~ In (edge_v0 ej) (edge_nodes ei)) l.
Proof.
  induction l as [|e l IH]; intros H; constructor; cbn [pairsb] in H; apply andb_true_iff in H; destruct H as [H1 H2].
  - apply Forall_forall. intros e' I J. rewrite forallb_forall in H1. specialize (H1 e' I). apply negb_true_iff in H1.
    assert (existsb (N.eqb (edge_v0 e')) (edge_nodes e) = true) by (apply existsb_exists; exists (edge_v0 e'); split; [exact J|apply N.eqb_refl]). congruence.
  - apply IH. exact H2.
Qed.

Lemma late_levels k (g : gram) : In g (grams late_D k) -> k = 0 \/ k = 1.
Proof. intros I. unfold grams in I. destruct (nthN late_D k) eqn:X; [apply nthN_lt in X; change (lenN late_D) with 2 in X; lia|destruct I]. Qed.
Lemma late_vocab : valid_order (hash_domain (lenN (grams late_D 0))) late_h (map (fun g : gram => join g) (grams late_D 0)) late_order.
Proof.
  replace (hash_domain (lenN (grams late_D 0))) with 53 by (vm_compute; reflexivity). split; [|apply pairsb_ok; vm_compute; reflexivity].
  exists (map (fun g : gram => join g) (grams late_D 0)). split; [apply Permutation_refl|].
  assert (E : map (fun g : gram => join g) (grams late_D 0) = map late_word (range 127)) by (vm_compute; reflexivity). rewrite E. unfold late_order.
  assert (H : forall l, (forall i, In i l -> i < 127) -> Forall2 (fun k e => edge_of 53 (late_h k) e) (map late_word l)
     (map (fun i => if i <? 52 then (1 + i, 53, 106) else if i <? 104 then (53 + 1 + (i - 52), 0, 106) else (106 + 1 + (i - 104), 0, 53)) l)).
  { intros l. induction l as [|i l IH]; intros B; cbn [map]; constructor; [|apply IH; intros j Hj; apply B; right; exact Hj].
    assert (L : i < 127) by (apply B; left; reflexivity). unfold edge_of, late_word, late_h, mph_nodes. replace (53 =? 0) with false by reflexivity. cbv iota zeta. replace (128 + i - 128) with i by lia.
    destruct (N.ltb_spec i 52); [|destruct (N.ltb_spec i 104)].
    - rewrite (N.mod_small (1 + i) 53) by lia. change (0 mod 53) with 0. change (53 + 0) with 53. change (2 * 53 + 0) with 106. apply Permutation_refl.
    - rewrite (N.mod_small (1 + (i - 52)) 53) by lia. change (0 mod 53) with 0. change (2 * 53 + 0) with 106. rewrite N.add_assoc. apply perm_swap.
    - rewrite (N.mod_small (1 + (i - 104)) 53) by lia. change (0 mod 53) with 0. change (53 + 0) with 53. replace (106 + 1 + (i - 104)) with (2 * 53 + (1 + (i - 104))) by lia.
      apply (perm_trans (perm_swap 0 (2 * 53 + (1 + (i - 104))) [53])). constructor. apply perm_swap. }
  apply H. intros i I. apply In_seqN in I. lia.
Qed.
Lemma late_files : gram_files late_D.
Proof.
  constructor.
  - vm_compute. split; discriminate.
  - intros k l H. pose proof (nthN_lt _ _ _ H) as L. change (lenN late_D) with 2 in L. assert (k = 0 \/ k = 1) as [->| ->] by lia; injection H as <-; (split; [vm_compute; discriminate|reflexivity]).
  - intros k g I. pose proof (late_levels k g I) as K.
    assert (C : forallb (fun g => (lenN g =? k + 1) && forallb (fun w => negb (eqw w []) && negb (memb N.eqb 32 w) && negb (memb N.eqb 9 w) && memb eqg [w] (grams late_D 0)) g) (grams late_D k) = true) by (destruct K as [->| ->]; vm_compute; reflexivity).
    rewrite forallb_forall in C. specialize (C g I). apply andb_true_iff in C. destruct C as [C1 C2]. apply N.eqb_eq in C1. split; [exact C1|].
    apply Forall_forall. intros w Iw. rewrite forallb_forall in C2. specialize (C2 w Iw). do 3 (apply andb_true_iff in C2; destruct C2 as [C2 ?]).
    assert (NI : forall c, negb (memb N.eqb c w) = true -> ~ In c w).
    { intros c Hc J. apply negb_true_iff in Hc. assert (memb N.eqb c w = true) by (apply existsb_exists; exists c; split; [exact J|apply N.eqb_refl]). congruence. }
    split; [split|].
    + intros ->. discriminate C2.
    + apply (NI 32). assumption.
    + split; [apply (NI 9); assumption|]. match goal with H : memb eqg [w] _ = true |- _ => apply existsb_exists in H; destruct H as (g' & J & Q) end. unfold eqg in Q. destruct (list_eq_dec _ [w] g') as [->|]; [exact J|discriminate Q].
  - intros k g I. pose proof (late_levels k g I) as K. assert (C : forallb (fun g : gram => lenN (join g) <? 2 ^ 32) (grams late_D k) = true) by (destruct K as [->| ->]; vm_compute; reflexivity).
    rewrite forallb_forall in C. apply N.ltb_lt. apply (C g I).
  - intros k. destruct (nthN late_D k) as [l|] eqn:X; [|unfold grams; rewrite X; constructor]. pose proof (nthN_lt _ _ _ X) as L. change (lenN late_D) with 2 in L.
    assert (k = 0 \/ k = 1) as [->| ->] by lia; apply (nodupb_ok eqg); try exact eqg_refl; vm_compute; reflexivity.
Qed.
Lemma late_inputs pef : pef_inputs_ok late_D 0 (late_env pef).
Proof.
  constructor.
  - reflexivity.
  - exact late_vocab.
  - intros _ k K. change (lenN late_D) with 2 in K. replace k with 1 by lia. left. vm_compute. reflexivity.
  - intros _ k K. change (lenN late_D) with 2 in K. replace k with 1 by lia. split; [vm_compute; reflexivity|]. split; [exists 0, 0; repeat split|]. split; [intros _; vm_compute; reflexivity|].
    intros L. vm_compute in L. exfalso. apply L. reflexivity.
  - intros H. discriminate H.
  - unfold late_env. cbn [pe_t te_sorts]. generalize late_D. intros D. induction D; constructor; [apply Permutation_refl|assumption].
  - vm_compute. discriminate.
  - assert (C : forallb (forallb (fun e : gram * N => snd e <? 2 ^ 64 - 1)) late_D = true) by (vm_compute; reflexivity). rewrite forallb_forall in C.
    apply Forall_forall. intros l I. specialize (C l I). rewrite forallb_forall in C. apply Forall_forall. intros e J. apply N.ltb_lt. apply (C e J).
Qed.

(** Files that meet the hypotheses of C58 but are not sorted: the trie over uniform_pef is built all the same, and an
    n-gram of the files is answered with not_found.  The trie over Elias-Fano is not built. *)
Theorem C58_pef_refuted : exists D env q c, gram_files D /\ (forall pef, pef_inputs_ok D 0 (env pef)) /\ grams_continue (@removelast _) D 0 /\
  (forall pef, pe_pef (env pef) = pef) /\ ~ StronglySorted (gram_lt (grams D 0)) (grams D 1) /\ indexed D q c /\
  ptrie_build (env false) (map (map line) D) (lenN D) 0 = Throw /\
  exists t, ptrie_build (env true) (map (map line) D) (lenN D) 0 = Ok t /\
    ask_all (env true) t ex_statics [(join q, (0, lenN (join q)))] = Ok [not_found] /\ c <> not_found.
Proof.
  exists late_D, late_env, [late_word 0; late_word 125], 77. split; [exact late_files|]. split; [exact late_inputs|]. split; [|split; [|split; [|split; [|split]]]].
  - exists (repN 0 65). split; [|unfold repN; repeat constructor; cbv; discriminate]. vm_compute. repeat (constructor; [reflexivity|]). constructor.
  - intros pef. reflexivity.
  - intros S. pose proof (ss_nthN _ _ S 63 64 [late_word 0; late_word 126] [late_word 0; late_word 125] ltac:(lia) ltac:(vm_compute; reflexivity) ltac:(vm_compute; reflexivity)) as L.
    assert (ND : NoDup (grams late_D 0)) by (apply (gf_distinct _ late_files 0)).
    inversion L as [a b r s LE W|a r s L' E1 E2]; subst.
    + destruct W as (i & j & LT & I & J). pose proof (NoDup_nthN _ _ _ _ ND I J). lia.
    + inversion L' as [a b r s LE W|a' r' s' L'' E1' E2']; subst.
      * destruct W as (i & j & LT & I & J). pose proof (NoDup_nthN _ i 126 _ ND I ltac:(vm_compute; reflexivity)). pose proof (NoDup_nthN _ j 125 _ ND J ltac:(vm_compute; reflexivity)). lia.
  - exists 1. eexists. split; [reflexivity|]. apply in_or_app. right. left. reflexivity.
  - vm_compute. reflexivity.
  - replace (lenN late_D) with 2 by reflexivity.
    assert (G : late_ask true [late_word 0; late_word 125] = Ok [not_found]) by (vm_compute; reflexivity). unfold late_ask, late_build in G.
    destruct (ptrie_build (late_env true) (map (map line) late_D) 2 0) as [t| |]; [|discriminate G|discriminate G]. exists t. split; [reflexivity|]. split; [exact G|]. vm_compute. discriminate.
Qed.
Print Assumptions C58_pef_refuted.
