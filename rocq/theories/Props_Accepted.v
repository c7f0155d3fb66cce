(** * Property C58: a trie that was built from distinct n-grams over their vocabulary has a sorted input

    [gram_files] (Spec_Complete) asks for distinct n-grams whose words are unigrams; the lines can come in any
    order and prefixes can be missing. If the build of a trie with Elias-Fano grams and without remapping ends
    normally, then the input is a [collection] (Spec_Trie): every level in lexicographic order of the words'
    places in the unigram file, every prefix present. So such an input is either indexed exactly or refused. *)
From Coq Require Import Sorting.Sorted.
From Verif Require Import Prelude BitFacts M_Word M_Bits Spec M_HashVec M_Mph M_Text P_Text P_Text2 M_Pool M_Trie Spec_Trie P_Trie1 P_Trie2 P_Trie3 P_SeqColl Props_Trie Spec_Complete P_Complete Props_Complete P_Accept P_Accept2 P_Accept3.

(** the vocabulary's hash function has a peeling order, the unigrams fit in the memory granted, counts are numbers
    of less than 2^64-1; no condition on the order of lines, on prefixes, or on the levels' hash functions *)
Theorem C58_sorted : forall D env remap t, gram_files D -> te_map env = false ->
  valid_order (hash_domain (lenN (grams D 0))) (te_h env) (map (fun g : gram => join g) (grams D 0)) (te_vorder env) ->
  lenN (concat (map (fun g : gram => join g) (grams D 0))) <= te_ram env -> Forall (Forall (fun e => snd e < 2 ^ 64 - 1)) D ->
  trie_build env (map (map line) D) (lenN D) remap = Ok t -> collection D 0.
Proof.
  intros D env remap t GF TM VO RAM CT ET. apply (accepted_collection D env GF CT remap t TM); [unfold uwords; rewrite lenN_map; exact VO|exact RAM|exact ET].
Qed.
Print Assumptions C58_sorted.
(** what a user sees: if the build ends, every n-gram of the files is answered with its count *)
Theorem C58_answers : forall D env t, gram_files D -> inputs_ok D 0 env -> trie_build env (map (map line) D) (lenN D) 0 = Ok t ->
  forall q c, indexed D q c -> forall st buf r, statics_ok st -> holds_text buf r (join q) ->
    exists st', trie_lookup env t st buf r = Ok (c, st') /\ statics_ok st'.
Proof.
  intros D env t GF IO ET. assert (C : collection D 0). { pose proof IO as [H1 H2 H3 H4 H5 H6]. eapply C58_sorted; eauto. }
  destruct (C22_lookup_indexed D 0 env C IO) as (t' & E & A). assert (t' = t) by congruence. subst t'. exact A.
Qed.
Print Assumptions C58_answers.
(** and what happens to n-grams that are not in order: the build does not end normally *)
Theorem C58_unsorted : forall D env remap k, gram_files D -> inputs_ok D 0 env -> 0 < k ->
  ~ StronglySorted (gram_lt (grams D 0)) (grams D k) -> forall t, trie_build env (map (map line) D) (lenN D) remap <> Ok t.
Proof.
  intros D env remap k GF [H1 H2 H3 H4 H5 H6] K NS t ET. apply NS. apply (col_sorted D 0); [|exact K]. eapply C58_sorted; eauto.
Qed.
Print Assumptions C58_unsorted.

(** the data set of C22's example meets the hypotheses of the first two theorems *)
Example C58_example : gram_files ex_D /\ inputs_ok ex_D 0 (ex_env 0 IC) /\ exists t, trie_build (ex_env 0 IC) (map (map line) ex_D) (lenN ex_D) 0 = Ok t.
Proof.
  pose proof (ex_collection 0 ltac:(lia)) as C. split; [|split; [apply ex_inputs|]].
  - constructor; [apply (col_order _ _ C)|apply (col_size _ _ C)|apply (col_words _ _ C)|apply (col_bytes _ _ C)|].
    intros k. destruct (N.eq_dec k 0) as [->|K]; [apply (col_unigrams _ _ C)|].
    apply (lev_NoDup ex_D 0 C).
  - destruct (C22_lookup_indexed ex_D 0 (ex_env 0 IC) C (ex_inputs 0 IC)) as (t & E & _). exists t. exact E.
Qed.
(** bigrams whose last words are not in order, with all prefixes present and in order: they meet the hypotheses of
    the third, and the build throws *)
Definition uns_D : list (list (gram * N)) := c57_D [([wa; wc], 3); ([wa; wb], 2); ([wd; wa], 6)].
Example C58_unsorted_example : gram_files uns_D /\ inputs_ok uns_D 0 (c57_env uns_D) /\ grams_continue (@removelast _) uns_D 0 /\
  ~ StronglySorted (gram_lt (grams uns_D 0)) (grams uns_D 1) /\ trie_build (c57_env uns_D) (map (map line) uns_D) 2 0 = Throw.
Proof.
  assert (KK : forall k (g : gram), In g (grams uns_D k) -> k = 0 \/ k = 1).
  { intros k g I. unfold grams in I. destruct (nthN uns_D k) eqn:X; [apply nthN_lt in X; change (k < 2) in X; lia|destruct I]. }
  split; [|split; [|split; [|split]]].
  - constructor.
    + split; discriminate.
    + intros k l H. pose proof (nthN_lt _ _ _ H) as L. change (k < 2) in L. assert (k = 0 \/ k = 1) as [->| ->] by lia; injection H as <-; (split; [discriminate|reflexivity]).
    + intros k g I. destruct (KK k g I) as [->| ->]; cbn in I; repeat (destruct I as [<-|I]; [split; [reflexivity|repeat (constructor; [split; [split; [discriminate|cbn; intuition discriminate]|split; [cbn; intuition discriminate|vm_compute; tauto]]|]); constructor]|]); destruct I.
    + intros k g I. destruct (KK k g I) as [->| ->]; cbn in I; repeat (destruct I as [<-|I]; [reflexivity|]); destruct I.
    + intros k. destruct (nthN uns_D k) as [l|] eqn:X; [|unfold grams; rewrite X; constructor]. pose proof (nthN_lt _ _ _ X) as L. change (k < 2) in L.
      assert (k = 0 \/ k = 1) as [->| ->] by lia; vm_compute; repeat (constructor; [intros I; repeat (destruct I as [I|I]; [discriminate I|]); destruct I|]); constructor.
  - constructor.
    + reflexivity.
    + destruct (ex_inputs 0 IC) as [_ V _ _ _ _]. exact V.
    + intros k [K1 K2]. change (k < 2) in K2. replace k with 1 by lia. left. vm_compute. reflexivity.
    + apply Forall2_refl_map || (unfold c57_env; cbn [te_sorts]; repeat (constructor; [apply Permutation.Permutation_refl|]); constructor).
    + vm_compute. discriminate.
    + repeat (constructor; [repeat (constructor; [reflexivity|]); constructor|]). constructor.
  - exists [0; 0; 3]. split; [|repeat constructor; cbv; discriminate]. repeat (constructor; [reflexivity|]). constructor.
  - intros S. pose proof (ss_nthN _ _ S 0 1 [wa; wc] [wa; wb] ltac:(lia) eq_refl eq_refl) as L. inversion L as [a b r s LE W|a r s L' E1 E2]; subst.
    + destruct W as (i & j & LT & I & J). clear S L. assert (i = j); [|lia].
      assert (ND : NoDup (grams uns_D 0)) by (vm_compute; repeat (constructor; [intros Q; repeat (destruct Q as [Q|Q]; [discriminate Q|]); destruct Q|]); constructor).
      exact (NoDup_nthN _ _ _ _ ND I J).
    + inversion L' as [a b r s LE W|a' r' s' L'' E1' E2']; subst. 
      destruct W as (i & j & LT & I & J). assert (ND : NoDup (grams uns_D 0)) by (vm_compute; repeat (constructor; [intros Q; repeat (destruct Q as [Q|Q]; [discriminate Q|]); destruct Q|]); constructor).
      pose proof (NoDup_nthN _ i 2 _ ND I eq_refl). pose proof (NoDup_nthN _ j 1 _ ND J eq_refl). lia.
  - vm_compute. reflexivity.
Qed.
