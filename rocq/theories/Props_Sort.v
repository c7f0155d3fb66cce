(** * Properties C28, C29: the order of n-grams and the external sort *)
From Verif Require Import Prelude BitFacts M_Mph Spec M_Text P_Text P_SeqColl M_Pool P_Pool M_Trie P_Trie3 M_Sort Spec_Sort P_Sort P_Sort2.
From Coq Require Import Sorting.Sorted Permutation.

(** ** C29.  The vocabulary built from a file numbers the words in file order, and the
    comparators compare same-order n-grams over it by the words from left to right
    (prefix order) or from right to left (suffix order). *)
Theorem C29_comparator : forall env vocab, sort_env_ok env vocab ->
  exists v, sort_vocabulary env (vocab_lines vocab) = Ok v /\
    forall fwd k bx x by_ y gx gy, 0 < k < 2 ^ 32 -> lenN bx < 2 ^ 64 -> lenN by_ < 2 ^ 64 ->
      vgram (map fst vocab) k gx -> vgram (map fst vocab) k gy -> holds_text bx x (join gx) -> holds_text by_ y (join gy) ->
      exists b, comparator fwd (vlook (se_h env) v) bx x by_ y = Ok b /\ (b = true <-> before_from fwd (map fst vocab) gx gy).
Proof.
  intros env vocab EO. destruct (sort_vocabulary_ok env vocab EO) as (v & EV & ND & LK). exists v. split; [assumption|].
  intros. destruct EO as [SW SS _ _]. eapply comparator_ok; eauto.
  - apply Forall_map. eapply Forall_impl; [|exact SW]. intros e [? _]. assumption.
  - rewrite lenN_map. lia.
Qed.
(** that order is a strict total order on the n-grams of one order *)
Theorem C29_total_order : forall fwd V k, NoDup V ->
  (forall g, ~ before_from fwd V g g) /\
  (forall a b c, before_from fwd V a b -> before_from fwd V b c -> before_from fwd V a c) /\
  (forall a b, vgram V k a -> vgram V k b -> a = b \/ before_from fwd V a b \/ before_from fwd V b a).
Proof.
  intros fwd V k ND. split; [intros; apply bfrom_irrefl; assumption|]. split; [intros; eapply bfrom_trans; eauto|]. intros; eapply bfrom_total; eauto.
Qed.
(** so the comparator may be given to std::sort *)
Theorem C29_strict_weak : forall env vocab, sort_env_ok env vocab ->
  exists v, sort_vocabulary env (vocab_lines vocab) = Ok v /\
    forall fwd k buf l, 0 < k < 2 ^ 32 -> lenN buf < 2 ^ 64 ->
      Forall (fun r => exists g, vgram (map fst vocab) k g /\ holds_text buf r (join g)) l ->
      strict_weak (fun x y => comparator fwd (vlook (se_h env) v) buf x buf y) l.
Proof.
  intros env vocab EO. destruct (C29_comparator env vocab EO) as (v & EV & C). exists v. split; [assumption|]. intros fwd k buf l HK HB F.
  destruct (sort_vocabulary_ok env vocab EO) as (v' & _ & ND & _). clear EV v'. rewrite Forall_forall in F.
  set (cmp := fun x y => comparator fwd (vlook (se_h env) v) buf x buf y). set (V := map fst vocab) in *.
  assert (CT : forall x y g h, vgram V k g -> vgram V k h -> holds_text buf x (join g) -> holds_text buf y (join h) ->
    (exists b, cmp x y = Ok b) /\ (cmp x y = Ok true <-> before_from fwd V g h) /\ (cmp x y = Ok false <-> ~ before_from fwd V g h)).
  { intros x y g h G1 G2 T1 T2. destruct (C fwd k buf x buf y g h HK HB HB G1 G2 T1 T2) as (c & E & [H1 H2]). unfold cmp. rewrite E. split; [eauto|]. destruct c; split; split; intros Z; try discriminate; try reflexivity; auto.
    - exfalso. apply Z. auto. - exfalso. specialize (H2 Z). discriminate. - intros Q. specialize (H2 Q). discriminate. }
  split; [|split; [|split]].
  - intros x y I1 I2. destruct (F x I1) as (g & G1 & T1). destruct (F y I2) as (h & G2 & T2). apply (CT x y g h G1 G2 T1 T2).
  - intros x I1. destruct (F x I1) as (g & G1 & T1). apply (CT x x g g G1 G1 T1 T1). apply bfrom_irrefl. assumption.
  - intros x y z I1 I2 I3. destruct (F x I1) as (g & G1 & T1). destruct (F y I2) as (h & G2 & T2). destruct (F z I3) as (i & G3 & T3). intros H1 H2.
    apply (CT x y g h G1 G2 T1 T2) in H1. apply (CT y z h i G2 G3 T2 T3) in H2. apply (CT x z g i G1 G3 T1 T3). eapply bfrom_trans; eauto.
  - intros x y z I1 I2 I3. destruct (F x I1) as (g & G1 & T1). destruct (F y I2) as (h & G2 & T2). destruct (F z I3) as (i & G3 & T3). intros H1 H2 H3 H4.
    apply (CT x y g h G1 G2 T1 T2) in H1. apply (CT y x h g G2 G1 T2 T1) in H2. apply (CT y z h i G2 G3 T2 T3) in H3. apply (CT z y i h G3 G2 T3 T2) in H4.
    destruct (bfrom_total V ND fwd k g h G1 G2) as [->|[?|?]]; [|contradiction|contradiction]. destruct (bfrom_total V ND fwd k h i G2 G3) as [->|[?|?]]; [|contradiction|contradiction].
    split; [apply (CT x z i i G1 G3 T1 T3)|apply (CT z x i i G3 G1 T3 T1)]; apply bfrom_irrefl; assumption.
Qed.

(** ** C28 *)
(** the records of the input: [k] words each, over the vocabulary, of at most [room] bytes *)
Definition sort_input (vocab : list (list N * N)) (k room : N) (rs : list (list (list N) * N)) : Prop :=
  Forall (fun r => vgram (map fst vocab) k (fst r) /\ snd r < 2 ^ 64 /\ lenN (join (fst r)) <= room) rs.
(** the input is always cut into batches *)
Theorem C28_batches_exist : forall vocab k room rs, sort_input vocab k room rs ->
  exists bs, batches room rs bs /\ concat bs = rs /\ Forall (fun b => b <> []) bs.
Proof.
  intros vocab k room rs F. destruct (batches_exist room rs) as (bs & B). { eapply Forall_impl; [|exact F]. intros r (_ & _ & ?). assumption. }
  exists bs. split; [assumption|]. eapply batches_concat; eauto.
Qed.
(** The output file receives the number of records and the records of the input, each with
    its count, in prefix order, when there are at least two records and the last batch does
    not consist of a single record.  (Missing: inputs of one record, and a last batch of one
    record; those are refuted below.) *)
Theorem C28_sorted_partial : forall env vocab srt k rs bs out0,
  sort_env_ok env vocab -> std_sort srt -> 0 < k < 2 ^ 32 -> se_ram env < 2 ^ 63 -> sort_input vocab k (se_ram env) rs ->
  2 <= lenN rs < 2 ^ 64 -> batches (se_ram env) rs bs -> (forall bs' r, bs <> bs' ++ [[r]]) ->
  exists rs', sort_grams env srt (vocab_lines vocab) (lenN rs) (map line rs) out0 = Ok (out0 ++ to_string (lenN rs) :: map line rs') /\
    Permutation rs rs' /\ in_order true (map fst vocab) rs'.
Proof.
  intros env vocab srt k rs bs out0 EO SRT HK HM F HN B NS. unfold sort_grams.
  destruct (sort_vocabulary_ok env vocab EO) as (v & EV & ND & LK). rewrite EV. cbn [bind]. destruct (N.eqb_spec (lenN rs) 0) as [Z|_]; [lia|].
  destruct EO as [SW SS _ _]. assert (VW : Forall vword (map fst vocab)). { apply Forall_map. eapply Forall_impl; [|exact SW]. intros e [? _]. assumption. }
  assert (VL : lenN (map fst vocab) < 2 ^ 64 - 1) by (rewrite lenN_map; lia).
  set (V := map fst vocab) in *. set (look := vlook (se_h env) v) in *. set (M := se_ram env) in *.
  pose proof (pool_new_rep M : pool_rep (pool_new M : pool N) M []) as PR. destruct (batches_concat _ _ _ B) as [BC BN].
  change (cr_begin (map line rs)) with (crit_of 0 (map line rs)).
  destruct bs as [|b [|b2 bs]].
  - cbn in BC. subst rs. change (lenN (@nil (list (list N) * N))) with 0 in HN. lia.
  - cbn [concat] in BC. rewrite app_nil_r in BC. subst b. assert (GB : gram_bytes rs <= M) by (clear - B; remember [rs] as l eqn:El; destruct B as [|b rest bs NE GB GR B1]; [discriminate|]; injection El as E _; rewrite <- E; exact GB).
    destruct (one_batch_ok V look true k M ND VW VL LK HK HM srt SRT rs (N.to_nat (lenN rs)) (pool_new M) out0 PR F HN GB) as (rs' & P & (_ & _ & S) & E); [lia|].
    rewrite E. cbn [bind so_files length merge_batches]. cbn [bind so_out]. exists rs'. split; [|split; assumption]. f_equal. f_equal. unfold file_of. rewrite (lenN_perm _ _ P). reflexivity.
  - assert (LB : (length (b :: b2 :: bs) <= length rs)%nat).
    { rewrite <- BC. clear - BN. induction BN as [|x l H F IH]; [cbn; lia|]. cbn [concat length]. rewrite app_length. destruct x; [congruence|cbn [length]; lia]. }
    destruct (batch_loop_ok V look true k M ND VW VL LK HK HM srt SRT rs (b :: b2 :: bs) B 0 (lenN rs) (N.to_nat (lenN rs)) (pool_new M) [] out0 PR F) as (bs' & FB & E); try lia.
    { intros _. right. cbn [length]. lia. } { unfold lenN. rewrite Nat2N.id. assumption. }
    rewrite E. cbn [bind app so_files]. rewrite (kept_all _ NS) in FB.
    assert (PC : Permutation rs (concat bs')). { rewrite <- BC. clear - FB. induction FB as [|x y l m [H _] F IH]; [apply Permutation_refl|]. cbn [concat]. apply Permutation_app; assumption. }
    assert (L2 : length bs' = S (S (length bs))). { clear - FB. apply Forall2_len in FB. rewrite <- FB. reflexivity. }
    destruct (merge_batches_ok count_handler (fun c : N => c < 2 ^ 64) V look true k M ND VW VL LK HK HM (count_HP V k M VW VL HK HM) (length bs') bs' (lenN rs) out0) as (rs' & EM & PM & (_ & _ & S)).
    { lia. } { lia. } { clear - FB. induction FB as [|x y l m [_ H] F IH]; constructor; assumption. } { rewrite <- (lenN_perm _ _ PC). lia. }
    rewrite map_length, EM. cbn [bind so_out]. exists rs'. pose proof (Permutation_trans PC PM) as P. split; [|split; assumption].
    f_equal. f_equal. unfold file_of. rewrite (lenN_perm _ _ P). reflexivity.
Qed.
(** An input that says it holds no records is refused. *)
Theorem C28_empty_refused : forall env vocab srt lines out0, sort_env_ok env vocab ->
  sort_grams env srt (vocab_lines vocab) 0 lines out0 = Throw.
Proof.
  intros env vocab srt lines out0 EO. unfold sort_grams. destruct (sort_vocabulary_ok env vocab EO) as (v & EV & _). rewrite EV. reflexivity.
Qed.
(** An input of one record: nothing is written. *)
Theorem C28_one_record_refuted : forall env vocab srt r out0, sort_env_ok env vocab ->
  sort_grams env srt (vocab_lines vocab) 1 [line r] out0 = Ok out0.
Proof.
  intros env vocab srt r out0 EO. unfold sort_grams. destruct (sort_vocabulary_ok env vocab EO) as (v & EV & _). rewrite EV. reflexivity.
Qed.
(** A last batch of one record, after at least two others: that record is lost. *)
Theorem C28_last_record_refuted : forall env vocab srt k rs bs r out0,
  sort_env_ok env vocab -> std_sort srt -> 0 < k < 2 ^ 32 -> se_ram env < 2 ^ 63 -> sort_input vocab k (se_ram env) rs ->
  lenN rs < 2 ^ 64 -> batches (se_ram env) rs (bs ++ [[r]]) -> (2 <= length bs)%nat ->
  exists rs', sort_grams env srt (vocab_lines vocab) (lenN rs) (map line rs) out0 = Ok (out0 ++ to_string (lenN rs - 1) :: map line rs') /\
    Permutation rs (r :: rs').
Proof.
  intros env vocab srt k rs bs r out0 EO SRT HK HM F HN B H2. unfold sort_grams.
  destruct (sort_vocabulary_ok env vocab EO) as (v & EV & ND & LK). rewrite EV. cbn [bind].
  destruct EO as [SW SS _ _]. assert (VW : Forall vword (map fst vocab)). { apply Forall_map. eapply Forall_impl; [|exact SW]. intros e [? _]. assumption. }
  assert (VL : lenN (map fst vocab) < 2 ^ 64 - 1) by (rewrite lenN_map; lia).
  set (V := map fst vocab) in *. set (look := vlook (se_h env) v) in *. set (M := se_ram env) in *.
  pose proof (pool_new_rep M : pool_rep (pool_new M : pool N) M []) as PR. destruct (batches_concat _ _ _ B) as [BC BN].
  assert (LB : (length (bs ++ [[r]]) <= length rs)%nat).
  { rewrite <- BC. clear - BN. induction BN as [|x l H F IH]; [cbn; lia|]. cbn [concat length]. rewrite app_length. destruct x; [congruence|cbn [length]; lia]. }
  assert (LR : 0 < lenN rs) by (rewrite app_length in LB; cbn [length] in LB; unfold lenN; lia).
  destruct (N.eqb_spec (lenN rs) 0) as [Z|_]; [lia|]. change (cr_begin (map line rs)) with (crit_of 0 (map line rs)).
  destruct (batch_loop_ok V look true k M ND VW VL LK HK HM srt SRT rs (bs ++ [[r]]) B 0 (lenN rs) (N.to_nat (lenN rs)) (pool_new M) [] out0 PR F) as (bs' & FB & E); try lia.
  { intros _. right. rewrite app_length. cbn [length]. lia. } { unfold lenN. rewrite Nat2N.id. assumption. }
  rewrite E. cbn [bind app so_files]. rewrite kept_single in FB.
  assert (PC : Permutation (concat bs) (concat bs')). { clear - FB. induction FB as [|x y l m [H _] F IH]; [apply Permutation_refl|]. cbn [concat]. apply Permutation_app; assumption. }
  assert (L2 : length bs' = length bs). { symmetry. clear - FB. apply Forall2_len in FB. assumption. }
  assert (PR2 : Permutation rs (r :: concat bs)). { rewrite <- BC, concat_app. cbn [concat]. rewrite app_nil_r. apply Permutation_sym, Permutation_cons_append. }
  assert (LC : lenN rs = 1 + lenN (concat bs)) by (rewrite (lenN_perm _ _ PR2), lenN_cons; reflexivity).
  destruct (merge_batches_ok count_handler (fun c : N => c < 2 ^ 64) V look true k M ND VW VL LK HK HM (count_HP V k M VW VL HK HM) (length bs') bs' (lenN rs) out0) as (rs' & EM & PM & (_ & _ & S)).
  { lia. } { lia. } { clear - FB. induction FB as [|x y l m [_ H] F IH]; constructor; assumption. } { rewrite <- (lenN_perm _ _ PC). lia. }
  rewrite map_length, EM. cbn [bind so_out]. exists rs'. pose proof (Permutation_trans PC PM) as P. split.
  - f_equal. f_equal. unfold file_of. cbn [h_counts count_handler]. change (map (wline count_handler)) with (map line). f_equal. f_equal. rewrite <- (lenN_perm _ _ P). lia.
  - eapply Permutation_trans; [exact PR2|]. constructor. assumption.
Qed.
(** Two batches, the second of one record: nothing is written at all. *)
Theorem C28_two_batches_refuted : forall env vocab srt k rs b r out0,
  sort_env_ok env vocab -> std_sort srt -> 0 < k < 2 ^ 32 -> se_ram env < 2 ^ 63 -> sort_input vocab k (se_ram env) rs ->
  lenN rs < 2 ^ 64 -> batches (se_ram env) rs [b; [r]] ->
  sort_grams env srt (vocab_lines vocab) (lenN rs) (map line rs) out0 = Ok out0.
Proof.
  intros env vocab srt k rs b r out0 EO SRT HK HM F HN B. unfold sort_grams.
  destruct (sort_vocabulary_ok env vocab EO) as (v & EV & ND & LK). rewrite EV. cbn [bind].
  destruct EO as [SW SS _ _]. assert (VW : Forall vword (map fst vocab)). { apply Forall_map. eapply Forall_impl; [|exact SW]. intros e [? _]. assumption. }
  assert (VL : lenN (map fst vocab) < 2 ^ 64 - 1) by (rewrite lenN_map; lia).
  set (V := map fst vocab) in *. set (look := vlook (se_h env) v) in *. set (M := se_ram env) in *.
  pose proof (pool_new_rep M : pool_rep (pool_new M : pool N) M []) as PR. destruct (batches_concat _ _ _ B) as [BC BN].
  assert (LB : (2 <= length rs)%nat). { rewrite <- BC. cbn [concat]. rewrite !app_length. cbn [length]. inversion BN as [|? ? NE _]; subst. destruct b; [congruence|cbn [length]; lia]. }
  destruct (N.eqb_spec (lenN rs) 0) as [Z|_]; [unfold lenN in Z; lia|]. change (cr_begin (map line rs)) with (crit_of 0 (map line rs)).
  destruct (batch_loop_ok V look true k M ND VW VL LK HK HM srt SRT rs [b; [r]] B 0 (lenN rs) (N.to_nat (lenN rs)) (pool_new M) [] out0 PR F) as (bs' & FB & E); try lia.
  { intros _. right. cbn [length]. lia. } { unfold lenN. lia. } { unfold lenN. rewrite Nat2N.id. assumption. }
  rewrite E. cbn [bind app so_files]. change [b; [r]] with ([b] ++ [[r]]) in FB. rewrite kept_single in FB. inversion FB as [|? y ? m _ F0]; subst. inversion F0; subst. reflexivity.
Qed.

(** ** instances *)
(** insertion sort meets the contract of std::sort *)
Fixpoint insert {A} (cmp : A -> A -> res bool) (x : A) (l : list A) : list A :=
  match l with
  | [] => [x]
  | y :: r => match cmp y x with Ok true => y :: insert cmp x r | _ => x :: y :: r end
  end.
Definition isort {A} (cmp : A -> A -> res bool) (l : list A) : list A := fold_right (insert cmp) [] l.
Lemma insert_perm {A} (cmp : A -> A -> res bool) x l : Permutation (x :: l) (insert cmp x l).
Proof.
  induction l as [|y l IH]; [apply Permutation_refl|]. cbn [insert]. destruct (cmp y x) as [[|]| |]; try apply Permutation_refl.
  eapply Permutation_trans; [apply perm_swap|]. constructor. assumption.
Qed.
Lemma insert_sorted {A} (cmp : A -> A -> res bool) U x l : strict_weak cmp U -> incl (x :: l) U ->
  StronglySorted (fun a b => cmp b a = Ok false) l -> StronglySorted (fun a b => cmp b a = Ok false) (insert cmp x l).
Proof.
  intros (D & I & T & N) HU. induction l as [|y l IH]; intros S; [constructor; constructor|]. inversion S as [|? ? S' L]; subst. cbn [insert].
  assert (Ux : In x U) by (apply HU; left; reflexivity). assert (Uy : In y U) by (apply HU; right; left; reflexivity). rewrite Forall_forall in L.
  destruct (D y x Uy Ux) as ([|] & E); rewrite E.
  - constructor; [apply IH; [intros a [<-|Ha]; apply HU; [left; reflexivity|right; right; assumption]|assumption]|].
    apply Forall_forall. intros z Hz. apply (Permutation_in _ (Permutation_sym (insert_perm cmp x l))) in Hz. destruct Hz as [<-|Hz]; [|apply L; assumption].
    destruct (D x y Ux Uy) as ([|] & E2); [|assumption]. pose proof (T y x y Uy Ux Uy E E2) as Q. rewrite I in Q by assumption. discriminate.
  - constructor; [assumption|]. constructor; [assumption|]. apply Forall_forall. intros z Hz. assert (Uz : In z U) by (apply HU; right; right; assumption). specialize (L z Hz).
    destruct (D z x Uz Ux) as ([|] & E2); [|assumption]. exfalso. destruct (D y z Uy Uz) as ([|] & E3).
    + rewrite (T y z x Uy Uz Ux E3 E2) in E. discriminate.
    + destruct (D x y Ux Uy) as ([|] & E4).
      * rewrite (T z x y Uz Ux Uy E2 E4) in L. discriminate.
      * destruct (N z y x Uz Uy Ux L E3 E E4) as [Q _]. rewrite E2 in Q. discriminate.
Qed.
Theorem std_sort_isort : forall A, std_sort (@isort A).
Proof.
  intros A cmp l SW. assert (G : forall l', incl l' l -> Permutation l' (isort cmp l') /\ StronglySorted (fun a b => cmp b a = Ok false) (isort cmp l')).
  { induction l' as [|x l' IH]; intros HI; [split; constructor|]. destruct IH as [P S]; [intros a Ha; apply HI; right; assumption|]. cbn [isort fold_right]. fold (isort cmp l'). split.
    - eapply Permutation_trans; [|apply insert_perm]. constructor. assumption.
    - eapply insert_sorted; [exact SW| |assumption]. intros a [<-|Ha]; [apply HI; left; reflexivity|]. apply HI. right. apply (Permutation_in _ (Permutation_sym P)). assumption. }
  apply G. apply incl_refl.
Qed.
(** the vocabulary c, a, b and its hash function *)
Definition exs_h (g : list N) : triple :=
  match g with [97] => (0, 1, 0) | [98] => (1, 1, 0) | [99] => (1, 0, 0) | c :: _ => (c, c, c) | [] => (0, 0, 0) end.
Definition exs_vocab : list (list N * N) := [([99], 7); ([97], 3); ([98], 2)].
Definition exs_env (ram : N) : senv := mksenv exs_h [(3, 0, 4); (1, 3, 4); (2, 1, 4)] 100 ram.
Definition exs_rs : list (list (list N) * N) := [([[97]; [98]], 5); ([[98]; [97]], 4); ([[97]; [99]], 12); ([[99]; [98]], 1)].
Example exs_env_ok : forall ram, sort_env_ok (exs_env ram) exs_vocab.
Proof.
  intros ram. constructor.
  - repeat constructor; cbn; try discriminate; intuition discriminate.
  - vm_compute. split; reflexivity.
  - vm_compute. discriminate.
  - split.
    + exists [[97]; [98]; [99]]. split.
      * cbn [map fst exs_vocab]. change ([[99]; [97]; [98]]) with ([[99]] ++ [[97]; [98]]). apply Permutation_app_comm.
      * constructor; [|constructor; [|constructor; [|constructor]]]; cbn; [apply perm_swap|apply Permutation_refl|apply perm_swap].
    + repeat constructor; cbn; intros I; repeat (destruct I as [I|I]; [discriminate|]); destruct I.
Qed.
(** two batches of two records, merged; one batch; the theorem's hypotheses hold *)
Example C28_example :
  sort_input exs_vocab 2 6 exs_rs /\ batches 6 exs_rs [firstn 2 exs_rs; skipn 2 exs_rs] /\
  sort_grams (exs_env 6) isort (vocab_lines exs_vocab) 4 (map line exs_rs) [] =
    Ok ([52] :: map line [([[99]; [98]], 1); ([[97]; [99]], 12); ([[97]; [98]], 5); ([[98]; [97]], 4)]) /\
  sort_grams (exs_env 60) isort (vocab_lines exs_vocab) 4 (map line exs_rs) [] =
    Ok ([52] :: map line [([[99]; [98]], 1); ([[97]; [99]], 12); ([[97]; [98]], 5); ([[98]; [97]], 4)]) /\
  sort_grams (exs_env 3) isort (vocab_lines exs_vocab) 4 (map line exs_rs) [] =
    Ok ([51] :: map line [([[97]; [99]], 12); ([[97]; [98]], 5); ([[98]; [97]], 4)]).
Proof.
  split; [|split; [|repeat split; vm_compute; reflexivity]].
  - unfold sort_input. repeat (apply Forall_cons; [split; [split; [reflexivity|repeat (apply Forall_cons; [vm_compute; repeat (first [left; reflexivity|right])|]); constructor]|split; [reflexivity|vm_compute; discriminate]]|]). constructor.
  - change exs_rs with (firstn 2 exs_rs ++ (skipn 2 exs_rs ++ [])) at 1. constructor; [discriminate|vm_compute; discriminate| |].
    + intros r rest' E. injection E as <- <-. vm_compute. reflexivity.
    + constructor; [discriminate|vm_compute; discriminate|intros ? ? E; discriminate|constructor].
Qed.
(** A word outside the vocabulary ("e"): the comparator is not a strict weak order, since
    "a" and "e", "e" and "c" are not comparable but "c" comes before "a". *)
Theorem C29_unknown_word_refuted : exists v, sort_vocabulary (exs_env 10) (vocab_lines exs_vocab) = Ok v /\
  let buf := [97; 101; 99] in let cmp := fun x y => comparator true (vlook exs_h v) buf x buf y in
  cmp (0, 1) (1, 2) = Ok false /\ cmp (1, 2) (0, 1) = Ok false /\ cmp (1, 2) (2, 3) = Ok false /\ cmp (2, 3) (1, 2) = Ok false /\
  cmp (2, 3) (0, 1) = Ok true /\ ~ strict_weak cmp [(0, 1); (1, 2); (2, 3)].
Proof.
  eexists. split; [vm_compute; reflexivity|]. intros buf cmp.
  assert (H : cmp (0, 1) (1, 2) = Ok false /\ cmp (1, 2) (0, 1) = Ok false /\ cmp (1, 2) (2, 3) = Ok false /\ cmp (2, 3) (1, 2) = Ok false /\ cmp (2, 3) (0, 1) = Ok true) by (repeat split; vm_compute; reflexivity).
  destruct H as (H1 & H2 & H3 & H4 & H5). repeat (split; [assumption|]). intros (_ & _ & _ & N).
  destruct (N (0, 1) (1, 2) (2, 3)) as [_ Q]; try assumption; [left; reflexivity|right; left; reflexivity|right; right; left; reflexivity|]. rewrite H5 in Q. discriminate.
Qed.
Example C29_example : exists v, sort_vocabulary (exs_env 10) (vocab_lines exs_vocab) = Ok v /\
  (* "a b" and "a c": prefix order a c < a b; "b a" and "a b": suffix order b a < a b *)
  comparator true (vlook exs_h v) [97; 32; 98] (0, 3) [97; 32; 99] (0, 3) = Ok false /\
  comparator true (vlook exs_h v) [97; 32; 99] (0, 3) [97; 32; 98] (0, 3) = Ok true /\
  comparator false (vlook exs_h v) [98; 32; 97] (0, 3) [97; 32; 98] (0, 3) = Ok true /\
  comparator true (vlook exs_h v) [98; 32; 97] (0, 3) [97; 32; 98] (0, 3) = Ok false.
Proof. eexists. split; [vm_compute; reflexivity|]. repeat split; vm_compute; reflexivity. Qed.

Print Assumptions C29_comparator.
Print Assumptions C29_total_order.
Print Assumptions C29_strict_weak.
Print Assumptions C29_unknown_word_refuted.
Print Assumptions C28_batches_exist.
Print Assumptions C28_sorted_partial.
Print Assumptions C28_empty_refused.
Print Assumptions C28_one_record_refuted.
Print Assumptions C28_last_record_refuted.
Print Assumptions C28_two_batches_refuted.
