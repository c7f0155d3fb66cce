(** * C52: from unsorted counts to an index *)
From Verif Require Import Prelude BitFacts M_Word M_Text M_Pool M_Trie M_TriePef M_Sort M_Save M_ArpaFile M_GramFile M_Header M_Programs M_Perf M_Pipeline
  Spec Spec_Trie Spec_Sort Spec_Save Spec_ArpaFile Spec_GramFile Spec_Programs Spec_Perf Spec_Pipeline P_Trie3 P_Trie4 P_Programs P_Pipeline Props_GramFile Props_Trie Props_Save Props_Programs Props_Perf.
From Verif Require P_Sort2 Props_Sort P_Trie1 P_SeqColl Props_TriePef M_MphCount Props_MphCount.
From Verif Require Import M_Mph P_SeqColl M_Pef Props_TriePef Props_MphCount.
From Coq Require Import Permutation Sorting.Sorted String.
Local Open Scope N_scope.
Local Open Scope list_scope.

(** what a run of sort_grams needs: a peeling order and memory for the vocabulary; memory for every single gram; at least two
    records; and a last batch of more than one record (otherwise records are lost: C28_*_refuted) *)
Record sortable (env : senv) (l0 l : list (gram * N)) : Prop := {
  so_vocab : P_Sort2.sort_env_ok env (words_of l0);
  so_ram : se_ram env < 2 ^ 63;
  so_room : forall r, In r l -> lenN (join (fst r)) <= se_ram env;
  so_two : 2 <= lenN l;
  so_last : forall bs, batches (se_ram env) l bs -> forall bs' r, bs <> bs' ++ [[r]] }.

(** sort_grams turns files in any order into the sorted collection a trie is built from: the same grams with the same counts *)
Theorem C52_sorted_files : forall U remap l0 d envs srt,
  unsorted U remap -> no_newlines U -> nthN U 0 = Some l0 -> holds_counts d U -> std_sort srt ->
  (forall k l, 0 < k -> nthN U k = Some l -> sortable (envs (k + 1)) l0 l) ->
  exists D, sorted_version U D /\ collection D remap /\ no_newlines D /\ holds_counts (sorted_dir envs srt d) D.
Proof.
  intros U remap l0 d envs srt HU NN H0 HD SRT SO.
  assert (CH : forall k l, nthN U k = Some l -> exists l', sorted_dir envs srt d (k + 1) = Some (count_file (lenN l') (map line l')) /\
    Permutation l l' /\ (k = 0 -> l' = l) /\ (0 < k -> StronglySorted (gram_lt (grams U 0)) (map fst l'))).
  { intros k l Hl. unfold sorted_dir. rewrite (HD 0 l0 H0 : d 1 = _). destruct (N.eqb_spec (k + 1) 1) as [E|E].
    - assert (k = 0) by lia. subst k. assert (l0 = l) by congruence. subst l0. exists l. split; [reflexivity|]. split; [reflexivity|]. split; [reflexivity|lia].
    - rewrite (HD k l Hl). destruct (SO k l ltac:(lia) Hl) as [S1 S2 S3 S4 S5].
      destruct (Props_Sort.C28_batches_exist (words_of l0) (k + 1) (se_ram (envs (k + 1))) l) as (bs & B & _).
      { apply Forall_forall. intros e He. assert (IG : In (fst e) (grams U k)) by (unfold grams; rewrite Hl; apply in_map; exact He). destruct (us_words _ _ HU k (fst e) IG) as [W1 W2].
        split; [split; [exact W1|]|split; [|exact (S3 e He)]].
        - eapply Forall_impl; [|exact W2]. intros w (_ & _ & IW). apply (In_voc U remap HU l0 H0). exact IW.
        - pose proof (Forall_nthN _ _ _ _ (us_counts _ _ HU) Hl) as F. rewrite Forall_forall in F. exact (F _ He). }
      destruct (sorted_level U remap HU l0 H0 NN (envs (k + 1)) srt k l bs ltac:(lia) Hl S1 SRT S2 S3 S4 B (S5 bs B)) as (l' & E1 & E2 & E3).
      rewrite E1. exists l'. split; [reflexivity|]. split; [exact E2|]. split; [intros; lia|intros _; exact E3]. }
  destruct (choose_list _ U CH) as (D & LD & HR). cbv beta in HR.
  assert (FP : Forall2 (@Permutation (gram * N)) U D). { apply Forall2_of_nthN; [exact LD|]. intros i a b Ha Hb. apply (HR i a b Ha Hb). }
  assert (UD : forall k l, nthN D k = Some l -> exists u, nthN U k = Some u).
  { intros k l Hl. apply nthN_Some. rewrite <- LD. exact (nthN_lt _ _ _ Hl). }
  assert (D0 : nthN D 0 = nthN U 0).
  { rewrite H0. destruct (nthN_Some D 0) as (b & Hb); [pose proof (us_order _ _ HU); lia|]. rewrite Hb. destruct (HR 0 l0 b H0 Hb) as (_ & _ & Q & _). rewrite (Q eq_refl). reflexivity. }
  assert (G0 : grams D 0 = grams U 0) by (unfold grams; rewrite D0; reflexivity).
  assert (GP : forall k g, In g (grams D k) <-> In g (grams U k)).
  { intros k g. unfold grams. destruct (nthN D k) as [b|] eqn:Eb.
    - destruct (UD k b Eb) as (a & Ea). rewrite Ea. destruct (HR k a b Ea Eb) as (_ & P & _). apply (Permutation_map fst) in P. split; intros H; [apply (Permutation_in _ (Permutation_sym P))|apply (Permutation_in _ P)]; exact H.
    - rewrite nthN_None; [reflexivity|]. rewrite <- LD. destruct (N.lt_ge_cases k (lenN D)) as [L|L]; [|exact L]. destruct (nthN_Some D k L). congruence. }
  assert (SG : forall k, 0 < k -> StronglySorted (gram_lt (grams U 0)) (grams D k)).
  { intros k Hk. unfold grams at 2. destruct (nthN D k) as [b|] eqn:Eb; [|constructor]. destruct (UD k b Eb) as (a & Ea). destruct (HR k a b Ea Eb) as (_ & _ & _ & Q). exact (Q Hk). }
  exists D. split; [split; [exact FP|split; [exact D0|exact SG]]|]. split; [|split].
  - destruct HU as [A1 A2 A3 A4 A5 A6 A7 A8 A9]. split.
    + rewrite LD. exact A1.
    + intros k l Hl. destruct (UD k l Hl) as (a & Ea). destruct (HR k a l Ea Hl) as (_ & P & _). destruct (A2 k a Ea) as [B1 B2]. pose proof (Permutation_length P) as PL.
      split; [intros ->; destruct a; [congruence|discriminate]|]. unfold lenN in *. rewrite <- PL. exact B2.
    + intros k g Hg. apply GP in Hg. rewrite G0. exact (A3 k g Hg).
    + intros k g Hg. apply GP in Hg. exact (A4 k g Hg).
    + rewrite G0. apply A5.
    + intros k Hk. rewrite G0. exact (SG k Hk).
    + intros k g Hk Hg. apply GP in Hg. apply GP. exact (A6 k g Hk Hg).
    + exact A7.
    + intros k g H1 H2 Hg. apply GP in Hg. apply GP. exact (A8 k g H1 H2 Hg).
  - intros l g c w Hl Hg Hw. apply In_nth_error in Hl. destruct Hl as (k & Hk). assert (Hk' : nthN D (N.of_nat k) = Some l) by (unfold nthN; rewrite Nat2N.id; exact Hk).
    destruct (UD _ _ Hk') as (a & Ea). destruct (HR _ a l Ea Hk') as (_ & P & _). apply (NN a g c w); [exact (nthN_In _ _ _ Ea)|apply (Permutation_in _ (Permutation_sym P)); exact Hg|exact Hw].
  - intros k l Hl. destruct (UD k l Hl) as (a & Ea). apply (HR k a l Ea Hl).
Qed.

Lemma indexed_sorted U D q c : sorted_version U D -> indexed U q c -> indexed D q c.
Proof.
  intros (P & _) (k & l & Hl & Hq). assert (LD : lenN D = lenN U) by (clear - P; induction P as [|? ? ? ? _ _ IH]; [reflexivity|rewrite !lenN_cons, IH; reflexivity]).
  destruct (nthN_Some D k) as (l' & Hl'); [rewrite LD; exact (nthN_lt _ _ _ Hl)|]. exists k, l'. split; [exact Hl'|]. exact (Permutation_in _ (Forall2_nthN _ _ _ _ _ _ P Hl Hl') Hq).
Qed.
Lemma concat_len U D : Forall2 (@Permutation (gram * N)) U D -> lenN (List.concat D) = lenN (List.concat U).
Proof. induction 1 as [|a b U D P F IH]; [reflexivity|]. cbn [List.concat]. rewrite !lenN_app, IH. unfold lenN. rewrite (Permutation_length P). reflexivity. Qed.

(** The whole chain: files of counts in any order, sort_grams on each file of order 2 and more, build_trie, and then the
    checking program finds nothing wrong and the lookup benchmark gets, in every run, the count of every gram it asks for. *)
Theorem C52_unsorted_to_index : forall x env henv U remap r a d l0 envs srt st lines gs counts runs,
  ext_ok x -> unsorted U remap -> no_newlines U -> nthN U 0 = Some l0 -> holds_counts d U -> std_sort srt ->
  (forall k l, 0 < k -> nthN U k = Some l -> sortable (envs (k + 1)) l0 l) ->
  asks a false (lenN U) remap r -> r <> R_PSPEF -> (forall D, sorted_version U D -> inputs_ok D remap (pe_t (instance env (inst false remap r)))) ->
  statics_ok st -> Forall2 query_line lines gs -> Forall2 (indexed U) gs counts -> 0 < runs <= 2 ^ 60 ->
  exists name file, build_trie_count x env a (sorted_dir envs srt d) = Ok (Wrote name file) /\
    test_count_model x env henv st file (sorted_dir envs srt d) = Ok (Checked []) /\
    lookup_perf_test x env henv st file lines runs = Ok (Measured (lenN file) (lenN (List.concat U)) (repeat counts (N.to_nat runs))).
Proof.
  intros x env henv U remap r a d l0 envs srt st lines gs counts runs X HU NN H0 HD SRT SO AS NR IO ST QL IX HR.
  destruct (C52_sorted_files U remap l0 d envs srt HU NN H0 HD SRT SO) as (D & SV & C & ND & HD').
  assert (LD : lenN D = lenN U) by (destruct SV as (P & _); clear - P; induction P as [|? ? ? ? _ _ IH]; [reflexivity|rewrite !lenN_cons, IH; reflexivity]).
  assert (IX' : Forall2 (indexed D) gs counts). { clear - IX SV. induction IX; constructor; [eapply indexed_sorted; eassumption|assumption]. }
  rewrite <- LD in AS.
  destruct (C50_tries x env henv D remap r a (sorted_dir envs srt d) st lines gs counts runs X C ND HD' ST AS NR (IO D SV) QL IX' HR) as (name & file & E1 & E2).
  destruct (C45_tries x env henv D remap r a (sorted_dir envs srt d) st X C ND HD' ST AS NR (IO D SV)) as (file' & E3 & _ & E4).
  rewrite E1 in E3. injection E3 as EN <-. exists name, file. split; [exact E1|]. split; [exact E4|]. rewrite E2. rewrite (concat_len U D (proj1 SV)). reflexivity.
Qed.
Print Assumptions C52_sorted_files.
Print Assumptions C52_unsorted_to_index.

(** the sorted version is unique, so the files do not depend on how std::sort orders equal records or on the memory granted *)
Lemma sorted_perm_unique {A B} (f : A -> B) (R : B -> B -> Prop) : (forall x y, R x y -> ~ R y x) -> forall a b,
  StronglySorted R (map f a) -> StronglySorted R (map f b) -> Permutation a b -> a = b.
Proof.
  intros AS. induction a as [|x a IH]; intros [|y b] SA SB P; [reflexivity|apply Permutation_nil_cons in P; contradiction|apply Permutation_sym, Permutation_nil_cons in P; contradiction|].
  cbn [map] in *. inversion SA as [|? ? SA1 SA2]; subst. inversion SB as [|? ? SB1 SB2]; subst. rewrite Forall_forall in SA2, SB2.
  pose proof (Permutation_in x P (or_introl eq_refl)) as [E|I1].
  - subst y. f_equal. apply IH; [assumption|assumption|]. exact (Permutation_cons_inv P).
  - pose proof (Permutation_in y (Permutation_sym P) (or_introl eq_refl)) as [E|I2].
    + subst y. f_equal. apply IH; [assumption|assumption|]. exact (Permutation_cons_inv P).
    + exfalso. apply (AS (f x) (f y)); [apply SA2, in_map; exact I2|apply SB2, in_map; exact I1].
Qed.
Theorem C52_sorted_unique : forall U remap D E, unsorted U remap -> sorted_version U D -> sorted_version U E -> D = E.
Proof.
  intros U remap D E HU (P1 & Z1 & S1) (P2 & Z2 & S2).
  assert (LN : forall X, Forall2 (@Permutation (gram * N)) U X -> lenN X = lenN U) by (clear; intros X H; induction H as [|? ? ? ? _ _ IH]; [reflexivity|rewrite !lenN_cons, IH; reflexivity]).
  pose proof (LN _ P1) as L1. pose proof (LN _ P2) as L2. apply nthN_ext. intros k.
  destruct (N.lt_ge_cases k (lenN U)) as [L|L].
  2: { rewrite !nthN_None by lia. reflexivity. }
  destruct (nthN_Some U k L) as (u & Hu). destruct (nthN_Some D k ltac:(lia)) as (a & Ha). destruct (nthN_Some E k ltac:(lia)) as (b & Hb). rewrite Ha, Hb. f_equal.
  destruct (N.eq_dec k 0) as [->|NZ]; [congruence|].
  pose proof (S1 k ltac:(lia)) as SA. pose proof (S2 k ltac:(lia)) as SB. unfold grams at 2 in SA. unfold grams at 2 in SB. rewrite Ha in SA. rewrite Hb in SB.
  apply (sorted_perm_unique fst (gram_lt (grams U 0))); [|exact SA|exact SB|].
  - intros x y. apply (P_Trie1.gram_lt_asym (grams U 0)). apply (us_once _ _ HU).
  - eapply Permutation_trans; [apply Permutation_sym; exact (Forall2_nthN _ _ _ _ _ _ P1 Hu Ha)|exact (Forall2_nthN _ _ _ _ _ _ P2 Hu Hb)].
Qed.
Print Assumptions C52_sorted_unique.

(** a file that fits in the memory granted to the records is sortable as soon as it has two records *)
Lemma gram_bytes_app {A} (a b : list (list (list N) * A)) : gram_bytes (a ++ b) = gram_bytes a + gram_bytes b.
Proof. unfold gram_bytes. induction a as [|x a IH]; [reflexivity|]. cbn [app map sumN fold_right] in *. unfold sumN in *. cbn [fold_right]. lia. Qed.
Theorem C52_fits : forall env l0 l, P_Sort2.sort_env_ok env (words_of l0) -> se_ram env < 2 ^ 63 -> 2 <= lenN l -> gram_bytes l <= se_ram env -> sortable env l0 l.
Proof.
  intros env l0 l V R L2 F. split; [exact V|exact R| |exact L2|].
  - intros r Hr. apply in_split in Hr. destruct Hr as (a & b & ->). rewrite gram_bytes_app in F. change (gram_bytes (r :: b)) with (lenN (join (fst r)) + gram_bytes b) in F. clear - F. lia.
  - intros bs B bs' r E. inversion B as [|b rest bs0 NB GB MX BR E1 E2].
    + subst l. change (lenN (@nil (gram * N))) with 0 in L2. lia.
    + destruct rest as [|y rest].
      * inversion BR. 2: { destruct b0; [congruence|discriminate]. } subst bs0. rewrite E in E2. rewrite app_nil_r in E1. subst b.
        destruct bs' as [|z bs']; [|destruct bs'; discriminate]. cbn [app] in E2. injection E2 as ->. change (lenN [r]) with 1 in L2. lia.
      * specialize (MX y rest eq_refl). rewrite <- E1 in F. rewrite gram_bytes_app in F, MX. change (gram_bytes (y :: rest)) with (lenN (join (fst y)) + gram_bytes rest) in F.
        change (gram_bytes [y]) with (lenN (join (fst y)) + 0) in MX. clear - F MX. lia.
Qed.
Print Assumptions C52_fits.

(** non-vacuity: the grams of orders 1 to 3 of the example of C22, with the longer files backwards *)
Definition pl_D : list (list (gram * N)) := firstn 3 ex_D.
Definition pl_U : list (list (gram * N)) := match pl_D with l0 :: r => l0 :: map (@rev _) r | [] => [] end.
Definition pl_senv (ram : N) : senv := mksenv ex_h [(0, 2, 4); (1, 2, 4); (3, 0, 4); (5, 0, 2)] 100 ram.
Definition pl_env (remap : N) (k : rkind) : tenv :=
  mktenv ex_h [(0, 2, 4); (1, 2, 4); (3, 0, 4); (5, 0, 2)] (fun _ _ => (0, 0, 0)) (fun _ => [])
    (map (fun l => with_freq (map snd l)) pl_D) k (negb (remap =? 0)) 10.
Example pl_unsorted : forall remap, remap <= 1 -> unsorted pl_U remap.
Proof.
  assert (KS : forall k l, nthN pl_U k = Some l -> k = 0 \/ k = 1 \/ k = 2).
  { intros k l H. apply nthN_lt in H. change (lenN pl_U) with 3 in H. lia. }
  assert (KG : forall k g, In g (grams pl_U k) -> k = 0 \/ k = 1 \/ k = 2).
  { intros k g H. unfold grams in H. destruct (nthN pl_U k) eqn:E; [eapply KS; eauto|destruct H]. }
  intros remap R. split.
  - change (lenN pl_U) with 3. lia.
  - intros k l H. destruct (KS k l H) as [->|[->| ->]]; injection H as <-; (split; [discriminate|reflexivity]).
  - assert (WW : forall w, In w [wa; wb; wc; wd] -> word w /\ ~ In 9 w /\ In [w] (grams pl_U 0)).
    { intros w H. cbn [In] in H. destruct H as [<-|[<-|[<-|[<-|[]]]]]; (split; [split; [discriminate|cbn; intuition discriminate]|split; [cbn; intuition discriminate|inl]]). }
    intros k g H. destruct (KG k g H) as [->|[->| ->]]; cbn in H; repeat (destruct H as [H|H]; [subst g; split; [reflexivity|repeat constructor; apply WW; inl]|]); destruct H.
  - intros k g H. destruct (KG k g H) as [->|[->| ->]]; cbn in H; repeat (destruct H as [H|H]; [subst g; reflexivity|]); destruct H.
  - intros k. destruct (N.lt_ge_cases k 3) as [L|L].
    + assert (k = 0 \/ k = 1 \/ k = 2) as [->|[->| ->]] by lia; cbn; repeat constructor; cbn; intuition discriminate.
    + unfold grams. rewrite nthN_None by (change (lenN pl_U) with 3; lia). constructor.
  - intros k g Hk H. destruct (KG k g H) as [->|[->| ->]]; [lia| |]; cbn in H; repeat (destruct H as [H|H]; [subst g; inl|]); destruct H.
  - lia.
  - intros k g R0 Rk H. assert (remap = 1) by lia. subst remap. destruct (KG k g H) as [->|[->| ->]]; try lia; cbn in H;
      repeat (destruct H as [H|H]; [subst g; inl|]); destruct H.
  - repeat constructor.
Qed.
Example pl_sorted_version : sorted_version pl_U pl_D.
Proof.
  destruct (ex_collection 0 ltac:(lia)) as [_ _ _ _ _ CS _ _ _]. split; [|split; [reflexivity|]].
  - change pl_U with [nth 0 ex_D []; rev (nth 1 ex_D []); rev (nth 2 ex_D [])]. change pl_D with [nth 0 ex_D []; nth 1 ex_D []; nth 2 ex_D []].
    constructor; [apply Permutation_refl|]. constructor; [apply Permutation_sym, Permutation_rev|]. constructor; [apply Permutation_sym, Permutation_rev|constructor].
  - intros k Hk. destruct (N.lt_ge_cases k 3) as [L|L].
    + assert (k = 1 \/ k = 2) as [->| ->] by lia; [exact (CS 1 ltac:(lia))|exact (CS 2 ltac:(lia))].
    + unfold grams at 2. rewrite nthN_None by (change (lenN pl_D) with 3; lia). constructor.
Qed.
Example pl_inputs : forall remap k, inputs_ok pl_D remap (pl_env remap k).
Proof.
  intros remap k. split.
  - reflexivity.
  - exact (io_vocab _ _ _ (ex_inputs remap k)).
  - intros i Hi. left. change (lenN pl_D) with 3 in Hi. assert (i = 1 \/ i = 2) as [->| ->] by lia; reflexivity.
  - cbn [te_sorts pl_env]. induction pl_D as [|l D IH]; constructor; [apply Permutation_refl|exact IH].
  - vm_compute. discriminate.
  - repeat constructor.
Qed.
Definition pl_penv : penv := mkpenv (pl_env 0 IC) false false (fun _ => mkpads [0] [0]) (fun _ => mkpads [7] [3]) false.
Example pl_sortable : forall k l, 0 < k -> nthN pl_U k = Some l -> sortable (pl_senv 60) (nth 0 ex_D []) l.
Proof.
  assert (V : P_Sort2.sort_env_ok (pl_senv 60) (words_of (nth 0 ex_D []))).
  { split.
    - repeat constructor; try (cbn; intuition discriminate); discriminate.
    - split; reflexivity.
    - vm_compute. discriminate.
    - exact (io_vocab _ _ _ (ex_inputs 0 IC)). }
  intros k l Hk Hl. apply C52_fits; [exact V|reflexivity| |].
  - pose proof (nthN_lt _ _ _ Hl) as L. change (lenN pl_U) with 3 in L. assert (k = 1 \/ k = 2) as [->| ->] by lia; injection Hl as <-; vm_compute; discriminate.
  - pose proof (nthN_lt _ _ _ Hl) as L. change (lenN pl_U) with 3 in L. assert (k = 1 \/ k = 2) as [->| ->] by lia; injection Hl as <-; vm_compute; discriminate.
Qed.
Example pl_no_newlines : no_newlines pl_U.
Proof.
  intros l g c w Hl Hg Hw I. assert (F : forallb (fun l : list (gram * N) => forallb (fun e : gram * N => forallb (fun w => forallb (fun b => negb (b =? 10)) w) (fst e)) l) pl_U = true) by (vm_compute; reflexivity).
  rewrite forallb_forall in F. specialize (F l Hl). rewrite forallb_forall in F. specialize (F _ Hg). cbn [fst] in F. rewrite forallb_forall in F. specialize (F _ Hw). rewrite forallb_forall in F. specialize (F _ I). discriminate.
Qed.
Definition pl_envs (k : N) : senv := pl_senv 60.
Definition pl_lines : list (list N) := map line (List.concat pl_U).
(** the hypotheses of C52_unsorted_to_index hold together, so its conclusion is a run of the programs *)
Example C52_example : forall remap r, remap <= 1 -> r <> R_PSPEF -> exists name file,
  build_trie_count ex_x pl_penv (ex_args false 3 remap r) (sorted_dir pl_envs Props_Sort.isort (ex_dir pl_U)) = Ok (Wrote name file) /\
  test_count_model ex_x pl_penv (exm_env 32) ex_statics file (sorted_dir pl_envs Props_Sort.isort (ex_dir pl_U)) = Ok (Checked []) /\
  lookup_perf_test ex_x pl_penv (exm_env 32) ex_statics file pl_lines 2 = Ok (Measured (lenN file) 12 (repeat (map snd (List.concat pl_U)) 2)).
Proof.
  intros remap r R NR. change 12 with (lenN (List.concat pl_U)).
  apply (C52_unsorted_to_index ex_x pl_penv (exm_env 32) pl_U remap r (ex_args false 3 remap r) (ex_dir pl_U) (nth 0 ex_D []) pl_envs Props_Sort.isort ex_statics pl_lines (map fst (List.concat pl_U)) (map snd (List.concat pl_U)) 2).
  - exact ex_x_ok.
  - exact (pl_unsorted remap R).
  - exact pl_no_newlines.
  - reflexivity.
  - apply ex_dir_ok.
  - apply Props_Sort.std_sort_isort.
  - exact pl_sortable.
  - exact (ex_asks false 3 remap r).
  - exact NR.
  - intros D SV. rewrite (C52_sorted_unique pl_U remap D pl_D (pl_unsorted remap R) SV pl_sorted_version). exact (pl_inputs remap (match r with R_PSEF => PSEF | _ => IC end)).
  - split; reflexivity.
  - unfold pl_lines. generalize (List.concat pl_U). induction l as [|[g c] l IH]; constructor; [|exact IH]. right. eexists. reflexivity.
  - assert (F : forall L, incl L (List.concat pl_U) -> Forall2 (indexed pl_U) (map fst L) (map snd L)).
    { induction L as [|[g c] L IH]; intros HI; constructor; [|apply IH; intros a Ha; apply HI; right; exact Ha].
      pose proof (HI (g, c) (or_introl eq_refl)) as H. apply in_concat in H. destruct H as (l & H1 & H2). cbn [fst snd].
      assert (LG : lenN g - 1 < 3 /\ nthN pl_U (lenN g - 1) = Some l) by (cbn in H1; destruct H1 as [<-|[<-|[<-|[]]]]; cbn in H2; repeat (destruct H2 as [H2|H2]; [injection H2 as <- <-; split; [reflexivity|reflexivity]|]); destruct H2).
      exists (lenN g - 1), l. split; [exact (proj2 LG)|exact H2]. }
    apply F. intros a Ha. exact Ha.
  - split; [reflexivity|discriminate].
Qed.
(** and the sorted files are the expected ones, also when the records do not fit in memory at once (9 bytes) *)
Example C52_example_files : map (sorted_dir pl_envs Props_Sort.isort (ex_dir pl_U)) [1; 2; 3] = map (ex_dir pl_D) [1; 2; 3] /\
  sorted_dir (fun _ => pl_senv 9) Props_Sort.isort (ex_dir pl_U) 2 = ex_dir pl_D 2.
Proof. split; vm_compute; reflexivity. Qed.
