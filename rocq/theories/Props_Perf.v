(** * Property C50: the lookup benchmark; C42 for the structures over uniform_pef *)
From Coq Require Import String Floats.SpecFloat.
From Verif Require Import Prelude BitFacts M_Word P_Word M_Bits Spec P_Bits M_Text P_Text P_Text2 M_Pool P_Pool M_Pef Spec_Pef M_Trie M_TriePef Spec_Trie Spec_TriePef
  P_Trie1 P_Trie2 P_Trie3 P_Trie4 P_Trie5 P_TriePef1 P_TriePef2 P_TriePef3 P_TriePef4 M_Save Spec_Save M_SavePef Spec_SavePef P_Typed P_Save P_SavePef1 P_SavePef2 P_SavePef3 P_SavePef4 P_SavePef5
  M_MphCount M_ArpaFile M_GramFile Spec_GramFile M_Header M_Stats P_Stats9 M_Programs Spec_Programs P_Programs Props_Trie Props_TriePef Props_Save Props_MphCount Props_Programs M_Perf Spec_Perf P_Perf.

Lemma reserve_ok runs : 0 < runs <= 2 ^ 60 -> reserve_times runs = Ok tt.
Proof. intros H. unfold reserve_times. rewrite sub64_small by lia. destruct (N.ltb_spec (2 ^ 60 - 1) (runs - 1)); [lia|reflexivity]. Qed.

(** The file build_trie writes, and a query file whose lines hold indexed grams, each alone or followed by a tab and
    anything (such as the count files): the program prints the number of bytes of the file and of n-grams of all orders,
    and every run looks up every line and gets its count.  In the measuring process other words may follow the arrays.
    Partial: structures over uniform_pef under the restrictions of C42. *)
Theorem C42_benchmark_partial : forall x env env' henv D remap r pef a d st lines gs counts runs,
  ext_ok x -> collection D remap -> no_newlines D -> holds_counts d D -> statics_ok st ->
  asks a pef (lenN D) remap r ->
  pef_inputs_ok D remap (instance env (inst pef remap r)) -> pef_inputs_ok D remap (instance env' (inst pef remap r)) ->
  pe_t (instance env' (inst pef remap r)) = pe_t (instance env (inst pef remap r)) ->
  Forall2 query_line lines gs -> Forall2 (indexed D) gs counts -> 0 < runs <= 2 ^ 60 ->
  exists name file, build_trie_count x env a d = Ok (Wrote name file) /\
    lookup_perf_test x env' henv st file lines runs = Ok (Measured (lenN file) (lenN (concat D)) (repeat counts (N.to_nat runs))).
Proof.
  intros x env env' henv D remap r pef a d st lines gs counts runs X C NN HD SO AS IO IO' ET QL IG HR.
  pose proof (pef_inputs_env _ _ _ C IO) as EO. pose proof (pef_inputs_env _ _ _ C IO') as EO'.
  destruct (trie_built x env D remap r pef a d C NN HD AS IO) as (h & t & BF & H2 & H3 & H4 & H5 & EB & TR & PV).
  eexists. exists (save_file h (save_ptrie x (instance env (inst pef remap r))) t). split; [exact BF|].
  unfold lookup_perf_test. destruct (N.eqb_spec runs 0); [lia|].
  assert (FH : file_header (save_file h (save_ptrie x (instance env (inst pef remap r))) t) = Ok h) by (unfold file_header, save_file; rewrite (pod1_ok h H2); reflexivity).
  rewrite FH. cbn [bind]. rewrite H3, H5, H4.
  assert (NT : Forall (fun g => ~ In 9 (join g)) gs).
  { clear - IG C. induction IG as [|g c gs cs (k & l & Hl & Hg) F IH]; constructor; [|exact IH]. intros I. apply join_bytes in I. destruct I as [I|(w & W1 & W2)]; [discriminate|].
    assert (GI : In g (grams D k)) by (unfold grams; rewrite Hl; apply (in_map fst) in Hg; exact Hg). destruct (col_words _ _ C k g GI) as [_ FW]. rewrite Forall_forall in FW. destruct (FW w W1) as (_ & NT & _). exact (NT W2). }
  rewrite (perf_load_ok lines gs QL NT). cbn [bind]. cbv beta iota.
  destruct (ptrie_restored x X D remap C _ _ EO EO' ET eq_refl eq_refl t PV TR []) as (t2 & EL & SM & TR2). rewrite app_nil_r in EL.
  unfold load_file, save_file. rewrite (pod1_ok h H2). cbn [bind]. cbv beta iota. rewrite EL. cbn [bind]. cbv beta iota. rewrite (reserve_ok runs HR). cbn [bind].
  rewrite (perf_runs_ok _ (fun s : statics * ptrie => statics_ok (fst s) /\ ptrie_rep D remap (instance env' (inst pef remap r)) (snd s)) D) with (cs := counts); [|intros g c buf rg [st1 t1] (k & l & Hl & He) HT ([S1 S2] & TR1)|exact IG|split; [exact SO|exact TR2]].
  - cbn [bind]. change (lenN (@nil N)) with 0. rewrite N.sub_0_r. rewrite (parrays_size_ok D); [reflexivity| | |].
    + apply (col_order _ _ C).
    + intros k l Hl. apply (col_size _ _ C k l Hl).
    + destruct SM as (_ & _ & _ & _ & SA). rewrite (same_sizes _ _ SA). eapply ptrie_build_sizes; [reflexivity|exact EB].
  - cbn [fst snd] in *. destruct (panswer_ok D remap C _ EO' t1 k l g c st1 buf rg TR1 Hl He ltac:(lia) ltac:(lia) HT) as (st' & t' & E & Q1 & Q2 & TR').
    exists (st', t'). rewrite E. cbn [bind]. split; [reflexivity|]. split; [split; cbn [fst snd]; congruence|exact TR'].
Qed.
Print Assumptions C42_benchmark_partial.

(** ** C50: tries over fast_ef with IC or PSEF ranks, every remapping order *)
Theorem C50_tries : forall x env henv D remap r a d st lines gs counts runs,
  ext_ok x -> collection D remap -> no_newlines D -> holds_counts d D -> statics_ok st ->
  asks a false (lenN D) remap r -> r <> R_PSPEF -> inputs_ok D remap (pe_t (instance env (inst false remap r))) ->
  Forall2 query_line lines gs -> Forall2 (indexed D) gs counts -> 0 < runs <= 2 ^ 60 ->
  exists name file, build_trie_count x env a d = Ok (Wrote name file) /\
    lookup_perf_test x env henv st file lines runs = Ok (Measured (lenN file) (lenN (concat D)) (repeat counts (N.to_nat runs))).
Proof.
  intros x env henv D remap r a d st lines gs counts runs X C NN HD SO AS NR [H1 H2 H3 H4 H5 H6] QL IG HR.
  assert (IO : pef_inputs_ok D remap (instance env (inst false remap r))).
  { split; try assumption.
    - intros _. exact H3.
    - cbn. discriminate.
    - destruct r; cbn; [discriminate|discriminate|congruence]. }
  apply (C42_benchmark_partial x env env henv D remap r false a d st lines gs counts runs); auto.
Qed.
Print Assumptions C50_tries.

(** the hash models *)
Theorem C50_hash : forall x tenv env D a d st lines gs counts runs,
  ext_ok x -> gram_files D -> no_newlines D -> holds_counts d D ->
  ha_order a = lenN D -> ha_bytes a = 4 \/ ha_bytes a = 8 -> ha_unk a = None -> mph_inputs_ok D (hash_instance env (8 * ha_bytes a)) ->
  Forall2 query_line lines gs -> Forall2 (indexed D) gs counts -> 0 < runs <= 2 ^ 60 ->
  exists name file, build_hash_count x env a d = Ok (Wrote name file) /\
    lookup_perf_test x tenv env st file lines runs = Ok (Measured (lenN file) (lenN (concat D)) (repeat counts (N.to_nat runs))).
Proof.
  intros x tv env D a d st lines gs counts runs X GF NN HD A1 A2 A3 MI QL IG HR.
  destruct (hash_built x env D a d X GF NN HD A1 A2 A3 MI) as (h & m & BF & H2 & H3 & H4 & EB & FH & LD & LK).
  eexists. exists (save_file h (save_mcl x (8 * ha_bytes a)) m). split; [exact BF|].
  unfold lookup_perf_test. destruct (N.eqb_spec runs 0); [lia|]. rewrite FH. cbn [bind]. rewrite H4.
  assert (NT : Forall (fun g => ~ In 9 (join g)) gs).
  { clear - IG GF. induction IG as [|g c gs cs (k & l & Hl & Hg) F IH]; constructor; [|exact IH]. intros I. apply join_bytes in I. destruct I as [I|(w & W1 & W2)]; [discriminate|].
    destruct (gf_words _ GF k l g c Hl Hg) as (_ & FW & _). rewrite Forall_forall in FW. destruct (FW w W1) as [_ NT]. exact (NT W2). }
  rewrite (perf_load_ok lines gs QL NT). cbn [bind]. cbv beta iota. rewrite LD. cbn [bind]. cbv beta iota. rewrite (reserve_ok runs HR). cbn [bind].
  rewrite (perf_runs_ok _ (fun _ : unit => True) D) with (cs := counts); [|intros g c buf rg [] (k & l & Hl & He) HT _; exists tt; rewrite (LK k l g c Hl He _ _ HT); split; [reflexivity|exact I]|exact IG|exact I].
  cbn [bind]. destruct (mcl_facts D _ GF MI m EB) as (_ & _ & FT). rewrite (tables_total D); [reflexivity|pose proof (gf_order _ GF); lia| |exact FT].
  intros l Hl. apply In_nthN in Hl. destruct Hl as (k & Hk). apply (gf_size _ GF k l Hk).
Qed.
Print Assumptions C50_hash.

(** no runs: an error, nothing is read; a file of a probability model: not supported *)
Theorem C50_refused : forall x tenv henv st file lines,
  lookup_perf_test x tenv henv st file lines 0 = Ok Exit1 /\
  forall h body runs, file = h :: body -> h < 2 ^ 8 -> N.testbit h 2 = true -> runs <> 0 -> lookup_perf_test x tenv henv st file lines runs = Ok (No_lookup (bh_parse h)).
Proof.
  intros x tv hv st file lines. split; [reflexivity|]. intros h body runs -> H T HR. unfold lookup_perf_test. destruct (N.eqb_spec runs 0); [contradiction|].
  assert (E : file_header (h :: body) = Ok h).
  { unfold file_header. change (h :: body) with ([h] ++ body). replace ([h] ++ body) with (save_pod 1 h ++ body); [rewrite (pod1_ok h H); reflexivity|]. cbn. rewrite N.mod_small by exact H. reflexivity. }
  rewrite E. cbn [bind].
  assert (DD : dispatch hash_count_types (bh_parse h) = None /\ dispatch trie_count_types (bh_parse h) = None).
  { assert (F : forallb (fun h => negb (N.testbit h 2) || match dispatch hash_count_types (bh_parse h), dispatch trie_count_types (bh_parse h) with None, None => true | _, _ => false end) (range 256) = true) by (vm_compute; reflexivity).
    rewrite forallb_forall in F. specialize (F h). assert (I : In h (range 256)) by (unfold range; apply In_seqN; change (2 ^ 8) with 256 in H; cbn; lia). specialize (F I). rewrite T in F. cbn [negb orb] in F.
    destruct (dispatch hash_count_types (bh_parse h)), (dispatch trie_count_types (bh_parse h)); try discriminate F. auto. }
  destruct DD as [-> ->]. reflexivity.
Qed.
Print Assumptions C50_refused.

(** ** concrete cases *)
(** the data set of Props_Trie, asked with its count files (the second line without its count), for every structure, remapping order and ranks *)
Definition perf_lines : list (list N) := map line (concat ex_D).
Definition perf_short (l : list (list N)) : list (list N) := match l with a :: _ :: l => a :: join (fst (nth 1 (concat ex_D) ([], 0))) :: l | _ => l end.
Example C50_ex_queries : Forall2 query_line (perf_short perf_lines) (map fst (concat ex_D)) /\ Forall2 (indexed ex_D) (map fst (concat ex_D)) (map snd (concat ex_D)) /\ lenN perf_lines = 13.
Proof.
  split; [|split; [|vm_compute; reflexivity]].
  - unfold perf_short, perf_lines. assert (F : forall l : list (gram * N), Forall2 query_line (map line l) (map fst l)).
    { induction l as [|[g c] l IH]; constructor; [|exact IH]. right. eexists. reflexivity. }
    specialize (F (concat ex_D)). remember (concat ex_D) as L eqn:EL. assert (E0 : exists a b l, L = a :: b :: l) by (rewrite EL; eexists; eexists; eexists; reflexivity). destruct E0 as (a & b & l & ->).
    cbn [map nth] in *. inversion F as [|? ? ? ? Q1 F1]; subst. inversion F1 as [|? ? ? ? Q2 F2]; subst. constructor; [exact Q1|]. constructor; [left; reflexivity|exact F2].
  - assert (F : forall l, incl l (concat ex_D) -> Forall2 (indexed ex_D) (map fst l) (map snd l)).
    { induction l as [|[g c] l IH]; intros I; constructor; [|apply IH; intros y Hy; apply I; right; exact Hy].
      assert (HI : In (g, c) (concat ex_D)) by (apply I; left; reflexivity). apply in_concat in HI. destruct HI as (l0 & H1 & H2). apply In_nthN in H1. destruct H1 as (k & Hk). exists k, l0. split; [exact Hk|exact H2]. }
    apply F. apply incl_refl.
Qed.
Example C50_ex_runs : forall pef remap r, remap <= 2 -> exists name file, build_trie_count ex_x (pex 0 IC false false false) (ex_args pef 4 remap r) (ex_dir ex_D) = Ok (Wrote name file) /\
  lookup_perf_test ex_x (pex 0 IC false false false) (exm_env 32) ex_statics file (perf_short perf_lines) 3 = Ok (Measured (lenN file) 13 (repeat (map snd (concat ex_D)) 3)).
Proof.
  intros pef remap r R. destruct C50_ex_queries as (Q1 & Q2 & _).
  exact (C42_benchmark_partial ex_x (pex 0 IC false false false) (pex 0 IC false false false) (exm_env 32) ex_D remap r pef (ex_args pef 4 remap r) (ex_dir ex_D) ex_statics _ _ _ 3
    ex_x_ok (ex_collection remap R) ex_no_newlines (ex_dir_ok ex_D) ltac:(split; reflexivity) (ex_asks pef 4 remap r) (instance_pex pef remap r false R) (instance_pex pef remap r false R) eq_refl Q1 Q2 ltac:(split; [reflexivity|discriminate])).
Qed.
(** a hash model, asked for one gram twice *)
Example C50_ex_hash : forall b, b = 4 \/ b = 8 -> exists name file, build_hash_count ex_x (exm_env 0) (mkhargs 2 b None None) (ex_dir exm_D) = Ok (Wrote name file) /\
  lookup_perf_test ex_x (pex 0 IC false false false) (exm_env 0) ex_statics file [[98; 32; 99]; [97]; [98; 32; 99; 9; 50]] 2 = Ok (Measured (lenN file) 6 [[2; 5; 2]; [2; 5; 2]]).
Proof.
  intros b B. destruct (C24_example_hyps (8 * b)) as [G M]; [lia|].
  refine (C50_hash ex_x (pex 0 IC false false false) (exm_env 0) exm_D (mkhargs 2 b None None) (ex_dir exm_D) ex_statics _ [[[98]; [99]]; [[97]]; [[98]; [99]]] _ 2
    ex_x_ok G exm_no_newlines (ex_dir_ok exm_D) eq_refl B eq_refl M _ _ ltac:(split; [reflexivity|discriminate])).
  - constructor; [left; reflexivity|]. constructor; [left; reflexivity|]. constructor; [right; exists [50]; reflexivity|constructor].
  - constructor; [exists 1; eexists; split; [reflexivity|right; left; reflexivity]|]. constructor; [exists 0; eexists; split; [reflexivity|left; reflexivity]|]. constructor; [exists 1; eexists; split; [reflexivity|right; left; reflexivity]|constructor].
Qed.
(** With a hash model a query file may hold nothing but indexed grams: a blank line, or a gram that is not indexed, can
    make the program read out of bounds (C24).  A trie answers both. *)
Theorem C50_hash_blank_line_refuted : forall b, b = 4 \/ b = 8 -> exists name file, build_hash_count ex_x (exm_env 0) (mkhargs 2 b None None) (ex_dir exm_D) = Ok (Wrote name file) /\
  lookup_perf_test ex_x (pex 0 IC false false false) (exm_env 0) ex_statics file [[97]; []] 1 = UB.
Proof.
  intros b [->| ->]; (eexists; eexists; split; [vm_compute; reflexivity|vm_compute; reflexivity]).
Qed.
Print Assumptions C50_hash_blank_line_refuted.
