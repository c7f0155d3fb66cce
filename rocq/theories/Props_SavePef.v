(** * Property C30 for the structures over uniform_pef *)
From Verif Require Import Prelude BitFacts M_Word P_Word M_Bits Spec P_Bits M_CompactVector P_CompactVector M_DArray M_EF P_EF P_EF2
  M_HashVec M_Mph P_Mph P_MphTables M_FastEF P_FastEF3 M_Text P_Text P_Text2 M_SeqColl P_SeqColl M_Pool P_Pool M_Pef Spec_Pef M_Trie M_TriePef Spec_Trie Spec_TriePef
  P_Trie1 P_Trie2 P_Trie3 P_Trie4 P_Trie5 P_TriePef1 P_TriePef2 P_TriePef3 P_TriePef4 M_Save Spec_Save M_SavePef Spec_SavePef P_Typed P_Save P_SavePef1 P_SavePef2 P_SavePef3 P_SavePef4 P_SavePef5 Props_Trie Props_TriePef Props_Save.

(** a uniform_pef_sequence *)
Theorem C30_pef_restored : forall f, t_pef f -> restores save_pef load_pef f.
Proof. exact pef_ok. Qed.
Print Assumptions C30_pef_restored.

(** the tries a trie becomes by queries that return, whatever they ask *)
Inductive queried (env : penv) : ptrie -> ptrie -> Prop :=
| queried_none t : queried env t t
| queried_more t st buf r c st' t1 t2 : ptrie_lookup env t st buf r = Ok (c, st', t1) -> queried env t1 t2 -> queried env t t2.

(** Queries move the enumerators of the sequences; what would be saved stays the same. *)
Theorem C30_queries_leave_file : forall (x : ext) (header : N) env t t', queried env t t' ->
  save_file header (save_ptrie x env) t' = save_file header (save_ptrie x env) t.
Proof.
  intros x h env t t' Q. unfold save_file. f_equal. induction Q as [|t st buf r c st' t1 t2 E Q IH]; [reflexivity|]. rewrite IH. clear IH Q.
  destruct (lookup_same _ _ _ _ _ _ _ _ E) as ([L S1] & S2). assert (F : Forall2 same_parr (pt_arrays t) (pt_arrays t1)) by (apply same_Forall2; split; assumption).
  rewrite S2. unfold save_ptrie, with_arrays. cbn [pt_order pt_remap pt_counts pt_vocab pt_arrays]. do 4 f_equal.
  clear - F. generalize 0. induction F as [|a b l l' (H1 & H2 & H3 & H4) F IH]; intros k; [reflexivity|]. cbn [save_peas]. rewrite IH. f_equal.
  unfold save_pea. rewrite H1, H4. f_equal.
  assert (EG : save_gseq x (pe_pef env) (p_grams b) = save_gseq x (pe_pef env) (p_grams a)).
  { destruct (p_grams a) as [[f|f e]|], (p_grams b) as [[f'|f' e']|]; cbn [same_opt same_gseq] in H2; try contradiction; subst; reflexivity. }
  assert (ER : save_rseq (te_kind (pe_t env)) (pe_pspef env) (p_ranks b) = save_rseq (te_kind (pe_t env)) (pe_pspef env) (p_ranks a)).
  { destruct (p_ranks a) as [[f|f e]|], (p_ranks b) as [[f'|f' e']|]; cbn [same_opt same_rseq] in H3; try contradiction; subst; reflexivity. }
  rewrite EG, ER. reflexivity.
Qed.
Print Assumptions C30_queries_leave_file.

(** A file of any count trie over uniform_pef whose members hold values of their types and whose sequences can be
    read in the process that loads it: the same header, all bytes, the same members. *)
Theorem C30_pef_trie_files_restored : forall (x : ext) (header : N) env env' t, ext_ok x -> is_u8 header ->
  te_kind (pe_t env') = te_kind (pe_t env) -> pe_pef env' = pe_pef env -> pe_pspef env' = pe_pspef env -> t_ptrie env' t ->
  let f := save_file header (save_ptrie x env) t in
  file_header f = Ok header /\ exists t', load_file (load_ptrie x env') f = Ok (t', lenN f) /\ same_members t t'.
Proof.
  intros x h env env' t X H E1 E2 E3 T. destruct (any_ptrie x X env env' E1 E2 E3 t [] T) as (t' & EL & SM). rewrite app_nil_r in EL.
  unfold file_header, load_file, save_file. split; [rewrite (pod1_ok h H); reflexivity|]. exists t'. rewrite (pod1_ok h H). cbn [bind]. cbv beta iota. rewrite EL. cbn [bind]. cbv beta iota.
  change (lenN (@nil N)) with 0. rewrite N.sub_0_r. split; [reflexivity|exact SM].
Qed.
Print Assumptions C30_pef_trie_files_restored.

(** A count trie over uniform_pef, saved after any queries, is read back: the same header, all bytes, the same
    members; in the process that loads it (other words after the arrays) it answers any history of queries for
    indexed grams with their counts.  Partial: the restrictions of C42. *)
Theorem C30_built_pef_trie_restored_partial : forall (x : ext) (header : N) D remap env env' t t1, ext_ok x -> is_u8 header ->
  collection D remap -> pef_inputs_ok D remap env -> pef_inputs_ok D remap env' ->
  pe_t env' = pe_t env -> pe_pef env' = pe_pef env -> pe_pspef env' = pe_pspef env ->
  ptrie_build env (map (map line) D) (lenN D) remap = Ok t -> queried env t t1 ->
  let f := save_file header (save_ptrie x env) t1 in
  file_header f = Ok header /\
  exists t2, load_file (load_ptrie x env') f = Ok (t2, lenN f) /\ same_members t t2 /\
    forall queries counts st, statics_ok st ->
      Forall2 (fun (query : list N * byte_range) c => exists q, indexed D q c /\ holds_text (fst query) (snd query) (join q)) queries counts ->
      ask_all env' t2 st queries = Ok counts.
Proof.
  intros x h D remap env env' t t1 X H C IO IO' ET EG ER EB Q f. pose proof (pef_inputs_env _ _ _ C IO) as EO. pose proof (pef_inputs_env _ _ _ C IO') as EO'.
  unfold f. rewrite (C30_queries_leave_file x h env t t1 Q). clear f Q t1.
  destruct (ptrie_build_ok D remap C env EO) as (t0 & EB0 & TR). rewrite EB in EB0. injection EB0 as <-.
  pose proof (ptrie_build_prov D remap C env EO t EB) as PV.
  destruct (ptrie_restored x X D remap C env env' EO EO' ET EG ER t PV TR []) as (t2 & EL & SM & TR2). rewrite app_nil_r in EL.
  unfold file_header, load_file, save_file. split; [rewrite (pod1_ok h H); reflexivity|]. exists t2. rewrite (pod1_ok h H). cbn [bind]. cbv beta iota. rewrite EL. cbn [bind]. cbv beta iota.
  change (lenN (@nil N)) with 0. rewrite N.sub_0_r. split; [reflexivity|]. split; [exact SM|].
  clear EL SM. intros queries counts st SO F. revert t2 st TR2 SO. induction F as [|[buf r] c qs cs (q & (k & l & Hl & Hq) & HT) F IH]; intros t2 st TR2 (S1 & S2); [reflexivity|].
  cbn [ask_all fst snd] in *. destruct (panswer_ok D remap C env' EO' t2 k l q c st buf r TR2 Hl Hq ltac:(lia) ltac:(lia) HT) as (st' & t' & E & A1 & A2 & TR').
  rewrite E. cbn [bind]. cbv beta iota. rewrite (IH t' st' TR'); [reflexivity|]. split; congruence.
Qed.
Print Assumptions C30_built_pef_trie_restored_partial.

(** built tries are typed *)
Lemma C30_pef_typed_case : forall D remap env t, collection D remap -> pef_inputs_ok D remap env ->
  ptrie_build env (map (map line) D) (lenN D) remap = Ok t -> t_ptrie env t.
Proof.
  intros D remap env t C IO E. pose proof (pef_inputs_env _ _ _ C IO) as EO. apply (ptrie_typed D remap C env env EO EO); auto. apply ptrie_build_prov; assumption.
Qed.

(** the data set of Props_Trie: built, asked, saved, loaded where other words follow the arrays, asked again *)
Definition pex2 (remap : N) (k : rkind) (pef psp sw : bool) : penv :=
  mkpenv (ex_env remap k) pef psp (fun _ => mkpads [5] [2 ^ 40]) (fun _ => mkpads [1] [8]) (negb sw).
Example pex2_inputs : forall remap k pef psp sw, remap <= 2 -> pef_inputs_ok ex_D remap (pex2 remap k pef psp sw).
Proof.
  intros remap k pef psp sw R. destruct (pex_inputs remap k pef psp sw R) as [H1 H2 H3 H4 H5 H6 H7 H8]. split; try assumption.
  - intros P j Hj. destruct (H4 P j Hj) as (A1 & A2 & A3 & A4). split; [exact A1|]. split; [|split; assumption]. exists 5, (2 ^ 40). split; [reflexivity|]. split; reflexivity.
  - intros P j l Hl. destruct (H5 P j l Hl) as (A1 & A2). split; [exact A1|]. exists 1, 8. split; [reflexivity|]. split; reflexivity.
Qed.
Definition pex_reload (remap : N) (k : rkind) (pef psp sw : bool) (qs : list gram) : res (bool * list N) :=
  t <- ptrie_build (pex remap k pef psp sw) (map (map line) ex_D) 4 remap ;;
  ' (_, st, t1) <- ptrie_lookup (pex remap k pef psp sw) t ex_statics (join [wa; wc; wd]) (0, lenN (join [wa; wc; wd])) ;;
  let f := save_file 3 (save_ptrie ex_x (pex remap k pef psp sw)) t1 in
  ' (t2, n) <- load_file (load_ptrie ex_x (pex2 remap k pef psp sw)) f ;;
  cs <- ask_all (pex2 remap k pef psp sw) t2 ex_statics (map (fun q => (join q, (0, lenN (join q)))) qs) ;; Ok (n =? lenN f, cs).
Example C30_pef_example :
  pex_reload 0 IC true true false (concat (map (map fst) ex_D)) = Ok (true, [5; 3; 2; 10; 3; 2; 1; 4; 6; 1; 2; 2; 1]) /\
  pex_reload 1 PSEF true false true (concat (map (map fst) ex_D)) = Ok (true, [5; 3; 2; 10; 3; 2; 1; 4; 6; 1; 2; 2; 1]) /\
  pex_reload 2 IC false true true (concat (map (map fst) ex_D)) = Ok (true, [5; 3; 2; 10; 3; 2; 1; 4; 6; 1; 2; 2; 1]).
Proof. split; [vm_compute; reflexivity|]. split; vm_compute; reflexivity. Qed.
