(** * Property C55: build a model of any type, then print_stats on its file *)
From Coq Require Import String Floats.SpecFloat.
From Verif Require Import Prelude BitFacts M_Word P_Word M_Bits Spec P_Bits M_CompactVector P_CompactVector M_DArray M_EF P_EF P_EF2
  M_HashVec M_Mph P_Mph P_MphTables M_FastEF P_FastEF3 M_Text P_Text P_Text2 M_SeqColl P_SeqColl M_Pool P_Pool M_Pef Spec_Pef M_Trie M_TriePef Spec_Trie Spec_TriePef
  P_Trie1 P_Trie2 P_Trie3 P_Trie4 P_Trie5 P_TriePef1 P_TriePef2 P_TriePef3 P_TriePef4 M_Save Spec_Save M_SavePef Spec_SavePef P_Typed P_Save P_SavePef1 P_SavePef2 P_SavePef3 P_SavePef4 P_SavePef5
  M_MphCount M_Score Spec_Katz M_Quant M_MphProb Spec_Arpa P_Values P_MphProb Props_MphProb M_TrieProb P_TrieProb1 P_TrieProb2 Props_TrieProb M_Save2 Spec_Save2 P_Save2 Props_Save Props_Save2
  M_ArpaFile Spec_ArpaFile Props_ArpaFile M_GramFile Spec_GramFile M_Header M_Programs Spec_Programs P_Programs Props_Trie Props_TriePef Props_SavePef Props_MphCount Props_Programs
  Props_ScoreCorpus M_TrieProbPef P_TrieProbPef1 P_TrieProbPef2 P_TrieProbPef5 M_ProbPrograms Spec_ProbPrograms Props_ProbPrograms Props_TrieProbPef Props_ProbProgramsPef
  M_Stats Spec_Stats Spec_Report Spec_StatsProgram Props_Stats M_StatsPef P_StatsPef4 P_StatsPef5.
From Verif Require Import M_TriePef.

(** [ho]: the standard library's heap functions; [cap]: the capacity reserve(5) gave the queue of the largest ranges;
    [vo]: bytes vec_bytes counts for the length of a vector *)
Definition library_ok (ho : heap_ops) (cap vo : N) : Prop := heap_functions (ho_push ho) (ho_pop ho) /\ 0 < cap < 2 ^ 64 /\ vo <= 8.

(** ** tries of counts *)
(** build_trie, then print_stats in a process where other words follow the arrays.  Partial: the structures over
    uniform_pef under the restrictions of C42. *)
Theorem C55_tries_partial : forall x env env' qenv D remap r pef a d ho cap vo,
  ext_ok x -> library_ok ho cap vo -> collection D remap -> no_newlines D -> holds_counts d D ->
  asks a pef (lenN D) remap r ->
  pef_inputs_ok D remap (instance env (inst pef remap r)) -> pef_inputs_ok D remap (instance env' (inst pef remap r)) ->
  pe_t (instance env' (inst pef remap r)) = pe_t (instance env (inst pef remap r)) ->
  exists file rep, build_trie_count x env a d = Ok (Wrote (out_name (ta_out a) (type_name pef remap r)) file) /\
    print_stats_program x ho cap vo env' qenv file = Ok (Trie_counts rep) /\ counts_right D remap cap (lenN file) rep.
Proof.
  intros x env env' qenv D remap r pef a d ho cap vo X (HF & HK & HV) C NN HD AS IO IO' ET.
  pose proof (pef_inputs_env _ _ _ C IO) as EO. pose proof (pef_inputs_env _ _ _ C IO') as EO'.
  destruct (trie_built x env D remap r pef a d C NN HD AS IO) as (h & t & B & H2 & H3 & H4 & H5 & EB & TR & PV).
  destruct (ptrie_restored x X D remap C _ _ EO EO' ET eq_refl eq_refl t PV TR []) as (t2 & EL & SM & _). rewrite app_nil_r in EL.
  destruct (ptrie_stats_ok D remap C _ _ EO EO' ET eq_refl eq_refl x h ho cap vo t t2 HF HK HV EB TR PV SM) as (rep & ES & R1 & R2 & R3 & R4 & R5 & R6 & R7).
  exists (save_file h (save_ptrie x (instance env (inst pef remap r))) t), rep. split; [exact B|]. split; [|unfold counts_right; rewrite <- R3 at 2; auto 10].
  unfold print_stats_program. rewrite (header_of h _ _ H2). cbn [bind]. rewrite H3, H5, H4. unfold print_ptrie, load_file.
  unfold save_file at 1. rewrite (pod1_ok h H2). cbn [bind]. cbv beta iota. rewrite EL. cbn [bind]. cbv beta iota. change (lenN (@nil N)) with 0. rewrite N.sub_0_r, ES. reflexivity.
Qed.
Print Assumptions C55_tries_partial.
(** over Elias-Fano with IC or PSEF ranks: without restrictions *)
Theorem C55_tries : forall x env qenv D remap r a d ho cap vo,
  ext_ok x -> library_ok ho cap vo -> collection D remap -> no_newlines D -> holds_counts d D ->
  asks a false (lenN D) remap r -> r <> R_PSPEF -> inputs_ok D remap (pe_t (instance env (inst false remap r))) ->
  exists file rep, build_trie_count x env a d = Ok (Wrote (out_name (ta_out a) (type_name false remap r)) file) /\
    print_stats_program x ho cap vo env qenv file = Ok (Trie_counts rep) /\ counts_right D remap cap (lenN file) rep.
Proof.
  intros x env qenv D remap r a d ho cap vo X L C NN HD AS NR [H1 H2 H3 H4 H5 H6].
  assert (IO : pef_inputs_ok D remap (instance env (inst false remap r))).
  { split; try assumption.
    - intros _. exact H3.
    - cbn. discriminate.
    - destruct r; cbn; [discriminate|discriminate|congruence]. }
  apply (C55_tries_partial x env env qenv D remap r false a d ho cap vo); auto.
Qed.
Print Assumptions C55_tries.

(** ** tries of probabilities *)
Lemma prob_not_counts pef remap : remap <= 2 -> dispatch hash_count_types (prob_type_name pef remap) = None /\ dispatch trie_count_types (prob_type_name pef remap) = None.
Proof. intros R. assert (RC : remap = 0 \/ remap = 1 \/ remap = 2) by lia. destruct RC as [->|[->| ->]], pef; (split; [vm_compute; reflexivity|vm_compute; reflexivity]). Qed.
Lemma prob_tries x env env' tenv data D secs a remap p b unk pef ho cap vo :
  ext_ok x -> library_ok ho cap vo -> arpa_text data secs -> arpa_file D -> collection (reversed D) remap ->
  asks_prob a pef (lenN D) remap p b unk -> qe_t env' = qe_t env ->
  let e := prob_instance env (pinst pef remap) in let e' := prob_instance env' (pinst pef remap) in
  trie_base_ok D secs (qe_t e) remap p b -> levels_fit (revD D) remap (genv e) -> levels_fit (revD D) remap (genv e') ->
  exists file rep, build_trie_prob x env a (Some (Some data)) = Ok (Wrote (out_name (ra_out a) (prob_type_name pef remap)) file) /\
    print_stats_program x ho cap vo tenv env' file = Ok (Trie_probs rep) /\ probs_right D remap cap (lenN file) rep.
Proof.
  intros X (HF & HK & HV) AT AF CO (A1 & A2 & A3 & A4 & A5 & A6) ET e e' TI L1 L2.
  pose proof (af_order _ AF) as HO. pose proof (col_remap _ _ (CR D remap CO)) as HR.
  assert (TE : qe_t e' = qe_t e) by (unfold e, e', prob_instance; cbn [qe_t]; rewrite ET; reflexivity).
  destruct (qp_build_ok D secs e remap p b AF CO TI) with (data := data) (unk := unk) as (m & EB & QR); [|exact AT|].
  { intros k Hk. apply L1. rewrite lenN_revD. exact Hk. }
  pose proof (qp_build_made D secs e remap p b AF CO TI L1 data unk m AT (proj1 A6) EB) as MD.
  destruct (qpl_restored x X D remap p b CO e e' L1 L2 TE eq_refl unk m HO HR MD QR []) as (m' & EL & SM & _). rewrite app_nil_r in EL.
  pose proof (vi_pq _ _ _ _ _ (VIN _ _ _ _ _ _ TI)) as [P1 _]. pose proof (vi_bq _ _ _ _ _ (VIN _ _ _ _ _ _ TI)) as [P2 _].
  destruct (unk_arg_is _ _ A6) as [U1 U2]. destruct (prob_header pef remap HR) as (h & H1 & H2 & H3 & H4). destruct (prob_not_counts pef remap HR) as [H5 H6].
  destruct (qpl_stats_ok D secs e e' remap p b AF CO TI L1 L2 eq_refl x h ho cap vo data unk m m' HF HK HV AT EB QR MD SM) as (rep & ES & R1 & R2 & R3 & R4 & R6 & R7).
  exists (save_file h (save_qpl x e) m), rep. split; [|split; [|unfold probs_right; rewrite <- R3 at 2; auto 10]].
  - unfold build_trie_prob, accepted_order, check_order. rewrite A1, A2, (u8_small (lenN D)) by lia.
    destruct (N.ltb_spec (lenN D) 2); [lia|]. destruct (N.ltb_spec 8 (lenN D)); [lia|]. cbn [bind].
    assert (DS : (if String.eqb (structure_name pef) "ef_trie" then Some 1 else if String.eqb (structure_name pef) "pef_trie" then Some 2 else None) = Some (if pef then 2 else 1)) by (destruct pef; reflexivity).
    rewrite DS, U1. cbn [bind].
    assert (RM : match ra_remap a with Some r => _ <- check_remapping_order r ;; Ok r | None => Ok 0 end = Ok remap).
    { destruct A3 as [->|(-> & ->)]; [|reflexivity]. unfold check_remapping_order. rewrite (u8_small remap) by lia. destruct (N.ltb_spec 2 remap); [lia|reflexivity]. }
    rewrite RM. cbn [bind]. rewrite H1. cbn [bind]. rewrite H3, H4. cbn [open_arpa bind]. fold e.
    rewrite U2, (bits_arg_is _ _ A4), (bits_arg_is _ _ A5), (u8_small remap) by lia. rewrite EB. cbn [bind]. reflexivity.
  - unfold print_stats_program. rewrite (header_of h _ _ H2). cbn [bind]. rewrite H3, H5, H6, H4. fold e'. unfold print_qpl, load_file.
    unfold save_file at 1. rewrite (pod1_ok h H2). cbn [bind]. cbv beta iota. rewrite EL. cbn [bind]. cbv beta iota. change (lenN (@nil N)) with 0. rewrite N.sub_0_r, ES. reflexivity.
Qed.
(** over Elias-Fano *)
Theorem C55_trie_probs : forall x env tenv data D secs a remap p b unk ho cap vo,
  ext_ok x -> library_ok ho cap vo -> arpa_text data secs -> arpa_file D -> collection (reversed D) remap ->
  asks_prob a false (lenN D) remap p b unk -> trie_inputs_ok D secs (qe_t (prob_instance env (pinst false remap))) remap p b ->
  exists file rep, build_trie_prob x env a (Some (Some data)) = Ok (Wrote (out_name (ra_out a) (prob_type_name false remap)) file) /\
    print_stats_program x ho cap vo tenv env file = Ok (Trie_probs rep) /\ probs_right D remap cap (lenN file) rep.
Proof.
  intros x env tenv data D secs a remap p b unk ho cap vo X L AT AF CO AS TI.
  assert (LV : levels_fit (revD D) remap (genv (prob_instance env (pinst false remap)))).
  { intros k Hk. rewrite lenN_revD in Hk. pose proof (ti_levels _ _ _ _ _ _ TI k Hk) as TL. cbv zeta in TL. rewrite <- !P_TrieProb1.grams_reversed in TL. exact TL. }
  apply (prob_tries x env env tenv data D secs a remap p b unk false ho cap vo); auto. apply base_of. exact TI.
Qed.
Print Assumptions C55_trie_probs.
(** over uniform_pef.  Partial: the restrictions of C47. *)
Theorem C55_pef_trie_probs_partial : forall x env env' tenv data D secs a remap p b unk ho cap vo,
  ext_ok x -> library_ok ho cap vo -> arpa_text data secs -> arpa_file D -> collection (reversed D) remap ->
  asks_prob a true (lenN D) remap p b unk -> qe_t env' = qe_t env ->
  trie_pef_inputs_ok D secs (prob_instance env (pinst true remap)) remap p b -> trie_pef_inputs_ok D secs (prob_instance env' (pinst true remap)) remap p b ->
  exists file rep, build_trie_prob x env a (Some (Some data)) = Ok (Wrote (out_name (ra_out a) (prob_type_name true remap)) file) /\
    print_stats_program x ho cap vo tenv env' file = Ok (Trie_probs rep) /\ probs_right D remap cap (lenN file) rep.
Proof.
  intros x env env' tenv data D secs a remap p b unk ho cap vo X L AT AF CO AS ET I1 I2.
  apply (prob_tries x env env' tenv data D secs a remap p b unk true ho cap vo); auto.
  - exact (qi_base _ _ _ _ _ _ I1).
  - apply (levels_of D secs _ remap p b); auto.
  - apply (levels_of D secs _ remap p b); auto.
Qed.
Print Assumptions C55_pef_trie_probs_partial.

(** ** hash models *)
Lemma hash_prob_not_counts kb : kb = 4 \/ kb = 8 -> dispatch hash_count_types (hash_prob_name kb) = None /\ dispatch trie_count_types (hash_prob_name kb) = None.
Proof. intros [->| ->]; (split; vm_compute; reflexivity). Qed.
Theorem C55_hash_counts : forall x tenv qenv env D a d ho cap vo,
  ext_ok x -> gram_files D -> no_newlines D -> holds_counts d D ->
  ha_order a = lenN D -> ha_bytes a = 4 \/ ha_bytes a = 8 -> ha_unk a = None -> mph_inputs_ok D (hash_instance env (8 * ha_bytes a)) ->
  let ty := (if (ha_bytes a =? 4)%N then "mph32_count_lm" else "mph64_count_lm")%string in
  exists file, build_hash_count x env a d = Ok (Wrote (out_name (ha_out a) ty) file) /\
    (lenN file < 2 ^ 64 -> exists rep, print_stats_program x ho cap vo tenv qenv file = Ok (Hash_counts rep) /\ hash_counts_right D (ha_bytes a) (lenN file) rep).
Proof.
  intros x tenv qenv env D a d ho cap vo X GF NN HD A1 A2 A3 MI ty.
  destruct (hash_built x env D a d X GF NN HD A1 A2 A3 MI) as (h & m & B & H2 & H3 & H4 & EB & FH & LD & _).
  exists (save_file h (save_mcl x (8 * ha_bytes a)) m). split; [exact B|]. intros LB.
  destruct (C49_hash_count x h D _ m X H2 GF MI EB LB) as (rep & ES & R1 & R2 & R3 & R4 & R5 & R6 & R7). exists rep. split.
  - unfold print_stats_program. rewrite FH. cbn [bind]. rewrite H4. change (me_hb (hash_instance env (8 * ha_bytes a))) with (8 * ha_bytes a) in ES. rewrite ES. reflexivity.
  - assert (EK : me_hb (hash_instance env (8 * ha_bytes a)) / 8 = ha_bytes a). { cbn [hash_instance me_hb]. rewrite N.mul_comm. apply N.div_mul. discriminate. }
    rewrite EK in R5. unfold hash_counts_right. rewrite <- R3 at 2. change (me_hb (hash_instance env (8 * ha_bytes a))) with (8 * ha_bytes a) in R3. auto 10.
Qed.
Print Assumptions C55_hash_counts.
Theorem C55_hash_probs : forall x tenv qenv env data D secs a bytes p b unk ho cap vo,
  ext_ok x -> arpa_text data secs -> arpa_file D -> bytes = 4 \/ bytes = 8 ->
  asks_hash_prob a bytes (lenN D) p b unk -> prob_inputs_ok D secs (hash_prob_instance env (8 * bytes)) p b ->
  Forall (Forall (fun l => is_float (fst (pe_sd env (c_str l) 0)))) secs ->
  exists file, build_hash_prob x env a (Some (Some data)) = Ok (Wrote (out_name (ra_out a) (hash_prob_name bytes)) file) /\
    (lenN file < 2 ^ 64 -> exists rep, print_stats_program x ho cap vo tenv qenv file = Ok (Hash_probs rep) /\ hash_probs_right D bytes (lenN file) rep).
Proof.
  intros x tenv qenv env data D secs a bytes p b unk ho cap vo X AT AF HB AS PI SD.
  destruct (C41_mph_partial data D secs (hash_prob_instance env (8 * bytes)) p b unk AT AF PI) as (m & _ & _ & EB & _).
  set (e := hash_prob_instance env (8 * bytes)) in *. destruct AS as (A1 & A2 & A4 & A5 & A6). pose proof (af_order _ AF) as HO.
  pose proof (pi_pq _ _ _ _ _ PI) as [P1 _]. pose proof (pi_bq _ _ _ _ _ PI) as [P2 _].
  destruct (unk_arg_is _ _ A6) as [U1 U2]. destruct (hash_prob_header bytes HB) as (h & H1 & H2 & H3 & H4 & H5). destruct (hash_prob_not_counts bytes HB) as [H6 H7].
  exists (save_file h (save_mpl x (8 * bytes)) m). split.
  - unfold build_hash_prob, accepted_order, check_order. rewrite A1, A2, (u8_small (lenN D)) by lia.
    destruct (N.ltb_spec (lenN D) 2); [lia|]. destruct (N.ltb_spec 8 (lenN D)); [lia|]. cbn [bind].
    replace (negb (bytes =? 4) && negb (bytes =? 8)) with false by (destruct HB as [->| ->]; reflexivity). rewrite U1. cbn [bind]. rewrite H1. cbn [bind]. rewrite H3, H5. cbn [open_arpa bind]. fold e.
    rewrite U2, (bits_arg_is _ _ A4), (bits_arg_is _ _ A5) by lia. rewrite EB. cbn [bind]. reflexivity.
  - intros LB. pose proof EB as EB2. rewrite (C40_mph_from_file data secs) in EB2 by exact AT.
    destruct (C49_hash_prob x h D secs e p b unk m X H2 AF PI SD (proj1 A6) EB2 LB) as (rep & ES & R1 & R2 & R3 & R5 & R6 & R7). exists rep. split.
    + unfold print_stats_program. rewrite (header_of h _ _ H2). cbn [bind]. rewrite H3, H6, H7, H4, H5. change (pe_hb e) with (8 * bytes) in ES. rewrite ES. reflexivity.
    + assert (EK : pe_hb e / 8 = bytes). { change (pe_hb e) with (8 * bytes). rewrite N.mul_comm. apply N.div_mul. discriminate. }
      rewrite EK in R5. change (pe_hb e) with (8 * bytes) in R3, R7. unfold hash_probs_right. rewrite <- R3 at 2. auto 10.
Qed.
Print Assumptions C55_hash_probs.

(** ** instances *)
Notation env1 := (pex 0 IC false false false).
Notation env2 := (pex2 0 IC false false false).
Example ex_library : library_ok ex_ho 2 8.
Proof. split; [apply ex_ho_ok|]. split; [split; reflexivity|discriminate]. Qed.
(** every structure, remapping order and ranks, printed in a process with other words after the arrays *)
Example C55_example_tries : forall pef remap r, remap <= 2 ->
  exists file rep, build_trie_count ex_x env1 (ex_args pef 4 remap r) (ex_dir ex_D) = Ok (Wrote (type_name pef remap r ++ ".out") file) /\
    print_stats_program ex_x ex_ho 2 8 env2 (pxq 0) file = Ok (Trie_counts rep) /\ counts_right ex_D remap 2 (lenN file) rep.
Proof.
  intros pef remap r R.
  assert (I2 : pef_inputs_ok ex_D remap (instance env2 (inst pef remap r))).
  { replace (instance env2 (inst pef remap r)) with (pex2 remap (match r with R_PSEF => PSEF | _ => IC end) pef (match r with R_PSPEF => true | _ => false end) false) by reflexivity. apply pex2_inputs. exact R. }
  exact (C55_tries_partial ex_x env1 env2 (pxq 0) ex_D remap r pef (ex_args pef 4 remap r) (ex_dir ex_D) ex_ho 2 8
    ex_x_ok ex_library (ex_collection remap R) ex_no_newlines (ex_dir_ok ex_D) (ex_asks pef 4 remap r) (instance_pex pef remap r false R) I2 eq_refl).
Qed.
Definition ex_print (pef : bool) (remap : N) (r : ranks_t) : res (N * N * list N * bool * list N * list (option N) * list (option ptr_report)) :=
  w <- build_trie_count ex_x env1 (ex_args pef 4 remap r) (ex_dir ex_D) ;;
  match w with
  | Wrote _ f => rep <- print_stats_program ex_x ex_ho 2 8 env2 (pxq 0) f ;;
    match rep with
    | Trie_counts t => Ok (tr_order t, tr_grams t, tr_unique t, tr_bytes t =? lenN f, map lr_size (tr_levels t), map lr_universe (tr_levels t), map lr_ptrs (tr_levels t))
    | _ => Throw end
  | _ => Throw end.
Example C55_run_tries : ex_print true 0 R_PSPEF = ex_print false 0 R_IC /\ ex_print true 1 R_IC = ex_print false 1 R_PSEF /\
  ex_print true 0 R_PSPEF = Ok (4, 13, [4; 5; 2; 1], true, [4; 5; 3; 1], [None; Some 5; Some 5; Some 1],
    [Some (mkptrr 5 3 1 2 5 [2; 2]); Some (mkptrr 6 2 1 2 3 [2; 1]); Some (mkptrr 4 1 1 1 1 [1]); None]).
Proof. split; [vm_compute; reflexivity|]. split; vm_compute; reflexivity. Qed.
Example C55_example_probs : forall pef remap, remap = 0 \/ remap = 1 ->
  exists file rep, build_trie_prob ex_x (pxq 0) (px_args pef remap) (Some (Some txfile)) = Ok (Wrote (prob_type_name pef remap ++ ".out") file) /\
    print_stats_program ex_x ex_ho 2 8 env2 (pxq 0) file = Ok (Trie_probs rep) /\ probs_right txD remap 2 (lenN file) rep.
Proof.
  intros pef remap HR. assert (R1 : remap <= 1) by (destruct HR; lia). destruct (C48_trie_example_hyps remap R1) as (_ & H2 & H3 & H4 & H5 & H6 & H7). destruct pef.
  - destruct (C48_pef_example_hyps remap 0 HR eq_refl) as (_ & _ & _ & _ & J5 & J6 & _).
    exact (C55_pef_trie_probs_partial ex_x (pxq 0) (pxq 0) env2 txfile txD txsecs (px_args true remap) remap 2 2 default_unk ex_ho 2 8 ex_x_ok ex_library H2 H3 H4 J5 eq_refl J6 J6).
  - exact (C55_trie_probs ex_x (pxq 0) env2 txfile txD txsecs (px_args false remap) remap 2 2 default_unk ex_ho 2 8 ex_x_ok ex_library H2 H3 H4 H5 H6).
Qed.
Example C55_run_probs : forall pef remap, remap = 0 \/ remap = 1 ->
  match build_trie_prob ex_x (pxq 0) (px_args pef remap) (Some (Some txfile)) with
  | Ok (Wrote _ f) => match print_stats_program ex_x ex_ho 2 8 env2 (pxq 77) f with
    | Ok (Trie_probs t) => M_Stats.qr_order t = 3 /\ qr_grams t = 11 /\ qr_bytes t = lenN f /\ map lr_size (qr_levels t) = [3; 4; 4]
    | _ => False end
  | _ => False end.
Proof. intros [|] remap [->| ->]; vm_compute; repeat match goal with |- _ /\ _ => split; [reflexivity|] end; reflexivity. Qed.
Example C55_run_hash : forall b, b = 4 \/ b = 8 ->
  match build_hash_count ex_x (exm_env 0) (mkhargs 2 b None (Some "model"%string)) (ex_dir exm_D), build_hash_prob ex_x (exenv 0) (px_hargs b) (Some (Some (exfile 3))) with
  | Ok (Wrote _ f), Ok (Wrote _ g) => match print_stats_program ex_x ex_ho 2 8 env2 (pxq 77) f, print_stats_program ex_x ex_ho 2 8 env2 (pxq 77) g with
    | Ok (Hash_counts r), Ok (Hash_probs s) => mr_order r = 2 /\ mr_grams r = 6 /\ mr_unique r = [3; 2] /\ mr_keys r = 6 * b /\ mr_order s = 3 /\ mr_grams s = 11 /\ mr_keys s = 11 * b
    | _, _ => False end
  | _, _ => False end.
Proof. intros b [->| ->]; vm_compute; repeat match goal with |- _ /\ _ => split; [reflexivity|] end; reflexivity. Qed.
