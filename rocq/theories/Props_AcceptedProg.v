(** * Property C58, the programs: what build_trie wrote passes the check of test_count_model *)
From Coq Require Import String.
From Verif Require Import Prelude BitFacts M_Word M_Bits Spec M_HashVec M_Mph M_Text P_Text P_Text2 P_Typed M_Pool M_Trie Spec_Trie P_Trie1 P_Trie2 P_Trie3 P_Trie4 P_Trie5 Props_Trie M_TriePef P_TrieBridge Props_TriePef
  M_Header M_Save Spec_Save Props_Save M_GramFile Spec_GramFile M_Programs Spec_Programs P_Programs Props_Programs Spec_Complete P_Complete Props_Complete P_Accept3 Props_Accepted.

(** The lines can come in any order and prefixes can be missing. If build_trie writes an index then every n-gram
    of the directory is found in it with its count: the checking program reports no error. *)
Theorem C58_program : forall x env henv D r a d st out bytes,
  ext_ok x -> gram_files D -> no_newlines D -> holds_counts d D -> statics_ok st ->
  asks a false (lenN D) 0 r -> r <> R_PSPEF -> inputs_ok D 0 (pe_t (instance env (inst false 0 r))) ->
  build_trie_count x env a d = Ok (Wrote out bytes) ->
  collection D 0 /\ test_count_model x env henv st bytes d = Ok (Checked []).
Proof.
  intros x env henv D r a d st out bytes X GF NN HD SO AS NR IO E.
  assert (C : collection D 0).
  { pose proof IO as [H1 H2 H3 H4 H5 H6]. pose proof (gf_order _ GF) as CO. destruct AS as (A1 & A2 & A3 & A4 & A5).
    assert (SZ : forall k l, nthN D k = Some l -> l <> [] /\ lenN l < 2 ^ 64). { intros k l Hl. destruct (gf_size _ GF _ _ Hl) as [S1 S2]. split; [exact S1|]. clear - S2. lia. }
    assert (CT : forall k l e, nthN D k = Some l -> In e l -> snd e < 2 ^ 64 - 1). { intros k l e Hl He. pose proof (Forall_nthN _ _ _ _ H6 Hl) as F. cbn in F. rewrite Forall_forall in F. apply F. exact He. }
    assert (PL : forall k l e, nthN D k = Some l -> In e l -> parse_count_line (line e) = Ok ((0, lenN (join (fst e))), snd e)).
    { intros k l e Hl He. pose proof (CT k l e Hl He) as CE. apply parse_format; [|clear - CE; lia].
      destruct (gf_words _ GF k (fst e)) as (_ & W); [rewrite (grams_some _ _ _ Hl); apply in_map; exact He|]. apply join_no_tab. eapply Forall_impl; [|exact W]. cbn. tauto. }
    unfold build_trie_count in E. apply bind_inv in E. destruct E as (order & EO & E).
    assert (O : order = lenN D).
    { unfold accepted_order in EO. apply bind_inv in EO. destruct EO as (u & _ & EO). injection EO as <-. rewrite A2. unfold u8. change 255 with (N.ones 8). rewrite N.land_ones. apply N.mod_small. change (2 ^ 8) with 256. clear - CO. lia. }
    subst order. cbv zeta in E. rewrite A1 in E. change (String.eqb (structure_name false) "ef_trie"%string) with true in E. cbv iota in E. rewrite A3 in E. cbn [bind] in E.
    assert (RM : match ta_remap a with Some r0 => _ <- check_remapping_order r0 ;; Ok r0 | None => Ok 0 end = Ok 0) by (destruct A4 as [->|[-> _]]; reflexivity).
    rewrite RM in E. cbn [bind] in E.
    assert (RK : match ta_ranks a with Some r0 => if String.eqb r0 "IC" then 0 else if String.eqb r0 "PSEF" then 1 else if String.eqb r0 "PSPEF" then 2 else 0 | None => 0 end = match r with R_IC => 0 | R_PSEF => 1 | R_PSPEF => 2 end).
    { destruct A5 as [->|[-> ->]]; [destruct r; reflexivity|reflexivity]. }
    rewrite RK in E. clear RK RM A1 A3 A4 A5.
    assert (K : exists header, bh_get (mkbh (Some 1) (Some 0) (Some 0) None (Some match r with R_IC => 0 | R_PSEF => 1 | R_PSPEF => 2 end)) = Ok header /\ dispatch trie_count_types (bh_parse header) = Some (inst false 0 r)).
    { destruct r; eexists; (split; [vm_compute; reflexivity|vm_compute; reflexivity]). }
    destruct K as (header & EH & EI). rewrite EH in E. cbn [bind] in E. rewrite EI in E. apply bind_inv in E. destruct E as (files & EF & E). rewrite (dir_lines_ok D d HD NN SZ CT PL) in EF. injection EF as <-.
    apply bind_inv in E. destruct E as (t & E & _).
    assert (PP : pe_pef (instance env (inst false 0 r)) = false /\ pe_pspef (instance env (inst false 0 r)) = false) by (destruct r; split; try reflexivity; congruence).
    destruct PP as [PP1 PP2]. rewrite (ptrie_build_emb _ PP1 PP2) in E. apply bind_inv in E. destruct E as (t0 & E & _). change (u8 0) with 0 in E.
    eapply C58_sorted with (7 := E) || eapply C58_sorted; eauto. }
  split; [exact C|]. destruct (C45_tries x env henv D 0 r a d st X C NN HD SO AS NR IO) as (file & E' & _ & T). rewrite E' in E. injection E as _ <-. exact T.
Qed.
Print Assumptions C58_program.

(** the files of the examples of C22 and C45 meet the hypotheses, for both kinds of ranks *)
Example C58_program_example : forall r, r <> R_PSPEF ->
  gram_files ex_D /\ no_newlines ex_D /\ holds_counts (ex_dir ex_D) ex_D /\ asks (ex_args false 4 0 r) false (lenN ex_D) 0 r /\
  inputs_ok ex_D 0 (pe_t (instance (pex 0 IC false false false) (inst false 0 r))) /\
  exists out bytes, build_trie_count ex_x (pex 0 IC false false false) (ex_args false 4 0 r) (ex_dir ex_D) = Ok (Wrote out bytes).
Proof.
  intros r NR. split; [apply C58_example|]. split; [exact ex_no_newlines|]. split; [apply ex_dir_ok|]. split; [apply ex_asks|]. split.
  - replace (pe_t (instance (pex 0 IC false false false) (inst false 0 r))) with (ex_env 0 (match r with R_PSEF => PSEF | _ => IC end)) by (destruct r; reflexivity). apply ex_inputs.
  - destruct (ex_programs false 0 r ltac:(lia)) as (file & E & _). eauto.
Qed.
(** files that are not sorted: nothing is written *)
Example C58_program_unsorted_example :
  build_trie_count ex_x (mkpenv (c57_env uns_D) false false (fun _ => M_Pef.mkpads [0] [0]) (fun _ => M_Pef.mkpads [0] [0]) false) (ex_args false 2 0 R_IC) (ex_dir uns_D) = Throw.
Proof. vm_compute. reflexivity. Qed.
