(** * Property C45: the programs for counts; C42 for the structures over uniform_pef *)
From Coq Require Import String Floats.SpecFloat.
From Verif Require Import Prelude BitFacts M_Word P_Word M_Bits Spec P_Bits M_CompactVector P_CompactVector M_DArray M_EF P_EF P_EF2
  M_HashVec M_Mph P_Mph P_MphTables M_FastEF P_FastEF3 M_Text P_Text P_Text2 M_SeqColl P_SeqColl M_Pool P_Pool M_Pef Spec_Pef M_Trie M_TriePef Spec_Trie Spec_TriePef
  P_Trie1 P_Trie2 P_Trie3 P_Trie4 P_Trie5 P_TriePef1 P_TriePef2 P_TriePef3 P_TriePef4 M_Save Spec_Save M_SavePef Spec_SavePef P_Typed P_Save P_SavePef1 P_SavePef2 P_SavePef3 P_SavePef4 P_SavePef5
  M_MphCount M_ArpaFile M_GramFile Spec_GramFile M_Header M_Programs Spec_Programs P_Programs Props_Trie Props_TriePef Props_Save Props_MphCount.
From Coq Require Import Permutation.

Lemma with_freq_in : forall vs v, In v (map fst (with_freq vs)) -> In v vs.
Proof. intros vs v. unfold with_freq. rewrite map_map. cbn [fst]. rewrite map_id. apply nodup_In. Qed.

(** the structure named by [pef], the mapper of the remapping order, the ranks *)
Notation inst pef remap r := (pef, negb (remap =? 0), r).

(** the file build_trie writes *)
Lemma trie_built : forall x env D remap r pef a d,
  collection D remap -> no_newlines D -> holds_counts d D -> asks a pef (lenN D) remap r ->
  pef_inputs_ok D remap (instance env (inst pef remap r)) ->
  exists h t, build_trie_count x env a d = Ok (Wrote (out_name (ta_out a) (type_name pef remap r)) (save_file h (save_ptrie x (instance env (inst pef remap r))) t)) /\
    h < 2 ^ 8 /\ bh_parse h = type_name pef remap r /\
    dispatch trie_count_types (type_name pef remap r) = Some (inst pef remap r) /\ dispatch hash_count_types (type_name pef remap r) = None /\
    ptrie_build (instance env (inst pef remap r)) (map (map line) D) (lenN D) remap = Ok t /\
    ptrie_rep D remap (instance env (inst pef remap r)) t /\ ptrie_prov D remap (instance env (inst pef remap r)) t.
Proof.
  intros x env D remap r pef a d C NN HD (A1 & A2 & A3 & A4 & A5) IO.
  pose proof (col_order _ _ C) as CO. pose proof (col_remap _ _ C) as CR.
  pose proof (pef_inputs_env _ _ _ C IO) as EO.
  assert (SZ : forall k l, nthN D k = Some l -> l <> [] /\ lenN l < 2 ^ 64). { intros k l Hl. destruct (col_size _ _ C _ _ Hl) as [S1 S2]. split; [exact S1|lia]. }
  assert (CT : forall k l e, nthN D k = Some l -> In e l -> snd e < 2 ^ 64 - 1).
  { intros k l e Hl He. pose proof (pi_counts _ _ _ IO) as F. pose proof (Forall_nthN _ _ _ _ F Hl) as F2. rewrite Forall_forall in F2. exact (F2 e He). }
  assert (PL : forall k l e, nthN D k = Some l -> In e l -> parse_count_line (line e) = Ok ((0, lenN (join (fst e))), snd e)) by (intros k l e; exact (P_TriePef2.parse_line D remap C _ EO k l e)).
  destruct (trie_header pef remap r CR) as (h & H1 & H2 & H3 & H4 & H5).
  destruct (ptrie_build_ok D remap C _ EO) as (t & EB & TR). pose proof (ptrie_build_prov D remap C _ EO t EB) as PV.
  assert (U8 : u8 (lenN D) = lenN D). { unfold u8. change 255 with (N.ones 8). rewrite N.land_ones. apply N.mod_small. lia. }
  assert (U8R : u8 remap = remap). { unfold u8. change 255 with (N.ones 8). rewrite N.land_ones. apply N.mod_small. lia. }
  exists h, t. split; [|split; [exact H2|split; [exact H3|split; [exact H4|split; [exact H5|split; [exact EB|split; [exact TR|exact PV]]]]]]].
  unfold build_trie_count, accepted_order, check_order. rewrite A1, A2, A3, U8.
  destruct (N.ltb_spec (lenN D) 2); [lia|]. destruct (N.ltb_spec 8 (lenN D)); [lia|]. cbn [bind].
  assert (DS : (if String.eqb (structure_name pef) "ef_trie" then Some 1 else if String.eqb (structure_name pef) "pef_trie" then Some 2 else None) = Some (if pef then 2 else 1)) by (destruct pef; reflexivity).
  rewrite DS. cbn [bind].
  assert (RM : match ta_remap a with Some r => _ <- check_remapping_order r ;; Ok r | None => Ok 0 end = Ok remap).
  { destruct A4 as [->|(-> & ->)]; [|reflexivity]. unfold check_remapping_order. rewrite U8R. destruct (N.ltb_spec 2 remap); [lia|reflexivity]. }
  rewrite RM. cbn [bind].
  assert (RK : match ta_ranks a with Some r => if String.eqb r "IC" then 0 else if String.eqb r "PSEF" then 1 else if String.eqb r "PSPEF" then 2 else 0 | None => 0 end = match r with R_IC => 0 | R_PSEF => 1 | R_PSPEF => 2 end).
  { destruct A5 as [->|(-> & ->)]; [destruct r; reflexivity|reflexivity]. }
  rewrite RK, H1. cbn [bind]. rewrite H3, H4. rewrite (dir_lines_ok D d HD NN SZ CT PL). cbn [bind]. rewrite U8R, EB. cbn [bind]. reflexivity.
Qed.
(** build_trie writes a file whose header names the type; test_count_model, in a process where other words follow
    the arrays, loads it and finds every gram of every order with its count: no report.
    Partial: structures over uniform_pef under the restrictions of C42. *)
Theorem C42_programs_partial : forall x env env' henv D remap r pef a d st,
  ext_ok x -> collection D remap -> no_newlines D -> holds_counts d D -> statics_ok st ->
  asks a pef (lenN D) remap r ->
  pef_inputs_ok D remap (instance env (inst pef remap r)) -> pef_inputs_ok D remap (instance env' (inst pef remap r)) ->
  pe_t (instance env' (inst pef remap r)) = pe_t (instance env (inst pef remap r)) ->
  exists file, build_trie_count x env a d = Ok (Wrote (out_name (ta_out a) (type_name pef remap r)) file) /\
    (exists h, file_header file = Ok h /\ bh_parse h = type_name pef remap r) /\
    test_count_model x env' henv st file d = Ok (Checked []).
Proof.
  intros x env env' henv D remap r pef a d st X C NN HD SO (A1 & A2 & A3 & A4 & A5) IO IO' ET.
  pose proof (col_order _ _ C) as CO. pose proof (col_remap _ _ C) as CR.
  pose proof (pef_inputs_env _ _ _ C IO) as EO. pose proof (pef_inputs_env _ _ _ C IO') as EO'.
  assert (SZ : forall k l, nthN D k = Some l -> l <> [] /\ lenN l < 2 ^ 64). { intros k l Hl. destruct (col_size _ _ C _ _ Hl) as [S1 S2]. split; [exact S1|lia]. }
  assert (CT : forall k l e, nthN D k = Some l -> In e l -> snd e < 2 ^ 64 - 1).
  { intros k l e Hl He. pose proof (pi_counts _ _ _ IO) as F. pose proof (Forall_nthN _ _ _ _ F Hl) as F2. rewrite Forall_forall in F2. exact (F2 e He). }
  assert (PL : forall k l e, nthN D k = Some l -> In e l -> parse_count_line (line e) = Ok ((0, lenN (join (fst e))), snd e)) by (intros k l e; exact (P_TriePef2.parse_line D remap C _ EO k l e)).
  destruct (trie_built x env D remap r pef a d C NN HD (conj A1 (conj A2 (conj A3 (conj A4 A5)))) IO) as (h & t & BF & H2 & H3 & H4 & H5 & EB & TR & PV).
  exists (save_file h (save_ptrie x (instance env (inst pef remap r))) t). split; [exact BF|split].
  - exists h. split; [|exact H3]. unfold file_header, save_file. rewrite (pod1_ok h H2). reflexivity.
  - unfold test_count_model. assert (FH : file_header (save_file h (save_ptrie x (instance env (inst pef remap r))) t) = Ok h) by (unfold file_header, save_file; rewrite (pod1_ok h H2); reflexivity).
    rewrite FH. cbn [bind]. rewrite H3, H5, H4.
    destruct (ptrie_restored x X D remap C _ _ EO EO' ET eq_refl eq_refl t PV TR []) as (t2 & EL & SM & TR2). rewrite app_nil_r in EL.
    unfold load_file, save_file. rewrite (pod1_ok h H2). cbn [bind]. cbv beta iota. rewrite EL. cbn [bind]. cbv beta iota.
    pose proof TR2 as (T1 & _). rewrite T1.
    rewrite (check_model_ok D d HD NN SZ CT PL _ (fun s : statics * ptrie => statics_ok (fst s) /\ ptrie_rep D remap (instance env' (inst pef remap r)) (snd s))) with (k := 0); [reflexivity| |rewrite N2Nat.id; lia|split; [exact SO|exact TR2]].
    intros k l [g c] [st1 t1] Hl He ([S1 S2] & TR1). cbn [fst snd] in *.
    destruct (panswer_ok D remap C _ EO' t1 k l g c st1 (c_str (line (g, c))) (0, lenN (join g)) TR1 Hl He ltac:(lia) ltac:(lia) (line_holds (g, c))) as (st' & t' & E & Q1 & Q2 & TR').
    exists (st', t'). rewrite E. cbn [bind]. split; [reflexivity|]. split; [split; cbn [fst snd]; congruence|exact TR'].
Qed.
Print Assumptions C42_programs_partial.

(** ** C45: tries over fast_ef with IC or PSEF ranks, every remapping order; hash models *)
Theorem C45_tries : forall x env henv D remap r a d st,
  ext_ok x -> collection D remap -> no_newlines D -> holds_counts d D -> statics_ok st ->
  asks a false (lenN D) remap r -> r <> R_PSPEF -> inputs_ok D remap (pe_t (instance env (inst false remap r))) ->
  exists file, build_trie_count x env a d = Ok (Wrote (out_name (ta_out a) (type_name false remap r)) file) /\
    (exists h, file_header file = Ok h /\ bh_parse h = type_name false remap r) /\
    test_count_model x env henv st file d = Ok (Checked []).
Proof.
  intros x env henv D remap r a d st X C NN HD SO AS NR [H1 H2 H3 H4 H5 H6].
  assert (IO : pef_inputs_ok D remap (instance env (inst false remap r))).
  { split; try assumption.
    - intros _. exact H3.
    - cbn. discriminate.
    - destruct r; cbn; [discriminate|discriminate|congruence]. }
  apply (C42_programs_partial x env env henv D remap r false a d st); auto.
Qed.
Print Assumptions C45_tries.

(** the file build_hash writes, and what loading it gives *)
Lemma hash_built : forall x env D a d,
  ext_ok x -> gram_files D -> no_newlines D -> holds_counts d D ->
  ha_order a = lenN D -> ha_bytes a = 4 \/ ha_bytes a = 8 -> ha_unk a = None -> mph_inputs_ok D (hash_instance env (8 * ha_bytes a)) ->
  let ty := (if (ha_bytes a =? 4)%N then "mph32_count_lm" else "mph64_count_lm")%string in
  exists h m, build_hash_count x env a d = Ok (Wrote (out_name (ha_out a) ty) (save_file h (save_mcl x (8 * ha_bytes a)) m)) /\
    h < 2 ^ 8 /\ bh_parse h = ty /\ dispatch hash_count_types (bh_parse h) = Some (8 * ha_bytes a) /\
    mc_build (hash_instance env (8 * ha_bytes a)) (map (map line) D) (lenN D) = Ok m /\
    file_header (save_file h (save_mcl x (8 * ha_bytes a)) m) = Ok h /\
    load_file (load_mcl x (8 * ha_bytes a)) (save_file h (save_mcl x (8 * ha_bytes a)) m) = Ok (m, lenN (save_file h (save_mcl x (8 * ha_bytes a)) m)) /\
    forall k l g c, nthN D k = Some l -> In (g, c) l -> forall buf r, holds_text buf r (join g) -> mc_lookup (hash_instance env (8 * ha_bytes a)) m buf r = Ok c.
Proof.
  intros x env D a d X GF NN HD A1 A2 A3 MI ty.
  pose proof (gf_order _ GF) as CO.
  assert (SZ : forall k l, nthN D k = Some l -> l <> [] /\ lenN l < 2 ^ 64). { intros k l Hl. destruct (gf_size _ GF _ _ Hl) as [S1 S2]. split; [exact S1|lia]. }
  assert (CT : forall k l e, nthN D k = Some l -> In e l -> snd e < 2 ^ 64 - 1). { intros k l [g c] Hl He. apply (gf_words _ GF k l g c Hl He). }
  assert (PL : forall k l e, nthN D k = Some l -> In e l -> parse_count_line (line e) = Ok ((0, lenN (join (fst e))), snd e)).
  { intros k l [g c] Hl He. destruct (gf_words _ GF k l g c Hl He) as (W1 & W2 & W3). apply parse_format; [|cbn [snd]; lia]. cbn [fst]. intros I. apply join_bytes in I. destruct I as [I|(w & I1 & I2)]; [discriminate|].
    rewrite Forall_forall in W2. destruct (W2 w I1) as [_ NT]. exact (NT I2). }
  destruct (hash_header (ha_bytes a) A2) as (h & H1 & H2 & H3 & H4).
  destruct (C24_lookup_indexed D _ GF MI) as (m & EB & LK).
  assert (U8 : u8 (lenN D) = lenN D). { unfold u8. change 255 with (N.ones 8). rewrite N.land_ones. apply N.mod_small. lia. }
  assert (HB : 8 * ha_bytes a = 32 \/ 8 * ha_bytes a = 64) by lia.
  exists h, m. split; [|split; [exact H2|split; [exact H3|split; [exact H4|split; [exact EB|]]]]].
  - unfold build_hash_count, accepted_order, check_order. rewrite A1, A3, U8. destruct (N.ltb_spec (lenN D) 2); [lia|]. destruct (N.ltb_spec 8 (lenN D)); [lia|]. cbn [bind].
    assert (KB : negb (ha_bytes a =? 4) && negb (ha_bytes a =? 8) = false) by (destruct A2 as [->| ->]; reflexivity). rewrite KB. cbn [bind]. rewrite H1. cbn [bind]. rewrite H4.
    rewrite (dir_lines_ok D d HD NN SZ CT PL). cbn [bind]. rewrite EB. cbn [bind]. rewrite H3. reflexivity.
  - assert (ES : lenN (me_sorts env) = lenN D). { pose proof (mi_sorts _ _ MI) as F. cbn [hash_instance me_sorts] in F. apply Forall2_len in F. unfold lenN. congruence. }
    destruct (C30_built_mph_count_restored x h (hash_instance env (8 * ha_bytes a)) (map (map line) D) (lenN D) m X H2 ltac:(unfold is_u8; lia) HB) as (FH & LD).
    { apply Forall_forall. intros f Hf. apply in_map_iff in Hf. destruct Hf as (l & <- & Hl). apply In_nthN in Hl. destruct Hl as (k & Hk). destruct (gf_size _ GF k l Hk). rewrite lenN_map. lia. }
    { exact ES. }
    { apply Forall_forall. intros s Hs. pose proof (mi_sorts _ _ MI) as F. cbn [hash_instance me_sorts] in F. cbn [hash_instance me_sorts] in Hs. clear - F Hs CT.
      assert (CT' : forall l e, In l D -> In e l -> snd e < 2 ^ 64 - 1). { intros l e Hl. apply In_nthN in Hl. destruct Hl as (k & Hk). exact (CT k l e Hk). } clear CT.
      induction F as [|l s0 D0 S0 P F IH]; [destruct Hs|]. destruct Hs as [<-|Hs]; [|apply IH; [exact Hs|intros l' e Hl; apply CT'; right; exact Hl]].
      apply Forall_forall. intros p Hp. apply (Permutation_in _ P) in Hp. assert (V : In (fst p) (map snd l)).
      { apply (in_map fst) in Hp. revert Hp. apply with_freq_in. }
      apply in_map_iff in V. destruct V as (e & E & He). pose proof (CT' l e (or_introl eq_refl) He). unfold is_u64. rewrite <- E. lia. }
    { exact EB. }
    cbn [hash_instance me_hb] in FH, LD. split; [exact FH|split; [exact LD|exact LK]].
Qed.
Theorem C45_hash : forall x tenv env D a d st,
  ext_ok x -> gram_files D -> no_newlines D -> holds_counts d D ->
  ha_order a = lenN D -> ha_bytes a = 4 \/ ha_bytes a = 8 -> ha_unk a = None -> mph_inputs_ok D (hash_instance env (8 * ha_bytes a)) ->
  let ty := (if (ha_bytes a =? 4)%N then "mph32_count_lm" else "mph64_count_lm")%string in
  exists file, build_hash_count x env a d = Ok (Wrote (out_name (ha_out a) ty) file) /\
    (exists h, file_header file = Ok h /\ bh_parse h = ty) /\
    test_count_model x tenv env st file d = Ok (Checked []).
Proof.
  intros x tv env D a d st X GF NN HD A1 A2 A3 MI ty.
  pose proof (gf_order _ GF) as CO.
  assert (SZ : forall k l, nthN D k = Some l -> l <> [] /\ lenN l < 2 ^ 64). { intros k l Hl. destruct (gf_size _ GF _ _ Hl) as [S1 S2]. split; [exact S1|lia]. }
  assert (CT : forall k l e, nthN D k = Some l -> In e l -> snd e < 2 ^ 64 - 1). { intros k l [g c] Hl He. apply (gf_words _ GF k l g c Hl He). }
  assert (PL : forall k l e, nthN D k = Some l -> In e l -> parse_count_line (line e) = Ok ((0, lenN (join (fst e))), snd e)).
  { intros k l [g c] Hl He. destruct (gf_words _ GF k l g c Hl He) as (W1 & W2 & W3). apply parse_format; [|cbn [snd]; lia]. cbn [fst]. intros I. apply join_bytes in I. destruct I as [I|(w & I1 & I2)]; [discriminate|].
    rewrite Forall_forall in W2. destruct (W2 w I1) as [_ NT]. exact (NT I2). }
  destruct (hash_built x env D a d X GF NN HD A1 A2 A3 MI) as (h & m & BF & H2 & H3 & H4 & EB & FH & LD & LK).
  exists (save_file h (save_mcl x (8 * ha_bytes a)) m). split; [exact BF|split; [exists h; split; [exact FH|exact H3]|]].
  - unfold test_count_model. rewrite FH. cbn [bind]. rewrite H4, LD. cbn [bind]. cbv beta iota.
    assert (MO : mc_order m = lenN D). { unfold mc_build in EB. repeat (apply bind_inv in EB; destruct EB as (? & _ & EB)). injection EB as <-. reflexivity. }
    rewrite MO. rewrite (check_model_ok D d HD NN SZ CT PL _ (fun _ : unit => True)) with (k := 0); [reflexivity| |rewrite N2Nat.id; lia|exact I].
    intros k l [g c] [] Hl He _. exists tt. cbn [fst snd]. pose proof (LK k l g c Hl He _ _ (line_holds (g, c))) as E. cbn [fst] in E. rewrite E. cbn [bind]. split; [reflexivity|exact I].
Qed.
Print Assumptions C45_hash.

(** ** What bad arguments do *)
(** An unknown data structure, or a number of bytes that is neither 4 nor 8: exit code 1 and no file;
    an order or a remapping order out of range stops the program. *)
Theorem C45_bad_arguments : forall x env a d,
  (ta_order a <= 255 -> ta_order a < 2 \/ 8 < ta_order a -> build_trie_count x env a d = Throw) /\
  (2 <= ta_order a <= 8 -> ta_type a <> "ef_trie"%string -> ta_type a <> "pef_trie"%string -> build_trie_count x env a d = Ok (Nothing 1)) /\
  (2 <= ta_order a <= 8 -> ta_type a = "ef_trie"%string \/ ta_type a = "pef_trie"%string -> ta_unk a = None ->
     forall r, ta_remap a = Some r -> 2 < r <= 255 -> build_trie_count x env a d = Throw) /\
  (forall henv b, 2 <= ha_order b <= 8 -> ha_bytes b <> 4 -> ha_bytes b <> 8 -> build_hash_count x henv b d = Ok (Nothing 1)).
Proof.
  assert (U : forall n, n <= 255 -> u8 n = n). { intros n L. unfold u8. change 255 with (N.ones 8). rewrite N.land_ones. apply N.mod_small. change (2 ^ 8) with 256. lia. }
  intros x env a d. split; [|split; [|split]].
  - intros L B. unfold build_trie_count, accepted_order, check_order. rewrite U by exact L. destruct B; [destruct (N.ltb_spec (ta_order a) 2); [reflexivity|lia]|].
    destruct (N.ltb_spec (ta_order a) 2); [reflexivity|]. destruct (N.ltb_spec 8 (ta_order a)); [reflexivity|lia].
  - intros B N1 N2. unfold build_trie_count, accepted_order, check_order. rewrite U by lia. destruct (N.ltb_spec (ta_order a) 2); [lia|]. destruct (N.ltb_spec 8 (ta_order a)); [lia|]. cbn [bind].
    destruct (String.eqb_spec (ta_type a) "ef_trie"); [congruence|]. destruct (String.eqb_spec (ta_type a) "pef_trie"); [congruence|]. reflexivity.
  - intros B T UN r R L. unfold build_trie_count, accepted_order, check_order. rewrite U by lia. destruct (N.ltb_spec (ta_order a) 2); [lia|]. destruct (N.ltb_spec 8 (ta_order a)); [lia|]. cbn [bind]. rewrite UN, R.
    unfold check_remapping_order. rewrite U by lia. destruct (N.ltb_spec 2 r); [|lia]. destruct T as [-> | ->]; reflexivity.
  - intros henv b B N1 N2. unfold build_hash_count, accepted_order, check_order. rewrite U by lia. destruct (N.ltb_spec (ha_order b) 2); [lia|]. destruct (N.ltb_spec 8 (ha_order b)); [lia|]. cbn [bind].
    destruct (N.eqb_spec (ha_bytes b) 4); [congruence|]. destruct (N.eqb_spec (ha_bytes b) 8); [congruence|]. reflexivity.
Qed.
Print Assumptions C45_bad_arguments.

(** A ranks name that does not exist is not noticed: the ranks are IC. *)
Theorem C45_unknown_ranks : forall x env a d s, s <> "IC"%string -> s <> "PSEF"%string -> s <> "PSPEF"%string ->
  build_trie_count x env (mktargs (ta_type a) (ta_order a) (ta_remap a) (Some s) (ta_unk a) (ta_out a)) d =
  build_trie_count x env (mktargs (ta_type a) (ta_order a) (ta_remap a) (Some "IC"%string) (ta_unk a) (ta_out a)) d.
Proof.
  intros x env a d s N1 N2 N3. unfold build_trie_count. cbn [ta_type ta_order ta_remap ta_ranks ta_unk ta_out].
  destruct (String.eqb_spec s "IC"); [congruence|]. destruct (String.eqb_spec s "PSEF"); [congruence|]. destruct (String.eqb_spec s "PSPEF"); [congruence|]. reflexivity.
Qed.
Print Assumptions C45_unknown_ranks.

(** ** A concrete case *)
Definition ex_dir (D : list (list (gram * N))) : dir :=
  fun k => match nthN D (k - 1) with Some l => if k =? 0 then None else Some (count_file (lenN l) (map line l)) | None => None end.
Lemma ex_dir_ok D : holds_counts (ex_dir D) D.
Proof. intros k l H. unfold ex_dir. replace (k + 1 - 1) with k by lia. rewrite H. destruct (N.eqb_spec (k + 1) 0); [lia|reflexivity]. Qed.
Definition ex_args (pef : bool) (order remap : N) (r : ranks_t) : trie_args :=
  mktargs (structure_name pef) order (Some remap) (Some (ranks_name r)) None None.
Lemma ex_asks pef order remap r : asks (ex_args pef order remap r) pef order remap r.
Proof. repeat split; left; reflexivity. Qed.
Lemma ex_no_newlines : no_newlines ex_D.
Proof.
  intros l g c w Hl Hg Hw I. assert (F : forallb (fun l : list (gram * N) => forallb (fun e : gram * N => forallb (fun w => forallb (fun b => negb (b =? 10)) w) (fst e)) l) ex_D = true) by (vm_compute; reflexivity).
  rewrite forallb_forall in F. specialize (F l Hl). rewrite forallb_forall in F. specialize (F _ Hg). cbn [fst] in F. rewrite forallb_forall in F. specialize (F _ Hw). rewrite forallb_forall in F. specialize (F _ I). discriminate.
Qed.
Lemma instance_pex pef remap r sw : remap <= 2 -> pef_inputs_ok ex_D remap (instance (pex 0 IC false false sw) (inst pef remap r)).
Proof.
  intros R. replace (instance (pex 0 IC false false sw) (inst pef remap r)) with (pex remap (match r with R_PSEF => PSEF | _ => IC end) pef (match r with R_PSPEF => true | _ => false end) sw) by reflexivity.
  apply pex_inputs. exact R.
Qed.
(** the hypotheses of C42_programs_partial and C45_tries hold for every structure, remapping order and ranks *)
Example ex_programs : forall pef remap r, remap <= 2 ->
  exists file, build_trie_count ex_x (pex 0 IC false false false) (ex_args pef 4 remap r) (ex_dir ex_D) = Ok (Wrote (type_name pef remap r ++ ".out") file) /\
    test_count_model ex_x (pex 0 IC false false false) (exm_env 32) ex_statics file (ex_dir ex_D) = Ok (Checked []).
Proof.
  intros pef remap r R.
  destruct (C42_programs_partial ex_x (pex 0 IC false false false) (pex 0 IC false false false) (exm_env 32) ex_D remap r pef (ex_args pef 4 remap r) (ex_dir ex_D) ex_statics
    ex_x_ok (ex_collection remap R) ex_no_newlines (ex_dir_ok ex_D) ltac:(split; reflexivity) (ex_asks pef 4 remap r) (instance_pex pef remap r false R) (instance_pex pef remap r false R) eq_refl) as (f & H1 & _ & H2).
  exists f. split; [exact H1|exact H2].
Qed.
Lemma exm_no_newlines : no_newlines exm_D.
Proof.
  intros l g c w Hl Hg Hw I. assert (F : forallb (fun l : list (gram * N) => forallb (fun e : gram * N => forallb (fun w => forallb (fun b => negb (b =? 10)) w) (fst e)) l) exm_D = true) by (vm_compute; reflexivity).
  rewrite forallb_forall in F. specialize (F l Hl). rewrite forallb_forall in F. specialize (F _ Hg). cbn [fst] in F. rewrite forallb_forall in F. specialize (F _ Hw). rewrite forallb_forall in F. specialize (F _ I). discriminate.
Qed.
Example ex_hash_programs : forall b, b = 4 \/ b = 8 ->
  exists file, build_hash_count ex_x (exm_env 0) (mkhargs 2 b None (Some "model"%string)) (ex_dir exm_D) = Ok (Wrote "model" file) /\
    test_count_model ex_x (pex 0 IC false false false) (exm_env 0) ex_statics file (ex_dir exm_D) = Ok (Checked []).
Proof.
  intros b B. destruct (C24_example_hyps (8 * b)) as [G M]; [lia|].
  destruct (C45_hash ex_x (pex 0 IC false false false) (exm_env 0) exm_D (mkhargs 2 b None (Some "model"%string)) (ex_dir exm_D) ex_statics
    ex_x_ok G exm_no_newlines (ex_dir_ok exm_D) eq_refl B eq_refl M) as (f & H1 & _ & H2).
  exists f. split; [exact H1|exact H2].
Qed.
(** the check is a check: with other counts in the files it stops, with other grams it reports them *)
Definition recount (D : list (list (gram * N))) : dir := ex_dir (map (map (fun e => (fst e, snd e + 1))) D).
Definition ex_check (d : dir) : option (res checked) :=
  match build_trie_count ex_x (pex 0 IC false false false) (ex_args false 4 1 R_IC) (ex_dir ex_D) with
  | Ok (Wrote _ f) => Some (test_count_model ex_x (pex 0 IC false false false) (exm_env 32) ex_statics f d)
  | _ => None
  end.
Definition absent : dir := ex_dir (map (map (fun e => ([[113]] ++ tl (fst e), snd e))) ex_D).
Example ex_check_runs : ex_check (ex_dir ex_D) = Some (Ok (Checked [])) /\ ex_check (recount ex_D) = Some Throw.
Proof. split; [vm_compute; reflexivity|]. vm_compute. reflexivity. Qed.
Example ex_check_absent : ex_check absent = Some (Ok (Checked (map (Missing 1) [0; 1; 2; 3] ++ map (Missing 2) [0; 1; 2; 3; 4] ++ map (Missing 3) [0; 1; 2] ++ [Missing 4 0]))).
Proof. vm_compute. reflexivity. Qed.
