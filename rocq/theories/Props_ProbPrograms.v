(** * Property C48: the programs that build and score probability models *)
From Coq Require Import String Floats.SpecFloat.
From Verif Require Import Prelude BitFacts M_Word Spec P_Bits M_Text P_Text P_Text2 M_Trie Spec_Trie P_Trie3 M_Score Spec_Katz P_Score1 P_Score2 P_Score3 Props_Score M_Quant P_Quant M_MphProb Spec_Arpa P_Values P_MphProb Props_MphProb
  M_TrieProb P_TrieProb1 P_TrieProb2 P_TrieProb3 P_TrieProb4 Props_TrieProb M_Save P_Save Spec_Save M_Save2 Spec_Save2 P_Save2 Props_Save Props_Save2 M_ArpaFile Spec_ArpaFile Props_ArpaFile
  M_Header M_ScoreCorpus Spec_Corpus Props_ScoreCorpus M_TrieProbPef P_TrieProbBridge M_Programs Spec_Programs M_ProbPrograms Spec_ProbPrograms Spec_Supported P_Supported.

Lemma negative_accepted u : is_float u -> SFltb u (S754_zero false) = true -> check_unk_logprob (f_bits u) = Ok tt.
Proof.
  intros V L. unfold check_unk_logprob. assert (H : f32_ge0 (f_bits u) = false); [|rewrite H; reflexivity].
  assert (G : exists y, 0 < y < 2 ^ 31 /\ f_bits u = 2 ^ 31 + y).
  { destruct u as [[|]|[|]| |s m e]; try discriminate L; [exists (255 * 2 ^ 23); split; [split; reflexivity|reflexivity]|].
    destruct s; [|discriminate L]. cbn [f_bits]. apply valid_f32 in V. destruct V as [H1 H2]. destruct (N.ltb_spec (N.pos m) (2 ^ 23)); [exists (N.pos m); split; [lia|reflexivity]|].
    exists (Z.to_N (e + 150) * 2 ^ 23 + (N.pos m - 2 ^ 23)). assert (0 < Z.to_N (e + 150) <= 254) by lia. split; [lia|lia]. }
  destruct G as (y & Hy & ->). unfold f32_ge0. rewrite (testbit_hi y true) by lia. rewrite N.land_ones.
  replace ((2 ^ 31 + y) mod 2 ^ 31) with y by (apply (N.mod_unique _ _ 1); lia). destruct (N.eqb_spec y 0); [lia|]. apply andb_false_r.
Qed.
Lemma unk_arg_is o unk : unk_is o unk -> match o with Some u => check_unk_logprob u | None => Ok tt end = Ok tt /\ unk_arg o = unk.
Proof.
  intros (V & [(-> & L)|(-> & ->)]); [|split; reflexivity]. split; [apply negative_accepted; assumption|]. cbn [unk_arg]. apply f_of_bits_f_bits. exact V.
Qed.
Lemma u8_small n : n <= 255 -> u8 n = n.
Proof. intros L. unfold u8. change 255 with (N.ones 8). rewrite N.land_ones. apply N.mod_small. change (2 ^ 8) with 256. lia. Qed.
Lemma bits_arg_is o p : option_is o 8 p -> p <= 255 -> bits_arg o = p.
Proof. intros [->|(-> & ->)] L; unfold bits_arg; [apply u8_small; exact L|reflexivity]. Qed.
Lemma prob_header pef remap : remap <= 2 -> exists h,
  bh_get (mkbh (Some (if pef : bool then 2 else 1)) (Some 1) (Some remap) None (Some 0)) = Ok h /\ h < 2 ^ 8 /\
  bh_parse h = prob_type_name pef remap /\ dispatch trie_prob_types (prob_type_name pef remap) = Some (pef, negb (remap =? 0)).
Proof.
  intros R. assert (RC : remap = 0 \/ remap = 1 \/ remap = 2) by lia. destruct RC as [->|[->| ->]], pef; eexists; (split; [vm_compute; reflexivity|]; split; [reflexivity|]; split; vm_compute; reflexivity).
Qed.
Lemma hash_prob_header kb : kb = 4 \/ kb = 8 -> exists h,
  bh_get (mkbh (Some 0) (Some 1) None (Some kb) None) = Ok h /\ h < 2 ^ 8 /\
  bh_parse h = hash_prob_name kb /\ dispatch trie_prob_types (hash_prob_name kb) = None /\ dispatch hash_prob_types (hash_prob_name kb) = Some (8 * kb).
Proof. intros [->| ->]; eexists; (split; [vm_compute; reflexivity|]; split; [reflexivity|]; split; [vm_compute; reflexivity|]; split; vm_compute; reflexivity). Qed.
Lemma header_of h {A} (save : A -> list N) m : h < 2 ^ 8 -> file_header (save_file h save m) = Ok h.
Proof. intros H. unfold file_header, save_file. rewrite (pod1_ok h H). reflexivity. Qed.

(** the environment of the class the type stands for *)
Notation pinst pef remap := (pef, negb (remap =? 0)).

(** both programs on a file of probabilities: the file written, and that score prints what the model built from the
    ARPA file scores *)
Lemma trie_prob_programs x env henv data D secs a remap p b unk m :
  ext_ok x -> arpa_text data secs -> arpa_file D -> collection (reversed D) remap ->
  asks_prob a false (lenN D) remap p b unk -> trie_inputs_ok D secs (qe_t (prob_instance env (pinst false remap))) remap p b ->
  tp_build_file (qe_t (prob_instance env (pinst false remap))) data (lenN D) remap unk p b = Ok m ->
  exists file, build_trie_prob x env a (Some (Some data)) = Ok (Wrote (out_name (ra_out a) (prob_type_name false remap)) file) /\
    (exists h, file_header file = Ok h /\ bh_parse h = prob_type_name false remap) /\
    (forall text r, tp_corpus (qe_t (prob_instance env (pinst false remap))) m text = Ok r -> printed (score_program x env henv file text) = Ok r).
Proof.
  intros X AT AF CO (A1 & A2 & A3 & A4 & A5 & A6) TI EB.
  set (e := prob_instance env (pinst false remap)) in *. pose proof (af_order _ AF) as HO. pose proof (col_remap _ _ (CR D remap CO)) as HR.
  pose proof (vi_pq _ _ _ _ _ (ti_values _ _ _ _ _ _ TI)) as [P1 _]. pose proof (vi_bq _ _ _ _ _ (ti_values _ _ _ _ _ _ TI)) as [P2 _].
  destruct (unk_arg_is _ _ A6) as [U1 U2]. destruct (prob_header false remap HR) as (h & H1 & H2 & H3 & H4).
  assert (PF : qe_pef e = false) by reflexivity.
  exists (save_file h (save_qpl x e) (embq m)). split; [|split].
  - unfold build_trie_prob, accepted_order, check_order. rewrite A1, A2, (u8_small (lenN D)) by lia.
    destruct (N.ltb_spec (lenN D) 2); [lia|]. destruct (N.ltb_spec 8 (lenN D)); [lia|]. cbn [bind].
    change (structure_name false) with "ef_trie"%string. change (String.eqb "ef_trie" "ef_trie") with true. cbv iota. rewrite U1. cbn [bind].
    assert (RM : match ra_remap a with Some r => _ <- check_remapping_order r ;; Ok r | None => Ok 0 end = Ok remap).
    { destruct A3 as [->|(-> & ->)]; [|reflexivity]. unfold check_remapping_order. rewrite (u8_small remap) by lia. destruct (N.ltb_spec 2 remap); [lia|reflexivity]. }
    rewrite RM. cbn [bind]. rewrite H1. cbn [bind]. rewrite H3, H4. cbn [open_arpa bind]. fold e.
    rewrite U2, (bits_arg_is _ _ A4), (bits_arg_is _ _ A5), (u8_small remap) by lia. rewrite (qp_build_emb e PF), EB. cbn [bind]. reflexivity.
  - exists h. split; [apply header_of; exact H2|exact H3].
  - intros text r EK. unfold score_program. rewrite (header_of h _ _ H2). cbn [bind]. rewrite H3, H4. fold e.
    assert (LD : load_file (load_qpl x e) (save_file h (save_qpl x e) (embq m)) = Ok (embq m, lenN (save_file h (save_qpl x e) (embq m)))).
    { pose proof EB as EB2. rewrite (C40_trie_from_file data secs) in EB2 by exact AT.
      destruct (C30_built_trie_prob_restored x h D secs (qe_t e) remap p b unk m X H2 AF CO TI (proj1 A6) EB2) as [_ LD].
      unfold load_file, save_file in *. rewrite (save_embq e PF). rewrite (pod1_ok h H2) in *. cbn [bind] in *. cbv beta iota in *. rewrite (load_embq e PF).
      destruct (load_tpl x (save_tpl x m)) as [[m2 s2]| |]; cbn [bind] in *; [|discriminate|discriminate]. cbv beta iota in *. injection LD as -> L2. f_equal. f_equal. exact L2. }
    rewrite LD. cbn [bind]. cbv beta iota. rewrite (qp_corpus_emb e). rewrite EK. destruct r. reflexivity.
Qed.

Lemma hash_prob_programs x tenv env data D secs a bytes p b unk m :
  ext_ok x -> arpa_text data secs -> arpa_file D -> bytes = 4 \/ bytes = 8 ->
  asks_hash_prob a bytes (lenN D) p b unk -> prob_inputs_ok D secs (hash_prob_instance env (8 * bytes)) p b ->
  Forall (Forall (fun l => is_float (fst (pe_sd env (c_str l) 0)))) secs ->
  mp_build_file (hash_prob_instance env (8 * bytes)) data (lenN D) unk p b = Ok m ->
  exists file, build_hash_prob x env a (Some (Some data)) = Ok (Wrote (out_name (ra_out a) (hash_prob_name bytes)) file) /\
    (exists h, file_header file = Ok h /\ bh_parse h = hash_prob_name bytes) /\
    (forall text r, mp_corpus (hash_prob_instance env (8 * bytes)) m text = Ok r -> printed (score_program x tenv env file text) = Ok r).
Proof.
  intros X AT AF HB (A1 & A2 & A4 & A5 & A6) PI SD EB.
  set (e := hash_prob_instance env (8 * bytes)) in *. pose proof (af_order _ AF) as HO.
  pose proof (pi_pq _ _ _ _ _ PI) as [P1 _]. pose proof (pi_bq _ _ _ _ _ PI) as [P2 _].
  destruct (unk_arg_is _ _ A6) as [U1 U2]. destruct (hash_prob_header bytes HB) as (h & H1 & H2 & H3 & H4 & H5).
  exists (save_file h (save_mpl x (8 * bytes)) m). split; [|split].
  - unfold build_hash_prob, accepted_order, check_order. rewrite A1, A2, (u8_small (lenN D)) by lia.
    destruct (N.ltb_spec (lenN D) 2); [lia|]. destruct (N.ltb_spec 8 (lenN D)); [lia|]. cbn [bind].
    replace (negb (bytes =? 4) && negb (bytes =? 8)) with false by (destruct HB as [->| ->]; reflexivity). rewrite U1. cbn [bind]. rewrite H1. cbn [bind]. rewrite H3, H5. cbn [open_arpa bind]. fold e.
    rewrite U2, (bits_arg_is _ _ A4), (bits_arg_is _ _ A5) by lia. rewrite EB. cbn [bind]. reflexivity.
  - exists h. split; [apply header_of; exact H2|exact H3].
  - intros text r EK. unfold score_program. rewrite (header_of h _ _ H2). cbn [bind]. rewrite H3, H4, H5. fold e.
    pose proof EB as EB2. rewrite (C40_mph_from_file data secs) in EB2 by exact AT.
    assert (SZ : Forall (fun f : list (list N) => lenN f < 2 ^ 63) secs).
    { pose proof (pi_lines _ _ _ _ _ PI) as F2. assert (FD : Forall (fun l : list (gram * (spec_float * spec_float)) => lenN l < 2 ^ 63) D).
      { apply Forall_forall. intros l Hl. destruct (In_nth_error _ _ Hl) as (k & Hk). destruct (af_size _ AF (N.of_nat k) l) as [_ S2]; [unfold nthN; rewrite Nat2N.id; exact Hk|]. clear - S2. lia. }
      clear - F2 FD. induction F2 as [|l s D secs H F2 IH]; constructor; [|apply IH; inversion FD; assumption]. inversion FD as [|? ? L _]; subst.
      replace (lenN s) with (lenN l); [exact L|]. unfold lenN. f_equal. clear - H. induction H; cbn; congruence. }
    destruct (C30_built_mph_prob_restored x h e secs (lenN D) unk p b m X H2) as [_ LD]; [unfold is_u8; lia|cbn [e hash_prob_instance pe_hb]; destruct HB as [->| ->]; [left|right]; reflexivity|exact SZ|exact SD|exact (proj1 A6)|exact EB2|].
    change (pe_hb e) with (8 * bytes) in LD. rewrite LD. cbn [bind]. cbv beta iota. rewrite EK. destruct r. reflexivity.
Qed.

(** build_trie ef_trie, then score: the file written names the type, and scoring any text with it prints the
    totals of Katz back-off.  Partial: the restrictions of C25 and C41 (see there). *)
Theorem C48_trie_partial : forall x env henv data D secs a remap p b unk,
  ext_ok x -> arpa_text data secs -> arpa_file D -> collection (reversed D) remap ->
  asks_prob a false (lenN D) remap p b unk -> trie_inputs_ok D secs (qe_t (prob_instance env (pinst false remap))) remap p b ->
  exists file m qp qb, build_trie_prob x env a (Some (Some data)) = Ok (Wrote (out_name (ra_out a) (prob_type_name false remap)) file) /\
    (exists h, file_header file = Ok h /\ bh_parse h = prob_type_name false remap) /\
    tp_build_file (qe_t (prob_instance env (pinst false remap))) data (lenN D) remap unk p b = Ok m /\
    (forall ord v, 2 <= ord <= lenN D -> exists r, q_rank (tp_probs m) (ord - 2) v 0 = Ok r /\ r < 2 ^ p /\ q_access (tp_probs m) (ord - 2) r = Ok (qp ord v)) /\
    (forall ord v, 2 <= ord < lenN D -> exists r, q_rank (tp_backoffs m) (ord - 2) v 1 = Ok r /\ r < 2 ^ b /\ q_access (tp_backoffs m) (ord - 2) r = Ok (qb ord v)) /\
    (closed (entry D) -> extended_nonzero (quantized D qp qb) ->
     forall lines, corpus_ok lines -> lenN (corpus_bytes lines) < 2 ^ 62 ->
     (forall w, In w (concat lines) -> entry D [w] = None -> word_distinguished D (qe_t (prob_instance env (pinst false remap))) m w) ->
     reports (printed (score_program x env henv file (corpus_bytes lines))) (quantized D qp qb) (unk_prob D unk) (N.to_nat (lenN D)) lines).
Proof.
  intros x env henv data D secs a remap p b unk X AT AF CO AS TI.
  destruct (C41_trie_partial data D secs (qe_t (prob_instance env (pinst false remap))) remap p b unk AT AF CO TI) as (m & qp & qb & EB & Q1 & Q2 & K).
  destruct (trie_prob_programs x env henv data D secs a remap p b unk m X AT AF CO AS TI EB) as (file & W & H & SC).
  exists file, m, qp, qb. split; [exact W|]. split; [exact H|]. split; [exact EB|]. split; [exact Q1|]. split; [exact Q2|].
  intros HC HX lines HL HB HD. destruct (K HC HX lines HL HB HD) as (tot & EK & R). exists tot. split; [|exact R]. apply SC. exact EK.
Qed.
Print Assumptions C48_trie_partial.
(** ... for every table, over its supported n-grams, with the contexts the library keeps (back-off weights of 0 allowed) *)
Theorem C48_trie_kept_partial : forall x env henv data D secs a remap p b unk,
  ext_ok x -> arpa_text data secs -> arpa_file D -> collection (reversed D) remap ->
  asks_prob a false (lenN D) remap p b unk -> trie_inputs_ok D secs (qe_t (prob_instance env (pinst false remap))) remap p b ->
  exists file m qp qb, build_trie_prob x env a (Some (Some data)) = Ok (Wrote (out_name (ra_out a) (prob_type_name false remap)) file) /\
    (exists h, file_header file = Ok h /\ bh_parse h = prob_type_name false remap) /\
    tp_build_file (qe_t (prob_instance env (pinst false remap))) data (lenN D) remap unk p b = Ok m /\
    (forall ord v, 2 <= ord <= lenN D -> exists r, q_rank (tp_probs m) (ord - 2) v 0 = Ok r /\ r < 2 ^ p /\ q_access (tp_probs m) (ord - 2) r = Ok (qp ord v)) /\
    (forall ord v, 2 <= ord < lenN D -> exists r, q_rank (tp_backoffs m) (ord - 2) v 1 = Ok r /\ r < 2 ^ b /\ q_access (tp_backoffs m) (ord - 2) r = Ok (qb ord v)) /\
    (forall lines, corpus_ok lines -> lenN (corpus_bytes lines) < 2 ^ 62 ->
     (forall w, In w (concat lines) -> entry D [w] = None -> word_distinguished D (qe_t (prob_instance env (pinst false remap))) m w) ->
     kept_reports (printed (score_program x env henv file (corpus_bytes lines))) (supported (quantized D qp qb)) (unk_prob D unk) (N.to_nat (lenN D)) lines).
Proof.
  intros x env henv data D secs a remap p b unk X AT AF CO AS TI.
  destruct (C41_trie_kept_partial data D secs (qe_t (prob_instance env (pinst false remap))) remap p b unk AT AF CO TI) as (m & qp & qb & EB & Q1 & Q2 & K).
  destruct (trie_prob_programs x env henv data D secs a remap p b unk m X AT AF CO AS TI EB) as (file & W & H & SC).
  exists file, m, qp, qb. split; [exact W|]. split; [exact H|]. split; [exact EB|]. split; [exact Q1|]. split; [exact Q2|].
  intros lines HL HB HD. destruct (K lines HL HB HD) as (tot & EK & R). exists tot. split; [|exact R]. apply SC. exact EK.
Qed.
Print Assumptions C48_trie_kept_partial.

(** build_hash, then score, in the same way *)
Theorem C48_hash_partial : forall x tenv env data D secs a bytes p b unk,
  ext_ok x -> arpa_text data secs -> arpa_file D -> bytes = 4 \/ bytes = 8 ->
  asks_hash_prob a bytes (lenN D) p b unk -> prob_inputs_ok D secs (hash_prob_instance env (8 * bytes)) p b ->
  Forall (Forall (fun l => is_float (fst (pe_sd env (c_str l) 0)))) secs ->
  exists file m qp qb, build_hash_prob x env a (Some (Some data)) = Ok (Wrote (out_name (ra_out a) (hash_prob_name bytes)) file) /\
    (exists h, file_header file = Ok h /\ bh_parse h = hash_prob_name bytes) /\
    mp_build_file (hash_prob_instance env (8 * bytes)) data (lenN D) unk p b = Ok m /\
    (forall ord v, 2 <= ord <= lenN D -> exists r, q_rank (mp_probs m) (ord - 2) v 0 = Ok r /\ r < 2 ^ p /\ q_access (mp_probs m) (ord - 2) r = Ok (qp ord v)) /\
    (forall ord v, 2 <= ord < lenN D -> exists r, q_rank (mp_backoffs m) (ord - 2) v 1 = Ok r /\ r < 2 ^ b /\ q_access (mp_backoffs m) (ord - 2) r = Ok (qb ord v)) /\
    (closed (entry D) -> extended_nonzero (quantized D qp qb) ->
     forall lines, corpus_ok lines -> lenN (corpus_bytes lines) < 2 ^ 62 ->
     (forall ws a g c, In ws lines -> ws = a ++ g ++ c -> 1 <= lenN g <= lenN D -> entry D g = None -> distinguished D (hash_prob_instance env (8 * bytes)) m g) ->
     reports (printed (score_program x tenv env file (corpus_bytes lines))) (quantized D qp qb) (unk_prob D unk) (N.to_nat (lenN D)) lines).
Proof.
  intros x tv env data D secs a bytes p b unk X AT AF HB AS PI SD.
  destruct (C41_mph_partial data D secs (hash_prob_instance env (8 * bytes)) p b unk AT AF PI) as (m & qp & qb & EB & Q1 & Q2 & K).
  destruct (hash_prob_programs x tv env data D secs a bytes p b unk m X AT AF HB AS PI SD EB) as (file & W & H & SC).
  exists file, m, qp, qb. split; [exact W|]. split; [exact H|]. split; [exact EB|]. split; [exact Q1|]. split; [exact Q2|].
  intros HC HX lines HL HBY HD. destruct (K HC HX lines HL HBY HD) as (tot & EK & R). exists tot. split; [|exact R]. apply SC. exact EK.
Qed.
Print Assumptions C48_hash_partial.
Theorem C48_hash_kept_partial : forall x tenv env data D secs a bytes p b unk,
  ext_ok x -> arpa_text data secs -> arpa_file D -> bytes = 4 \/ bytes = 8 ->
  asks_hash_prob a bytes (lenN D) p b unk -> prob_inputs_ok D secs (hash_prob_instance env (8 * bytes)) p b ->
  Forall (Forall (fun l => is_float (fst (pe_sd env (c_str l) 0)))) secs ->
  exists file m qp qb, build_hash_prob x env a (Some (Some data)) = Ok (Wrote (out_name (ra_out a) (hash_prob_name bytes)) file) /\
    (exists h, file_header file = Ok h /\ bh_parse h = hash_prob_name bytes) /\
    mp_build_file (hash_prob_instance env (8 * bytes)) data (lenN D) unk p b = Ok m /\
    (forall ord v, 2 <= ord <= lenN D -> exists r, q_rank (mp_probs m) (ord - 2) v 0 = Ok r /\ r < 2 ^ p /\ q_access (mp_probs m) (ord - 2) r = Ok (qp ord v)) /\
    (forall ord v, 2 <= ord < lenN D -> exists r, q_rank (mp_backoffs m) (ord - 2) v 1 = Ok r /\ r < 2 ^ b /\ q_access (mp_backoffs m) (ord - 2) r = Ok (qb ord v)) /\
    (forall lines, corpus_ok lines -> lenN (corpus_bytes lines) < 2 ^ 62 ->
     (forall ws a g c, In ws lines -> ws = a ++ g ++ c -> 1 <= lenN g <= lenN D -> entry D g = None -> distinguished D (hash_prob_instance env (8 * bytes)) m g) ->
     kept_reports (printed (score_program x tenv env file (corpus_bytes lines))) (supported (quantized D qp qb)) (unk_prob D unk) (N.to_nat (lenN D)) lines).
Proof.
  intros x tv env data D secs a bytes p b unk X AT AF HB AS PI SD.
  destruct (C41_mph_kept_partial data D secs (hash_prob_instance env (8 * bytes)) p b unk AT AF PI) as (m & qp & qb & EB & Q1 & Q2 & K).
  destruct (hash_prob_programs x tv env data D secs a bytes p b unk m X AT AF HB AS PI SD EB) as (file & W & H & SC).
  exists file, m, qp, qb. split; [exact W|]. split; [exact H|]. split; [exact EB|]. split; [exact Q1|]. split; [exact Q2|].
  intros lines HL HBY HD. destruct (K lines HL HBY HD) as (tot & EK & R). exists tot. split; [|exact R]. apply SC. exact EK.
Qed.
Print Assumptions C48_hash_kept_partial.

(** what the arguments refuse *)
Theorem C48_bad_arguments : forall x env a arpa,
  (ra_order a <= 255 -> ra_order a < 2 \/ 8 < ra_order a -> build_trie_prob x env a arpa = Throw) /\
  (2 <= ra_order a <= 8 -> ra_type a <> "ef_trie"%string -> ra_type a <> "pef_trie"%string -> build_trie_prob x env a arpa = Ok (Nothing 1)) /\
  (2 <= ra_order a <= 8 -> ra_type a = "ef_trie"%string \/ ra_type a = "pef_trie"%string ->
     forall u, ra_unk a = Some (f_bits u) -> is_float u -> SFleb (S754_zero false) u = true -> build_trie_prob x env a arpa = Throw) /\
  (2 <= ra_order a <= 8 -> ra_type a = "ef_trie"%string \/ ra_type a = "pef_trie"%string -> ra_unk a = None ->
     forall r, ra_remap a = Some r -> 2 < r <= 255 -> build_trie_prob x env a arpa = Throw) /\
  (2 <= ra_order a <= 8 -> ra_type a = "ef_trie"%string \/ ra_type a = "pef_trie"%string -> ra_unk a = None -> ra_remap a = None ->
     build_trie_prob x env a (Some None) = Throw) /\
  (forall henv, 2 <= ra_order a <= 8 -> ra_bytes a <> 4 -> ra_bytes a <> 8 -> build_hash_prob x henv a arpa = Ok (Nothing 1)).
Proof.
  intros x env a arpa. assert (AO : 2 <= ra_order a <= 8 -> accepted_order (ra_order a) = Ok (ra_order a)).
  { intros L. unfold accepted_order, check_order. rewrite (u8_small (ra_order a)) by lia. destruct (N.ltb_spec (ra_order a) 2); [lia|]. destruct (N.ltb_spec 8 (ra_order a)); [lia|]. reflexivity. }
  assert (DS : forall t, t = "ef_trie"%string \/ t = "pef_trie"%string -> exists ds, (if String.eqb t "ef_trie" then Some 1 else if String.eqb t "pef_trie" then Some 2 else None) = Some ds /\ (ds = 1 \/ ds = 2)).
  { intros t [->| ->]; eexists; split; [reflexivity|auto|reflexivity|auto]. }
  split; [|split; [|split; [|split; [|split]]]].
  - intros L B. unfold build_trie_prob, accepted_order, check_order. rewrite u8_small by exact L. destruct B; [destruct (N.ltb_spec (ra_order a) 2); [reflexivity|lia]|].
    destruct (N.ltb_spec (ra_order a) 2); [lia|]. destruct (N.ltb_spec 8 (ra_order a)); [reflexivity|lia].
  - intros L N1 N2. unfold build_trie_prob. rewrite (AO L). cbn [bind]. destruct (String.eqb_spec (ra_type a) "ef_trie"); [contradiction|]. destruct (String.eqb_spec (ra_type a) "pef_trie"); [contradiction|]. reflexivity.
  - intros L T u HU V G. unfold build_trie_prob. rewrite (AO L). cbn [bind]. destruct (DS _ T) as (ds & -> & _). rewrite HU. unfold check_unk_logprob.
    assert (H : f32_ge0 (f_bits u) = true); [|rewrite H; reflexivity]. destruct u as [[|]|[|]| |s m e]; try discriminate G; try reflexivity. destruct s; [discriminate G|].
    cbn [f_bits]. apply valid_f32 in V. destruct V as [H1 H2].
    assert (GG : forall ex fr, ex < 255 -> fr < 2 ^ 23 -> f32_ge0 (0 + ex * 2 ^ 23 + fr) = true).
    { intros ex fr B1 B2. destruct (pattern_parts false ex fr ltac:(lia) B2) as (E1 & E2 & _). cbv iota in E1, E2. unfold f32_ge0, f32_nan. rewrite E1. cbn [negb orb]. rewrite andb_true_r. unfold shr. rewrite N.shiftr_div_pow2.
      assert (LO : forall z, N.land z 255 = z mod 256) by (intro z; change 255 with (N.ones 8); apply N.land_ones). rewrite LO, E2. destruct (N.eqb_spec ex 255); [lia|reflexivity]. }
    destruct (N.ltb_spec (N.pos m) (2 ^ 23)).
    + specialize (GG 0 (N.pos m) ltac:(lia) ltac:(lia)). exact GG.
    + apply GG; lia.
  - intros L T HU r HR LR. unfold build_trie_prob. rewrite (AO L). cbn [bind]. destruct (DS _ T) as (ds & -> & _). rewrite HU, HR. cbn [bind]. unfold check_remapping_order. rewrite u8_small by lia.
    destruct (N.ltb_spec 2 r); [reflexivity|lia].
  - intros L T HU HR. unfold build_trie_prob. rewrite (AO L). cbn [bind]. destruct (DS _ T) as (ds & -> & D). rewrite HU, HR. cbn [bind]. destruct D as [->| ->]; reflexivity.
  - intros henv L N1 N2. unfold build_hash_prob. rewrite (AO L). cbn [bind]. destruct (N.eqb_spec (ra_bytes a) 4); [contradiction|]. destruct (N.eqb_spec (ra_bytes a) 8); [contradiction|]. reflexivity.
Qed.
Print Assumptions C48_bad_arguments.

(** The numbers of bits are not checked but cut to 8 bits: --p 264 is --p 8. *)
Theorem C48_bits_wrap : forall x env henv a arpa p, ra_p a = Some (p + 256) ->
  let a' := mkprargs (ra_type a) (ra_bytes a) (ra_order a) (ra_remap a) (Some p) (ra_b a) (ra_unk a) (ra_out a) in
  build_trie_prob x env a arpa = build_trie_prob x env a' arpa /\ build_hash_prob x henv a arpa = build_hash_prob x henv a' arpa.
Proof.
  intros x env henv a arpa p HP a'. assert (E : bits_arg (ra_p a) = bits_arg (ra_p a')).
  { rewrite HP. unfold bits_arg, u8. unfold a'; cbn [ra_p]. change 255 with (N.ones 8). rewrite !N.land_ones. change (2 ^ 8) with 256. replace (p + 256) with (p + 1 * 256) by lia. apply N.mod_add. discriminate. }
  split; [unfold build_trie_prob|unfold build_hash_prob]; rewrite E; reflexivity.
Qed.
Print Assumptions C48_bits_wrap.

(** score refuses files of count models *)
Theorem C48_count_file_refused : forall x tenv henv h body corpus, h < 2 ^ 8 -> N.testbit h 2 = false ->
  score_program x tenv henv (h :: body) corpus = Ok (Not_supported (bh_parse h)).
Proof.
  intros x tv hv h body corpus H T. unfold score_program. assert (E : file_header (h :: body) = Ok h).
  { unfold file_header. change (h :: body) with ([h] ++ body). replace ([h] ++ body) with (save_pod 1 h ++ body); [rewrite (pod1_ok h H); reflexivity|]. cbn. rewrite N.mod_small by exact H. reflexivity. }
  rewrite E. cbn [bind]. assert (DD : forall h, h < 2 ^ 8 -> N.testbit h 2 = false -> dispatch trie_prob_types (bh_parse h) = None /\ dispatch hash_prob_types (bh_parse h) = None).
  { clear. intros h H. assert (F : forallb (fun h => N.testbit h 2 || match dispatch trie_prob_types (bh_parse h), dispatch hash_prob_types (bh_parse h) with None, None => true | _, _ => false end) (range 256) = true) by (vm_compute; reflexivity).
    rewrite forallb_forall in F. specialize (F h). assert (I : In h (range 256)) by (unfold range; apply In_seqN; change (2 ^ 8) with 256 in H; cbn; lia). specialize (F I). intros T. rewrite T in F. cbn [orb] in F.
    destruct (dispatch trie_prob_types (bh_parse h)), (dispatch hash_prob_types (bh_parse h)); try discriminate F. auto. }
  destruct (DD h H T) as [-> ->]. reflexivity.
Qed.
Print Assumptions C48_count_file_refused.

(** ** concrete cases: the files of the examples of C41 and C40, 2 bits *)
Definition px_env (remap : N) : qenv := mkqenv (txenv 0 [77]) false (fun _ => M_Pef.mkpads [0] [0]).
Definition px_args (pef : bool) (remap : N) : prob_args := mkprargs (structure_name pef) 0 3 (Some remap) (Some 2) (Some 2) None None.
Definition px_hargs (bytes : N) : prob_args := mkprargs "" bytes 3 None (Some 2) (Some 2) (Some (f_bits default_unk)) (Some "model"%string).
Example px_asks : forall pef remap, asks_prob (px_args pef remap) pef 3 remap 2 2 default_unk.
Proof. intros pef remap. repeat split; try (left; reflexivity). right. split; reflexivity. Qed.
Example px_hasks : forall bytes, asks_hash_prob (px_hargs bytes) bytes 3 2 2 default_unk.
Proof. intros bytes. repeat split; left; [reflexivity|reflexivity|split; reflexivity]. Qed.
Example C48_trie_example_hyps : forall remap, remap <= 1 -> ext_ok ex_x /\ arpa_text txfile txsecs /\ arpa_file txD /\ collection (reversed txD) remap /\
  asks_prob (px_args false remap) false (lenN txD) remap 2 2 default_unk /\ trie_inputs_ok txD txsecs (qe_t (prob_instance (px_env remap) (pinst false remap))) remap 2 2 /\ closed (entry txD).
Proof.
  intros remap R. split; [exact ex_x_ok|]. split; [exact C41_ex_text|]. destruct (C25_trie_example_hyps remap R) as (H1 & H2 & H3 & H4). split; [exact H1|]. split; [exact H2|]. split; [apply px_asks|]. split; [exact H3|exact H4].
Qed.
Example C48_trie_example : forall remap, remap = 0 \/ remap = 1 -> exists file,
  build_trie_prob ex_x (px_env remap) (px_args false remap) (Some (Some txfile)) = Ok (Wrote (prob_type_name false remap ++ ".out") file) /\
  reports (printed (score_program ex_x (px_env remap) (exenv 64) file (corpus_bytes txlines))) (txM remap) default_unk 3 txlines.
Proof.
  assert (G : forall remap, remap = 0 \/ remap = 1 -> match build_trie_prob ex_x (px_env remap) (px_args false remap) (Some (Some txfile)) with
    | Ok (Wrote n f) => n = (prob_type_name false remap ++ ".out")%string /\ match printed (score_program ex_x (px_env remap) (exenv 64) f (corpus_bytes txlines)) with
       | Ok (tot, n) => n = 9 /\ tt_sentences tot = 2 /\ tt_oovs tot = 1 /\ tt_prob tot = corpus_prob (txM remap) default_unk 3 txlines /\ tt_oov_prob tot = corpus_oov_prob (txM remap) default_unk 3 txlines /\ known_tokens 9 tot = 8
       | _ => False end | _ => False end) by (intros remap [->| ->]; vm_compute; repeat split).
  intros remap R. specialize (G remap R). destruct (build_trie_prob _ _ _ _) as [[n f|c]| |]; try contradiction. destruct G as [-> G]. exists f. split; [reflexivity|].
  destruct (printed _) as [[tot n]| |]; try contradiction. destruct G as (-> & G1 & G2 & G3 & G4 & G5). exists tot. split; [reflexivity|]. split; [exact G1|]. split; [rewrite G2; vm_compute; reflexivity|].
  rewrite G3, G4. split; [apply feq_refl|]. split; [apply feq_refl|]. change (lenN (concat txlines)) with 9. rewrite G5. destruct R as [->| ->]; vm_compute; reflexivity.
Qed.

Example C48_hash_example_hyps : forall bytes, bytes = 4 \/ bytes = 8 -> ext_ok ex_x /\ arpa_text (exfile 3) (exsecs 3) /\ arpa_file (exD 3) /\
  asks_hash_prob (px_hargs bytes) bytes (lenN (exD 3)) 2 2 default_unk /\ prob_inputs_ok (exD 3) (exsecs 3) (hash_prob_instance (exenv 0) (8 * bytes)) 2 2 /\
  Forall (Forall (fun l => is_float (fst (pe_sd (exenv 0) (c_str l) 0)))) (exsecs 3) /\ closed (entry (exD 3)).
Proof.
  intros bytes B. split; [exact ex_x_ok|]. split; [exact C40_ex_text|]. destruct (C25_example_hyps 3 (8 * bytes)) as (H1 & H2 & H3); [right; reflexivity|lia|].
  split; [exact H1|]. split; [apply px_hasks|]. split; [exact H2|]. split; [repeat constructor|exact H3].
Qed.
(** a run *)
Example C48_hash_example : forall bytes, bytes = 4 \/ bytes = 8 ->
  match build_hash_prob ex_x (exenv 0) (px_hargs bytes) (Some (Some (exfile 3))) with
  | Ok (Wrote n f) => n = "model"%string /\ match printed (score_program ex_x (px_env 0) (exenv 0) f (corpus_bytes txlines)) with
       | Ok (tot, n) => n = 9 /\ tt_sentences tot = 2 /\ tt_oovs tot = 1 /\ SFltb (tt_prob tot) default_unk = true
       | _ => False end
  | _ => False end.
Proof. intros bytes [->| ->]; vm_compute; repeat split. Qed.
