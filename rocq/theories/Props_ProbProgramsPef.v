(** * Properties C30 and C48 for probability tries over uniform_pef *)
From Coq Require Import String Floats.SpecFloat.
From Verif Require Import Prelude BitFacts M_Word Spec P_Bits M_Text P_Text P_Text2 M_Pef M_Trie Spec_Trie P_Trie3 M_Score Spec_Katz P_Score1 P_Score2 P_Score3 Props_Score M_Quant P_Quant M_MphProb Spec_Arpa P_Values P_MphProb Props_MphProb
  M_TrieProb P_TrieProb1 P_TrieProb2 P_TrieProb3 P_TrieProb4 Props_TrieProb M_Save P_Save Spec_Save M_Save2 Spec_Save2 P_Save2 Props_Save Props_Save2 M_ArpaFile Spec_ArpaFile Props_ArpaFile
  M_Header M_ScoreCorpus Spec_Corpus Props_ScoreCorpus M_TrieProbPef P_TrieProbBridge M_Programs Spec_Programs M_ProbPrograms Spec_ProbPrograms Props_ProbPrograms
  P_ScoreCorpus Spec_Pef Spec_TriePef Props_TriePef Spec_TrieProbPef P_SavePef3 P_TrieProbPef1 P_TrieProbPef2 P_TrieProbPef3 P_TrieProbPef4 P_TrieProbPef5 Props_TrieProbPef Spec_Supported P_Supported.

Lemma levels_of D secs env remap pq bq : collection (reversed D) remap -> qe_pef env = true -> trie_pef_inputs_ok D secs env remap pq bq -> levels_fit (revD D) remap (genv env).
Proof.
  intros CO HP [TI LV] k Hk. change (M_TriePef.pe_pef (genv env)) with (qe_pef env). rewrite HP. rewrite lenN_revD in Hk. destruct (LV k Hk) as (A1 & A2 & A3 & A4). apply level_ok; auto.
Qed.

(** A probability trie over uniform_pef, built, saved and loaded in a process where other words follow the arrays: the
    same header, all bytes, the same members, and any text is scored from it as C47 says.  Partial: the restrictions of
    C47. *)
Theorem C30_built_pef_trie_prob_restored_partial : forall (x : ext) (header : N) data D secs env env' remap pq bq unk m, ext_ok x -> is_u8 header ->
  qe_pef env = true -> qe_pef env' = true -> qe_t env' = qe_t env -> is_float unk ->
  arpa_text data secs -> arpa_file D -> collection (reversed D) remap -> trie_pef_inputs_ok D secs env remap pq bq -> trie_pef_inputs_ok D secs env' remap pq bq ->
  qp_build_file env data (lenN D) remap unk pq bq = Ok m ->
  let f := save_file header (save_qpl x env) m in
  file_header f = Ok header /\
  exists m' qp qb, load_file (load_qpl x env') f = Ok (m', lenN f) /\ same_qpl m m' /\
    (forall ord v, 2 <= ord <= lenN D -> exists r, q_rank (qp_probs m') (ord - 2) v 0 = Ok r /\ r < 2 ^ pq /\ q_access (qp_probs m') (ord - 2) r = Ok (qp ord v)) /\
    (forall ord v, 2 <= ord < lenN D -> exists r, q_rank (qp_backoffs m') (ord - 2) v 1 = Ok r /\ r < 2 ^ bq /\ q_access (qp_backoffs m') (ord - 2) r = Ok (qb ord v)) /\
    (forall lines, corpus_ok lines -> lenN (corpus_bytes lines) < 2 ^ 62 -> Forall (pef_safe D remap) lines ->
     (forall w, In w (concat lines) -> entry D [w] = None -> qword_distinguished D (qe_t env) (qp_vocab m) w) ->
     kept_reports (qp_corpus env' m' (corpus_bytes lines)) (supported (quantized D qp qb)) (unk_prob D unk) (N.to_nat (lenN D)) lines).
Proof.
  intros x h data D secs env env' remap pq bq unk m X H HP HP' ET FU AT AF CO I1 I2 EB f.
  pose proof (levels_of _ _ _ _ _ _ CO HP I1) as L1. pose proof (levels_of _ _ _ _ _ _ CO HP' I2) as L2.
  pose proof (qi_base _ _ _ _ _ _ I1) as TI. pose proof (qi_base _ _ _ _ _ _ I2) as TI'. pose proof (af_order _ AF) as HO. pose proof (col_remap _ _ (CR D remap CO)) as HR.
  destruct (qp_build_ok D secs env remap pq bq AF CO TI) with (data := data) (unk := unk) as (m0 & EB0 & QR); [|exact AT|].
  { intros k Hk. apply L1. rewrite lenN_revD. exact Hk. }
  rewrite EB in EB0. injection EB0 as <-.
  pose proof (qp_build_made D secs env remap pq bq AF CO TI L1 data unk m AT FU EB) as MD.
  destruct (qpl_restored x X D remap pq bq CO env env' L1 L2 ET (eq_trans HP' (eq_sym HP)) unk m HO HR MD QR []) as (m' & EL & SM & QR'). rewrite app_nil_r in EL.
  unfold file_header, load_file, f, save_file. split; [rewrite (pod1_ok h H); reflexivity|]. exists m', (qfun (qp_probs m') 0), (qfun (qp_backoffs m') 1).
  rewrite (pod1_ok h H). cbn [bind]. cbv beta iota. rewrite EL. cbn [bind]. cbv beta iota. change (lenN (@nil N)) with 0. rewrite N.sub_0_r. split; [reflexivity|]. split; [exact SM|].
  destruct (qp_scores_ok D secs env' remap pq bq AF CO TI' unk m' QR') as (Q1 & Q2 & Q3). split; [exact Q1|]. split; [exact Q2|].
  intros lines HL HB HS HD. apply Q3; auto. destruct SM as (_ & _ & _ & _ & _ & SV & _). rewrite SV, ET. exact HD.
Qed.
Print Assumptions C30_built_pef_trie_prob_restored_partial.

(** build_trie pef_trie, then score, possibly in a process where other words follow the arrays: the file written names the
    type, and scoring any text that stays clear of the wrong answers of uniform_pef prints the totals of Katz back-off.
    Partial: the restrictions of C47. *)
Theorem C48_pef_partial : forall x env env' henv data D secs a remap p b unk,
  ext_ok x -> arpa_text data secs -> arpa_file D -> collection (reversed D) remap ->
  asks_prob a true (lenN D) remap p b unk -> qe_t env' = qe_t env ->
  trie_pef_inputs_ok D secs (prob_instance env (pinst true remap)) remap p b -> trie_pef_inputs_ok D secs (prob_instance env' (pinst true remap)) remap p b ->
  exists file m qp qb, build_trie_prob x env a (Some (Some data)) = Ok (Wrote (out_name (ra_out a) (prob_type_name true remap)) file) /\
    (exists h, file_header file = Ok h /\ bh_parse h = prob_type_name true remap) /\
    qp_build_file (prob_instance env (pinst true remap)) data (lenN D) remap unk p b = Ok m /\
    (forall ord v, 2 <= ord <= lenN D -> exists r, q_rank (qp_probs m) (ord - 2) v 0 = Ok r /\ r < 2 ^ p /\ q_access (qp_probs m) (ord - 2) r = Ok (qp ord v)) /\
    (forall ord v, 2 <= ord < lenN D -> exists r, q_rank (qp_backoffs m) (ord - 2) v 1 = Ok r /\ r < 2 ^ b /\ q_access (qp_backoffs m) (ord - 2) r = Ok (qb ord v)) /\
    (forall lines, corpus_ok lines -> lenN (corpus_bytes lines) < 2 ^ 62 -> Forall (pef_safe D remap) lines ->
     (forall w, In w (concat lines) -> entry D [w] = None -> qword_distinguished D (qe_t (prob_instance env (pinst true remap))) (qp_vocab m) w) ->
     kept_reports (printed (score_program x env' henv file (corpus_bytes lines))) (supported (quantized D qp qb)) (unk_prob D unk) (N.to_nat (lenN D)) lines).
Proof.
  intros x env env' henv data D secs a remap p b unk X AT AF CO (A1 & A2 & A3 & A4 & A5 & A6) ET I1 I2.
  set (e := prob_instance env (pinst true remap)) in *. set (e' := prob_instance env' (pinst true remap)) in *. pose proof (af_order _ AF) as HO. pose proof (col_remap _ _ (CR D remap CO)) as HR.
  destruct (C47_pef_partial data D secs e remap p b unk eq_refl AT AF CO I1) as (m & _ & _ & EB & _).
  pose proof (qi_base _ _ _ _ _ _ I1) as TI.
  pose proof (vi_pq _ _ _ _ _ (VIN _ _ _ _ _ _ TI)) as [P1 _]. pose proof (vi_bq _ _ _ _ _ (VIN _ _ _ _ _ _ TI)) as [P2 _].
  destruct (unk_arg_is _ _ A6) as [U1 U2]. destruct (prob_header true remap HR) as (h & H1 & H2 & H3 & H4).
  assert (TE : qe_t e' = qe_t e) by (unfold e, e', prob_instance; cbn [qe_t]; rewrite ET; reflexivity).
  destruct (C30_built_pef_trie_prob_restored_partial x h data D secs e e' remap p b unk m X H2 eq_refl eq_refl TE (proj1 A6) AT AF CO I1 I2 EB) as (HD & m' & qp & qb & LD & SM & Q1 & Q2 & K).
  assert (SP : qp_probs m' = qp_probs m /\ qp_backoffs m' = qp_backoffs m) by (destruct SM as (_ & _ & _ & S1 & S2 & _); auto). destruct SP as [S1 S2]. rewrite S1 in Q1. rewrite S2 in Q2.
  exists (save_file h (save_qpl x e) m), m, qp, qb. split; [|split; [|split; [exact EB|split; [exact Q1|split; [exact Q2|]]]]].
  - unfold build_trie_prob, accepted_order, check_order. rewrite A1, A2, (u8_small (lenN D)) by lia.
    destruct (N.ltb_spec (lenN D) 2); [lia|]. destruct (N.ltb_spec 8 (lenN D)); [lia|]. cbn [bind].
    change (structure_name true) with "pef_trie"%string. change (String.eqb "pef_trie" "ef_trie") with false. change (String.eqb "pef_trie" "pef_trie") with true. cbv iota. rewrite U1. cbn [bind].
    assert (RM : match ra_remap a with Some r => _ <- check_remapping_order r ;; Ok r | None => Ok 0 end = Ok remap).
    { destruct A3 as [->|(-> & ->)]; [|reflexivity]. unfold check_remapping_order. rewrite (u8_small remap) by lia. destruct (N.ltb_spec 2 remap); [lia|reflexivity]. }
    rewrite RM. cbn [bind]. rewrite H1. cbn [bind]. rewrite H3, H4. cbn [open_arpa bind]. fold e.
    rewrite U2, (bits_arg_is _ _ A4), (bits_arg_is _ _ A5), (u8_small remap) by lia. rewrite EB. cbn [bind]. reflexivity.
  - exists h. split; [exact HD|exact H3].
  - intros lines HL HB HS HW. specialize (K lines HL HB HS HW). unfold score_program. rewrite HD. cbn [bind]. rewrite H3, H4. fold e'.
    rewrite LD. cbn [bind]. cbv beta iota. unfold kept_reports in *. destruct K as (tot & EK & K). exists tot. split; [|exact K]. rewrite EK. reflexivity.
Qed.
Print Assumptions C48_pef_partial.

(** ** concrete cases: the table, file and lines of C47; other words follow the arrays in the scoring process *)
Definition pxq (pad : N) : qenv := mkqenv (txenv 0 [77]) false (fun _ => M_Pef.mkpads [pad] [pad]).
Example C48_pef_example_hyps : forall remap pad, remap = 0 \/ remap = 1 -> pad < 2 ^ 64 -> ext_ok ex_x /\ arpa_text txfile txsecs /\ arpa_file txD /\ collection (reversed txD) remap /\
  asks_prob (px_args true remap) true (lenN txD) remap 2 2 default_unk /\ trie_pef_inputs_ok txD txsecs (prob_instance (pxq pad) (pinst true remap)) remap 2 2 /\
  closed (entry txD) /\ Forall (pef_safe txD remap) qxlines.
Proof.
  intros remap pad HR HP. assert (R1 : remap <= 1) by (destruct HR; lia). destruct (C48_trie_example_hyps remap R1) as (H1 & H2 & H3 & H4 & _ & H6 & H7).
  split; [exact H1|]. split; [exact H2|]. split; [exact H3|]. split; [exact H4|]. split; [apply px_asks|]. split; [|split; [exact H7|apply C47_ex_safe; exact HR]].
  destruct (C47_ex_inputs remap HR) as [_ LV]. split; [apply base_of; exact H6|]. intros k Hk. destruct (LV k Hk) as (B1 & _ & B3 & B4).
  split; [exact B1|]. split; [exists pad, pad; split; [reflexivity|split; exact HP]|]. split; assumption.
Qed.

(** a run: built with one word after the arrays, scored with another; the scores are those of an Elias-Fano trie *)
Example C48_pef_example : forall remap, remap = 0 \/ remap = 1 ->
  match build_trie_prob ex_x (pxq 0) (px_args true remap) (Some (Some txfile)), build_trie_prob ex_x (pxq 0) (px_args false remap) (Some (Some txfile)) with
  | Ok (Wrote n f), Ok (Wrote _ f0) => n = (prob_type_name true remap ++ ".out")%string /\
      match printed (score_program ex_x (pxq 77) (exenv 64) f (corpus_bytes qxlines)), printed (score_program ex_x (pxq 77) (exenv 64) f0 (corpus_bytes qxlines)) with
      | Ok (tot, n), Ok (tot0, _) => n = 7 /\ tt_sentences tot = 2 /\ tt_oovs tot = 1 /\ SFltb (tt_prob tot) default_unk = true /\ tot = tot0
      | _, _ => False end
  | _, _ => False end.
Proof. intros remap [->| ->]; vm_compute; repeat split. Qed.
