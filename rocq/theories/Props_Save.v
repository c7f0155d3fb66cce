(** * Saving and loading (C30)

    [restores sv ld a] ([Spec_Save]): reading, with [ld], a stream that starts with the bytes
    [sv a] gives [a] back, all its members, and stops exactly at the end of those bytes, whatever
    follows.  The predicates [t_...] of [Spec_Save] only say that the members hold values of their
    declared C++ types. *)
From Coq Require Import Floats.SpecFloat.
From Verif Require Import Prelude M_Word M_Bits M_CompactVector M_DArray M_EF M_HashVec M_Mph M_FastEF M_SeqColl
  M_Text M_Trie M_MphCount M_Score M_Quant M_MphProb M_Save Spec_Save P_Save Spec_Trie P_Trie3 P_Trie5 Props_Trie Props_MphCount Props_MphProb
  P_Typed P_Typed2 P_Typed3.

(** ** every structure *)
Theorem C30_structures_restored : forall (x : ext), ext_ok x ->
  (forall v, t_bv v -> restores save_bv load_bv v) /\
  (forall c, t_cv c -> restores save_cv load_cv c) /\
  (forall hb c, hb = 32 \/ hb = 64 -> t_hcv hb c -> restores (save_hcv hb) (load_hcv hb) c) /\
  (forall c, t_ct c -> restores save_ct load_ct c) /\
  (forall d, t_darr d -> restores save_darr load_darr d) /\
  (forall e, t_ef e -> restores save_ef load_ef e) /\
  (forall p, t_pss p -> restores save_pss load_pss p) /\
  (forall c, t_icw c -> restores save_icw load_icw c) /\
  (forall m, t_mphf m -> restores (save_mphf x) (load_mphf x) m) /\
  (forall hb t, hb = 32 \/ hb = 64 -> t_svt hb t -> restores (save_svt x hb) (load_svt x hb) t) /\
  (forall t, t_dvt t -> restores (save_dvt x) (load_dvt x) t) /\
  (forall t, t_umph t -> restores (save_umph x) (load_umph x) t) /\
  (forall f, t_fef f -> restores (save_fef x) (load_fef x) f) /\
  (forall k order a, t_sarr k order a -> restores (save_sarr x k order) (load_sarr x k order) a) /\
  (forall l, Forall t_cv l -> restores save_sc (load_sc (lenN l)) l) /\
  (forall n q, n < 2 ^ 63 -> t_qsc n q -> restores save_qsc (load_qsc n) q).
Proof.
  intros x X. split; [apply bv_ok|]. split; [apply cv_ok|]. split; [apply hcv_ok|]. split; [apply ct_ok|].
  split; [apply darr_ok_|]. split; [apply ef_ok|]. split; [apply pss_ok|]. split; [apply icw_ok|].
  split; [apply mphf_ok; exact X|]. split; [apply svt_ok; exact X|]. split; [apply dvt_ok; exact X|].
  split; [apply umph_ok; exact X|]. split; [apply fef_ok; exact X|]. split; [apply sarr_ok; exact X|].
  split; [intros l F tail; apply sc_ok; [reflexivity|exact F]|]. intros n q Hn T tail. apply qsc_ok; assumption.
Qed.
Print Assumptions C30_structures_restored.

(** ** the file of every model: the header byte is found, the model comes back, and the number of
    bytes reported is the size of the file *)
Theorem C30_model_files_restored : forall (x : ext) (header : N), ext_ok x -> is_u8 header ->
  (forall k t, t_trie k t ->
     let f := save_file header (save_trie x k) t in
     file_header f = Ok header /\ load_file (load_trie x k) f = Ok (t, lenN f)) /\
  (forall hb m, hb = 32 \/ hb = 64 -> t_mcl hb m ->
     let f := save_file header (save_mcl x hb) m in
     file_header f = Ok header /\ load_file (load_mcl x hb) f = Ok (m, lenN f)) /\
  (forall hb m, hb = 32 \/ hb = 64 -> t_mpl hb m ->
     let f := save_file header (save_mpl x hb) m in
     file_header f = Ok header /\ load_file (load_mpl x hb) f = Ok (m, lenN f)).
Proof.
  intros x h X H. split; [|split].
  - intros k t T. apply file_ok; [exact H|]. apply trie_ok; assumption.
  - intros hb m HB T. apply file_ok; [exact H|]. apply mcl_ok; assumption.
  - intros hb m HB T. apply file_ok; [exact H|]. apply mpl_ok; assumption.
Qed.
Print Assumptions C30_model_files_restored.

(** ** every model that a constructor returns can be saved and loaded back

    Count trie: built from any collection of n-grams the constructor is meant for (see C22). *)
Theorem C30_built_trie_restored : forall (x : ext) (header : N) D remap env t, ext_ok x -> is_u8 header ->
  collection D remap -> inputs_ok D remap env ->
  trie_build env (map (map line) D) (lenN D) remap = Ok t ->
  let f := save_file header (save_trie x (te_kind env)) t in
  file_header f = Ok header /\ load_file (load_trie x (te_kind env)) f = Ok (t, lenN f).
Proof.
  intros x h D remap env t X H C IO E. apply (C30_model_files_restored x h X H).
  exact (trie_build_typed D remap C env (inputs_env _ _ _ IO) t E).
Qed.
Print Assumptions C30_built_trie_restored.

(** Hash model of counts: any files of less than 2^63 lines; the dictionaries hold 64-bit counts. *)
Theorem C30_built_mph_count_restored : forall (x : ext) (header : N) env files order m, ext_ok x -> is_u8 header -> is_u8 order ->
  me_hb env = 32 \/ me_hb env = 64 -> Forall (fun f => lenN f < 2 ^ 63) files ->
  lenN (me_sorts env) = order -> Forall (Forall (fun p : N * N => is_u64 (fst p))) (me_sorts env) ->
  mc_build env files order = Ok m ->
  let f := save_file header (save_mcl x (me_hb env)) m in
  file_header f = Ok header /\ load_file (load_mcl x (me_hb env)) f = Ok (m, lenN f).
Proof.
  intros x h env files order m X H HO HB FL LS FS E. apply (C30_model_files_restored x h X H); [exact HB|].
  exact (mc_build_typed env files order m HO HB FL LS FS E).
Qed.
Print Assumptions C30_built_mph_count_restored.

(** Hash model of probabilities: any ARPA sections of less than 2^63 lines; the number read at the
    start of every line is a float. *)
Theorem C30_built_mph_prob_restored : forall (x : ext) (header : N) env secs order unk pq bq m, ext_ok x -> is_u8 header -> is_u8 order ->
  pe_hb env = 32 \/ pe_hb env = 64 -> Forall (fun f => lenN f < 2 ^ 63) secs ->
  Forall (Forall (fun l => is_float (fst (pe_sd env (c_str l) 0)))) secs -> is_float unk ->
  mp_build env secs order unk pq bq = Ok m ->
  let f := save_file header (save_mpl x (pe_hb env)) m in
  file_header f = Ok header /\ load_file (load_mpl x (pe_hb env)) f = Ok (m, lenN f).
Proof.
  intros x h env secs order unk pq bq m X H HO HB FL SD FU E. apply (C30_model_files_restored x h X H); [exact HB|].
  exact (mp_build_typed env secs order unk pq bq m HO HB FL SD FU E).
Qed.
Print Assumptions C30_built_mph_prob_restored.

(** ** a format for the bit pairs: their number and one byte each *)
Definition ex_x : ext := mkext (save_vec 1) (load_vec 1) (7, 9).
Example ex_x_ok : ext_ok ex_x.
Proof.
  split; [reflexivity|]. split; [reflexivity|]. cbn [ex_x x_save x_load]. intros b t (F & L).
  apply vec_ok. split; [|exact L]. eapply Forall_impl; [|exact F]. cbv beta. intros a Ha. change (2 ^ (8 * N.of_nat 1)) with 256. lia.
Qed.
(** the models of the examples of C22, C24 and C25, written and read back, by computation; the
    theorems above apply to them *)
Example C30_example_trie :
  match trie_build (ex_env 1 PSEF) (map (map line) ex_D) 4 1 with
  | Ok t => let f := save_file 5 (save_trie ex_x PSEF) t in lenN f = 1808 /\ file_header f = Ok 5 /\ load_file (load_trie ex_x PSEF) f = Ok (t, lenN f)
  | _ => False end.
Proof. vm_compute. split; [reflexivity|split; reflexivity]. Qed.
Example C30_example_counts :
  match mc_build (exm_env 32) (map (map line) exm_D) (lenN exm_D) with
  | Ok t => let f := save_file 5 (save_mcl ex_x 32) t in lenN f = 238 /\ file_header f = Ok 5 /\ load_file (load_mcl ex_x 32) f = Ok (t, lenN f)
  | _ => False end.
Proof. vm_compute. split; [reflexivity|split; reflexivity]. Qed.
Example C30_example_probs :
  match mp_build (exenv 64) (exsecs 3) 3 default_unk 2 2 with
  | Ok t => let f := save_file 5 (save_mpl ex_x 64) t in lenN f = 395 /\ file_header f = Ok 5 /\ load_file (load_mpl ex_x 64) f = Ok (t, lenN f)
  | _ => False end.
Proof. vm_compute. split; [reflexivity|split; reflexivity]. Qed.
Example C30_example_probs_hyps : Forall (fun f => lenN f < 2 ^ 63) (exsecs 3) /\
  Forall (Forall (fun l => is_float (fst (pe_sd (exenv 64) (c_str l) 0)))) (exsecs 3) /\ is_float default_unk.
Proof. split; [repeat constructor|]. split; [repeat constructor|reflexivity]. Qed.
