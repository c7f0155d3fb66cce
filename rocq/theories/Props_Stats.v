(** * Property C49: the statistics printed for a model file *)
From Coq Require Import Floats.SpecFloat.
From Verif Require Import Prelude BitFacts M_Word M_Bits Spec M_CompactVector M_DArray M_EF M_HashVec M_Mph M_FastEF M_Text M_SeqColl P_SeqColl M_Pool P_FastEF3 P_Trie1 P_Trie3
  M_Trie Spec_Trie P_Trie4 Props_Trie M_MphCount Props_MphCount M_Score Spec_Katz M_Quant M_MphProb Spec_Arpa P_MphProb Props_MphProb M_TrieProb P_TrieProb1 Props_TrieProb
  M_Save M_Save2 Spec_Save Spec_Save2 Props_Save Props_Save2 Props_Programs M_Stats Spec_Stats Spec_Report P_Stats8 P_Stats9.
From Coq Require Import Permutation Sorting.Sorted.

(** The report of a model file that was written by a build.  [ho]: the standard library's heap functions;
    [cap]: the capacity reserve(5) gave the queue of the largest ranges; [vo]: bytes vec_bytes counts
    for the length of a vector.  A count trie: *)
Theorem C49_trie : forall (x : ext) (header : N) D remap env t ho cap vo, ext_ok x -> is_u8 header ->
  heap_functions (ho_push ho) (ho_pop ho) -> 0 < cap < 2 ^ 64 -> vo <= 8 ->
  collection D remap -> inputs_ok D remap env ->
  trie_build env (map (map line) D) (lenN D) remap = Ok t ->
  let f := save_file header (save_trie x (te_kind env)) t in
  exists r, print_trie x ho cap vo (te_kind env) f = Ok r /\
    tr_order r = lenN D /\ tr_grams r = lenN (concat D) /\ tr_bytes r = lenN f /\
    tr_vocab r + tr_values r + tr_grams_bytes r + tr_ranks_bytes r + tr_ptrs_bytes r <= tr_bytes r /\
    tr_unique r = map (fun l => distinct (map snd l)) D /\
    lenN (tr_levels r) = lenN D /\ forall k lr, nthN (tr_levels r) k = Some lr -> level_right D remap cap k lr.
Proof.
  intros x h D remap env t ho cap vo X H HF HK HV C IO E f.
  destruct (C30_built_trie_restored x h D remap env t X H C IO E) as [_ LD]. fold f in LD.
  unfold print_trie. rewrite LD. cbn [bind]. cbv beta iota. exact (trie_stats_ok D remap C env (inputs_env _ _ _ IO) x h ho cap vo t HF HK HV E).
Qed.
Print Assumptions C49_trie.
(** A probability trie: its levels hold the n-grams with their words in reverse order. *)
Theorem C49_trie_prob : forall (x : ext) (header : N) D secs env remap pq bq unk m ho cap vo, ext_ok x -> is_u8 header ->
  heap_functions (ho_push ho) (ho_pop ho) -> 0 < cap < 2 ^ 64 -> vo <= 8 ->
  arpa_file D -> collection (reversed D) remap -> trie_inputs_ok D secs env remap pq bq -> is_float unk ->
  tp_build env secs (lenN D) remap unk pq bq = Ok m ->
  let f := save_file header (save_tpl x) m in
  exists r, print_tprob x ho cap vo f = Ok r /\
    qr_order r = lenN D /\ qr_grams r = lenN (concat D) /\ qr_bytes r = lenN f /\
    qr_vocab r + qr_probs r + qr_backoffs r + qr_grams_bytes r + qr_ranks_bytes r + qr_ptrs_bytes r <= qr_bytes r /\
    lenN (qr_levels r) = lenN D /\ forall k lr, nthN (qr_levels r) k = Some lr -> level_right (reversed D) remap cap k lr.
Proof.
  intros x h D secs env remap pq bq unk m ho cap vo X H HF HK HV AF C TI FU E f.
  destruct (C30_built_trie_prob_restored x h D secs env remap pq bq unk m X H AF C TI FU E) as [_ LD]. fold f in LD.
  unfold print_tprob. rewrite LD. cbn [bind]. cbv beta iota. exact (tprob_stats_ok D secs env remap pq bq AF C TI x h ho cap vo unk m HF HK HV FU E).
Qed.
Print Assumptions C49_trie_prob.
(** A hash model of counts (the shares of the space are computed with 64-bit numbers): *)
Theorem C49_hash_count : forall (x : ext) (header : N) D env m, ext_ok x -> is_u8 header ->
  gram_files D -> mph_inputs_ok D env ->
  mc_build env (map (map line) D) (lenN D) = Ok m ->
  let f := save_file header (save_mcl x (me_hb env)) m in lenN f < 2 ^ 64 ->
  exists r, print_mcl x (me_hb env) f = Ok r /\
    mr_order r = lenN D /\ mr_grams r = lenN (concat D) /\ mr_bytes r = lenN f /\ mr_unique r = map (fun l => distinct (map snd l)) D /\
    mr_keys r = me_hb env / 8 * lenN (concat D) /\ mr_keys r + mr_counts r = fst (mr_values r) + sumN (mr_tables r) /\
    mr_keys r + mr_counts r + mr_functions r = mr_bytes r.
Proof.
  intros x h D env m X H GF MI E f HB. pose proof (gf_order _ GF) as HO. pose proof (mi_sorts _ _ MI) as F2.
  destruct (C30_built_mph_count_restored x h env (map (map line) D) (lenN D) m X H) as [_ LD]; [unfold is_u8; lia|destruct (mi_bits _ _ MI) as [Q|[Q _]]; auto| | | |exact E|].
  - apply Forall_forall. intros f0 Hf. apply in_map_iff in Hf. destruct Hf as (l & <- & Hl). apply In_nthN in Hl. destruct Hl as (k & Hk). destruct (gf_size _ GF k l Hk). rewrite lenN_map. lia.
  - apply Forall2_len in F2. unfold lenN. congruence.
  - assert (CT : forall l e, In l D -> In e l -> snd e < 2 ^ 64 - 1). { intros l [g c] Hl He. apply In_nthN in Hl. destruct Hl as (k & Hk). apply (gf_words _ GF k l g c Hk He). }
    clear - F2 CT. apply Forall_forall. intros s Hs. induction F2 as [|l s0 D0 S0 P F IH]; [destruct Hs|]. destruct Hs as [<-|Hs]; [|apply IH; [intros l' e Hl; apply CT; right; exact Hl|exact Hs]].
    apply Forall_forall. intros p Hp. apply (Permutation_in _ P) in Hp. assert (V : In (fst p) (map snd l)) by (apply (in_map fst) in Hp; revert Hp; apply with_freq_in).
    apply in_map_iff in V. destruct V as (e & EE & He). pose proof (CT l e (or_introl eq_refl) He). unfold is_u64. rewrite <- EE. lia.
  - fold f in LD. unfold print_mcl. rewrite LD. cbn [bind]. cbv beta iota. exact (mcl_stats_ok D env GF MI x h m E HB).
Qed.
Print Assumptions C49_hash_count.
(** A hash model of probabilities: *)
Theorem C49_hash_prob : forall (x : ext) (header : N) D secs env pq bq unk m, ext_ok x -> is_u8 header ->
  arpa_file D -> prob_inputs_ok D secs env pq bq ->
  Forall (Forall (fun l => is_float (fst (pe_sd env (c_str l) 0)))) secs -> is_float unk ->
  mp_build env secs (lenN D) unk pq bq = Ok m ->
  let f := save_file header (save_mpl x (pe_hb env)) m in lenN f < 2 ^ 64 ->
  exists r, print_mpl x (pe_hb env) f = Ok r /\
    mr_order r = lenN D /\ mr_grams r = lenN (concat D) /\ mr_bytes r = lenN f /\
    mr_keys r = pe_hb env / 8 * lenN (concat D) /\ mr_keys r + mr_counts r = fst (mr_values r) + snd (mr_values r) + sumN (mr_tables r) /\
    mr_keys r + mr_counts r + mr_functions r = mr_bytes r.
Proof.
  intros x h D secs env pq bq unk m X H AF PI SD FU E f HB. pose proof (af_order _ AF) as HO.
  destruct (C30_built_mph_prob_restored x h env secs (lenN D) unk pq bq m X H) as [_ LD]; [unfold is_u8; lia|destruct (pi_bits _ _ _ _ _ PI) as [Q|[Q _]]; auto| |exact SD|exact FU|exact E|].
  - pose proof (pi_lines _ _ _ _ _ PI) as F2. assert (FD : Forall (fun l : list (gram * (spec_float * spec_float)) => lenN l < 2 ^ 63) D).
    { apply Forall_forall. intros l Hl. apply In_nthN in Hl. destruct Hl as (k & Hk). destruct (af_size _ AF k l Hk) as [_ S2]. clear - S2. lia. }
    clear - F2 FD. induction F2 as [|l s D secs H F2 IH]; constructor; [|apply IH; inversion FD; assumption]. inversion FD as [|? ? L _]; subst.
    replace (lenN s) with (lenN l); [exact L|]. apply Forall2_len in H. unfold lenN. congruence.
  - fold f in LD. unfold print_mpl. rewrite LD. cbn [bind]. cbv beta iota. eexists. split; [reflexivity|]. exact (mpl_stats_ok D secs env pq bq AF PI x h unk m E HB).
Qed.
Print Assumptions C49_hash_prob.

(** ** instances *)
Fixpoint insert_asc (x : N) (l : list N) : list N :=
  match l with [] => [x] | y :: r => if x <=? y then x :: l else y :: insert_asc x r end.
Definition sort_asc (l : list N) : list N := fold_right insert_asc [] l.
Lemma insert_asc_perm x l : Permutation (insert_asc x l) (x :: l).
Proof. induction l as [|y l IH]; cbn [insert_asc]; [apply Permutation_refl|]. destruct (x <=? y); [apply Permutation_refl|]. rewrite IH. apply perm_swap. Qed.
Lemma sort_asc_perm l : Permutation (sort_asc l) l.
Proof. induction l as [|y l IH]; [constructor|]. cbn [sort_asc fold_right]. rewrite insert_asc_perm. apply perm_skip. exact IH. Qed.
Lemma insert_asc_sorted x l : StronglySorted N.le l -> StronglySorted N.le (insert_asc x l).
Proof.
  induction 1 as [|y l SS IH F]; cbn [insert_asc]; [repeat constructor|]. destruct (N.leb_spec x y) as [L|L].
  - constructor; [constructor; assumption|]. constructor; [exact L|]. rewrite Forall_forall in F |- *. intros z Hz. specialize (F z Hz). lia.
  - constructor; [exact IH|]. rewrite Forall_forall in F |- *. intros z Hz. apply (Permutation_in _ (insert_asc_perm x l)) in Hz. destruct Hz as [<-|Hz]; [lia|apply F; exact Hz].
Qed.
Lemma sort_asc_sorted l : StronglySorted N.le (sort_asc l).
Proof. induction l as [|y l IH]; [constructor|]. cbn [sort_asc fold_right]. apply insert_asc_sorted. exact IH. Qed.
Lemma sorted_heap l : StronglySorted N.le l -> is_heap l.
Proof.
  intros SS. assert (G : forall i j x y, i < j -> nthN l i = Some x -> nthN l j = Some y -> x <= y).
  { induction SS as [|a l SS IH F]; intros i j x y L Hx Hy; [rewrite nthN_nil in Hx; discriminate|]. rewrite nthN_cons in Hx, Hy. destruct (N.eqb_spec j 0); [lia|].
    destruct (N.eqb_spec i 0); [injection Hx as <-; rewrite Forall_forall in F; apply F; eapply nthN_In; exact Hy|]. apply (IH (i - 1) (j - 1)); [lia|assumption|assumption]. }
  intros i x y Hi Hx Hy. apply (G ((i - 1) / 2) i); [|assumption|assumption]. pose proof (N.div_le_upper_bound (i - 1) 2 (i - 1) ltac:(lia) ltac:(lia)). lia.
Qed.
Definition ex_ho : heap_ops := mkheap sort_asc (fun l => match l with [] => [] | x :: l => sort_asc l ++ [x] end).
Example ex_ho_ok : heap_functions (ho_push ex_ho) (ho_pop ex_ho).
Proof.
  split; cbn [ex_ho ho_push ho_pop].
  - intros l x _. split; [apply sorted_heap, sort_asc_sorted|apply sort_asc_perm].
  - intros x l _. exists (sort_asc l). split; [reflexivity|]. split; [apply sort_asc_perm|apply sorted_heap, sort_asc_sorted].
Qed.
(** the report of the trie of the example of C22, by computation; the theorem applies to it *)
Example C49_example_trie :
  match trie_build (ex_env 0 PSEF) (map (map line) ex_D) 4 0 with
  | Ok t => match print_trie ex_x ex_ho 2 8 PSEF (save_file 5 (save_trie ex_x PSEF) t) with
    | Ok r => tr_order r = 4 /\ tr_grams r = 13 /\ tr_bytes r = 1808 /\ tr_unique r = [4; 5; 2; 1] /\
        map lr_size (tr_levels r) = [4; 5; 3; 1] /\ map lr_universe (tr_levels r) = [None; Some 5; Some 5; Some 1] /\
        map lr_ptrs (tr_levels r) = [Some (mkptrr 5 3 1 2 5 [2; 2]); Some (mkptrr 6 2 1 2 3 [2; 1]); Some (mkptrr 4 1 1 1 1 [1]); None] /\
        map lr_terms (tr_levels r) = [None; Some [2; 2; 1]; Some [2; 1]; None] /\ map lr_occs (tr_levels r) = [None; Some [(1, 2); (2, 1); (3, 1); (0, 1)]; None; None]
    | _ => False end
  | _ => False end.
Proof. vm_compute. repeat match goal with |- _ /\ _ => split; [reflexivity|] end. reflexivity. Qed.
Example C49_example_hyps : ext_ok ex_x /\ heap_functions (ho_push ex_ho) (ho_pop ex_ho) /\ collection ex_D 0 /\ inputs_ok ex_D 0 (ex_env 0 PSEF) /\
  gram_files exm_D /\ mph_inputs_ok exm_D (exm_env 32) /\
  arpa_file txD /\ collection (reversed txD) 1 /\ trie_inputs_ok txD txsecs (txenv 1 [77]) 1 2 2 /\ is_float default_unk /\
  arpa_file (exD 3) /\ prob_inputs_ok (exD 3) (exsecs 3) (exenv 64) 2 2.
Proof.
  split; [apply ex_x_ok|]. split; [apply ex_ho_ok|]. split; [apply ex_collection; lia|]. split; [apply ex_inputs|].
  destruct (C24_example_hyps 32 (or_introl eq_refl)) as [G1 G2]. split; [exact G1|]. split; [exact G2|].
  destruct (C25_trie_example_hyps 1 ltac:(lia)) as (H1 & H2 & H3 & _). split; [exact H1|]. split; [exact H2|]. split; [exact H3|]. split; [reflexivity|].
  destruct (C25_example_hyps 3 64 (or_intror eq_refl) (or_intror eq_refl)) as (P1 & P2 & _). split; [exact P1|exact P2].
Qed.
Example C49_example_hash :
  match mc_build (exm_env 32) (map (map line) exm_D) (lenN exm_D) with
  | Ok m => match print_mcl ex_x 32 (save_file 5 (save_mcl ex_x 32) m) with
    | Ok r => mr_order r = 2 /\ mr_grams r = 6 /\ mr_bytes r = 238 /\ mr_unique r = [3; 2] /\ mr_keys r = 24
    | _ => False end
  | _ => False end.
Proof. vm_compute. repeat match goal with |- _ /\ _ => split; [reflexivity|] end. reflexivity. Qed.
Example C49_example_trie_prob :
  match tx_build 1 [77] with
  | Ok m => match print_tprob ex_x ex_ho 2 8 (save_file 5 (save_tpl ex_x) m) with
    | Ok r => qr_order r = 3 /\ qr_grams r = 11 /\ qr_bytes r = 981 /\ map lr_size (qr_levels r) = [3; 4; 4]
    | _ => False end
  | _ => False end.
Proof. vm_compute. repeat match goal with |- _ /\ _ => split; [reflexivity|] end. reflexivity. Qed.
Example C49_example_hash_prob :
  match mp_build (exenv 64) (exsecs 3) 3 default_unk 2 2 with
  | Ok m => match print_mpl ex_x 64 (save_file 5 (save_mpl ex_x 64) m) with
    | Ok r => mr_order r = 3 /\ mr_grams r = 11 /\ mr_bytes r = 395 /\ mr_keys r = 88
    | _ => False end
  | _ => False end.
Proof. vm_compute. repeat match goal with |- _ /\ _ => split; [reflexivity|] end. reflexivity. Qed.
