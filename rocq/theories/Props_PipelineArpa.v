(** * C53: from an unsorted ARPA file to scores *)
From Coq Require Import String Floats.SpecFloat.
From Verif Require Import Prelude BitFacts M_Word M_Text M_Pool M_Trie M_Sort M_SortArpa
  Spec Spec_Trie Spec_Sort Spec_Arpa Spec_ArpaFile Spec_Pipeline Spec_PipelineArpa P_Trie4 P_Pipeline P_PipelineArpa Props_SortArpa.
From Verif Require Import M_Score Spec_Katz M_Quant M_MphProb P_MphProb P_TrieProb1 P_TrieProb4 M_TrieProb M_TrieProbPef M_Save M_ArpaFile Spec_Save Spec_Corpus M_ScoreCorpus Props_MphProb Props_TrieProb Props_Save Props_ScoreCorpus M_Header M_Programs Spec_Programs M_ProbPrograms Spec_ProbPrograms Props_ProbPrograms Spec_Supported P_Supported.
From Verif Require Spec_SortArpa P_Sort2 Props_Sort P_Trie1 Props_Pipeline.
Import Spec_SortArpa Spec_ProbPrograms M_SortArpa P_PipelineArpa.
From Coq Require Import Permutation Sorting.Sorted.
Local Open Scope N_scope.
Local Open Scope list_scope.

(** what a run of sort_arpa on a section needs (as for sort_grams, C52) *)
Record sortable_section (env : senv) (vocab : list (list N * N)) (es : list (gram * (spec_float * spec_float))) : Prop := {
  sc_vocab : P_Sort2.sort_env_ok env vocab;
  sc_ram : se_ram env < 2 ^ 63;
  sc_room : forall e, In e es -> lenN (join (fst e)) <= se_ram env;
  sc_two : 2 <= lenN es;
  sc_last : forall bs, batches (se_ram env) es bs -> forall bs' e, bs <> bs' ++ [[e]] }.
(** the vocabulary file lists the words of the unigram section, in that order *)
Definition vocabulary_of (U : entries) (vocab : list (list N * N)) : Prop := grams U 0 = map (fun e => [fst e]) vocab.

(** sort_arpa run on each section after the first gives sections that are read as the entries in the order needed for a trie *)
Theorem C53_sorted_sections : forall U remap data secs vocab envs sd fmt rr srt,
  unsorted_arpa U remap -> plain_arpa data secs -> Forall2 (Forall2 (arpa_line sd)) U secs -> vocabulary_of U vocab -> rereads sd fmt rr -> std_sort srt ->
  (forall k l, 0 < k -> nthN U k = Some l -> sortable_section (envs (k + 1)) vocab l) ->
  exists D secs', sorted_arpa U rr D /\ arpa_file D /\ collection (reversed D) remap /\ Forall2 (Forall2 (arpa_line sd)) D secs' /\
    lenN secs' = lenN secs /\ nthN secs' 0 = nthN secs 0 /\
    forall k s, 0 < k -> nthN secs' k = Some s -> sort_arpa (mkaenv (envs (k + 1)) sd fmt) srt (P_Sort2.vocab_lines vocab) (k + 1) data = Ok (title (k + 1) :: s).
Proof.
  intros U remap data secs vocab envs sd fmt rr srt HU PA FL HV RR SRT SO. pose proof (ua_file _ _ HU) as AF.
  assert (LS : lenN secs = lenN U) by (clear - FL; induction FL as [|? ? ? ? _ _ IH]; [reflexivity|rewrite !lenN_cons, IH; reflexivity]).
  assert (VW : forall w, In [w] (grams U 0) <-> In w (map fst vocab)).
  { intros w. rewrite HV. split; intros H.
    - apply in_map_iff in H. destruct H as (e & E & H). injection E as <-. apply in_map. exact H.
    - apply in_map_iff in H. destruct H as (e & <- & H). apply (in_map (fun e : list N * N => [fst e])) in H. exact H. }
  assert (IG : forall k l e, nthN U k = Some l -> In e l -> In (fst e) (grams U k)) by (intros k l e Hl He; unfold grams; rewrite Hl; apply in_map; exact He).
  assert (CH : forall k l, nthN U k = Some l -> exists ls : list (gram * (spec_float * spec_float)) * list (list N),
    Forall2 (arpa_line sd) (fst ls) (snd ls) /\ (k = 0 -> fst ls = l /\ nthN secs 0 = Some (snd ls)) /\
    (0 < k -> sort_arpa (mkaenv (envs (k + 1)) sd fmt) srt (P_Sort2.vocab_lines vocab) (k + 1) data = Ok (title (k + 1) :: snd ls) /\
      Permutation (map (reread rr) l) (fst ls) /\ StronglySorted (gram_lt (grams U 0)) (map (fun e => rev (fst e)) (fst ls)))).
  { intros k l Hl. destruct (nthN_Some secs k) as (ll & Hll); [rewrite LS; exact (nthN_lt _ _ _ Hl)|].
    pose proof (Forall2_nthN _ _ _ _ _ _ FL Hl Hll) as FE. destruct (N.eq_dec k 0) as [->|NZ].
    - exists (l, ll). cbn [fst snd]. split; [exact FE|]. split; [intros _; split; [reflexivity|exact Hll]|lia].
    - destruct (SO k l ltac:(lia) Hl) as [S1 S2 S3 S4 S5].
      assert (AI : arpa_input (map fst vocab) (k + 1) (se_ram (envs (k + 1))) l).
      { apply Forall_forall. intros e He. destruct (af_words _ AF k l e Hl He) as [W1 W2]. split; [split; [exact W1|]|exact (S3 e He)].
        apply Forall_forall. intros w Hw. apply VW. apply (ua_voc _ _ HU k (fst e) w); [exact (IG k l e Hl He)|exact Hw]. }
      destruct (C43_batches_exist (map fst vocab) (k + 1) (se_ram (envs (k + 1))) l AI) as (bs & B & _).
      destruct (C43_sorted_partial (mkaenv (envs (k + 1)) sd fmt) vocab srt data secs (k + 1) ll l bs S1 (rereads_prints _ _ _ RR) SRT S2 PA ltac:(lia)
        ltac:(replace (k + 1 - 1) with k by lia; exact Hll) FE AI S4 B (S5 bs B)) as (es & E & P & O).
      cbn [ae_fmt] in E. exists (map (reread rr) es, map (Spec_SortArpa.printed fmt) es). cbn [fst snd]. split.
      { clear - RR. induction es as [|e es IH]; constructor; [apply printed_reread; exact RR|exact IH]. }
      split; [intros; lia|]. intros _. split; [exact E|]. split; [apply Permutation_map; exact P|].
      rewrite map_map. change (fun x => rev (fst (reread rr x))) with (fun x : gram * (spec_float * spec_float) => rev (fst x)).
      apply (suffix_sorted _ (map fst vocab) (k + 1)); [rewrite HV, map_map; reflexivity| | |exact O].
      + eapply Permutation_NoDup; [apply Permutation_map; exact P|]. pose proof (af_distinct _ AF k) as Q. unfold grams in Q. rewrite Hl in Q. exact Q.
      + intros e He. apply (af_words _ AF k l e Hl). apply (Permutation_in _ (Permutation_sym P)). exact He. }
  destruct (choose_list _ U CH) as (DS & LD & HR). cbv beta in HR. clear CH.
  set (D := map fst DS). set (secs' := map snd DS).
  assert (LDD : lenN D = lenN U) by (unfold D; rewrite lenN_map; exact LD).
  assert (UD : forall k l', nthN D k = Some l' -> exists l s, nthN U k = Some l /\ nthN DS k = Some (l', s)).
  { intros k l' Hl. unfold D in Hl. rewrite nthN_map in Hl. destruct (nthN DS k) as [[a b]|] eqn:E; [|discriminate]. injection Hl as <-. destruct (nthN_Some U k) as (l & Hl); [rewrite <- LD; exact (nthN_lt _ _ _ E)|]. exists l, b. auto. }
  assert (DU : forall k l, nthN U k = Some l -> exists l', nthN D k = Some l'). { intros k l Hl. apply nthN_Some. rewrite LDD. exact (nthN_lt _ _ _ Hl). }
  assert (D0 : nthN D 0 = nthN U 0).
  { destruct (nthN_Some D 0) as (b & Hb); [pose proof (af_order _ AF); lia|]. rewrite Hb. destruct (UD 0 b Hb) as (l & s & Hl & Hs). rewrite Hl. destruct (HR 0 l (b, s) Hl Hs) as (_ & Q & _). destruct (Q eq_refl) as [E _]. cbn [fst] in E. congruence. }
  assert (PM : forall k l l', nthN U k = Some l -> nthN D k = Some l' -> Permutation (map fst l) (map fst l') /\ (0 < k -> Permutation (map (reread rr) l) l')).
  { intros k l l' Hl Hl'. destruct (UD k l' Hl') as (l2 & s & Hl2 & Hs). assert (l2 = l) by congruence. subst l2. destruct (HR k l (l', s) Hl Hs) as (_ & Q0 & Q1). cbn [fst snd] in *.
    destruct (N.eq_dec k 0) as [->|NZ]; [destruct (Q0 eq_refl) as [-> _]; split; [reflexivity|lia]|]. destruct (Q1 ltac:(lia)) as (_ & P & _).
    split; [rewrite <- (map_fst_reread rr l); apply Permutation_map; exact P|intros _; exact P]. }
  assert (GP : forall k, Permutation (grams U k) (grams D k)).
  { intros k. unfold grams. destruct (nthN D k) as [b|] eqn:Eb.
    - destruct (UD k b Eb) as (a & s & Ea & _). rewrite Ea. apply (PM k a b Ea Eb).
    - rewrite nthN_None; [constructor|]. rewrite <- LDD. destruct (N.lt_ge_cases k (lenN D)) as [L|L]; [|exact L]. destruct (nthN_Some D k L). congruence. }
  assert (GI : forall k g, In g (grams D k) <-> In g (grams U k)) by (intros k g; split; apply Permutation_in; [apply Permutation_sym|]; apply GP).
  assert (G0 : grams D 0 = grams U 0) by (unfold grams; rewrite D0; reflexivity).
  assert (G0R : map (@rev (list N)) (grams U 0) = grams U 0). { rewrite HV, map_map. reflexivity. }
  assert (SG : forall k, 0 < k -> StronglySorted (gram_lt (grams U 0)) (grams (reversed D) k)).
  { intros k Hk. rewrite grams_reversed. unfold grams at 2. destruct (nthN D k) as [b|] eqn:Eb; [|constructor]. destruct (UD k b Eb) as (a & s & Ea & Es). destruct (HR k a (b, s) Ea Es) as (_ & _ & Q). cbn [fst] in Q. destruct (Q Hk) as (_ & _ & S). rewrite map_map. exact S. }
  assert (GL : forall k g, In g (grams U k) -> lenN g = k + 1 /\ Forall (fun w => word w /\ ~ In 9 w) g).
  { intros k g Hg. unfold grams in Hg. destruct (nthN U k) as [l|] eqn:El; [|destruct Hg]. apply in_map_iff in Hg. destruct Hg as (e & <- & He). exact (af_words _ AF k l e El He). }
  assert (RI : forall k g, In g (grams (reversed D) k) <-> In (rev g) (grams U k)).
  { intros k g. rewrite grams_reversed. split; intros H.
    - apply in_map_iff in H. destruct H as (x & <- & H). rewrite rev_involutive. apply GI. exact H.
    - apply in_map_iff. exists (rev g). split; [apply rev_involutive|apply GI; exact H]. }
  exists D, secs'. split; [|split; [|split; [|split; [|split; [|split]]]]].
  - split; [exact LDD|]. split; [exact D0|]. intros k l l' Hk Hl Hl'. split; [apply (PM k l l' Hl Hl'); exact Hk|].
    pose proof (SG k Hk) as S. rewrite grams_reversed in S. unfold grams at 2 in S. rewrite Hl', map_map in S. exact S.
  - destruct AF as [A1 A2 A3 A4 A5]. split.
    + rewrite LDD. exact A1.
    + intros k l' Hl'. destruct (UD k l' Hl') as (l & s & Hl & _). destruct (A2 k l Hl) as [B1 B2]. destruct (PM k l l' Hl Hl') as [P _]. pose proof (Permutation_length P) as PL. rewrite !map_length in PL.
      split; [intros ->; destruct l; [congruence|discriminate]|]. unfold lenN in *. rewrite <- PL. exact B2.
    + intros k l' e Hl' He. destruct (UD k l' Hl') as (l & s & Hl & _). apply (GL k). apply GI. unfold grams. rewrite Hl'. apply in_map. exact He.
    + intros k. eapply Permutation_NoDup; [apply GP|apply A4].
    + intros k l' e Hl' He. destruct (UD k l' Hl') as (l & s & Hl & Hs). destruct (N.eq_dec k 0) as [->|NZ].
      * apply (A5 0 l e Hl). destruct (HR 0 l (l', s) Hl Hs) as (_ & Q & _). destruct (Q eq_refl) as [E _]. cbn [fst] in E. rewrite <- E. exact He.
      * destruct (PM k l l' Hl Hl') as [_ P]. specialize (P ltac:(lia)). apply (Permutation_in _ (Permutation_sym P)) in He. apply in_map_iff in He. destruct He as (x & <- & _).
        unfold reread. cbn [fst snd]. split; [destruct (SFltb _ _); [reflexivity|apply RR]|]. destruct (snd (snd x)) eqn:Ex; [reflexivity|apply RR|apply RR|apply RR].
  - split.
    + unfold reversed. rewrite lenN_map, LDD. exact (af_order _ AF).
    + intros k l Hl. unfold reversed in Hl. rewrite nthN_map in Hl. destruct (nthN D k) as [l'|] eqn:El; [|discriminate]. injection Hl as <-. destruct (UD k l' El) as (u & s & Hu & _). destruct (af_size _ AF k u Hu) as [B1 B2].
      destruct (PM k u l' Hu El) as [P _]. pose proof (Permutation_length P) as PL. rewrite !map_length in PL.
      split; [intros E; destruct l'; [|discriminate]; destruct u; [congruence|discriminate]|]. rewrite lenN_map. unfold lenN in *. rewrite <- PL. exact B2.
    + intros k g Hg. apply RI in Hg. destruct (GL k (rev g) Hg) as [L F]. split; [unfold lenN in *; rewrite rev_length in L; exact L|].
      rewrite grams_reversed, G0, G0R. apply Forall_forall. intros w Hw. apply in_rev in Hw. rewrite Forall_forall in F. destruct (F w Hw) as [F1 F2]. split; [exact F1|]. split; [exact F2|]. exact (ua_voc _ _ HU k (rev g) w Hg Hw).
    + intros k g Hg. apply RI in Hg. rewrite <- (rev_involutive g), join_rev_len. exact (ua_bytes _ _ HU k (rev g) Hg).
    + rewrite grams_reversed, G0, G0R. apply (af_distinct _ AF 0).
    + intros k Hk. rewrite (grams_reversed D 0), G0, G0R. exact (SG k Hk).
    + intros k g Hk Hg. apply RI in Hg. apply RI. pose proof (ua_shorter _ _ HU k (rev g) Hk Hg) as H.
      destruct g as [|x g] using rev_ind; [destruct (GL k _ Hg) as [L _]; change (lenN (rev (@nil (list N)))) with 0 in L; lia|]. rewrite removelast_last. rewrite rev_app_distr in H. exact H.
    + exact (ua_remap _ _ HU).
    + intros k g R0 Rk Hg. apply RI in Hg. apply RI. pose proof (ua_context _ _ HU k (rev g) R0 Rk Hg) as H. destruct (GL k _ Hg) as [L _].
      replace (rev (skipn (N.to_nat (k - remap)) g)) with (firstn (N.to_nat (remap + 1)) (rev g)); [exact H|].
      rewrite firstn_rev. f_equal. f_equal. unfold lenN in L. rewrite rev_length in L. lia.
  - apply Forall2_of_nthN; [unfold secs', D; rewrite !lenN_map; reflexivity|]. intros i a b Ha Hb. destruct (UD i a Ha) as (l & s & Hl & Hs). unfold secs' in Hb. rewrite nthN_map, Hs in Hb. injection Hb as <-. apply (HR i l (a, s) Hl Hs).
  - unfold secs'. rewrite lenN_map, LD. symmetry. exact LS.
  - destruct (nthN_Some DS 0) as ([a s] & Hs); [rewrite LD; pose proof (af_order _ AF); lia|]. destruct (nthN_Some U 0) as (l & Hl); [pose proof (af_order _ AF); lia|].
    destruct (HR 0 l (a, s) Hl Hs) as (_ & Q & _). destruct (Q eq_refl) as [_ E]. unfold secs'. rewrite nthN_map, Hs, E. reflexivity.
  - intros k s Hk Hs. unfold secs' in Hs. rewrite nthN_map in Hs. destruct (nthN DS k) as [[a s2]|] eqn:E; [|discriminate]. injection Hs as <-.
    destruct (nthN_Some U k) as (l & Hl); [rewrite <- LD; exact (nthN_lt _ _ _ E)|]. destruct (HR k l (a, s2) Hl E) as (_ & _ & Q). cbn [snd]. apply Q. exact Hk.
Qed.
Print Assumptions C53_sorted_sections.

(** the order does not depend on the memory or on std::sort *)
Theorem C53_sorted_unique : forall U remap rr D E, unsorted_arpa U remap ->
  sorted_arpa U rr D -> sorted_arpa U rr E -> D = E.
Proof.
  intros U remap rr D E HU (L1 & Z1 & S1) (L2 & Z2 & S2). apply nthN_ext. intros k.
  destruct (N.lt_ge_cases k (lenN U)) as [L|L].
  2: { rewrite !nthN_None by lia. reflexivity. }
  destruct (nthN_Some U k L) as (u & Hu). destruct (nthN_Some D k ltac:(lia)) as (a & Ha). destruct (nthN_Some E k ltac:(lia)) as (b & Hb). rewrite Ha, Hb. f_equal.
  destruct (N.eq_dec k 0) as [->|NZ]; [congruence|].
  destruct (S1 k u a ltac:(lia) Hu Ha) as [PA SA]. destruct (S2 k u b ltac:(lia) Hu Hb) as [PB SB].
  apply (Props_Pipeline.sorted_perm_unique (fun e => rev (fst e)) (gram_lt (grams U 0))); [|exact SA|exact SB|].
  - intros x y. apply (P_Trie1.gram_lt_asym (grams U 0)). apply (af_distinct _ (ua_file _ _ HU)).
  - eapply Permutation_trans; [apply Permutation_sym; exact PA|exact PB].
Qed.
Print Assumptions C53_sorted_unique.

Lemma entry_listed_iff (D : entries) g : entry D g <> None <-> In g (grams D (lenN g - 1)).
Proof.
  unfold entry, grams. destruct (nthN D (lenN g - 1)) as [l|]; [|split; [congruence|intros []]]. split; intros H.
  - destruct (find _ l) as [e|] eqn:F; [|cbn in H; congruence]. apply find_some in F. destruct F as [I F]. destruct (gram_dec (fst e) g) as [<-|]; [apply in_map; exact I|discriminate].
  - apply in_map_iff in H. destruct H as (e & E & I). destruct (find _ l) as [x|] eqn:F; [discriminate|]. exfalso. apply (find_none _ _ F) in I. destruct (gram_dec (fst e) g); [discriminate|congruence].
Qed.
Lemma sorted_grams U rr D : sorted_arpa U rr D -> forall k g, In g (grams D k) <-> In g (grams U k).
Proof.
  intros (L & Z & S) k g. unfold grams. destruct (nthN U k) as [u|] eqn:Eu.
  - destruct (nthN_Some D k) as (d & Ed); [rewrite L; exact (nthN_lt _ _ _ Eu)|]. rewrite Ed. destruct (N.eq_dec k 0) as [->|NZ]; [replace d with u by congruence; reflexivity|].
    destruct (S k u d ltac:(lia) Eu Ed) as [P _]. apply (Permutation_map fst) in P. rewrite map_fst_reread in P. split; apply Permutation_in; [apply Permutation_sym|]; exact P.
  - rewrite nthN_None; [reflexivity|]. rewrite L. destruct (N.lt_ge_cases k (lenN U)) as [X|X]; [|exact X]. destruct (nthN_Some U k X). congruence.
Qed.
Lemma sorted_closed U rr D : sorted_arpa U rr D -> closed (entry U) -> closed (entry D).
Proof.
  intros S C g x y H. assert (Q : forall g, entry D g <> None <-> entry U g <> None) by (intros h; rewrite !entry_listed_iff; apply (sorted_grams U rr D S)).
  destruct (C g x y) as [A B]; [apply Q; exact H|]. split; apply Q; assumption.
Qed.

(** the file put together: an ARPA file with the unigram section of [data], and as other sections what sort_arpa wrote *)
Definition assembled (run : N -> res (list (list N))) (secs : list (list (list N))) (data' : list N) (secs' : list (list (list N))) : Prop :=
  arpa_text data' secs' /\ lenN secs' = lenN secs /\ nthN secs' 0 = nthN secs 0 /\
  forall k s, 0 < k -> nthN secs' k = Some s -> run (k + 1) = Ok (title (k + 1) :: s).

(** The whole chain: an ARPA file whose sections are in any order, sort_arpa on each section after the first, the file put
    together from the results, build_trie, score: the totals are those of the kept-context back-off (C25) over the supported quantized
    entries as printed and read back. *)
Theorem C53_scores_kept_partial : forall x env henv U remap data secs vocab envs sd fmt rr srt a p b unk data' secs',
  ext_ok x -> unsorted_arpa U remap -> plain_arpa data secs -> Forall2 (Forall2 (arpa_line sd)) U secs -> vocabulary_of U vocab -> rereads sd fmt rr -> std_sort srt ->
  (forall k l, 0 < k -> nthN U k = Some l -> sortable_section (envs (k + 1)) vocab l) ->
  assembled (fun o => sort_arpa (mkaenv (envs o) sd fmt) srt (P_Sort2.vocab_lines vocab) o data) secs data' secs' ->
  asks_prob a false (lenN U) remap p b unk ->
  (forall D, sorted_arpa U rr D -> Forall2 (Forall2 (arpa_line sd)) D secs' -> trie_inputs_ok D secs' (qe_t (prob_instance env (pinst false remap))) remap p b) ->
  exists D file m qp qb, sorted_arpa U rr D /\
    build_trie_prob x env a (Some (Some data')) = Ok (Wrote (out_name (ra_out a) (prob_type_name false remap)) file) /\
    tp_build_file (qe_t (prob_instance env (pinst false remap))) data' (lenN D) remap unk p b = Ok m /\
    (forall ord v, 2 <= ord <= lenN D -> exists r, q_rank (tp_probs m) (ord - 2) v 0 = Ok r /\ r < 2 ^ p /\ q_access (tp_probs m) (ord - 2) r = Ok (qp ord v)) /\
    (forall ord v, 2 <= ord < lenN D -> exists r, q_rank (tp_backoffs m) (ord - 2) v 1 = Ok r /\ r < 2 ^ b /\ q_access (tp_backoffs m) (ord - 2) r = Ok (qb ord v)) /\
    (forall lines, corpus_ok lines -> lenN (corpus_bytes lines) < 2 ^ 62 ->
     (forall w, In w (List.concat lines) -> entry D [w] = None -> word_distinguished D (qe_t (prob_instance env (pinst false remap))) m w) ->
     kept_reports (Spec_ProbPrograms.printed (score_program x env henv file (corpus_bytes lines))) (supported (quantized D qp qb)) (unk_prob D unk) (N.to_nat (lenN D)) lines).
Proof.
  intros x env henv U remap data secs vocab envs sd fmt rr srt a p b unk data' secs' X HU PA FL HV RR SRT SO (AT & LS & S0 & SK) AS TI.
  destruct (C53_sorted_sections U remap data secs vocab envs sd fmt rr srt HU PA FL HV RR SRT SO) as (D & secs2 & SA & AF & CO & F2 & L2 & Z2 & K2).
  assert (secs2 = secs').
  { apply nthN_ext. intros k. destruct (N.eq_dec k 0) as [->|NZ]; [congruence|]. destruct (N.lt_ge_cases k (lenN secs)) as [L|L].
    - destruct (nthN_Some secs2 k ltac:(lia)) as (s2 & E2). destruct (nthN_Some secs' k ltac:(lia)) as (s1 & E1). specialize (K2 k s2 ltac:(lia) E2). specialize (SK k s1 ltac:(lia) E1). cbv beta in SK. rewrite E1, E2. congruence.
    - rewrite !nthN_None by lia. reflexivity. }
  subst secs2. pose proof (proj1 SA) as LD. rewrite <- LD in AS.
  destruct (C48_trie_kept_partial x env henv data' D secs' a remap p b unk X AT AF CO AS (TI D SA F2)) as (file & m & qp & qb & E1 & _ & E2 & Q1 & Q2 & K).
  exists D, file, m, qp, qb. split; [exact SA|]. split; [exact E1|]. split; [exact E2|]. split; [exact Q1|]. split; [exact Q2|].
  exact K.
Qed.
Print Assumptions C53_scores_kept_partial.
(** ... and those of Katz back-off, when the contexts that have extensions have a non-zero back-off *)
Theorem C53_scores_partial : forall x env henv U remap data secs vocab envs sd fmt rr srt a p b unk data' secs',
  ext_ok x -> unsorted_arpa U remap -> plain_arpa data secs -> Forall2 (Forall2 (arpa_line sd)) U secs -> vocabulary_of U vocab -> rereads sd fmt rr -> std_sort srt ->
  (forall k l, 0 < k -> nthN U k = Some l -> sortable_section (envs (k + 1)) vocab l) ->
  assembled (fun o => sort_arpa (mkaenv (envs o) sd fmt) srt (P_Sort2.vocab_lines vocab) o data) secs data' secs' ->
  asks_prob a false (lenN U) remap p b unk ->
  (forall D, sorted_arpa U rr D -> Forall2 (Forall2 (arpa_line sd)) D secs' -> trie_inputs_ok D secs' (qe_t (prob_instance env (pinst false remap))) remap p b) ->
  exists D file m qp qb, sorted_arpa U rr D /\
    build_trie_prob x env a (Some (Some data')) = Ok (Wrote (out_name (ra_out a) (prob_type_name false remap)) file) /\
    tp_build_file (qe_t (prob_instance env (pinst false remap))) data' (lenN D) remap unk p b = Ok m /\
    (forall ord v, 2 <= ord <= lenN D -> exists r, q_rank (tp_probs m) (ord - 2) v 0 = Ok r /\ r < 2 ^ p /\ q_access (tp_probs m) (ord - 2) r = Ok (qp ord v)) /\
    (forall ord v, 2 <= ord < lenN D -> exists r, q_rank (tp_backoffs m) (ord - 2) v 1 = Ok r /\ r < 2 ^ b /\ q_access (tp_backoffs m) (ord - 2) r = Ok (qb ord v)) /\
    (closed (entry U) -> extended_nonzero (quantized D qp qb) ->
     forall lines, corpus_ok lines -> lenN (corpus_bytes lines) < 2 ^ 62 ->
     (forall w, In w (List.concat lines) -> entry D [w] = None -> word_distinguished D (qe_t (prob_instance env (pinst false remap))) m w) ->
     reports (Spec_ProbPrograms.printed (score_program x env henv file (corpus_bytes lines))) (quantized D qp qb) (unk_prob D unk) (N.to_nat (lenN D)) lines).
Proof.
  intros x env henv U remap data secs vocab envs sd fmt rr srt a p b unk data' secs' X HU PA FL HV RR SRT SO (AT & LS & S0 & SK) AS TI.
  destruct (C53_sorted_sections U remap data secs vocab envs sd fmt rr srt HU PA FL HV RR SRT SO) as (D & secs2 & SA & AF & CO & F2 & L2 & Z2 & K2).
  assert (secs2 = secs').
  { apply nthN_ext. intros k. destruct (N.eq_dec k 0) as [->|NZ]; [congruence|]. destruct (N.lt_ge_cases k (lenN secs)) as [L|L].
    - destruct (nthN_Some secs2 k ltac:(lia)) as (s2 & E2). destruct (nthN_Some secs' k ltac:(lia)) as (s1 & E1). specialize (K2 k s2 ltac:(lia) E2). specialize (SK k s1 ltac:(lia) E1). cbv beta in SK. rewrite E1, E2. congruence.
    - rewrite !nthN_None by lia. reflexivity. }
  subst secs2. pose proof (proj1 SA) as LD. rewrite <- LD in AS.
  destruct (C48_trie_partial x env henv data' D secs' a remap p b unk X AT AF CO AS (TI D SA F2)) as (file & m & qp & qb & E1 & _ & E2 & Q1 & Q2 & K).
  exists D, file, m, qp, qb. split; [exact SA|]. split; [exact E1|]. split; [exact E2|]. split; [exact Q1|]. split; [exact Q2|].
  intros C NZ. apply K; [exact (sorted_closed U rr D SA C)|exact NZ].
Qed.
Print Assumptions C53_scores_partial.

(** a section that fits in memory only needs two entries *)
Theorem C53_fits : forall env vocab l, P_Sort2.sort_env_ok env vocab -> se_ram env < 2 ^ 63 -> 2 <= lenN l -> gram_bytes l <= se_ram env -> sortable_section env vocab l.
Proof.
  intros env vocab l V R L2 F. split; [exact V|exact R| |exact L2|].
  - intros r Hr. apply in_split in Hr. destruct Hr as (a & b & ->). rewrite Props_Pipeline.gram_bytes_app in F. change (gram_bytes (r :: b)) with (lenN (join (fst r)) + gram_bytes b) in F. clear - F. lia.
  - intros bs B bs' r E. inversion B as [|b rest bs0 NB GB MX BR E1 E2].
    + subst l. change (lenN (@nil (gram * (spec_float * spec_float)))) with 0 in L2. lia.
    + destruct rest as [|y rest].
      * inversion BR. 2: { destruct b0; [congruence|discriminate]. } subst bs0. rewrite E in E2. rewrite app_nil_r in E1. subst b.
        destruct bs' as [|z bs']; [|destruct bs'; discriminate]. cbn [app] in E2. injection E2 as ->. change (lenN [r]) with 1 in L2. lia.
      * specialize (MX y rest eq_refl). rewrite <- E1 in F. rewrite Props_Pipeline.gram_bytes_app in F, MX. change (gram_bytes (y :: rest)) with (lenN (join (fst y)) + gram_bytes rest) in F.
        change (gram_bytes [y]) with (lenN (join (fst y)) + 0) in MX. clear - F MX. lia.
Qed.
Print Assumptions C53_fits.

(** ** a concrete case: the table of C25_trie_example with the longer sections backwards; numbers of one digit *)
Definition pa_digit (x : spec_float) : N := match find (fun k => match SFcompare (exf k) x with Some Eq => true | _ => false end) [0; 1; 2; 3; 4; 5; 6; 7] with Some k => k | None => 0 end.
Definition pa_fmt (x : spec_float) : list N := [48 + pa_digit x].
Definition pa_rr (x : spec_float) : spec_float := exf (pa_digit x).
Lemma pa_digit_lt x : pa_digit x < 8.
Proof. unfold pa_digit. destruct (find _ _) as [k|] eqn:E; [|lia]. apply find_some in E. destruct E as [I _]. cbn in I. intuition lia. Qed.
Example pa_rereads : rereads exsd pa_fmt pa_rr.
Proof.
  intros x. unfold pa_fmt, pa_rr. pose proof (pa_digit_lt x) as L. generalize dependent (pa_digit x). clear x. intros d L.
  split; [intros [E|[]]; lia|]. split; [reflexivity|]. split; [|split].
  - assert (C : d = 0 \/ d = 1 \/ d = 2 \/ d = 3 \/ d = 4 \/ d = 5 \/ d = 6 \/ d = 7) by lia. repeat (destruct C as [->|C]; [reflexivity|]). subst d. reflexivity.
  - intros post. unfold exsd. cbn [app]. change (nthN ((48 + d) :: 9 :: post) 0) with (Some (48 + d)).
    assert (C : d = 0 \/ d = 1 \/ d = 2 \/ d = 3 \/ d = 4 \/ d = 5 \/ d = 6 \/ d = 7) by lia. repeat (destruct C as [->|C]; [reflexivity|]). subst d. reflexivity.
  - intros pre. unfold exsd. cbn [app]. rewrite nthN_app2 by lia. rewrite N.sub_diag. change (nthN (9 :: 48 + d :: [0]) 0) with (Some 9). cbv iota.
    rewrite nthN_app2 by lia. replace (lenN pre + 1 - lenN pre) with 1 by lia. change (nthN (9 :: 48 + d :: [0]) 1) with (Some (48 + d)). cbn [fst]. f_equal. lia.
Qed.
Definition pa_E := match txE with l :: r => l :: map (@rev _) r | [] => [] end.
Definition pa_U : entries := map (map exent) pa_E.
Definition pa_secs : list (list (list N)) := map (map exline) pa_E.
Definition pa_data : list N :=
  text_of ([[92; 100; 97; 116; 97; 92]] ++ count_lines 1 (map lenN pa_secs) ++ [[]] ++ section_lines 1 pa_secs []) ++ [92; 101; 110; 100; 92].
Definition pa_vocab : list (list N * N) := [([97], 7); ([98], 5); ([99], 1)].
Definition pa_senv (ram : N) : senv := mksenv (exh 0) [(0, 2, 4); (1, 2, 4); (3, 0, 4)] 10 ram.
Example pa_sorted : sorted_arpa pa_U pa_rr txD.
Proof.
  destruct (C25_trie_example_hyps 0 ltac:(lia)) as (_ & [_ _ _ _ _ CS _ _ _] & _). split; [reflexivity|]. split; [reflexivity|]. intros k l l' Hk Hl Hl'.
  pose proof (nthN_lt _ _ _ Hl) as L. change (lenN pa_U) with 3 in L. assert (K : k = 1 \/ k = 2) by lia.
  assert (Q : map (reread pa_rr) l = rev l'). { destruct K as [->| ->]; injection Hl as <-; injection Hl' as <-; vm_compute; reflexivity. }
  split; [rewrite Q; apply Permutation_sym, Permutation_rev|]. specialize (CS k Hk). rewrite !grams_reversed in CS. unfold grams at 2 in CS. rewrite Hl', map_map in CS. exact CS.
Qed.
Example C53_example : forall remap, remap <= 1 ->
  ext_ok ex_x /\ unsorted_arpa pa_U remap /\ plain_arpa pa_data pa_secs /\ Forall2 (Forall2 (arpa_line exsd)) pa_U pa_secs /\ vocabulary_of pa_U pa_vocab /\ rereads exsd pa_fmt pa_rr /\
  std_sort (@Props_Sort.isort (@srec (spec_float * spec_float))) /\ (forall k l, 0 < k -> nthN pa_U k = Some l -> sortable_section (pa_senv 60) pa_vocab l) /\
  assembled (fun o => sort_arpa (mkaenv (pa_senv 60) exsd pa_fmt) Props_Sort.isort (P_Sort2.vocab_lines pa_vocab) o pa_data) pa_secs txfile txsecs /\
  asks_prob (px_args false remap) false (lenN pa_U) remap 2 2 default_unk /\
  (forall D, sorted_arpa pa_U pa_rr D -> Forall2 (Forall2 (arpa_line exsd)) D txsecs -> trie_inputs_ok D txsecs (qe_t (prob_instance (px_env remap) (pinst false remap))) remap 2 2) /\
  closed (entry pa_U).
Proof.
  intros remap R. destruct (C48_trie_example_hyps remap R) as (X1 & X2 & X3 & X4 & X5 & X6 & X7).
  assert (KS : forall k l, nthN pa_U k = Some l -> k = 0 \/ k = 1 \/ k = 2) by (intros k l H; apply nthN_lt in H; change (lenN pa_U) with 3 in H; lia).
  assert (GE : forall k g, In g (grams pa_U k) <-> In g (grams txD k)) by (intros k g; symmetry; apply (sorted_grams pa_U pa_rr txD pa_sorted)).
  assert (RC : forall k g, In g (grams txD k) -> In (rev g) (grams (reversed txD) k)) by (intros k g H; rewrite grams_reversed; apply in_map; exact H).
  assert (CR : forall k g, In g (grams (reversed txD) k) -> In (rev g) (grams txD k)) by (intros k g H; rewrite grams_reversed in H; apply in_map_iff in H; destruct H as (y & <- & H); rewrite rev_involutive; exact H).
  assert (UA : unsorted_arpa pa_U remap).
  { destruct X4 as [_ _ CW CB _ _ CP CRM CS]. split.
    - destruct X3 as [A1 A2 A3 A4 A5]. split.
      + exact A1.
      + intros k l H. destruct (KS k l H) as [->|[->| ->]]; injection H as <-; (split; [discriminate|reflexivity]).
      + intros k l e H I. assert (IG : In (fst e) (grams pa_U k)) by (unfold grams; rewrite H; apply in_map; exact I). apply GE in IG. unfold grams in IG. destruct (nthN txD k) as [l'|] eqn:E; [|destruct IG]. apply in_map_iff in IG. destruct IG as (e' & <- & I'). exact (A3 k l' e' E I').
      + intros k. unfold grams. destruct (nthN pa_U k) as [l|] eqn:E; [|constructor]. destruct (KS k l E) as [->|[->| ->]]; injection E as <-; vm_compute; repeat constructor; cbn; intuition discriminate.
      + intros k l e H I. destruct (KS k l H) as [->|[->| ->]]; injection H as <-; cbn in I; repeat (destruct I as [I|I]; [subst e; split; reflexivity|]); destruct I.
    - intros k g w Hg Hw. apply GE in Hg. destruct (CW k (rev g) (RC k g Hg)) as [_ F]. rewrite Forall_forall in F. apply in_rev in Hw. destruct (F w Hw) as (_ & _ & Q). apply CR in Q. apply GE. exact Q.
    - intros k g Hg. apply GE in Hg. rewrite <- join_rev_len. exact (CB k (rev g) (RC k g Hg)).
    - intros k g Hk Hg. apply GE in Hg. apply GE. pose proof (CP k (rev g) Hk (RC k g Hg)) as Q. apply CR in Q. destruct g as [|y g]; [exact Q|]. cbn [rev] in Q. rewrite removelast_last, rev_involutive in Q. exact Q.
    - exact CRM.
    - intros k g R0 Rk Hg. apply GE in Hg. apply GE. pose proof (CS k (rev g) R0 Rk (RC k g Hg)) as Q. apply CR in Q. destruct (CW k (rev g) (RC k g Hg)) as [L _].
      rewrite skipn_rev, rev_involutive in Q. replace (N.to_nat (remap + 1)) with (List.length g - N.to_nat (k - remap))%nat; [exact Q|]. unfold lenN in L. rewrite rev_length in L. lia. }
  split; [exact X1|]. split; [exact UA|]. split.
  { exists O, O, []. split; [vm_compute; reflexivity|]. split; [vm_compute; split; [discriminate|reflexivity]|]. split; [repeat constructor; discriminate|]. split; [|repeat constructor; reflexivity].
    repeat constructor; try discriminate; cbn; intuition discriminate. }
  split.
  { unfold pa_U, pa_secs, pa_E. cbn [txE map rev app]. repeat (constructor; [repeat (constructor; [apply exa_line_ok; cbn; lia|]); constructor|]). constructor. }
  split; [reflexivity|]. split; [exact pa_rereads|]. split; [apply Props_Sort.std_sort_isort|].
  split.
  { assert (V : P_Sort2.sort_env_ok (pa_senv 60) pa_vocab).
    { split.
      - repeat constructor; try (cbn; intuition discriminate); discriminate.
      - split; reflexivity.
      - vm_compute. discriminate.
      - exact (ti_vocab _ _ _ _ _ _ X6 _ eq_refl). }
    intros k l Hk Hl. destruct (KS k l Hl) as [->|[->| ->]]; [lia| |]; injection Hl as <-; (apply C53_fits; [exact V|reflexivity|vm_compute; discriminate|vm_compute; discriminate]). }
  split.
  { split; [exact X2|]. split; [reflexivity|]. split; [reflexivity|]. intros k s Hk Hs. pose proof (nthN_lt _ _ _ Hs) as L. change (lenN txsecs) with 3 in L. assert (K : k = 1 \/ k = 2) by lia.
    destruct K as [->| ->]; injection Hs as <-; vm_compute; reflexivity. }
  split; [exact X5|]. split.
  - intros D SA _. rewrite (C53_sorted_unique pa_U remap pa_rr D txD UA SA pa_sorted). exact X6.
  - intros g y z H. assert (Q : forall g, entry pa_U g <> None <-> entry txD g <> None) by (intros h; rewrite !entry_listed_iff; apply GE). destruct (X7 g y z) as [A B]; [apply Q; exact H|]. split; apply Q; assumption.
Qed.
