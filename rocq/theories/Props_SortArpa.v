(** * Property C43: sort_arpa *)
From Coq Require Import Floats.SpecFloat.
From Verif Require Import Prelude BitFacts M_Word M_Mph Spec M_Text P_Text P_Text2 P_SeqColl M_Pool P_Pool M_Trie P_Trie3 M_Score Spec_Trie Spec_Katz M_Quant M_MphProb M_TrieProb
  Spec_Arpa P_Values M_Sort Spec_Sort P_Sort P_Sort2 Props_Sort M_ArpaFile Spec_ArpaFile P_ArpaFile Props_MphProb M_SortArpa Spec_SortArpa P_SortArpa.
From Coq Require Import Sorting.Sorted Permutation.
Local Open Scope N_scope.

(** the entries of the section: [k] words each, over the vocabulary, of at most [room] bytes *)
Definition arpa_input (V : list (list N)) (k room : N) (es : list ent) : Prop :=
  Forall (fun e => vgram V k (fst e) /\ lenN (join (fst e)) <= room) es.

Lemma split_nth {A} : forall (l : list A) n x, nthN l n = Some x -> l = firstn (N.to_nat n) l ++ x :: skipn (S (N.to_nat n)) l.
Proof.
  intros l n x. unfold nthN. generalize (N.to_nat n). clear n. intros n. revert l. induction n as [|n IH]; intros [|y l] E; cbn in E; try discriminate.
  - injection E as ->. reflexivity.
  - cbn [firstn app]. f_equal. apply (IH l E).
Qed.
(** the program reaches the first line of the section *)
Lemma reach data secs order lines : plain_arpa data secs -> 1 <= order -> nthN secs (order - 1) = Some lines ->
  order < 256 /\ order <= lenN secs /\ lenN lines < 2 ^ 64 /\ lines <> [] /\ Forall (fun l => ~ In 10 l) lines /\
  exists a0 a1 a post l ls, ap_read_header (ap_open data) = Ok (map lenN secs, a0) /\ a1 = snd (ap_read_line a0) /\ skip_orders (N.to_nat (order - 1)) a1 = Ok a /\
    lines = l :: ls /\ ap_line a = l /\ st data a (text_of ls ++ post).
Proof.
  intros (b0 & b1 & tail & ED & (L1 & L2) & NE & F & FL) HO N0. pose proof (nthN_lt _ _ _ N0) as LT.
  split; [lia|]. split; [lia|].
  pose proof (Forall_nthN _ _ _ _ FL N0) as FL0. pose proof (Forall_nthN _ _ _ _ NE N0) as NE0. pose proof (Forall_nthN _ _ _ _ F N0) as F0.
  split; [exact FL0|]. split; [exact NE0|]. split; [eapply Forall_impl; [|exact F0]; intros ? [_ ?]; assumption|].
  destruct secs as [|s0 rest]; [change (lenN (@nil (list (list N)))) with 0 in LT; lia|].
  pose proof (Forall_inv NE) as NE1. destruct s0 as [|l0 s0]; [congruence|].
  destruct (title_ok 1 ltac:(reflexivity)) as (T1 & T2 & _).
  set (post1 := text_of (l0 :: s0) ++ 10 :: text_of (section_lines (1 + 1) rest []) ++ t_end ++ tail).
  destruct (header_ok data b0 b1 (map lenN ((l0 :: s0) :: rest)) (title 1) post1) as (a0 & E0 & S0 & L0 & _).
  - discriminate.
  - rewrite lenN_map. exact L2.
  - apply Forall_map. exact FL.
  - exact T1.
  - exact T2.
  - rewrite ED. rewrite !text_of_app, <- !app_assoc. do 4 f_equal. fold t_end. rewrite sections_text.
    rewrite (text_of_cons (title 1) [] post1). unfold post1. cbn [hd tl]. destruct rest; reflexivity.
  - unfold post1 in S0. rewrite text_of_cons in S0. pose proof (Forall_inv (Forall_inv F)) as (_ & NI0).
    destruct (read_line_ok data a0 l0 _ S0 NI0) as (a1 & E1 & S1 & L1' & _).
    set (secs := (l0 :: s0) :: rest) in *.
    assert (SP : secs = firstn (N.to_nat (order - 1)) secs ++ lines :: skipn (S (N.to_nat (order - 1))) secs).
    { apply split_nth. exact N0. }
    set (pre := firstn (N.to_nat (order - 1)) secs) in *. set (suf := skipn (S (N.to_nat (order - 1))) secs) in *.
    assert (LP : length pre = N.to_nat (order - 1)). { unfold pre. rewrite firstn_length. unfold lenN in LT. lia. }
    assert (SP2 : secs = (pre ++ [lines]) ++ suf) by (rewrite <- app_assoc; exact SP).
    destruct (skip_orders_ok data (t_end ++ tail) pre 1 l0 s0 a1 lines suf) as (a & l & ls & E2 & EL & L3 & S3).
    + unfold lenN. rewrite LP. assert (256 < 2 ^ 64) by reflexivity. lia.
    + rewrite SP2 in NE. apply Forall_app in NE. exact (proj1 NE).
    + rewrite SP2 in F. apply Forall_app in F. exact (proj1 F).
    + destruct (pre ++ [lines]) as [|x y] eqn:EP; [destruct pre; discriminate|]. unfold secs in SP2. cbn [app] in SP2. assert (Q : x = l0 :: s0) by congruence. rewrite Q. reflexivity.
    + exact L1'.
    + replace (tl (pre ++ [lines]) ++ suf) with rest; [exact S1|]. destruct (pre ++ [lines]) as [|x y] eqn:EP; [destruct pre; discriminate|]. unfold secs in SP2. cbn [app] in SP2. cbn [tl]. congruence.
    + exists a0, a1, a. do 3 eexists. rewrite E1. split; [exact E0|]. split; [reflexivity|]. rewrite LP in E2. split; [exact E2|]. split; [exact EL|]. split; [exact L3|exact S3].
Qed.

Section Main.
Variables (env : aenv) (vocab : list (list N * N)).
Notation V := (map fst vocab).
Notation M := (se_ram (ae_s env)).
Variable srt : (@srec (spec_float * spec_float) -> @srec (spec_float * spec_float) -> res bool) -> list (@srec (spec_float * spec_float)) -> list (@srec (spec_float * spec_float)).
Hypothesis EO : sort_env_ok (ae_s env) vocab.
Hypothesis PR : prints (ae_sd env) (ae_fmt env).
Hypothesis SRT : std_sort srt.
Hypothesis HM : M < 2 ^ 63.

(** the program up to the loop *)
Lemma sort_arpa_open data secs order lines es : plain_arpa data secs -> 1 <= order -> nthN secs (order - 1) = Some lines ->
  Forall2 (arpa_line (ae_sd env)) es lines ->
  exists v a post, sort_vocabulary (ae_s env) (vocab_lines vocab) = Ok v /\ NoDup V /\ look_ok V (vlook (se_h (ae_s env)) v) /\ lenN es = lenN lines /\ es <> [] /\
    cur env data a es post /\
    sort_arpa env srt (vocab_lines vocab) order data =
      (s <- arpa_loop (N.to_nat (lenN es)) env (vlook (se_h (ae_s env)) v) srt (lenN es) (mkso (lenN es) [] [title order]) (pool_new M) a 0 ;;
       s <- merge_batches (prob_handler env) false (vlook (se_h (ae_s env)) v) (length (so_files s)) s ;;
       Ok (so_out s)).
Proof using EO.
  clear HM. intros PA HO N0 FE. destruct (reach data secs order lines PA HO N0) as (O1 & O2 & O3 & O4 & O5 & a0 & a1 & a & post & l & ls & E0 & E1 & E2 & EL & LL & SS).
  destruct (sort_vocabulary_ok (ae_s env) vocab EO) as (v & EV & ND & LK). exists v, a, post.
  assert (LE : lenN es = lenN lines) by (unfold lenN; rewrite (Forall2_len _ _ _ FE); reflexivity).
  split; [exact EV|]. split; [exact ND|]. split; [exact LK|]. split; [exact LE|].
  split; [intros ->; rewrite EL in FE; inversion FE|]. split.
  { subst lines. inversion FE as [|e ? es' ? W FE']; subst. cbn [cur]. exists ls. split; [split; [exact W|exact (Forall_inv O5)]|]. split; [|exact SS].
    pose proof (Forall_inv_tail O5) as O6. clear - FE' O6. induction FE' as [|x y l1 l2 W F IH]; constructor; [split; [exact W|exact (Forall_inv O6)]|apply IH; exact (Forall_inv_tail O6)]. }
  unfold sort_arpa. rewrite E0. cbn [bind]. rewrite lenN_map.
  destruct (N.eqb_spec order 0) as [Z|_]; [lia|]. destruct (N.ltb_spec (lenN secs) order) as [Z|_]; [lia|]. cbn [orb]. rewrite EV. cbn [bind].
  destruct (ap_read_line a0) as [more a1'] eqn:ER. cbn [snd] in E1. subst a1'. rewrite E2. cbn [bind].
  assert (RD : rd (map lenN secs) (order - 1) = Ok (lenN es)). { apply rd_nthN. rewrite nthN_map, N0. cbn. rewrite LE. reflexivity. }
  rewrite RD. cbn [bind]. change ([92] ++ to_string order ++ t_grams) with (title order). reflexivity.
Qed.
Lemma vok : Forall vword V /\ lenN V < 2 ^ 64 - 1.
Proof.
  destruct EO as [SW SS _ _]. split; [|rewrite lenN_map; lia]. apply Forall_map. eapply Forall_impl; [|exact SW]. intros e [? _]. assumption.
Qed.
Lemma input_ok k es : arpa_input V k M es -> Forall (rec_ok (fun _ : spec_float * spec_float => True) V k M) es.
Proof. intros F. eapply Forall_impl; [|exact F]. intros e (H1 & H2). split; [exact H1|]. split; [exact I|exact H2]. Qed.
Lemma map_wline es : map (wline (prob_handler env)) es = map (printed (ae_fmt env)) es.
Proof. apply map_ext. intros e. apply wline_printed. Qed.

Theorem sort_arpa_ok data secs order lines es bs : plain_arpa data secs -> 1 <= order -> nthN secs (order - 1) = Some lines ->
  Forall2 (arpa_line (ae_sd env)) es lines -> arpa_input V order M es ->
  2 <= lenN es -> batches M es bs -> (forall bs' e, bs <> bs' ++ [[e]]) ->
  exists es', sort_arpa env srt (vocab_lines vocab) order data = Ok (title order :: map (printed (ae_fmt env)) es') /\
    Permutation es es' /\ in_order false V es'.
Proof.
  intros PA HO N0 FE AI L2 B NS. destruct (sort_arpa_open data secs order lines es PA HO N0 FE) as (v & a & post & EV & ND & LK & LE & NE & CU & ->).
  destruct (reach data secs order lines PA HO N0) as (O1 & _ & O3 & _). rewrite <- LE in O3.
  destruct vok as (VW & VL). assert (HK : 0 < order < 2 ^ 32) by (assert (256 < 2 ^ 32) by reflexivity; lia). pose proof (input_ok order es AI) as F.
  set (look := vlook (se_h (ae_s env)) v) in *.
  pose proof (pool_new_rep M : pool_rep (pool_new M : pool (spec_float * spec_float)) M []) as PN. destruct (batches_concat _ _ _ B) as [BC BN].
  destruct bs as [|b [|b2 bs]].
  - cbn in BC. congruence.
  - cbn [concat] in BC. rewrite app_nil_r in BC. subst b. assert (GB : gram_bytes es <= M) by (clear - B; remember [es] as l eqn:El; destruct B as [|b rest bs NE GB GR B1]; [discriminate|]; injection El as E _; rewrite <- E; exact GB).
    destruct (arpa_one_ok env V order M VW VL HK HM PR look ND LK srt SRT data post es (N.to_nat (lenN es)) (pool_new M) a [title order] PN F) as (es' & P & (_ & _ & S) & E); [lia|exact GB|lia|exact CU|].
    rewrite E. cbn [bind so_files length merge_batches]. cbn [bind so_out]. exists es'. split; [|split; assumption]. unfold file_of. cbn [h_counts prob_handler app]. rewrite map_wline. reflexivity.
  - assert (LB : (length (b :: b2 :: bs) <= length es)%nat).
    { rewrite <- BC. clear - BN. induction BN as [|x l H F IH]; [cbn; lia|]. cbn [concat length]. rewrite app_length. destruct x; [congruence|cbn [length]; lia]. }
    destruct (arpa_loop_ok env V order M VW VL HK HM PR look ND LK srt SRT data post es (b :: b2 :: bs) B 0 (lenN es) (N.to_nat (lenN es)) (pool_new M) a [] [title order] PN F) as (bs' & FB & E); try lia.
    { exact CU. } { intros _. right. cbn [length]. lia. } { unfold lenN. rewrite Nat2N.id. assumption. }
    rewrite E. cbn [bind app so_files]. rewrite (kept_all _ NS) in FB.
    assert (PC : Permutation es (concat bs')). { rewrite <- BC. clear - FB. induction FB as [|x y l m [H _] F IH]; [apply Permutation_refl|]. cbn [concat]. apply Permutation_app; assumption. }
    assert (L3 : length bs' = S (S (length bs))). { clear - FB. apply Forall2_len in FB. rewrite <- FB. reflexivity. }
    destruct (merge_batches_ok (prob_handler env) (fun _ : spec_float * spec_float => True) V look false order M ND VW VL LK HK HM (prob_HP env V order M VW VL HK HM PR) (length bs') bs' (lenN es) [title order]) as (es' & EM & PM & (_ & _ & S)).
    { lia. } { lia. } { clear - FB. induction FB as [|x y l m [_ H] F IH]; constructor; assumption. } { rewrite <- (lenN_perm _ _ PC). lia. }
    rewrite map_length, EM. cbn [bind so_out]. exists es'. pose proof (Permutation_trans PC PM) as P. split; [|split; assumption].
    unfold file_of. cbn [h_counts prob_handler app]. rewrite map_wline. reflexivity.
Qed.
Theorem sort_arpa_last data secs order lines es bs e : plain_arpa data secs -> 1 <= order -> nthN secs (order - 1) = Some lines ->
  Forall2 (arpa_line (ae_sd env)) es lines -> arpa_input V order M es ->
  batches M es (bs ++ [[e]]) -> (2 <= length bs)%nat ->
  exists es', sort_arpa env srt (vocab_lines vocab) order data = Ok (title order :: map (printed (ae_fmt env)) es') /\ Permutation es (e :: es').
Proof.
  intros PA HO N0 FE AI B H2. destruct (sort_arpa_open data secs order lines es PA HO N0 FE) as (v & a & post & EV & ND & LK & LE & NE & CU & ->).
  destruct (reach data secs order lines PA HO N0) as (O1 & _ & O3 & _). rewrite <- LE in O3.
  destruct vok as (VW & VL). assert (HK : 0 < order < 2 ^ 32) by (assert (256 < 2 ^ 32) by reflexivity; lia). pose proof (input_ok order es AI) as F.
  set (look := vlook (se_h (ae_s env)) v) in *.
  pose proof (pool_new_rep M : pool_rep (pool_new M : pool (spec_float * spec_float)) M []) as PN. destruct (batches_concat _ _ _ B) as [BC BN].
  assert (LB : (length (bs ++ [[e]]) <= length es)%nat).
  { rewrite <- BC. clear - BN. induction BN as [|x l H F IH]; [cbn; lia|]. cbn [concat length]. rewrite app_length. destruct x; [congruence|cbn [length]; lia]. }
  assert (LR : 0 < lenN es) by (rewrite app_length in LB; cbn [length] in LB; unfold lenN; lia).
  destruct (arpa_loop_ok env V order M VW VL HK HM PR look ND LK srt SRT data post es (bs ++ [[e]]) B 0 (lenN es) (N.to_nat (lenN es)) (pool_new M) a [] [title order] PN F) as (bs' & FB & E); try lia.
  { exact CU. } { intros _. right. rewrite app_length. cbn [length]. lia. } { unfold lenN. rewrite Nat2N.id. assumption. }
  rewrite E. cbn [bind app so_files]. rewrite kept_single in FB.
  assert (PC : Permutation (concat bs) (concat bs')). { clear - FB. induction FB as [|x y l m [H _] F IH]; [apply Permutation_refl|]. cbn [concat]. apply Permutation_app; assumption. }
  assert (L3 : length bs' = length bs). { symmetry. clear - FB. apply Forall2_len in FB. assumption. }
  assert (PR2 : Permutation es (e :: concat bs)). { rewrite <- BC, concat_app. cbn [concat]. rewrite app_nil_r. apply Permutation_sym, Permutation_cons_append. }
  destruct (merge_batches_ok (prob_handler env) (fun _ : spec_float * spec_float => True) V look false order M ND VW VL LK HK HM (prob_HP env V order M VW VL HK HM PR) (length bs') bs' (lenN es) [title order]) as (es' & EM & PM & (_ & _ & S)).
  { lia. } { lia. } { clear - FB. induction FB as [|x y l m [_ H] F IH]; constructor; assumption. } { rewrite <- (lenN_perm _ _ PC). pose proof (lenN_perm _ _ PR2) as Q. rewrite lenN_cons in Q. lia. }
  rewrite map_length, EM. cbn [bind so_out]. exists es'. pose proof (Permutation_trans PC PM) as P. split.
  - unfold file_of. cbn [h_counts prob_handler app]. rewrite map_wline. reflexivity.
  - eapply Permutation_trans; [exact PR2|]. constructor. assumption.
Qed.
Theorem sort_arpa_one data secs order line e : plain_arpa data secs -> 1 <= order -> nthN secs (order - 1) = Some [line] -> arpa_line (ae_sd env) e line ->
  sort_arpa env srt (vocab_lines vocab) order data = Ok [title order].
Proof using EO.
  intros PA HO N0 W. destruct (sort_arpa_open data secs order [line] [e] PA HO N0 ltac:(repeat constructor; assumption)) as (v & a & post & EV & ND & LK & LE & NE & CU & ->).
  reflexivity.
Qed.
End Main.

(** The output file is the title of the section followed by its entries in suffix order, each printed
    with its probability and (when it is not 0) its back-off; for sections of at least two entries whose
    last batch does not consist of a single one.  (Missing: those cases, files with other blank lines or
    with empty sections, and the exact values; refuted below.) *)
Theorem C43_sorted_partial : forall env vocab srt data secs order lines es bs,
  sort_env_ok (ae_s env) vocab -> prints (ae_sd env) (ae_fmt env) -> std_sort srt -> se_ram (ae_s env) < 2 ^ 63 ->
  plain_arpa data secs -> 1 <= order -> nthN secs (order - 1) = Some lines ->
  Forall2 (arpa_line (ae_sd env)) es lines -> arpa_input (map fst vocab) order (se_ram (ae_s env)) es ->
  2 <= lenN es -> batches (se_ram (ae_s env)) es bs -> (forall bs' e, bs <> bs' ++ [[e]]) ->
  exists es', sort_arpa env srt (vocab_lines vocab) order data = Ok (title order :: map (printed (ae_fmt env)) es') /\
    Permutation es es' /\ in_order false (map fst vocab) es'.
Proof. intros. eapply sort_arpa_ok; eauto. Qed.
(** the section is always cut into batches *)
Theorem C43_batches_exist : forall V k room es, arpa_input V k room es -> exists bs, batches room es bs /\ concat bs = es /\ Forall (fun b => b <> []) bs.
Proof.
  intros V k room es F. destruct (batches_exist room es) as (bs & B). { eapply Forall_impl; [|exact F]. intros r (_ & ?). assumption. }
  exists bs. split; [assumption|]. eapply batches_concat; eauto.
Qed.
(** A section of one entry: only the title is written. *)
Theorem C43_one_record_refuted : forall env vocab srt data secs order line e,
  sort_env_ok (ae_s env) vocab -> plain_arpa data secs -> 1 <= order -> nthN secs (order - 1) = Some [line] -> arpa_line (ae_sd env) e line ->
  sort_arpa env srt (vocab_lines vocab) order data = Ok [title order].
Proof. intros. eapply sort_arpa_one; eauto. Qed.
(** A last batch of one entry, after at least two others: that entry is lost. *)
Theorem C43_last_record_refuted : forall env vocab srt data secs order lines es bs e,
  sort_env_ok (ae_s env) vocab -> prints (ae_sd env) (ae_fmt env) -> std_sort srt -> se_ram (ae_s env) < 2 ^ 63 ->
  plain_arpa data secs -> 1 <= order -> nthN secs (order - 1) = Some lines ->
  Forall2 (arpa_line (ae_sd env)) es lines -> arpa_input (map fst vocab) order (se_ram (ae_s env)) es ->
  batches (se_ram (ae_s env)) es (bs ++ [[e]]) -> (2 <= length bs)%nat ->
  exists es', sort_arpa env srt (vocab_lines vocab) order data = Ok (title order :: map (printed (ae_fmt env)) es') /\ Permutation es (e :: es').
Proof. intros. eapply sort_arpa_last; eauto. Qed.
(** An order that the file does not have is refused, whatever the vocabulary. *)
Theorem C43_order_refused : forall env srt vocab data secs order,
  plain_arpa data secs -> order = 0 \/ lenN secs < order -> sort_arpa env srt vocab order data = Throw.
Proof.
  intros env srt vocab data secs order PA HO.
  assert (N1 : exists s, nthN secs (1 - 1) = Some s). { destruct PA as (? & ? & ? & _ & (L & _) & _). destruct secs as [|s ?]; [change (lenN (@nil (list (list N)))) with 0 in L; lia|]. exists s. reflexivity. }
  destruct N1 as (s & N1). destruct (reach data secs 1 s PA ltac:(lia) N1) as (_ & _ & _ & _ & _ & a0 & ? & ? & ? & ? & ? & E0 & _).
  unfold sort_arpa. rewrite E0. cbn [bind]. rewrite lenN_map. destruct HO as [-> | HO]; [reflexivity|].
  destruct (N.ltb_spec (lenN secs) order) as [_|Z]; [|lia]. rewrite orb_true_r. reflexivity.
Qed.
(** The values are not kept: two probabilities that are different floats (the neighbours of -1 and
    -1 itself), and two back-offs (2^-23 and 2^-22), are printed alike. *)
Theorem C43_rounding_refuted : forall g,
  let m1 := S754_finite true 8388608 (-23) in let m1' := S754_finite true 16777215 (-24) in
  let t := S754_finite true 8388608 (-46) in let t' := S754_finite true 8388608 (-45) in
  SFcompare m1 m1' = Some Lt /\ SFcompare t' t = Some Lt /\ valid_binary 24 128 m1 = true /\ valid_binary 24 128 m1' = true /\ valid_binary 24 128 t = true /\ valid_binary 24 128 t' = true /\
  printed fixed6 (g, (m1, t)) = printed fixed6 (g, (m1', t')).
Proof. intros g. repeat (split; [vm_compute; reflexivity|]). unfold printed. cbn [fst snd]. reflexivity. Qed.

(** ** instances *)
(** prints the digit of one of the ten numbers of the example *)
Definition exfmt (x : spec_float) : list N :=
  match find (fun k => match SFcompare (exf k) x with Some Eq => true | _ => false end) [0; 1; 2; 3; 4; 5; 6; 7; 8; 9] with
  | Some k => [48 + k]
  | None => [48]
  end.
Example exfmt_prints : prints exsd exfmt.
Proof.
  intros x. unfold exfmt. assert (H : exists d, (d = 48 \/ 48 <= d < 58) /\ match find (fun k => match SFcompare (exf k) x with Some Eq => true | _ => false end) [0; 1; 2; 3; 4; 5; 6; 7; 8; 9] with Some k => [48 + k] | None => [48] end = [d]).
  { destruct (find _ _) as [k|] eqn:E; [|exists 48; auto]. exists (48 + k). apply find_some in E. destruct E as [I _]. cbn in I. split; [|reflexivity]. right. clear - I. intuition lia. }
  destruct H as (d & HD & ->). split; [|split; [reflexivity|]].
  - intros [E|[]]. lia.
  - intros post. unfold exsd. cbn [app]. change (nthN (d :: 9 :: post) 0) with (Some d). destruct d as [|q]; [lia|]. do 4 (destruct q as [q|q|]; try reflexivity; try lia).
Qed.
(** vocabulary c, a, b; two orders; the second has four bigrams *)
Definition exa_E : list (list (gram * (N * N))) := [
  [([[97]], (1, 2)); ([[98]], (2, 3))];
  [([[97]; [98]], (1, 2)); ([[98]; [99]], (2, 0)); ([[99]; [97]], (3, 4)); ([[97]; [97]], (4, 1))]].
Definition exa_D : entries := map (map exent) exa_E.
Definition exa_secs : list (list (list N)) := map (map exline) exa_E.
Definition exa_file (gap : list (list N)) : list N :=
  text_of ([[92; 100; 97; 116; 97; 92]] ++ count_lines 1 (map lenN exa_secs) ++ [[]] ++
           (title 1 :: nth 0 exa_secs []) ++ gap ++ (title 2 :: nth 1 exa_secs []) ++ [[]]) ++ [92; 101; 110; 100; 92].
Definition exa_env (ram : N) : aenv := mkaenv (exs_env ram) exsd exfmt.
Example exa_plain : plain_arpa (exa_file [[]]) exa_secs.
Proof.
  exists O, O, []. split; [vm_compute; reflexivity|]. split; [vm_compute; split; [discriminate|reflexivity]|]. split; [repeat constructor; discriminate|]. split.
  - repeat constructor; try discriminate; cbn; intuition discriminate.
  - repeat constructor; reflexivity.
Qed.
Lemma exa_line_ok e : fst (snd e) < 8 -> snd (snd e) < 8 -> arpa_line exsd (exent e) (exline e).
Proof.
  intros H1 H2. destruct e as [g [p b]]. cbn [fst snd] in *. exists [48 + p], (if b =? 0 then [] else [9; 48 + b]), (exf p). unfold exent, exline. cbn [fst snd].
  assert (PR : exsd ((48 + p) :: 9 :: join g ++ (if b =? 0 then [] else [9; 48 + b]) ++ [0]) 0 = (exf p, 1)).
  { unfold exsd. change (nthN ((48 + p) :: 9 :: join g ++ (if b =? 0 then [] else [9; 48 + b]) ++ [0]) 0) with (Some (48 + p)).
    assert (C : p = 0 \/ p = 1 \/ p = 2 \/ p = 3 \/ p = 4 \/ p = 5 \/ p = 6 \/ p = 7) by lia. repeat (destruct C as [->|C]; [reflexivity|]). subst p. reflexivity. }
  split; [reflexivity|]. split; [cbn [app]; rewrite <- app_assoc; exact PR|]. split.
  { assert (C : p = 0 \/ p = 1 \/ p = 2 \/ p = 3 \/ p = 4 \/ p = 5 \/ p = 6 \/ p = 7) by lia. repeat (destruct C as [->|C]; [reflexivity|]). subst p. reflexivity. }
  destruct (N.eqb_spec b 0) as [->|NB]; [left; split; reflexivity|]. right. exists [48 + b]. split; [reflexivity|].
  change (lenN [48 + p]) with 1. change ((48 + p) :: 9 :: join g ++ [9; 48 + b]) with ([48 + p; 9] ++ join g ++ [9; 48 + b]). rewrite <- !app_assoc. cbn [app]. unfold exsd.
  assert (N1 : nthN ((48 + p) :: 9 :: join g ++ 9 :: 48 + b :: [0]) (1 + 1 + lenN (join g)) = Some 9).
  { change ((48 + p) :: 9 :: join g ++ 9 :: 48 + b :: [0]) with ([48 + p; 9] ++ join g ++ 9 :: 48 + b :: [0]). rewrite nthN_app2 by (change (lenN [48 + p; 9]) with 2; lia). replace (1 + 1 + lenN (join g) - lenN [48 + p; 9]) with (lenN (join g)) by (change (lenN [48 + p; 9]) with 2; lia). rewrite nthN_app2 by lia. rewrite N.sub_diag. reflexivity. }
  assert (N2 : nthN ((48 + p) :: 9 :: join g ++ 9 :: 48 + b :: [0]) (1 + 1 + lenN (join g) + 1) = Some (48 + b)).
  { change ((48 + p) :: 9 :: join g ++ 9 :: 48 + b :: [0]) with ([48 + p; 9] ++ join g ++ 9 :: 48 + b :: [0]). rewrite nthN_app2 by (change (lenN [48 + p; 9]) with 2; lia). replace (1 + 1 + lenN (join g) + 1 - lenN [48 + p; 9]) with (lenN (join g) + 1) by (change (lenN [48 + p; 9]) with 2; lia). rewrite nthN_app2 by lia. replace (lenN (join g) + 1 - lenN (join g)) with 1 by lia. reflexivity. }
  rewrite N1, N2. cbn [fst]. replace (48 + b - 48) with b by lia. reflexivity.
Qed.
Example C43_example_hyps : forall ram, 3 <= ram < 2 ^ 63 ->
  sort_env_ok (ae_s (exa_env ram)) exs_vocab /\ prints (ae_sd (exa_env ram)) (ae_fmt (exa_env ram)) /\ std_sort (@isort (@srec (spec_float * spec_float))) /\
  plain_arpa (exa_file [[]]) exa_secs /\ nthN exa_secs (2 - 1) = Some (nth 1 exa_secs []) /\
  Forall2 (arpa_line (ae_sd (exa_env ram))) (nth 1 exa_D []) (nth 1 exa_secs []) /\
  arpa_input (map fst exs_vocab) 2 (se_ram (ae_s (exa_env ram))) (nth 1 exa_D []).
Proof.
  intros ram HR. split; [apply exs_env_ok|]. split; [apply exfmt_prints|]. split; [apply std_sort_isort|]. split; [apply exa_plain|]. split; [reflexivity|]. split.
  - cbn [nth exa_D exa_secs exa_E map]. repeat (constructor; [apply exa_line_ok; cbn; lia|]). constructor.
  - cbn [nth exa_D exa_E map]. repeat (apply Forall_cons; [split; [split; [reflexivity|repeat (apply Forall_cons; [vm_compute; repeat (first [left; reflexivity|right])|]); constructor]|change (3 <= ram); lia]|]). constructor.
Qed.
(** suffix order over c < a < b: c follows everything it precedes; two batches of two *)
Example C43_example_run : sort_arpa (exa_env 6) isort (vocab_lines exs_vocab) 2 (exa_file [[]]) =
  Ok (title 2 :: map exline [([[98]; [99]], (2, 0)); ([[99]; [97]], (3, 4)); ([[97]; [97]], (4, 1)); ([[97]; [98]], (1, 2))]).
Proof. vm_compute. reflexivity. Qed.
(** the loss of the last record: three bigrams per batch *)
Example C43_example_loss : sort_arpa (exa_env 9) isort (vocab_lines exs_vocab) 2 (exa_file [[]]) = Ok [title 2].
Proof. vm_compute. reflexivity. Qed.
(** A second blank line between the sections, which the readers of arpa files accept: the title is
    taken for an entry ("0" and "2-grams:", as strtod reads no number at a backslash), and the last entry is lost. *)
Definition exsd2 (s : list N) (pos : N) : spec_float * N := match nthN s pos with Some 92 => (S754_zero false, pos) | _ => exsd s pos end.
Theorem C43_two_blank_lines_refuted : arpa_text (exa_file [[]; []]) exa_secs /\
  sort_arpa (mkaenv (exs_env 100) exsd2 exfmt) isort (vocab_lines exs_vocab) 2 (exa_file [[]; []]) =
    Ok (title 2 :: map exline [([[50; 45; 103; 114; 97; 109; 115; 58]], (0, 0)); ([[98]; [99]], (2, 0)); ([[99]; [97]], (3, 4)); ([[97]; [98]], (1, 2))]).
Proof.
  split.
  - exists O, O, [1%nat], []. split; [vm_compute; reflexivity|]. split; [left; reflexivity|]. split; [vm_compute; split; [discriminate|reflexivity]|]. split; [|split; [vm_compute; reflexivity|repeat constructor; reflexivity]].
    repeat constructor; cbn; intuition discriminate.
  - vm_compute. reflexivity.
Qed.
Print Assumptions C43_sorted_partial.
Print Assumptions C43_batches_exist.
Print Assumptions C43_one_record_refuted.
Print Assumptions C43_last_record_refuted.
Print Assumptions C43_order_refused.
Print Assumptions C43_rounding_refuted.
Print Assumptions C43_two_blank_lines_refuted.
