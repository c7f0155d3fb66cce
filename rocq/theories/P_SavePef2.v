(** * Count tries over uniform_pef: where the sequences of a trie come from *)
From Verif Require Import Prelude BitFacts M_Word P_Word M_Bits Spec P_Bits M_CompactVector P_CompactVector M_DArray M_EF P_EF P_EF2
  M_HashVec M_Mph P_Mph P_MphTables M_FastEF P_FastEF3 M_Text P_Text P_Text2 M_SeqColl P_SeqColl M_Pool P_Pool M_Pef Spec_Pef M_Trie M_TriePef Spec_Trie
  P_Trie1 P_Trie2 P_Trie3 P_Trie4 P_Trie5 P_TriePef1 P_TriePef2 P_TriePef3 P_TriePef4 M_Save Spec_Save P_Save P_Typed M_SavePef Spec_SavePef P_SavePef1.
From Coq Require Import Permutation Sorting.Sorted.

(** ** the queries leave all but the enumerators *)
Lemma same_gseq_refl g : same_gseq g g. Proof. destruct g; reflexivity. Qed.
Lemma same_rseq_refl r : same_rseq r r. Proof. destruct r; reflexivity. Qed.
Lemma same_gseq_trans a b c : same_gseq a b -> same_gseq b c -> same_gseq a c. Proof. destruct a, b, c; cbn; try contradiction; congruence. Qed.
Lemma same_rseq_trans a b c : same_rseq a b -> same_rseq b c -> same_rseq a c. Proof. destruct a, b, c; cbn; try contradiction; congruence. Qed.
Lemma same_parr_refl a : same_parr a a.
Proof. split; [reflexivity|]. split; [destruct (p_grams a); [apply same_gseq_refl|exact I]|]. split; [destruct (p_ranks a); [apply same_rseq_refl|exact I]|reflexivity]. Qed.
Lemma same_parr_trans a b c : same_parr a b -> same_parr b c -> same_parr a c.
Proof.
  intros (A1 & A2 & A3 & A4) (B1 & B2 & B3 & B4). split; [congruence|]. split; [|split; [|congruence]].
  - destruct (p_grams a), (p_grams b), (p_grams c); cbn in *; try contradiction; try exact I. eapply same_gseq_trans; eauto.
  - destruct (p_ranks a), (p_ranks b), (p_ranks c); cbn in *; try contradiction; try exact I. eapply same_rseq_trans; eauto.
Qed.
Definition same_arrays (l l' : list parr) : Prop := lenN l' = lenN l /\ forall i a', nthN l' i = Some a' -> exists a, nthN l i = Some a /\ same_parr a a'.
Lemma same_arrays_refl l : same_arrays l l. Proof. split; [reflexivity|]. intros i a H. exists a. split; [exact H|apply same_parr_refl]. Qed.
Lemma same_arrays_trans a b c : same_arrays a b -> same_arrays b c -> same_arrays a c.
Proof.
  intros (A1 & A2) (B1 & B2). split; [congruence|]. intros i x Hx. destruct (B2 i x Hx) as (y & Hy & S1). destruct (A2 i y Hy) as (z & Hz & S2). exists z. split; [exact Hz|].
  eapply same_parr_trans; eauto.
Qed.
Lemma same_wr l k a a' l' : nthN l k = Some a -> same_parr a a' -> wr l k a' = Ok l' -> same_arrays l l'.
Proof.
  intros Ha S0 E. pose proof (nthN_lt _ _ _ Ha) as L. rewrite wr_setN in E by exact L. injection E as <-. split; [apply lenN_setN|]. intros i x Hx.
  destruct (N.eq_dec i k) as [->|NE]; [rewrite setN_same in Hx by exact L; injection Hx as <-; exists a; auto|].
  rewrite setN_other in Hx by assumption. exists x. split; [exact Hx|apply same_parr_refl].
Qed.
Lemma same_Forall2 l l' : same_arrays l l' -> Forall2 same_parr l l'.
Proof.
  intros (L & H). revert l' L H. induction l as [|a l IH]; intros l' L H; destruct l' as [|a' l']; rewrite ?lenN_cons in L; try (change (lenN (@nil parr)) with 0 in L; lia); [constructor|].
  constructor.
  - destruct (H 0 a' eq_refl) as (x & Hx & S0). injection Hx as ->. exact S0.
  - assert (NS : forall A (b : A) m i, nthN (b :: m) (i + 1) = nthN m i) by (intros A b m i; unfold nthN; replace (N.to_nat (i + 1)) with (S (N.to_nat i)) by lia; reflexivity).
    apply IH; [lia|]. intros i x Hx. destruct (H (i + 1) x) as (y & Hy & S0). { rewrite NS. exact Hx. } exists y. rewrite NS in Hy. auto.
Qed.

Section Env.
Variable env : penv.
Lemma g_find_same k g r id p g' : g_find env k g r id = Ok (p, g') -> same_gseq g g'.
Proof.
  intros E. destruct g as [f|f e]; cbn [g_find] in E; apply bind_inv in E.
  - destruct E as (q & _ & E). injection E as _ <-. reflexivity.
  - destruct E as ([q e'] & _ & E). injection E as _ <-. reflexivity.
Qed.
Lemma rk_get_same k r i x r' : rk_get env k r i = Ok (x, r') -> same_rseq r r'.
Proof.
  intros E. destruct r as [r|f e]; cbn [rk_get] in E.
  - apply bind_inv in E. destruct E as (q & _ & E). injection E as _ <-. reflexivity.
  - destruct (i =? 0); [|destruct (pe_swap env)]; apply bind_inv in E; destruct E as ([q e'] & _ & E); try (injection E as _ <-; reflexivity);
      apply bind_inv in E; destruct E as ([q2 e2] & _ & E); injection E as _ <-; reflexivity.
Qed.
Lemma position_same arrays k r id p arrays' : pa_position env arrays k r id = Ok (p, arrays') -> same_arrays arrays arrays'.
Proof.
  intros E. unfold pa_position in E. apply bind_inv in E. destruct E as (a & Ha & E). apply rd_inv in Ha. destruct (p_grams a) as [g|] eqn:EG; [|discriminate].
  apply bind_inv in E. destruct E as ([q g'] & EF & E). cbv beta iota in E. apply bind_inv in E. destruct E as (l' & EW & E). injection E as _ <-.
  refine (same_wr _ _ _ _ _ Ha _ EW). split; [reflexivity|]. cbn [p_grams p_ranks p_ptrs]. rewrite EG. split; [exact (g_find_same _ _ _ _ _ _ EF)|].
  split; [destruct (p_ranks a); [apply same_rseq_refl|exact I]|reflexivity].
Qed.
Lemma next_same arrays k r id p r' arrays' : pa_next env arrays k r id = Ok (p, r', arrays') -> same_arrays arrays arrays'.
Proof.
  intros E. unfold pa_next in E. apply bind_inv in E. destruct E as ([q l] & EP & E). cbv beta iota in E. apply position_same in EP.
  destruct (q =? not_found); [injection E as _ _ <-; exact EP|]. apply bind_inv in E. destruct E as (r2 & _ & E). injection E as _ _ <-. exact EP.
Qed.
Lemma rank_same arrays k p x arrays' : pa_count_rank env arrays k p = Ok (x, arrays') -> same_arrays arrays arrays'.
Proof.
  intros E. unfold pa_count_rank in E. apply bind_inv in E. destruct E as (a & Ha & E). apply rd_inv in Ha. destruct (p_ranks a) as [g|] eqn:EG; [|discriminate].
  apply bind_inv in E. destruct E as ([q g'] & EF & E). cbv beta iota in E. apply bind_inv in E. destruct E as (l' & EW & E). injection E as _ <-.
  refine (same_wr _ _ _ _ _ Ha _ EW). split; [reflexivity|]. cbn [p_grams p_ranks p_ptrs]. rewrite EG. split; [destruct (p_grams a); [apply same_gseq_refl|exact I]|].
  split; [exact (rk_get_same _ _ _ _ _ EF)|reflexivity].
Qed.
Lemma map_in_same arrays k r id p arrays' : pmap_in env arrays k r id = Ok (p, arrays') -> same_arrays arrays arrays'.
Proof.
  intros E. unfold pmap_in in E. apply bind_inv in E. destruct E as ([q l] & EP & E). cbv beta iota in E. apply position_same in EP.
  destruct (q =? not_found); injection E as _ <-; exact EP.
Qed.
Lemma map_gram_same v arrays remap buf g id p arrays' : pmap_gram env v arrays remap buf g id = Ok (p, arrays') -> same_arrays arrays arrays'.
Proof.
  intros E. unfold pmap_gram in E. apply bind_inv in E. destruct E as (b & _ & E). apply bind_inv in E. destruct E as (pid & _ & E). apply bind_inv in E. destruct E as (r & _ & E).
  apply bind_inv in E. destruct E as ([r2 l] & E1 & E). cbv beta iota in E. apply map_in_same in E.
  destruct (remap =? 2); [|injection E1 as _ <-; exact E]. apply bind_inv in E1. destruct E1 as (nw & _ & E1). apply bind_inv in E1. destruct E1 as (ni & _ & E1).
  apply bind_inv in E1. destruct E1 as ([[q r3] l2] & E2 & E1). cbv beta iota in E1. injection E1 as _ <-. apply next_same in E2. eapply same_arrays_trans; eauto.
Qed.
Lemma map_parents_same arrays id pids order remap p arrays' : pmap_parents env arrays id pids order remap = Ok (p, arrays') -> same_arrays arrays arrays'.
Proof.
  intros E. unfold pmap_parents in E. apply bind_inv in E. destruct E as (b & _ & E). apply bind_inv in E. destruct E as (r & _ & E).
  apply bind_inv in E. destruct E as ([r2 l] & E1 & E). cbv beta iota in E. apply map_in_same in E.
  destruct (remap =? 2); [|injection E1 as _ <-; exact E]. apply bind_inv in E1. destruct E1 as (nw & _ & E1).
  apply bind_inv in E1. destruct E1 as ([[q r3] l2] & E2 & E1). cbv beta iota in E1. injection E1 as _ <-. apply next_same in E2. eapply same_arrays_trans; eauto.
Qed.
Lemma inner_same v remap buf last : forall fuel arrays pos prev order wids pids o w2 p2 arrays',
  pmq_inner fuel env v arrays remap buf last pos prev order wids pids = Ok (o, w2, p2, arrays') -> same_arrays arrays arrays'.
Proof.
  induction fuel as [|fuel IH]; intros arrays pos prev order wids pids o w2 p2 arrays' E; cbn [pmq_inner] in E; destruct (pos =? last).
  1, 3: apply bind_inv in E; destruct E as (id & _ & E); destruct (id =? not_found); [injection E as _ _ _ <-; apply same_arrays_refl|];
    apply bind_inv in E; destruct E as ([m l] & E1 & E); cbv beta iota in E;
    (assert (SL : same_arrays arrays l) by (destruct (negb (order =? 2) || negb (remap =? 2)); [eapply map_parents_same; eauto|injection E1 as _ <-; apply same_arrays_refl]));
    destruct (m =? not_found); [injection E as _ _ _ <-; exact SL|]; apply bind_inv in E; destruct E as (w & _ & E); injection E as _ _ _ <-; exact SL.
  - discriminate.
  - apply bind_inv in E. destruct E as (c & _ & E). destruct (c =? c_space); [|eapply IH; exact E].
    apply bind_inv in E. destruct E as (id & _ & E). destruct (id =? not_found); [injection E as _ _ _ <-; apply same_arrays_refl|].
    apply bind_inv in E. destruct E as ([m l] & E1 & E). cbv beta iota in E.
    assert (SL : same_arrays arrays l) by (destruct ((order =? 2) && (remap =? 2)); [injection E1 as _ <-; apply same_arrays_refl|eapply map_parents_same; eauto]).
    destruct (m =? not_found); [injection E as _ _ _ <-; exact SL|]. apply bind_inv in E. destruct E as (w & _ & E). apply bind_inv in E. destruct E as (p & _ & E).
    eapply same_arrays_trans; [exact SL|]. eapply IH. exact E.
Qed.
Lemma sorted_same v remap buf first last : forall fuel arrays pos prev order wids pids o w2 p2 arrays',
  pmq_sorted fuel env v arrays remap buf first last pos prev order wids pids = Ok (o, w2, p2, arrays') -> same_arrays arrays arrays'.
Proof.
  assert (FIN : forall (arrays : list parr) prev order (wids pids : list N) q o w2 p2 arrays',
    (id <- vlook (te_h (pe_t env)) v buf (prev, q) ;; if id =? not_found then Ok (not_found, wids, pids, arrays) else wids <- wr wids order id ;; Ok (order, wids, pids, arrays)) = Ok (o, w2, p2, arrays') -> same_arrays arrays arrays').
  { intros arrays prev order wids pids q o w2 p2 arrays' E. apply bind_inv in E. destruct E as (id & _ & E). destruct (id =? not_found); [injection E as _ _ _ <-; apply same_arrays_refl|].
    apply bind_inv in E. destruct E as (w & _ & E). injection E as _ _ _ <-. apply same_arrays_refl. }
  induction fuel as [|fuel IH]; intros arrays pos prev order wids pids o w2 p2 arrays' E; cbn [pmq_sorted] in E; cbv zeta in E; destruct (pos =? last).
  1, 3: eapply FIN; exact E.
  - discriminate.
  - apply bind_inv in E. destruct E as (c & _ & E). destruct (c =? c_space); [|eapply IH; exact E]. destruct (pos =? first); [eapply FIN; exact E|].
    apply bind_inv in E. destruct E as (id & _ & E). destruct (id =? not_found); [injection E as _ _ _ <-; apply same_arrays_refl|].
    apply bind_inv in E. destruct E as (w & _ & E). apply bind_inv in E. destruct E as (p & _ & E). destruct (order + 1 =? 2); [eapply inner_same; exact E|eapply IH; exact E].
Qed.
Lemma descend_same wids : forall n arrays i pos p arrays', pdescend n env arrays wids i pos = Ok (p, arrays') -> same_arrays arrays arrays'.
Proof.
  induction n as [|n IH]; intros arrays i pos p arrays' E; cbn [pdescend] in E; [injection E as _ <-; apply same_arrays_refl|].
  apply bind_inv in E. destruct E as (r & _ & E). apply bind_inv in E. destruct E as (w & _ & E). apply bind_inv in E. destruct E as ([q l] & E1 & E). cbv beta iota in E.
  apply position_same in E1. destruct (q =? not_found); [injection E as _ <-; exact E1|]. eapply same_arrays_trans; [exact E1|]. eapply IH; exact E.
Qed.
Lemma lookup_same t st buf r c st' t' : ptrie_lookup env t st buf r = Ok (c, st', t') ->
  same_arrays (pt_arrays t) (pt_arrays t') /\ t' = with_arrays t (pt_arrays t').
Proof.
  intros E. unfold ptrie_lookup in E. destruct st as [wids pids]. apply bind_inv in E. destruct E as ([[[o w2] p2] l] & E1 & E). cbv beta iota in E.
  assert (SL : same_arrays (pt_arrays t) l).
  { destruct (te_map (pe_t env)); [eapply sorted_same; exact E1|]. apply bind_inv in E1. destruct E1 as ([o3 w3] & _ & E1). cbv beta iota in E1. injection E1 as _ _ _ <-. apply same_arrays_refl. }
  destruct ((o =? not_found) || (pt_order t <? o)); [injection E as _ _ <-; split; [exact SL|reflexivity]|].
  apply bind_inv in E. destruct E as (w0 & _ & E). apply bind_inv in E. destruct E as ([pos l2] & E2 & E). cbv beta iota in E.
  apply descend_same in E2. pose proof (same_arrays_trans _ _ _ SL E2) as S2.
  destruct ((pos =? not_found) && negb (o =? 0)); [injection E as _ _ <-; split; [exact S2|reflexivity]|].
  apply bind_inv in E. destruct E as ([rk l3] & E3 & E). cbv beta iota in E. apply rank_same in E3.
  apply bind_inv in E. destruct E as (c0 & _ & E). injection E as _ _ <-. split; [exact (same_arrays_trans _ _ _ S2 E3)|reflexivity].
Qed.
Lemma step_same v cb order remap s arrays l s' arrays' : pngram_step env v cb order remap (s, arrays) l = Ok (s', arrays') -> same_arrays arrays arrays'.
Proof.
  intros E. unfold pngram_step in E. apply bind_inv in E. destruct E as ([gram count] & _ & E). cbv beta iota zeta in E. apply bind_inv in E. destruct E as (pat & _ & E).
  apply bind_inv in E. destruct E as ([prv ptrs] & _ & E). cbv beta iota in E. destruct prv as [|]; [discriminate|]. apply bind_inv in E. destruct E as (tid & _ & E).
  apply bind_inv in E. destruct E as ([tid2 l2] & E1 & E). cbv beta iota in E.
  assert (SL : same_arrays arrays l2).
  { destruct (te_map (pe_t env) && (remap + 1 <? order)); [|injection E1 as _ <-; apply same_arrays_refl]. apply bind_inv in E1. destruct E1 as ([m l3] & E2 & E1). cbv beta iota in E1.
    apply map_gram_same in E2. destruct (m =? not_found); [discriminate|]. injection E1 as _ <-. exact E2. }
  apply bind_inv in E. destruct E as (x1 & _ & E). apply bind_inv in E. destruct E as (x2 & _ & E). apply bind_inv in E. destruct E as (x3 & _ & E). injection E as _ <-. exact SL.
Qed.
Lemma ngrams_same v arrays cb order remap cur prv b ptrs b' arrays' : pbuild_ngrams env v arrays cb order remap cur prv b = Ok (ptrs, b', arrays') -> same_arrays arrays arrays'.
Proof.
  intros E. unfold pbuild_ngrams in E. apply bind_inv in E. destruct E as ([s l] & E1 & E). cbv beta iota in E. injection E as _ _ <-.
  refine (foldM_inv (fun s : bstate * list parr => same_arrays arrays (snd s)) _ _ _ (mkbst prv [0] 0 b, arrays) (s, l) (same_arrays_refl _) E1). clear.
  intros [s l] a [s' l'] _ HI E. cbn [snd] in *. eapply same_arrays_trans; [exact HI|]. eapply step_same; exact E.
Qed.
End Env.

(** ** provenance *)
Definition opt_all {A} (P : A -> Prop) (o : option A) : Prop := forall x, o = Some x -> P x.

Section Build.
Variable D : list (list (gram * N)).
Variable remap : N.
Hypothesis C : collection D remap.
Variable env : penv.
Hypothesis EO : penv_ok D remap env.
Notation G := (grams D).
Notation voc := (grams D 0).
Notation tv := (pe_t env).

Definition pr_g (k : N) (g : gseq) : Prop :=
  0 < k < lenN D /\ exists g0, g_build env k (lids D remap k) (child_ptrs (G (k - 1)) (G k)) (k + 1) = Ok g0 /\ same_gseq g0 g.
Definition pr_r (seqs : list cv) (k : N) (r : rseq) : Prop := exists l n rs r0, nthN D k = Some l /\ rs <> [] /\ lenN rs = lenN l /\ Forall (fun x => x < n) rs /\
  n <= lenN l /\ n <= lenN (nodup N.eq_dec (map snd l)) /\ (forall i e, nthN l i = Some e -> exists x, nthN rs i = Some x /\ sc_access seqs k x = Ok (snd e)) /\
  rk_build env k rs (k + 1) = Ok r0 /\ same_rseq r0 r.
Definition pr_p (k : N) (e : ef) : Prop := k + 1 < lenN D /\ ptr_build (child_ptrs (G k) (G (k + 1))) = Ok e.
Definition pr_a (seqs : list cv) (k : N) (a : parr) : Prop :=
  p_size a < 2 ^ 64 /\ opt_all (pr_g k) (p_grams a) /\ opt_all (pr_r seqs k) (p_ranks a) /\ opt_all (pr_p k) (p_ptrs a).
Definition prov (seqs : list cv) (arrays : list parr) : Prop := lenN arrays = lenN D /\ forall k a, nthN arrays k = Some a -> pr_a seqs k a.

Lemma prov_same seqs l l' : same_arrays l l' -> prov seqs l -> prov seqs l'.
Proof.
  intros (S1 & S2) (P1 & P2). split; [congruence|]. intros k a' Ha. destruct (S2 k a' Ha) as (a & Ha0 & (E1 & E2 & E3 & E4)). destruct (P2 k a Ha0) as (Q1 & Q2 & Q3 & Q4).
  split; [congruence|]. split; [|split; [|rewrite <- E4; exact Q4]].
  - intros g Hg. rewrite Hg in E2. destruct (p_grams a) as [g1|] eqn:EG; [|destruct E2]. destruct (Q2 g1 eq_refl) as (K & g0 & B1 & B2). split; [exact K|]. exists g0. split; [exact B1|].
    eapply same_gseq_trans; eauto.
  - intros r Hr. rewrite Hr in E3. destruct (p_ranks a) as [r1|] eqn:ER; [|destruct E3]. destruct (Q3 r1 eq_refl) as (l0 & n & rs & r0 & B1 & B2 & B3 & B4 & B5 & B6 & B7 & B8 & B9).
    exists l0, n, rs, r0. do 8 (split; [assumption|]). eapply same_rseq_trans; eauto.
Qed.
Lemma prov_wr seqs l k a l' : prov seqs l -> pr_a seqs k a -> wr l k a = Ok l' -> prov seqs l'.
Proof.
  intros (P1 & P2) HA E. assert (L : k < lenN l) by (unfold wr in E; destruct (N.ltb_spec k (lenN l)); [assumption|discriminate]).
  rewrite wr_setN in E by exact L. injection E as <-. split; [rewrite lenN_setN; exact P1|]. intros j b Hj.
  destruct (N.eq_dec j k) as [->|NE]; [rewrite setN_same in Hj by assumption; injection Hj as <-; exact HA|]. rewrite setN_other in Hj by assumption. auto.
Qed.

Lemma pr_rank cb k l n rs r0 : nthN D k = Some l -> Forall2 (rank_ok cb k n) l rs -> lenN rs = lenN l -> Forall (fun x => x < n) rs -> n <= lenN l -> n <= lenN (nodup N.eq_dec (map snd l)) ->
  rk_build env k rs (k + 1) = Ok r0 -> pr_r (sb_seqs cb) k r0.
Proof.
  intros Hl F2 LR FR NL ND E. destruct (col_size _ _ C _ _ Hl) as [S1 S2]. exists l, n, rs, r0. split; [exact Hl|].
  split. { intros Z. subst rs. change (lenN (@nil N)) with 0 in LR. destruct l; [congruence|]. rewrite lenN_cons in LR. lia. }
  do 4 (split; [assumption|]). split; [|split; [exact E|apply same_rseq_refl]].
  intros i e He. destruct (nthN_Some rs i) as (r & Hr). { apply nthN_lt in He. lia. } exists r. split; [exact Hr|]. pose proof (Forall2_nthN _ _ _ _ _ _ F2 He Hr) as K. apply K.
Qed.

Lemma order_prov v cb arrays k arrays' : dicts_ok D cb -> voc_rep D tv v -> 0 < k < lenN D -> P_TriePef2.arrays_upto D remap env (sb_seqs cb) arrays k ->
  prov (sb_seqs cb) arrays -> pbuild_order env v cb remap (map (map line) D) arrays (k + 1) = Ok arrays' -> prov (sb_seqs cb) arrays'.
Proof.
  intros DO RV [Hk HkD] AU PV E. destruct (nthN_Some D k HkD) as (l & Hl). destruct (nthN_Some D (k - 1) ltac:(lia)) as (l' & Hl').
  destruct (P_TriePef3.ranks_exist D remap C cb k l DO Hl) as (n & rs & SZ & Hn & F2 & LR & FR & FRL & NL & ND).
  destruct (P_TriePef3.push_pair D remap C env k l rs n v Hl RV LR FR Hn) as (b & bg & br & EB & EG & ER & HG & HR).
  unfold pbuild_order in E. replace (k + 1 - 2) with (k - 1) in E by lia. replace (k + 1 - 1) with k in E by lia.
  assert (F1 : nthN (map (map line) D) (k - 1) = Some (map line l')) by (rewrite nthN_map, Hl'; reflexivity).
  assert (F0 : nthN (map (map line) D) k = Some (map line l)) by (rewrite nthN_map, Hl; reflexivity).
  rewrite (proj2 (rd_nthN _ _ _) F1) in E. cbn [bind] in E. rewrite (proj2 (rd_nthN _ _ _) F0) in E. cbn [bind] in E. rewrite lenN_map, SZ in E. cbn [bind] in E. rewrite EB in E. cbn [bind] in E.
  destruct (pbuild_ngrams_ok D remap C env EO v arrays cb k l l' n (sb_seqs cb) rs b bg br Hk RV AU Hl Hl' F2 EG ER) as (arrays0 & EN & AU0).
  pose proof (ngrams_same _ _ _ _ _ _ _ _ _ _ _ _ EN) as SN. rewrite EN in E. cbn [bind] in E. cbv beta iota in E.
  pose proof (prov_same _ _ _ SN PV) as PV0. clear EN SN PV AU. pose proof AU0 as (AL & AR & AP & APtr).
  destruct (nthN_Some arrays0 k ltac:(lia)) as (a & Ha). rewrite (proj2 (rd_nthN _ _ _) Ha) in E. cbn [bind] in E.
  apply bind_inv in E. destruct E as (a1 & E1 & E). unfold pab_build in E1. cbn [ab_grams] in E1. rewrite (cv_all_ok _ _ HG) in E1. cbn [bind] in E1.
  apply bind_inv in E1. destruct E1 as (g & EGB & E1). unfold pab_build_ranks in E1. cbn [ab_ranks] in E1. rewrite (cv_all_ok _ _ HR) in E1. cbn [bind] in E1.
  apply bind_inv in E1. destruct E1 as (rk & ERB & E1). injection E1 as <-. cbn [p_size p_grams p_ranks p_ptrs] in E.
  apply bind_inv in E. destruct E as (arr1 & EW & E).
  assert (PV1 : prov (sb_seqs cb) arr1).
  { refine (prov_wr _ _ _ _ _ PV0 _ EW). destruct (proj2 PV0 k a Ha) as (Q1 & Q2 & Q3 & Q4). split; [exact Q1|]. cbn [p_grams p_ranks p_ptrs]. split; [|split; [|exact Q4]].
    - intros x Hx. injection Hx as <-. split; [lia|]. exists g. split; [exact EGB|apply same_gseq_refl].
    - intros x Hx. injection Hx as <-. eapply pr_rank; eassumption. }
  apply bind_inv in E. destruct E as (a' & Ha' & E). apply rd_inv in Ha'. apply bind_inv in E. destruct E as (a2 & E2 & E).
  unfold pa_build_pointers in E2. apply bind_inv in E2. destruct E2 as (pe & EP & E2). injection E2 as <-.
  refine (prov_wr _ _ _ _ _ PV1 _ E). destruct (proj2 PV1 (k - 1) a' Ha') as (Q1 & Q2 & Q3 & Q4). split; [exact Q1|]. cbn [p_grams p_ranks p_ptrs]. split; [exact Q2|]. split; [exact Q3|].
  intros x Hx. injection Hx as <-. split; [lia|]. replace (k - 1 + 1) with k by lia. exact EP.
Qed.
Lemma orders_prov v cb : dicts_ok D cb -> voc_rep D tv v -> forall m k arrays arrays', 0 < k -> k + N.of_nat m <= lenN D -> P_TriePef2.arrays_upto D remap env (sb_seqs cb) arrays k ->
  prov (sb_seqs cb) arrays -> foldM (pbuild_order env v cb remap (map (map line) D)) (seqN (k + 1) m) arrays = Ok arrays' -> prov (sb_seqs cb) arrays'.
Proof.
  intros DO RV. induction m as [|m IH]; intros k arrays arrays' Hk Hm AU PV E; cbn [seqN foldM] in E; [injection E as <-; assumption|].
  destruct (pbuild_order_ok D remap C env EO v cb arrays k DO RV ltac:(lia) AU) as (a1 & E1 & AU1). rewrite E1 in E. cbn [bind] in E.
  replace (N.succ (k + 1)) with (k + 1 + 1) in E by lia. refine (IH (k + 1) a1 arrays' ltac:(lia) ltac:(lia) AU1 _ E).
  refine (order_prov v cb arrays k a1 DO RV _ AU PV E1). lia.
Qed.
Lemma pdicts_typed cb : sc_add_all scb_empty (map (map snd) D) (te_sorts tv) = Ok cb -> lenN (sb_seqs cb) = lenN D /\ Forall t_cv (sb_seqs cb).
Proof.
  intros E. pose proof EO as (_ & _ & _ & _ & F2 & _ & FC).
  destruct (sc_add_all_ok (map (map snd) D) (te_sorts tv) scb_empty) as (ps & cs & E' & L1 & L2 & DK).
  - apply Forall_forall. intros vs Hvs. apply in_map_iff in Hvs. destruct Hvs as (l & <- & Hl). apply In_nthN in Hl. destruct Hl as (k & Hk).
    destruct (col_size _ _ C k l Hk) as [S1 S2]. split; [destruct l; [congruence|discriminate]|]. rewrite lenN_map. split; [lia|].
    apply Forall_forall. intros v Hv. apply in_map_iff in Hv. destruct Hv as (e & <- & He). eapply (P_TriePef2.count_lt D remap env EO); eauto.
  - clear - F2. induction F2 as [|l s D0 S0 H F IH]; cbn [map]; constructor; [|exact IH]. eapply Permutation_trans; [exact H|apply eat_with_freq].
  - rewrite E in E'. injection E' as ->. cbn [sb_seqs scb_empty app]. rewrite map_length in L1, L2. split; [unfold lenN; congruence|].
    apply Forall_forall. intros c Hc. apply In_nthN in Hc. destruct Hc as (k & Hc). pose proof (nthN_lt _ _ _ Hc) as LK.
    destruct (nthN_Some ps k ltac:(unfold lenN in *; lia)) as (p & Hp). destruct (nthN_Some D k ltac:(unfold lenN in *; lia)) as (l & Hl).
    destruct (nthN_Some (te_sorts tv) k) as (s & Hs). { apply Forall2_len in F2. unfold lenN in *. lia. }
    assert (Hv : nthN (map (map snd) D) k = Some (map snd l)) by (rewrite nthN_map, Hl; reflexivity).
    pose proof (DK k _ s p c Hv Hs Hp Hc) as (D1 & _). eapply cv_holds_typed; eauto.
Qed.
Lemma vocabulary_prov cb arrays v arrays' l : dicts_ok D cb -> nthN D 0 = Some l -> prov (sb_seqs cb) arrays ->
  pbuild_vocabulary env cb (map line l) arrays = Ok (v, arrays') -> t_svt 64 v /\ prov (sb_seqs cb) arrays'.
Proof.
  intros DO Hl PV E. pose proof EO as (_ & VO & _ & _ & _ & RAM & _).
  destruct (col_size _ _ C _ _ Hl) as [S1 S2].
  destruct (P_TriePef3.ranks_exist D remap C cb 0 l DO Hl) as (n & rs & SZ & Hn & F2 & LR & FR & FRL & NL & ND).
  set (gs := map (fun e : gram * N => (join (fst e), snd e)) l) in *.
  assert (UW : map fst gs = uwords D). { unfold gs, uwords. rewrite (grams_of D _ _ Hl), !map_map. reflexivity. }
  assert (LGS : lenN gs = lenN l) by apply lenN_map.
  destruct (pool_load_lines_ok gs (pool_clear (pool_new (te_ram tv))) (te_ram tv) []) as (p & EP & RP).
  { eapply pool_clear_rep. apply pool_new_rep. }
  { apply Forall_forall. intros x Hx. apply in_map_iff in Hx. destruct Hx as (e & <- & He). cbn [fst snd].
    pose proof (In_grams D 0 l e Hl He) as Hg. split; [|split].
    - intros Z. pose proof (join_nonempty (fst e) (gram_ne D remap C 0 _ Hg) (gram_words D remap C 0 _ Hg)) as J. rewrite Z in J. revert J. apply N.nlt_0_r.
    - apply (gram_tab D remap C 0). assumption.
    - pose proof (P_TriePef2.count_lt D remap env EO 0 l e Hl He). lia. }
  { cbn [app]. rewrite UW. assumption. }
  assert (ML : map (fun r => format_count_line (fst r) (snd r)) gs = map line l). { unfold gs. rewrite map_map. reflexivity. }
  rewrite ML in EP. cbn [app] in RP. unfold pbuild_vocabulary, pool_load in E. rewrite EP in E. cbn [bind] in E.
  pose proof RP as (_ & _ & _ & _ & _ & LX & _). rewrite LX in E.
  assert (RECS : mapM (pool_record p) (range (lenN gs)) = Ok gs).
  { rewrite (mapM_range (pool_record p) (fun x => x) gs); [rewrite map_id; reflexivity|]. intros i [g a] H. eapply pool_record_ok; eauto. }
  rewrite RECS in E. cbn [bind] in E. rewrite SZ in E. cbn [bind] in E. rewrite LGS in E. unfold sab_new in E.
  change (ceil_log2 (add64 0 1)) with 0 in E. unfold cvb_new at 1 in E. change (64 <? cv_width 0) with false in E. cbv iota in E. cbn [bind] in E.
  destruct (cv_push_holds rs n) as (b2 & b2' & E4 & E5 & E6); [lia|lia|assumption|]. rewrite LR in E4. rewrite E4 in E. cbn [bind ab_ranks] in E.
  assert (RKF : forall (c : cvb), foldM (fun c (rc : list N * N) => rank <- sc_rank cb 0 (snd rc) ;; cvb_push_back c rank) gs c = foldM cvb_push_back rs c).
  { unfold gs. intros c. rewrite foldM_map_. cbn [snd]. clear - F2. revert c. induction F2 as [|e r l rs H F IH]; intros c; [reflexivity|]. cbn [foldM].
    destruct H as (H & _). rewrite H. cbn [bind]. destruct (cvb_push_back c r); cbn [bind]; auto. }
  rewrite RKF, E5 in E. cbn [bind] in E. apply bind_inv in E. destruct E as (a0 & Ha0 & E). apply rd_inv in Ha0.
  unfold pab_build_ranks in E. cbn [ab_ranks] in E. rewrite (cv_all_ok _ _ E6) in E. cbn [bind] in E.
  apply bind_inv in E. destruct E as (a1 & E1 & E). apply bind_inv in E1. destruct E1 as (rk & ERK & E1). injection E1 as <-.
  destruct (proj2 PV 0 a0 Ha0) as (T1 & T2 & T3 & T4).
  apply bind_inv in E. destruct E as (arr1 & Ew & E).
  assert (TN : pr_a (sb_seqs cb) 0 (mkparr (p_size a0) (p_grams a0) (Some rk) (p_ptrs a0))).
  { split; [exact T1|]. cbn [p_grams p_ranks p_ptrs]. split; [exact T2|]. split; [|exact T4]. intros x Hx. injection Hx as <-. eapply pr_rank; eassumption. }
  pose proof (prov_wr _ _ _ _ _ PV TN Ew) as PV1.
  apply bind_inv in E. destruct E as (ids & E7 & E). apply bind_inv in E. destruct E as (ids' & E8 & E).
  apply bind_inv in E. destruct E as (v1 & EV & E). injection E as <- <-. split; [|exact PV1].
  destruct (cv_push_holds (range (lenN l)) (lenN l)) as (b3 & b3' & E7' & E8' & E9); [rewrite lenN_range; lia|lia| |].
  { apply Forall_forall. intros x Hx. unfold range in Hx. apply In_seqN in Hx. lia. }
  rewrite lenN_range in E7'. rewrite E7 in E7'. injection E7' as <-. rewrite E8 in E8'. injection E8' as <-.
  assert (LU : lenN (map fst gs) = lenN l) by (rewrite lenN_map; exact LGS).
  refine (svt_build_typed 64 _ _ _ _ _ _ (or_intror eq_refl) _ _ _ EV).
  - destruct (cv_holds_typed _ _ E9) as (Q & _). exact Q.
  - rewrite LU. lia.
  - apply hash_domain_lt. lia.
Qed.

(** a trie whose members come from the construction, the enumerators apart *)
Definition ptrie_prov (t : ptrie) : Prop :=
  pt_order t = lenN D /\ pt_remap t = remap /\ lenN (pt_counts t) = lenN D /\ Forall t_cv (pt_counts t) /\ t_svt 64 (pt_vocab t) /\ prov (pt_counts t) (pt_arrays t).
Theorem ptrie_build_prov t : ptrie_build env (map (map line) D) (lenN D) remap = Ok t -> ptrie_prov t.
Proof.
  intros E. pose proof (col_order _ _ C) as CO. pose proof (col_remap _ _ C) as CR. unfold ptrie_build in E.
  apply bind_inv in E. destruct E as (u1 & _ & E). apply bind_inv in E. destruct E as (u2 & _ & E).
  set (files := map (map line) D) in *. assert (LF : lenN files = lenN D) by apply lenN_map.
  replace (range (lenN D)) with (range (lenN files)) in E by (rewrite LF; reflexivity). rewrite (mapM_range (rd files) (fun x => x) files) in E by (intros i a H2; apply rd_nthN; assumption). rewrite map_id in E. cbn [bind] in E.
  assert (VAL : mapM (fun lines => mapM (fun l => ' (_, c) <- parse_count_line l ;; Ok c) lines) files = Ok (map (map snd) D)).
  { unfold files. assert (H2 : forall l, In l D -> mapM (fun l => ' (_, c) <- parse_count_line l ;; Ok c) (map line l) = Ok (map snd l)).
    { intros l Hl. apply In_nthN in Hl. destruct Hl as (k & Hk).
      assert (H3 : forall l0, incl l0 l -> mapM (fun l => ' (_, c) <- parse_count_line l ;; Ok c) (map line l0) = Ok (map snd l0)).
      { induction l0 as [|e l0 IH]; intros I; [reflexivity|]. cbn [map mapM]. rewrite (P_TriePef2.parse_line D remap C env EO k l e Hk) by (apply I; left; reflexivity).
        cbn [bind]. rewrite IH by (intros x Hx; apply I; right; assumption). reflexivity. }
      apply H3. apply incl_refl. }
    revert H2. generalize D as D1. clear. induction D1 as [|l D1 IH]; intros H2; [reflexivity|]. cbn [map mapM]. rewrite (H2 l (or_introl eq_refl)). cbn [bind].
    rewrite IH by (intros; apply H2; right; assumption). reflexivity. }
  rewrite VAL in E. cbn [bind] in E. destruct (dicts_build D remap C env EO) as (cb & EC & DO). rewrite EC in E. cbn [bind] in E.
  set (arr0 := map (fun f : list (list N) => parr_new (lenN f)) files) in *.
  assert (PV0 : prov (sb_seqs cb) arr0).
  { split; [unfold arr0; rewrite lenN_map; exact LF|]. intros k a Ha. unfold arr0, files in Ha. rewrite !nthN_map in Ha. destruct (nthN D k) as [l|] eqn:El; [|discriminate]. cbn [option_map] in Ha. injection Ha as <-.
    destruct (col_size _ _ C _ _ El) as [S1 S2]. split; [cbn [parr_new p_size]; rewrite lenN_map; lia|]. split; [|split]; intros x Hx; discriminate. }
  destruct (pbuild_vocabulary_ok D remap C env EO cb arr0 DO) as (l & v & arr & Hl & EV & RV & AU). { unfold arr0. rewrite lenN_map. assumption. }
  assert (F0 : nthN files 0 = Some (map line l)) by (unfold files; rewrite nthN_map, Hl; reflexivity).
  rewrite (proj2 (rd_nthN _ _ _) F0) in E. cbn [bind] in E. rewrite EV in E. cbn [bind] in E. cbv beta iota in E.
  destruct (vocabulary_prov cb arr0 v arr l DO Hl PV0 EV) as (TV & PV1).
  apply bind_inv in E. destruct E as (arr' & E' & E). injection E as <-. destruct (pdicts_typed cb EC) as (L1 & L2).
  unfold ptrie_prov. cbn [pt_order pt_remap pt_counts pt_vocab pt_arrays]. do 5 (split; [assumption || reflexivity|]).
  refine (orders_prov v cb DO RV (N.to_nat (lenN D - 1)) 1 arr arr' ltac:(lia) ltac:(lia) AU PV1 _). exact E'.
Qed.
Lemma lookup_prov t st buf r c st' t' : ptrie_lookup env t st buf r = Ok (c, st', t') -> ptrie_prov t -> ptrie_prov t'.
Proof.
  intros E (P1 & P2 & P3 & P4 & P5 & P6). destruct (lookup_same _ _ _ _ _ _ _ _ E) as (S1 & S2). rewrite S2. unfold ptrie_prov, with_arrays. cbn [pt_order pt_remap pt_counts pt_vocab pt_arrays].
  do 5 (split; [assumption|]). eapply prov_same; eauto.
Qed.
End Build.
