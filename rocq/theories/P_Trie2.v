(** * The levels of an n-gram collection: parents, stored ids *)
From Verif Require Import Prelude BitFacts Spec Spec_Trie P_SeqColl P_FastEF3 P_EF P_Trie1.
From Coq Require Import Sorting.Sorted.

Fixpoint posn (l : list gram) (g : gram) : N :=
  match l with [] => 0 | x :: r => if gram_dec x g then 0 else 1 + posn r g end.
Lemma posn_In l g : In g l -> nthN l (posn l g) = Some g.
Proof.
  induction l as [|x l IH]; intros H; [destruct H|]. cbn [posn]. destruct (gram_dec x g) as [->|NE]; [reflexivity|].
  destruct H as [->|H]; [congruence|]. rewrite nthN_S by lia. rewrite N.add_comm, N.add_sub. auto.
Qed.
Lemma posn_nthN l g i : NoDup l -> nthN l i = Some g -> posn l g = i.
Proof. intros ND H. eapply NoDup_nthN; eauto. apply posn_In. eapply nthN_In; eauto. Qed.

Lemma skipn_snoc {A} n (c : list A) w : (n <= length c)%nat -> skipn n (c ++ [w]) = skipn n c ++ [w].
Proof. intros H. rewrite skipn_app. replace (n - length c)%nat with O by lia. reflexivity. Qed.
Lemma snoc_removelast {A} (g : list A) d : g <> [] -> g = removelast g ++ [last g d].
Proof. apply app_removelast_last. Qed.
Lemma length_removelast {A} (g : list A) : length (removelast g) = (length g - 1)%nat.
Proof. rewrite removelast_firstn_len, firstn_length. lia. Qed.

Section Col.
Context {A : Type}.
Variable D : list (list (gram * A)).
Variable remap : N.
Hypothesis C : collection D remap.

Notation G := (grams D).
Notation voc := (grams D 0).
Definition kids (k j : N) : N := children (G (k - 1)) (G k) j.
Definition vid (w : list N) : N := posn voc [w].
(** the id stored for a gram of level k *)
Definition lid (k : N) (g : gram) : N :=
  if (remap =? 0) || (k <=? remap) then vid (last g [])
  else let s := skipn (N.to_nat (k - remap)) g in
       posn (G remap) s - kids remap (posn (G (remap - 1)) (removelast s)).
Definition lids (k : N) : list N := map (lid k) (G k).

Lemma grams_In_lt k g : In g (G k) -> k < lenN D.
Proof. unfold grams. destruct (nthN D k) eqn:E; [intros _; eapply nthN_lt; eauto|intros []]. Qed.
Lemma gram_len k g : In g (G k) -> length g = N.to_nat (k + 1).
Proof. intros H. destruct (col_words _ _ C k g H) as [L _]. unfold lenN in L. lia. Qed.
Lemma gram_ne k g : In g (G k) -> g <> [].
Proof. intros H E. pose proof (gram_len k g H) as L. subst. cbn in L. lia. Qed.
Lemma uni_sorted : StronglySorted (gram_lt voc) voc.
Proof.
  assert (H : forall l pre, voc = pre ++ l -> StronglySorted (gram_lt voc) l).
  { induction l as [|g l IH]; intros pre E; constructor; [apply (IH (pre ++ [g])); rewrite <- app_assoc; exact E|].
    apply Forall_forall. intros h Hh. 
    assert (Ig : In g voc) by (rewrite E; apply in_or_app; right; left; reflexivity).
    assert (Ih : In h voc) by (rewrite E; apply in_or_app; right; right; assumption).
    pose proof (gram_len 0 g Ig) as Lg. pose proof (gram_len 0 h Ih) as Lh.
    destruct g as [|a [|? ?]]; try discriminate Lg. destruct h as [|b [|? ?]]; try discriminate Lh.
    constructor; [reflexivity|]. apply In_nthN in Hh. destruct Hh as (j & Hj). exists (lenN pre), (lenN pre + 1 + j). split; [lia|].
    rewrite E. split; [rewrite nthN_app2 by lia; rewrite N.sub_diag; reflexivity|].
    rewrite nthN_app2 by lia. rewrite nthN_S by lia. replace (lenN pre + 1 + j - lenN pre - 1) with j by lia. assumption. }
  apply (H voc []). reflexivity.
Qed.
Lemma lev_sorted k : StronglySorted (gram_lt voc) (G k).
Proof. destruct (N.eq_dec k 0) as [->|H]; [apply uni_sorted|apply (col_sorted _ _ C); lia]. Qed.
Lemma voc_NoDup : NoDup voc. Proof. apply (col_unigrams _ _ C). Qed.
Lemma lev_NoDup k : NoDup (G k). Proof. eapply sorted_NoDup; [apply voc_NoDup|apply lev_sorted]. Qed.

Lemma lev_MON k : 0 < k -> forall i j g g' p q, i < j -> nthN (G k) i = Some g -> nthN (G k) j = Some g' ->
  nthN (G (k - 1)) p = Some (removelast g) -> nthN (G (k - 1)) q = Some (removelast g') -> p <= q.
Proof.
  intros Hk i j g g' p q Hij Hg Hg' Hp Hq. pose proof (ss_nthN _ _ (lev_sorted k) i j g g' Hij Hg Hg') as L.
  destruct (gram_lt_last voc g g' L) as [[E _]|L'].
  - rewrite E in Hp. rewrite (NoDup_nthN _ _ _ _ (lev_NoDup (k - 1)) Hp Hq). lia.
  - pose proof (sorted_pos voc voc_NoDup _ _ _ _ _ (lev_sorted (k - 1)) Hp Hq L'). lia.
Qed.
Lemma lev_PRE k : 0 < k -> forall g, In g (G k) -> In (removelast g) (G (k - 1)).
Proof. intros Hk g. apply (col_prefix _ _ C). assumption. Qed.
Lemma lev_nonempty k : k < lenN D -> G k <> [].
Proof. intros H. destruct (nthN_Some D k H) as (l & Hl). unfold grams. rewrite Hl. destruct (col_size _ _ C k l Hl). destruct l; [congruence|discriminate]. Qed.
Lemma lev_size k : lenN (G k) < 2 ^ 31.
Proof. unfold grams. destruct (nthN D k) as [l|] eqn:E; [|reflexivity]. destruct (col_size _ _ C k l E). rewrite lenN_map. assumption. Qed.

(** pair lemmas, instantiated *)
Lemma kid_range k i g p : 0 < k -> nthN (G k) i = Some g -> nthN (G (k - 1)) p = Some (removelast g) -> kids k p <= i < kids k (p + 1).
Proof. intros Hk. apply par_range; [apply lev_NoDup|apply lev_PRE; assumption|apply lev_MON; assumption]. Qed.
Lemma kid_parent k i g p : 0 < k -> nthN (G k) i = Some g -> kids k p <= i < kids k (p + 1) -> nthN (G (k - 1)) p = Some (removelast g).
Proof. intros Hk. apply range_par; [apply lev_NoDup|apply lev_PRE; assumption|apply lev_MON; assumption]. Qed.
Lemma kids_mono k a b : 0 < k -> a <= b -> kids k a <= kids k b.
Proof. intros Hk. apply children_mono; [apply lev_NoDup|apply lev_PRE; assumption|apply lev_MON; assumption]. Qed.
Lemma kids_le k j : kids k j <= lenN (G k).
Proof. apply children_le_all. Qed.

Lemma vid_spec w i : nthN voc i = Some [w] -> vid w = i.
Proof. apply posn_nthN. apply voc_NoDup. Qed.
Lemma vid_In w : In [w] voc -> nthN voc (vid w) = Some [w].
Proof. apply posn_In. Qed.
Lemma vid_inj a b : In [a] voc -> In [b] voc -> vid a = vid b -> a = b.
Proof. intros Ha Hb E. apply vid_In in Ha, Hb. rewrite E, Hb in Ha. congruence. Qed.
Lemma vid_word_lt a b : word_lt voc a b -> vid a < vid b.
Proof. intros (i & j & L & H1 & H2). rewrite (vid_spec _ _ H1), (vid_spec _ _ H2). assumption. Qed.
Lemma vid_lt_word a b : In [a] voc -> In [b] voc -> vid a < vid b -> word_lt voc a b.
Proof. intros Ha Hb L. exists (vid a), (vid b). auto using vid_In. Qed.
Lemma last_voc k g : In g (G k) -> In [last g []] voc.
Proof.
  intros H. destruct (col_words _ _ C k g H) as [_ F]. rewrite Forall_forall in F. apply F.
  rewrite (snoc_removelast g [] (gram_ne k g H)) at 2. apply in_or_app. right. left. reflexivity.
Qed.
(** same parent: the order of the last words *)
Lemma sib_lt k i j g h : nthN (G k) i = Some g -> nthN (G k) j = Some h -> removelast g = removelast h -> i < j -> word_lt voc (last g []) (last h []).
Proof.
  intros Hg Hh E L. pose proof (ss_nthN _ _ (lev_sorted k) i j g h L Hg Hh) as K.
  destruct (gram_lt_last voc g h K) as [[_ W]|L']; [assumption|]. rewrite E in L'. exfalso. exact (gram_lt_irrefl voc voc_NoDup _ L').
Qed.

(** suffixes *)
Lemma suffix_facts k g : 0 < remap -> remap < k -> In g (G k) ->
  let s := skipn (N.to_nat (k - remap)) g in
  In s (G remap) /\ removelast s = skipn (N.to_nat (k - remap)) (removelast g) /\ last s [] = last g [] /\ In (removelast s) (G (remap - 1)).
Proof.
  intros H1 H2 H3 s. pose proof (col_suffix _ _ C k g H1 H2 H3) as S. fold s in S. split; [assumption|].
  pose proof (gram_len k g H3) as L. pose proof (gram_ne k g H3) as NE.
  assert (E : s = skipn (N.to_nat (k - remap)) (removelast g) ++ [last g []]).
  { unfold s. rewrite (snoc_removelast g [] NE) at 1. apply skipn_snoc. rewrite length_removelast. lia. }
  split; [rewrite E; apply removelast_last|]. split; [rewrite E; apply last_last|].
  apply (col_prefix _ _ C); assumption.
Qed.

(** siblings: the m-th has a vocabulary id of at least m *)
Lemma sib_vid k p : 0 < k -> forall m g, nthN (G k) (kids k p + m) = Some g -> kids k p + m < kids k (p + 1) -> m <= vid (last g []).
Proof.
  intros Hk m. induction m as [|m IH] using N.peano_ind; intros g Hg L; [lia|].
  destruct (nthN_Some (G k) (kids k p + m)) as (h & Hh). { apply nthN_lt in Hg. lia. }
  pose proof (IH h Hh ltac:(lia)) as I1.
  pose proof (kid_parent k _ g p Hk Hg ltac:(lia)) as P1. pose proof (kid_parent k _ h p Hk Hh ltac:(lia)) as P2.
  assert (E : removelast h = removelast g) by congruence.
  pose proof (vid_word_lt _ _ (sib_lt k _ _ h g Hh Hg E ltac:(lia))). lia.
Qed.

Lemma lid_mapped k g : remap <> 0 -> remap < k -> lid k g =
  (let s := skipn (N.to_nat (k - remap)) g in posn (G remap) s - kids remap (posn (G (remap - 1)) (removelast s))).
Proof.
  intros H1 H2. unfold lid. replace (remap =? 0) with false by (symmetry; apply N.eqb_neq; assumption).
  replace (k <=? remap) with false by (symmetry; apply N.leb_gt; assumption). reflexivity.
Qed.
Lemma lid_plain k g : remap = 0 \/ k <= remap -> lid k g = vid (last g []).
Proof.
  intros H. unfold lid. replace ((remap =? 0) || (k <=? remap)) with true; [reflexivity|]. symmetry. apply orb_true_iff.
  destruct H; [left; apply N.eqb_eq|right; apply N.leb_le]; assumption.
Qed.
(** where the suffix sits *)
Lemma suffix_pos k g : remap <> 0 -> remap < k -> In g (G k) -> let s := skipn (N.to_nat (k - remap)) g in
  exists i p, nthN (G remap) i = Some s /\ nthN (G (remap - 1)) p = Some (removelast s) /\ kids remap p <= i < kids remap (p + 1) /\ lid k g = i - kids remap p.
Proof.
  intros H1 H2 H3 s. destruct (suffix_facts k g ltac:(lia) H2 H3) as (S1 & S2 & S3 & S4). fold s in S1, S2, S3, S4.
  exists (posn (G remap) s), (posn (G (remap - 1)) (removelast s)).
  assert (P1 := posn_In _ _ S1). assert (P2 := posn_In _ _ S4).
  split; [assumption|]. split; [assumption|]. split; [apply (kid_range remap _ s); [lia|assumption|assumption]|]. apply lid_mapped; assumption.
Qed.

Lemma lid_bound k g : In g (G k) -> lid k g < lenN voc.
Proof.
  intros H. destruct (N.eq_dec remap 0) as [R|R]; [|destruct (N.le_gt_cases k remap) as [K|K]].
  - rewrite lid_plain by (left; assumption). eapply nthN_lt. apply vid_In. eapply last_voc; eauto.
  - rewrite lid_plain by (right; assumption). eapply nthN_lt. apply vid_In. eapply last_voc; eauto.
  - destruct (suffix_pos k g R K H) as (i & p & I1 & I2 & I3 & ->).
    set (s := skipn (N.to_nat (k - remap)) g) in *.
    assert (i - kids remap p <= vid (last s [])).
    { apply (sib_vid remap p ltac:(lia)); [replace (kids remap p + (i - kids remap p)) with i by lia; assumption|lia]. }
    assert (vid (last s []) < lenN voc) by (eapply nthN_lt; apply vid_In; eapply last_voc; eapply nthN_In; eauto). lia.
Qed.
Lemma lid_increasing k i j g h : 0 < k -> nthN (G k) i = Some g -> nthN (G k) j = Some h -> removelast g = removelast h -> i < j -> lid k g < lid k h.
Proof.
  intros Hk Hg Hh E L. pose proof (sib_lt k i j g h Hg Hh E L) as W.
  destruct (N.eq_dec remap 0) as [R|R]; [|destruct (N.le_gt_cases k remap) as [K|K]].
  - rewrite !lid_plain by (left; assumption). apply vid_word_lt. assumption.
  - rewrite !lid_plain by (right; assumption). apply vid_word_lt. assumption.
  - assert (Ig := nthN_In _ _ _ Hg). assert (Ih := nthN_In _ _ _ Hh).
    destruct (suffix_pos k g R K Ig) as (a & p & A1 & A2 & A3 & ->). destruct (suffix_pos k h R K Ih) as (b & q & B1 & B2 & B3 & ->).
    destruct (suffix_facts k g ltac:(lia) K Ig) as (_ & S2 & S3 & _). destruct (suffix_facts k h ltac:(lia) K Ih) as (_ & T2 & T3 & _).
    set (s := skipn (N.to_nat (k - remap)) g) in *. set (t := skipn (N.to_nat (k - remap)) h) in *.
    assert (RL : removelast s = removelast t) by congruence.
    rewrite <- RL in B2. pose proof (NoDup_nthN _ _ _ _ (lev_NoDup (remap - 1)) A2 B2). subst q.
    assert (a < b); [|lia]. apply (sorted_pos voc voc_NoDup _ _ _ s t (lev_sorted remap) A1 B1).
    assert (Es : s = removelast s ++ [last s []]). { apply snoc_removelast. apply (gram_ne remap). eapply nthN_In; eauto. }
    assert (Et : t = removelast t ++ [last t []]). { apply snoc_removelast. apply (gram_ne remap). eapply nthN_In; eauto. }
    rewrite Es, Et, <- RL. apply gram_lt_app. rewrite S3, T3. assumption.
Qed.
Lemma nthN_lids k i x : nthN (lids k) i = Some x <-> exists g, nthN (G k) i = Some g /\ x = lid k g.
Proof.
  unfold lids. rewrite nthN_map. destruct (nthN (G k) i) as [g|]; cbn; split.
  - intros H. injection H as <-. eauto.
  - intros (h & Hh & ->). congruence.
  - discriminate.
  - intros (h & Hh & _). discriminate.
Qed.
Lemma lids_len k : lenN (lids k) = lenN (G k). Proof. unfold lids. apply lenN_map. Qed.
Lemma lids_sorted k : 0 < k -> sorted_in_ranges (lids k) (child_ptrs (G (k - 1)) (G k)).
Proof.
  intros Hk b e j x y HR Hb He Hx Hy. apply child_range in HR. destruct HR as (p & Hp & -> & ->).
  apply nthN_lids in Hx, Hy. destruct Hx as (g & Hg & ->). destruct Hy as (h & Hh & ->).
  apply N.lt_le_incl. apply (lid_increasing k j (j + 1) g h); [assumption|assumption|assumption| |lia].
  pose proof (kid_parent k _ g p Hk Hg ltac:(unfold kids; lia)) as P1. pose proof (kid_parent k _ h p Hk Hh ltac:(unfold kids; lia)) as P2. congruence.
Qed.
Lemma lids_bound k : Forall (fun v => v <= lenN voc) (lids k).
Proof. apply Forall_forall. intros v Hv. unfold lids in Hv. apply in_map_iff in Hv. destruct Hv as (g & <- & Hg). apply N.lt_le_incl. apply lid_bound. assumption. Qed.
(** a present gram is the only answer to a search for its id among its siblings *)
Lemma search_present k i g p r : 0 < k -> nthN (G k) i = Some g -> nthN (G (k - 1)) p = Some (removelast g) ->
  search_result (lids k) (kids k p) (kids k (p + 1)) (lid k g) r -> r = i.
Proof.
  intros Hk Hg Hp [[R Hr]|[_ NF]].
  - apply nthN_lids in Hr. destruct Hr as (h & Hh & E). pose proof (kid_parent k r h p Hk Hh R) as P.
    assert (EE : removelast h = removelast g) by congruence.
    destruct (N.lt_trichotomy r i) as [L|[L|L]]; [|assumption|].
    + pose proof (lid_increasing k r i h g Hk Hh Hg EE L). lia.
    + pose proof (lid_increasing k i r g h Hk Hg Hh (eq_sym EE) L). lia.
  - exfalso. apply (NF i (kid_range k i g p Hk Hg Hp)). apply nthN_lids. eauto.
Qed.
(** conversely an answer designates a gram with that parent and that stored id *)
Lemma search_sound k p x r : 0 < k -> search_result (lids k) (kids k p) (kids k (p + 1)) x r -> r <> not_found ->
  exists g, nthN (G k) r = Some g /\ nthN (G (k - 1)) p = Some (removelast g) /\ lid k g = x.
Proof.
  intros Hk [[R Hr]|[E _]] NE; [|congruence]. apply nthN_lids in Hr. destruct Hr as (h & Hh & E).
  exists h. split; [assumption|]. split; [apply (kid_parent k r h p Hk Hh R)|auto].
Qed.
End Col.
