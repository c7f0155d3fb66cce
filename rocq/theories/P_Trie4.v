(** * Building a count trie: the levels *)
From Verif Require Import Prelude BitFacts M_Word P_Word M_Bits Spec P_Bits M_CompactVector P_CompactVector M_DArray M_EF P_EF P_EF2
  M_HashVec M_Mph P_Mph P_MphTables M_FastEF P_FastEF3 M_Text P_Text P_Text2 M_SeqColl P_SeqColl M_Pool P_Pool M_Trie Spec_Trie P_Trie1 P_Trie2 P_Trie3.
From Coq Require Import Permutation Sorting.Sorted.

Lemma exists_list {A B} (P : A -> B -> Prop) l : (forall a, In a l -> exists b, P a b) -> exists l', Forall2 P l l'.
Proof.
  induction l as [|a l IH]; intros H; [exists []; constructor|]. destruct (H a (or_introl eq_refl)) as (b & Hb).
  destruct IH as (l' & Hl'); [intros; apply H; right; assumption|]. exists (b :: l'). constructor; assumption.
Qed.
Lemma Forall2_nthN {A B} (P : A -> B -> Prop) l l' i a b : Forall2 P l l' -> nthN l i = Some a -> nthN l' i = Some b -> P a b.
Proof.
  intros H. unfold nthN. generalize (N.to_nat i). induction H as [|x y l l' Hxy H IH]; intros n Ha Hb; destruct n; cbn in *; try discriminate.
  - injection Ha as <-. injection Hb as <-. assumption.
  - eapply IH; eauto.
Qed.
Lemma skipn_nthN {A} (l : list A) i a : nthN l i = Some a -> skipn (N.to_nat i) l = a :: skipn (N.to_nat (i + 1)) l.
Proof.
  unfold nthN. replace (N.to_nat (i + 1)) with (S (N.to_nat i)) by lia. generalize (N.to_nat i) as n. clear i.
  induction l as [|x l IH]; intros n H; destruct n; cbn in *; try discriminate; [congruence|]. apply IH. assumption.
Qed.
Lemma foldM_app {A S} (f : S -> A -> res S) a b s : foldM f (a ++ b) s = (s' <- foldM f a s ;; foldM f b s').
Proof. revert s. induction a as [|x a IH]; intros s; [reflexivity|]. cbn. destruct (f s x); cbn; auto. Qed.
Lemma cv_all_ok c vs : cv_holds c vs -> cv_all c = Ok vs.
Proof.
  intros H. unfold cv_all. rewrite (cv_holds_size _ _ H). replace (N.to_nat (lenN vs)) with (length vs) by (unfold lenN; lia). apply cv_holds_take. assumption.
Qed.
Lemma ranks_build_ok kd vs order : vs <> [] -> lenN vs < 2 ^ 31 -> Forall (fun v => v < 2 ^ 31) vs ->
  exists r, ranks_build kd vs order = Ok r /\ forall i v, nthN vs i = Some v -> ranks_get r i = Ok v.
Proof.
  intros NE L F. destruct kd; cbn [ranks_build].
  - assert (CL : clens vs <= lenN vs * 64).
    { clear NE L. unfold clens. induction vs as [|v vs IH]; [apply N.le_0_l|]. inversion F; subst. cbn [map]. rewrite sumN_cons, lenN_cons.
      pose proof (IH H2). destruct (clen_spec v ltac:(lia)) as (K & _). lia. }
    destruct (icw_build_ok vs) as (s & E & R); [lia|eapply Forall_impl; [|exact F]; cbn; intros; lia|].
    rewrite E. cbn [bind]. eexists. split; [reflexivity|]. cbn [ranks_get]. intros i v. apply icw_get_ok. assumption.
  - assert (S : sumN vs <= lenN vs * 2 ^ 31).
    { clear NE L. induction vs as [|v vs IH]; [apply N.le_0_l|]. inversion F; subst. rewrite sumN_cons, lenN_cons. pose proof (IH H2). lia. }
    destruct (pss_build_ok vs order NE) as (p & E & _ & R); [nia|lia|]. rewrite E. cbn [bind]. eexists. split; [reflexivity|]. exact R.
Qed.

Section Build.
Variable D : list (list (gram * N)).
Variable remap : N.
Hypothesis C : collection D remap.
Variable env : tenv.
Hypothesis EO : env_ok D remap env.
Notation G := (grams D).
Notation voc := (grams D 0).

Lemma grams_of k l : nthN D k = Some l -> G k = map fst l.
Proof. intros H. unfold grams. rewrite H. reflexivity. Qed.
Lemma nthN_gram k l i e : nthN D k = Some l -> nthN l i = Some e -> nthN (G k) i = Some (fst e).
Proof. intros H Hi. rewrite (grams_of k l H), nthN_map, Hi. reflexivity. Qed.

Lemma advance_ok k l' buf pattern g : 0 < k -> nthN D (k - 1) = Some l' -> In g (G k) -> holds_text buf pattern (join (removelast g)) -> lenN buf < 2 ^ 64 ->
  forall p pointer, nthN (G (k - 1)) p = Some (removelast g) -> forall d c ptrs, p = c + N.of_nat d ->
  advance buf pattern (map line (skipn (N.to_nat c) l')) ptrs pointer = Ok (map line (skipn (N.to_nat p) l'), ptrs ++ repeat pointer d).
Proof.
  intros Hk Hl' Hg HT HB p pointer Hp. 
  assert (Wg : Forall word (removelast g)). { eapply gram_words; [exact C|]. eapply nthN_In; eauto. }
  assert (Ng : removelast g <> []). { eapply gram_ne; [exact C|]. eapply nthN_In; eauto. }
  assert (LPp : p < lenN l'). { apply nthN_lt in Hp. rewrite (grams_of _ _ Hl'), lenN_map in Hp. assumption. }
  induction d as [|d IH]; intros c ptrs E.
  - replace c with p by lia. destruct (nthN_Some l' p LPp) as (e & He). rewrite (skipn_nthN _ _ _ He). cbn [map advance].
    rewrite (parse_line D remap C env EO _ _ e Hl') by (eapply nthN_In; eauto). cbn [bind].
    assert (Ee : fst e = removelast g). { pose proof (nthN_gram _ _ _ _ Hl' He) as K. rewrite Hp in K. congruence. }
    rewrite (equal_bytes_ok _ _ _ _ _ _ HB (line_len D remap C (k - 1) l' e Hl' (nthN_In _ _ _ He)) HT (line_holds e)). cbn [bind].
    rewrite Ee. destruct (list_eq_dec N.eq_dec _ _) as [_|Z]; [|congruence]. rewrite app_nil_r. reflexivity.
  - destruct (nthN_Some l' c ltac:(lia)) as (e & He). rewrite (skipn_nthN _ _ _ He). cbn [map advance].
    rewrite (parse_line D remap C env EO _ _ e Hl') by (eapply nthN_In; eauto). cbn [bind].
    assert (Ge := nthN_gram _ _ _ _ Hl' He).
    rewrite (equal_bytes_ok _ _ _ _ _ _ HB (line_len D remap C (k - 1) l' e Hl' (nthN_In _ _ _ He)) HT (line_holds e)). cbn [bind].
    destruct (list_eq_dec N.eq_dec _ _) as [Z|_].
    + exfalso. apply join_inj in Z; auto.
      * rewrite Z in Hp. pose proof (NoDup_nthN _ _ _ _ (lev_NoDup D remap C (k - 1)) Hp Ge). lia.
      * eapply gram_ne; [exact C|]. eapply nthN_In; eauto.
      * eapply gram_words; [exact C|]. eapply nthN_In; eauto.
    + rewrite (IH (c + 1)) by lia. f_equal. f_equal. rewrite <- app_assoc. reflexivity.
Qed.

Definition rank_ok (cb : scb) (k n : N) (e : gram * N) (r : N) : Prop :=
  sc_rank cb k (snd e) = Ok r /\ r < n /\ sc_access (sb_seqs cb) k r = Ok (snd e).

Lemma kid_cnt k i g p j : 0 < k -> nthN (G k) i = Some g -> nthN (G (k - 1)) p = Some (removelast g) -> (p < j <-> i < kids D k j).
Proof. intros Hk. apply par_cnt; [apply (lev_NoDup D remap C)|apply (lev_PRE D remap C); assumption|apply (lev_MON D remap C); assumption]. Qed.
Lemma ptrs_extend k c d : map (kids D k) (range (c + N.of_nat d + 1)) = map (kids D k) (range (c + 1)) ++ map (kids D k) (seqN (c + 1) d).
Proof.
  unfold range. replace (N.to_nat (c + N.of_nat d + 1)) with (N.to_nat (c + 1) + d)%nat by lia. rewrite seqN_app, map_app. do 2 f_equal. f_equal. lia.
Qed.
Lemma map_const {A} (f : N -> A) a s d : (forall j, s <= j < s + N.of_nat d -> f j = a) -> map f (seqN s d) = repeat a d.
Proof.
  revert s. induction d as [|d IH]; intros s H; [reflexivity|]. cbn [seqN map repeat]. f_equal; [apply H; lia|]. apply IH. intros j Hj. apply H. lia.
Qed.

Lemma ngrams_fold v arrays cb k l l' n seqs : 0 < k -> voc_rep D env v -> arrays_upto D remap env seqs arrays k -> nthN D k = Some l -> nthN D (k - 1) = Some l' ->
  forall rest rs done c s bg br, l = done ++ rest -> Forall2 (rank_ok cb k n) rest rs ->
  bs_prv s = map line (skipn (N.to_nat c) l') -> bs_ptrs s = map (kids D k) (range (c + 1)) -> bs_pointer s = lenN done -> c < lenN l' ->
  (forall g, nthN (G k) (lenN done - 1) = Some g -> done <> [] -> nthN (G (k - 1)) c = Some (removelast g)) -> (done = [] -> c = 0) ->
  foldM cvb_push_back (map (fun e => lid D remap k (fst e)) rest) (ab_grams (bs_sab s)) = Ok bg ->
  foldM cvb_push_back rs (ab_ranks (bs_sab s)) = Ok br ->
  exists s' c', foldM (ngram_step env v arrays cb (k + 1) remap) (map line rest) s = Ok s' /\
    bs_sab s' = mksab bg br /\ bs_prv s' = map line (skipn (N.to_nat c') l') /\ bs_ptrs s' = map (kids D k) (range (c' + 1)) /\ bs_pointer s' = lenN l /\ c' < lenN l' /\
    (forall g, nthN (G k) (lenN l - 1) = Some g -> l <> [] -> nthN (G (k - 1)) c' = Some (removelast g)).
Proof.
  intros Hk RV AU Hl Hl'. induction rest as [|e rest IH]; intros rs done c s bg br El HR I1 I2 I3 I4 I5 I6 FG FR.
  - inversion HR; subst rs. rewrite app_nil_r in El. subst done. cbn in FG, FR. injection FG as FG. injection FR as FR. exists s, c.
    cbn [map foldM]. split; [reflexivity|]. split; [destruct (bs_sab s); cbn in *; congruence|]. repeat split; try assumption.
  - inversion HR as [|? r ? rs' Hr HR']; subst.
    assert (Ie : In e (done ++ e :: rest)) by (apply in_or_app; right; left; reflexivity).
    assert (Ne : nthN (done ++ e :: rest) (lenN done) = Some e) by (rewrite nthN_app2 by lia; rewrite N.sub_diag; reflexivity).
    pose proof (nthN_gram _ _ _ _ Hl Ne) as Ge. pose proof (In_grams D k _ e Hl Ie) as Hg.
    set (g := fst e) in *. pose proof (lev_PRE D remap C k Hk g Hg) as Hpre. pose proof (posn_In _ _ Hpre) as Hp. set (p := posn (G (k - 1)) (removelast g)) in *.
    assert (CP : c <= p).
    { destruct done as [|d0 done']; [rewrite (I6 eq_refl); lia|]. 
      destruct (nthN_Some (G k) (lenN (d0 :: done') - 1)) as (g0 & Hg0). { apply nthN_lt in Ge. lia. }
      pose proof (I5 g0 Hg0 ltac:(discriminate)) as Pc. apply (lev_MON D remap C k Hk (lenN (d0 :: done') - 1) (lenN (d0 :: done')) g0 g); auto. rewrite lenN_cons. lia. }
    (* the line *)
    pose proof (gram_ne D remap C k g Hg) as NEg. pose proof (snoc_removelast g [] NEg) as Eg.
    pose proof (gram_words D remap C k g Hg) as Wg. 
    pose proof (line_len D remap C k _ e Hl Ie) as LL.
    assert (HPR : removelast g <> []). { eapply gram_ne; [exact C|exact Hpre]. }
    assert (WL : ~ In 32 (last g [])). { rewrite Eg in Wg. apply Forall_app in Wg. destruct Wg as [_ Wg]. inversion Wg as [|? ? Q _]; subst. apply Q. }
    pose proof (line_holds e) as LH. fold g in LH. 
    assert (LH' : holds_text (c_str (line e)) (0, lenN (join g)) (join (removelast g ++ [last g []]))) by (rewrite <- Eg; exact LH).
    destruct (predecessor_ok _ _ _ _ LL LH' HPR WL) as (q & PE & PT1 & PT2). cbn [fst snd] in PE, PT1, PT2.
    cbn [map foldM]. unfold ngram_step at 1. rewrite (parse_line D remap C env EO k _ e Hl Ie). cbn [bind]. cbv beta iota zeta. fold g.
    rewrite PE. cbn [bind fst snd]. rewrite I1.
    rewrite (advance_ok k l' (c_str (line e)) (0, q) g Hk Hl' Hg PT1 LL p (bs_pointer s) Hp (N.to_nat (p - c)) c (bs_ptrs s)) by lia. cbn [bind].
    assert (LPp : p < lenN l'). { apply nthN_lt in Hp. rewrite (grams_of _ _ Hl'), lenN_map in Hp. assumption. }
    destruct (nthN_Some l' p LPp) as (e' & He'). rewrite (skipn_nthN _ _ _ He'). cbn [map].
    rewrite (vlook_ok D env v _ _ (last g []) RV PT2) by (apply (last_voc D remap C k); assumption). cbn [bind].
    assert (TID : (if te_map env && (remap + 1 <? k + 1) then
       m <- map_gram env v arrays remap (c_str (line e)) (0, lenN (join g)) (vid D (last g [])) ;; if m =? not_found then Throw else Ok m
       else Ok (vid D (last g []))) = Ok (lid D remap k g)).
    { destruct EO as (EM & _). rewrite EM. destruct (N.eqb_spec remap 0) as [R0|R0]; cbn [negb andb].
      - rewrite lid_plain by (left; assumption). reflexivity.
      - destruct (N.ltb_spec (remap + 1) (k + 1)) as [RK|RK].
        + pose proof (map_gram_ok D remap C env v arrays seqs k k _ e RV AU R0 ltac:(lia) ltac:(lia) Hl Ie) as MG. fold g in MG. rewrite MG. cbn [bind].
          rewrite (not_found_big _ (lenN voc)) by (first [apply (lid_bound D remap C k); assumption | pose proof (lev_size D remap C 0); lia]). reflexivity.
        + rewrite lid_plain by (right; lia). reflexivity. }
    rewrite TID. cbn [bind]. cbn [map foldM] in FG, FR. fold g in FG. apply bind_ok in FG. destruct FG as (g1 & G1 & FG). apply bind_ok in FR. destruct FR as (r1 & R1 & FR).
    rewrite G1. cbn [bind]. destruct Hr as (Hr & Hr'). rewrite N.add_sub, Hr. cbn [bind]. rewrite R1. cbn [bind].
    edestruct (IH rs' (done ++ [e]) p (mkbst (map line (skipn (N.to_nat p) l')) (bs_ptrs s ++ repeat (bs_pointer s) (N.to_nat (p - c))) (bs_pointer s + 1) (mksab g1 r1)) bg br)
      as (s' & c' & A1 & A2 & A3 & A4 & A5 & A6 & A7).
    + rewrite <- app_assoc. reflexivity.
    + assumption.
    + reflexivity.
    + cbn [bs_ptrs]. rewrite I2. replace (p + 1) with (c + N.of_nat (N.to_nat (p - c)) + 1) by lia. rewrite ptrs_extend. f_equal.
      symmetry. apply map_const. intros j Hj. rewrite I3.
      (* kids j = lenN done for c < j <= p *)
      apply N.le_antisymm.
      * apply N.nlt_ge. intros L. apply (kid_cnt k _ g p j Hk Ge Hp) in L. lia.
      * destruct done as [|d0 done']; [apply N.le_0_l|]. destruct (nthN_Some (G k) (lenN (d0 :: done') - 1)) as (g0 & Hg0). { apply nthN_lt in Ge. lia. }
        pose proof (I5 g0 Hg0 ltac:(discriminate)) as Pc. pose proof (proj1 (kid_cnt k _ g0 c j Hk Hg0 Pc) ltac:(lia)). rewrite lenN_cons in *. lia.
    + cbn [bs_pointer]. rewrite I3, lenN_app. reflexivity.
    + assumption.
    + intros g0 Hg0 _. rewrite lenN_app in Hg0. change (lenN [e]) with 1 in Hg0. rewrite N.add_sub, Ge in Hg0. injection Hg0 as <-. assumption.
    + intros Z. apply app_eq_nil in Z. destruct Z as [_ Z]. discriminate Z.
    + cbn [bs_sab ab_grams]. assumption.
    + cbn [bs_sab ab_ranks]. assumption.
    + exists s', c'. rewrite (skipn_nthN _ _ _ He') in A1. cbn [map] in A1. repeat split; assumption.
Qed.

Lemma build_ngrams_ok v arrays cb k l l' n seqs rs b bg br : 0 < k -> voc_rep D env v -> arrays_upto D remap env seqs arrays k -> nthN D k = Some l -> nthN D (k - 1) = Some l' ->
  Forall2 (rank_ok cb k n) l rs -> foldM cvb_push_back (lids D remap k) (ab_grams b) = Ok bg -> foldM cvb_push_back rs (ab_ranks b) = Ok br ->
  build_ngrams env v arrays cb (k + 1) remap (map line l) (map line l') b = Ok (child_ptrs (G (k - 1)) (G k), mksab bg br).
Proof.
  intros Hk RV AU Hl Hl' HR FG FR. unfold build_ngrams.
  assert (NL : l <> [] /\ l' <> []). { destruct (col_size _ _ C _ _ Hl). destruct (col_size _ _ C _ _ Hl'). auto. }
  destruct NL as [NL NL']. assert (0 < lenN l /\ 0 < lenN l'). { destruct l; [congruence|]. destruct l'; [congruence|]. rewrite !lenN_cons. lia. }
  destruct (ngrams_fold v arrays cb k l l' n seqs Hk RV AU Hl Hl' l rs [] 0 (mkbst (map line l') [0] 0 b) bg br) as (s' & c' & A1 & A2 & A3 & A4 & A5 & A6 & A7); try reflexivity; auto.
  - cbn [bs_ptrs]. change (range (0 + 1)) with [0]. cbn [map]. unfold kids. rewrite children_0. reflexivity.
  - lia.
  - congruence.
  - rewrite <- FG. unfold lids. rewrite (grams_of k l Hl), map_map. reflexivity.
  - rewrite A1. cbn [bind]. rewrite A2, A3, A4, A5. f_equal. f_equal. unfold child_ptrs.
    rewrite (grams_of _ _ Hl'), lenN_map. replace (lenN l' + 1) with (c' + N.of_nat (N.to_nat (lenN l' - c')) + 1) by lia.
    rewrite <- (grams_of _ _ Hl'). rewrite (ptrs_extend k c' (N.to_nat (lenN l' - c')) : map (children (G (k - 1)) (G k)) _ = _). f_equal.
    rewrite map_length, skipn_length. replace (length l' - N.to_nat c')%nat with (N.to_nat (lenN l' - c')) by (unfold lenN; lia).
    symmetry. apply map_const. intros j Hj.
    destruct (nthN_Some (G k) (lenN l - 1)) as (g & Hg). { rewrite (grams_of _ _ Hl), lenN_map. lia. }
    pose proof (A7 g Hg NL) as Pc. pose proof (proj1 (kid_cnt k _ g c' j Hk Hg Pc) ltac:(lia)).
    pose proof (kids_le D k j) as KL. rewrite (grams_of _ _ Hl), lenN_map in KL. lia.
Qed.
End Build.
