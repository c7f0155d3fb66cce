(** * Probability tries over either gram sequence: the levels *)
From Coq Require Import Floats.SpecFloat.
From Verif Require Import Prelude BitFacts M_Word P_Word M_Bits Spec P_Bits P_Builder M_CompactVector P_CompactVector M_DArray M_EF P_EF P_EF2
  M_HashVec M_Mph P_Mph P_MphTables M_FastEF P_FastEF P_FastEF3 M_Text P_Text P_Text2 M_SeqColl P_SeqColl M_Pool P_Pool M_Pef Spec_Pef M_Trie Spec_Trie P_Trie1 P_Trie2 P_Trie3 P_Trie4 P_Trie5
  M_Score Spec_Katz P_Score1 P_Score2 M_Quant P_Quant M_MphProb Spec_Arpa P_Sentence P_Values M_TrieProb P_TrieProb1 P_TrieProb2.
From Verif Require Import M_TriePef P_TriePef1 P_TriePef2 M_TrieProbPef.
From Coq Require Import Permutation Sorting.Sorted.

Section Build.
Variable D : entries.
Variable secs : list (list (list N)).
Variable env : qenv.
Variables remap pq bq : N.
Notation tv := (qe_t env).
Hypothesis AF : arpa_file D.
Hypothesis CO : collection (reversed D) remap.
Hypothesis TI : trie_base_ok D secs tv remap pq bq.
Notation R := (revD D).
Notation G := (grams (revD D)).
Notation voc := (grams (revD D) 0).
Notation CRR := (CR D remap CO).
Notation ge := (genv env).
Notation ENT := (gram * (spec_float * spec_float))%type.

(** the arrays below [K] hold the levels of the trie, in a state that the searches keep *)
Definition gup (arrays : list parr) (K : N) : Prop :=
  lenN arrays = lenN D /\ (forall k, 0 < k < K -> P_TriePef2.lev_pos R remap ge arrays k) /\ (forall k, k + 1 < K -> P_TriePef2.lev_ptr R arrays k).

Lemma grange_of arrays K k p : gup arrays K -> k + 1 < K -> p < lenN (G k) -> pa_range arrays k p = Ok (kids R (k + 1) p, kids R (k + 1) (p + 1)).
Proof.
  intros (_ & _ & AP) Hk Hp. destruct (AP k Hk) as (a & e & H1 & H2 & H3). unfold pa_range. rewrite (proj2 (rd_nthN _ _ _) H1). cbn [bind]. rewrite H2. unfold ptr_range, kids.
  rewrite N.add_sub. apply (ef_pair_ok e _ _ _ _ H3); apply nthN_child_ptrs; lia.
Qed.
Lemma gup_set arrays K k a g g' : gup arrays K -> 0 < k < K -> nthN arrays k = Some a -> p_grams a = Some g -> gs_good R remap ge k g' ->
  gup (setN arrays k (mkparr (p_size a) (Some g') (p_ranks a) (p_ptrs a))) K.
Proof.
  intros (AL & AP & AT) Hk H1 H2 H3. pose proof (nthN_lt _ _ _ H1) as L. set (a' := mkparr (p_size a) (Some g') (p_ranks a) (p_ptrs a)). split; [rewrite lenN_setN; exact AL|]. split.
  - intros j Hj. destruct (N.eq_dec j k) as [->|NE].
    + exists a', g'. split; [apply setN_same; exact L|]. auto.
    + destruct (AP j Hj) as (b & g0 & J1 & J2). exists b, g0. split; [rewrite setN_other by (exact L || exact NE); exact J1|]. auto.
  - intros j Hj. destruct (AT j Hj) as (b & e & J1 & J2). destruct (N.eq_dec j k) as [->|NE].
    + rewrite H1 in J1. injection J1 as <-. exists a', e. split; [apply setN_same; exact L|]. auto.
    + exists b, e. split; [rewrite setN_other by (exact L || exact NE); exact J1|]. auto.
Qed.
(** a listed gram is found; the arrays stay good *)
Lemma gfind arrays K k i x p : gup arrays K -> 0 < k < K -> nthN (G k) i = Some x -> nthN (G (k - 1)) p = Some (removelast x) ->
  exists arrays', pa_position ge arrays k (kids R k p, kids R k (p + 1)) (lid R remap k x) = Ok (i, arrays') /\ gup arrays' K.
Proof.
  intros AU Hk Hx Hp. pose proof AU as (AL & AP & AT). destruct (AP k Hk) as (a & g & H1 & H2 & H3). unfold pa_position. rewrite (proj2 (rd_nthN _ _ _) H1). cbn [bind]. rewrite H2.
  destruct (gs_find R remap ge k g i x p H3 Hx Hp) as (g' & E & H3'). rewrite E. cbn [bind]. cbv beta iota. pose proof (nthN_lt _ _ _ H1) as L. rewrite wr_setN by exact L. cbn [bind].
  eexists. split; [reflexivity|]. eapply gup_set; eauto.
Qed.
(** an unlisted one is not, when it can be told apart *)
Lemma gmiss arrays K k p id : gup arrays K -> 0 < k < K -> sib_missing R remap k p id ->
  exists arrays', pa_position ge arrays k (kids R k p, kids R k (p + 1)) id = Ok (not_found, arrays') /\ gup arrays' K.
Proof.
  intros AU Hk HM. pose proof AU as (AL & AP & AT). destruct (AP k Hk) as (a & g & H1 & H2 & H3). unfold pa_position. rewrite (proj2 (rd_nthN _ _ _) H1). cbn [bind]. rewrite H2.
  destruct (gs_miss R remap ge k g p id H3 HM) as (g' & E & H3'). rewrite E. cbn [bind]. cbv beta iota. pose proof (nthN_lt _ _ _ H1) as L. rewrite wr_setN by exact L. cbn [bind].
  eexists. split; [reflexivity|]. eapply gup_set; eauto.
Qed.

(** ** remapping *)
Lemma qwalk arrays K s : gup arrays K -> remap <> 0 -> remap < K -> K <= lenN D -> In s (G remap) ->
  exists p,
  (remap = 1 -> exists x w, s = [x; w] /\ pa_range arrays 0 (vid R x) = Ok (kids R remap p, kids R remap (p + 1))) /\
  (remap = 2 -> exists x y w r0 arr1, s = [x; y; w] /\ pa_range arrays 0 (vid R x) = Ok r0 /\
    pa_next ge arrays 1 r0 (vid R y) = Ok (p, (kids R remap p, kids R remap (p + 1)), arr1) /\ gup arr1 K) /\
  (forall arr, gup arr K -> exists arr', pmap_in ge arr remap (kids R remap p, kids R remap (p + 1)) (vid R (last s []))
    = Ok (posn (G remap) s - kids R remap (posn (G (remap - 1)) (removelast s)), arr') /\ gup arr' K).
Proof.
  intros AU R0 RK KD Hs. pose proof (col_remap _ _ CRR) as R2.
  pose proof (lev_PRE R remap CRR remap ltac:(lia) s Hs) as Hpre. pose proof (posn_In _ _ Hpre) as Hp. set (p := posn (G (remap - 1)) (removelast s)) in *.
  pose proof (posn_In _ _ Hs) as Hi. set (i := posn (G remap) s) in *.
  pose proof (kid_range R remap CRR remap i s p ltac:(lia) Hi Hp) as KR.
  exists p.
  assert (FIN : forall arr, gup arr K -> exists arr', pmap_in ge arr remap (kids R remap p, kids R remap (p + 1)) (vid R (last s [])) = Ok (i - kids R remap p, arr') /\ gup arr' K).
  { intros arr AUa. unfold pmap_in. replace (vid R (last s [])) with (lid R remap remap s) by (apply lid_plain; right; lia).
    destruct (gfind arr K remap i s p AUa ltac:(lia) Hi Hp) as (arr' & FE & AU'). rewrite FE. cbn [bind]. cbv beta iota.
    rewrite (not_found_big i (lenN (G remap))) by (first [eapply nthN_lt; exact Hi | pose proof (lev_size R remap CRR remap); lia]).
    cbn [fst]. rewrite sub64_le; [exists arr'; split; [reflexivity|exact AU']|lia|]. pose proof (nthN_lt _ _ _ Hi). pose proof (lev_size R remap CRR remap). lia. }
  pose proof (gram_len R remap CRR remap s Hs) as Ls.
  split; [|split; [|exact FIN]].
  - intro E1. assert (LS2 : length s = 2%nat) by (rewrite E1 in Ls; exact Ls). destruct s as [|x [|w [|? ?]]]; cbn in LS2; try lia. exists x, w. split; [reflexivity|].
    assert (Hx : In [x] voc) by (apply (gram_voc R remap CRR remap [x; w]); [exact Hs|left; reflexivity]).
    change (removelast [x; w]) with [x] in Hp. assert (E0' : remap - 1 = 0) by lia. rewrite E0' in Hp.
    assert (PV : p = vid R x). { eapply NoDup_nthN; [apply (voc_NoDup R remap CRR)|exact Hp|apply vid_In; exact Hx]. }
    rewrite PV, E1. apply (grange_of arrays K 0 (vid R x) AU ltac:(lia)). eapply nthN_lt. apply vid_In. exact Hx.
  - intro E2. assert (LS3 : length s = 3%nat) by (rewrite E2 in Ls; exact Ls). destruct s as [|x [|y [|w [|? ?]]]]; cbn in LS3; try lia.
    assert (Hx : In [x] voc) by (apply (gram_voc R remap CRR remap [x; y; w]); [exact Hs|left; reflexivity]).
    pose proof (vid_In R x Hx) as Vx.
    pose proof (grange_of arrays K 0 (vid R x) AU ltac:(lia) (nthN_lt _ _ _ Vx)) as RG.
    change (removelast [x; y; w]) with [x; y] in Hp. assert (E1 : remap - 1 = 1) by lia. rewrite E1 in Hp.
    destruct (gfind arrays K 1 p [x; y] (vid R x) AU ltac:(lia) Hp Vx) as (arr1 & FE & AU1).
    exists x, y, w. eexists. exists arr1. split; [reflexivity|]. split; [exact RG|]. split; [|exact AU1].
    unfold pa_next. replace (vid R y) with (lid R remap 1 [x; y]) by (rewrite lid_plain by (right; lia); reflexivity).
    change (0 + 1) with 1. rewrite FE. cbn [bind]. cbv beta iota.
    rewrite (not_found_big p (lenN (G 1))) by (first [eapply nthN_lt; exact Hp | pose proof (lev_size R remap CRR 1); lia]).
    rewrite (grange_of arr1 K 1 p AU1 ltac:(lia)) by (eapply nthN_lt; exact Hp). cbn [bind].
    rewrite E2. reflexivity.
Qed.
Lemma qmap_ids_ok arrays K s prev_id prev_prev_id : gup arrays K -> remap <> 0 -> remap < K -> K <= lenN D -> In s (G remap) ->
  (forall y, nthN s (remap - 1) = Some y -> prev_id = vid R y) -> (remap = 2 -> forall x, nthN s 0 = Some x -> prev_prev_id = vid R x) ->
  exists arr', qmap_ids env arrays prev_id prev_prev_id (vid R (last s [])) remap = Ok (posn (G remap) s - kids R remap (posn (G (remap - 1)) (removelast s)), arr') /\ gup arr' K.
Proof.
  intros PA R0 RK KD Hs H1 H2. pose proof (col_remap _ _ CRR) as R2.
  destruct (qwalk arrays K s PA R0 RK KD Hs) as (p & W1 & W2 & FIN).
  unfold qmap_ids. destruct (N.eqb_spec remap 1) as [E1|E1].
  - destruct (W1 E1) as (x & w & -> & RG). rewrite (H1 x) by (rewrite E1; reflexivity). rewrite RG. cbn [bind]. cbv beta iota. apply FIN. exact PA.
  - assert (E2 : remap = 2) by lia. destruct (W2 E2) as (x & y & w & r0 & arr1 & -> & RG & SN & PA1).
    rewrite (H2 E2 x) by reflexivity. rewrite RG. cbn [bind].
    rewrite (H1 y) by (rewrite E2; reflexivity). rewrite SN. cbn [bind]. cbv beta iota. apply FIN. exact PA1.
Qed.

Lemma qmap_gram_rev_ok v arrays K k buf r g : pvoc_rep D tv v -> gup arrays K -> remap <> 0 -> remap < k -> k <= K -> K <= lenN D ->
  In (rev g) (G k) -> holds_text buf r (join g) -> lenN buf < 2 ^ 64 ->
  exists arr', qmap_gram_rev env v arrays remap buf r (vid R (last (rev g) [])) = Ok (lid R remap k (rev g), arr') /\ gup arr' K.
Proof.
  intros RV PA R0 RK KK KD Hg HT HB. pose proof (col_remap _ _ CRR) as R2.
  pose proof (gram_len R remap CRR k _ Hg) as Lg.
  destruct (suffix_facts R remap CRR k (rev g) ltac:(lia) RK Hg) as (S1 & S2 & S3 & S4). cbv zeta in S1, S2, S3, S4.
  rewrite (lid_mapped R remap k (rev g) R0 RK). cbv zeta. set (s := skipn (N.to_nat (k - remap)) (rev g)) in *.
  assert (Ls : length s = N.to_nat (remap + 1)) by (unfold s; rewrite skipn_length; lia).
  assert (Eg0 : rev g = firstn (N.to_nat (k - remap)) (rev g) ++ s) by (unfold s; symmetry; apply firstn_skipn).
  set (pl := firstn (N.to_nat (k - remap)) (rev g)) in *.
  assert (Wg : Forall (fun w => ~ In 32 w) g).
  { apply Forall_forall. intros w Hw. pose proof (gram_words R remap CRR k _ Hg) as W. rewrite Forall_forall in W. destruct (W w) as [_ X]; [apply in_rev in Hw; exact Hw|exact X]. }
  destruct (qwalk arrays K s PA R0 ltac:(lia) KD S1) as (p & W1 & W2 & FIN).
  rewrite S3 in FIN. unfold qmap_gram_rev.
  destruct (holds_split _ _ _ HT) as (pre & post & -> & Ha & He). destruct r as [a b]. cbn [fst snd] in Ha, He. subst a b.
  assert (TO : forall x t, s = x :: t -> to (pre ++ join g ++ post) (lenN pre, lenN pre + lenN (join g)) remap
     = Ok (lenN pre + lenN (join (rev t ++ [x])) - lenN x, lenN pre + lenN (join (rev t ++ [x])))).
  { intros x t Es. rewrite Es in Eg0, Ls. apply rev_rev_split in Eg0. cbn in Ls.
    rewrite Eg0 in Wg |- *. unfold to. cbn [fst snd].
    destruct (to_words (rev t) x (rev pl) pre post remap 0 (lenN pre) (S (length (pre ++ join (rev t ++ x :: rev pl) ++ post))) _ Wg eq_refl) as (b & e & E & -> & ->).
    - rewrite !app_length. lia.
    - unfold lenN. rewrite rev_length. lia.
    - reflexivity.
    - exact E. }
  assert (HX : forall x t, s = x :: t -> holds_text (pre ++ join g ++ post) (lenN pre + lenN (join (rev t ++ [x])) - lenN x, lenN pre + lenN (join (rev t ++ [x]))) x).
  { intros x t Es. rewrite Es in Eg0. apply rev_rev_split in Eg0. rewrite Eg0. apply holds_around; reflexivity. }
  assert (RC : remap = 1 \/ remap = 2) by lia. destruct RC as [E1|E2].
  - destruct (W1 E1) as (x & w & Es & RG). rewrite (TO x [w] Es). cbn [bind].
    rewrite (plook_ok D tv AF v _ _ x RV (HX x [w] Es)); [|apply (gram_voc R remap CRR remap s); [exact S1|rewrite Es; left; reflexivity]]. cbn [bind].
    rewrite RG. cbn [bind]. destruct (N.eqb_spec remap 2); [lia|]. cbn [bind]. cbv beta iota. apply FIN. exact PA.
  - destruct (W2 E2) as (x & y & w & r0 & arr1 & Es & RG & SN & PA1). rewrite (TO x [y; w] Es). cbn [bind].
    rewrite (plook_ok D tv AF v _ _ x RV (HX x [y; w] Es)); [|apply (gram_voc R remap CRR remap s); [exact S1|rewrite Es; left; reflexivity]]. cbn [bind].
    rewrite RG. cbn [bind]. destruct (N.eqb_spec remap 2); [|lia].
    cbn [rev app]. 
    assert (JX : join [w; y; x] = w ++ 32 :: y ++ 32 :: x) by reflexivity. rewrite JX.
    rewrite Es in Eg0. apply rev_rev_split in Eg0. cbn [rev app] in Eg0.
    assert (Wy : ~ In 32 y /\ y <> []).
    { pose proof (gram_words R remap CRR remap s S1) as WW. rewrite Es in WW. apply Forall_inv_tail in WW. apply Forall_inv in WW. split; apply WW. }
    assert (BUF : exists post', pre ++ join g ++ post = (pre ++ w) ++ 32 :: y ++ 32 :: x ++ post').
    { rewrite Eg0. destruct (rev pl) as [|z q].
      - exists post. rewrite JX, <- !app_assoc. cbn [app]. rewrite <- !app_assoc. reflexivity.
      - exists (32 :: join (z :: q) ++ post). rewrite (join_cons w) by discriminate. rewrite (join_cons y) by discriminate. rewrite (join_cons x) by discriminate.
        rewrite <- !app_assoc. cbn [app]. rewrite <- !app_assoc. cbn [app]. rewrite <- !app_assoc. reflexivity. }
    destruct BUF as (post' & BUF).
    destruct (prev_ok (pre ++ join g ++ post) (lenN pre + lenN (w ++ 32 :: y ++ 32 :: x) - lenN x, lenN pre + lenN (w ++ 32 :: y ++ 32 :: x)) (pre ++ w) x y post' HB BUF (proj1 Wy) (proj2 Wy)) as (q & EP & HQ).
    { rewrite !lenN_app, lenN_cons, lenN_app, lenN_cons. f_equal; lia. }
    rewrite EP. cbn [bind].
    rewrite (plook_ok D tv AF v _ _ y RV HQ); [|apply (gram_voc R remap CRR remap s); [exact S1|rewrite Es; right; left; reflexivity]]. cbn [bind].
    rewrite SN. cbn [bind]. cbv beta iota. apply FIN. exact PA1.
Qed.

(** ** the lines of a level *)
Lemma qp_fold v pb bb k l l' ls ls' : 0 < k -> pvoc_rep D tv v -> vinv D pq bq (lenN D) (pb, bb) -> nthN D k = Some l -> nthN D (k - 1) = Some l' ->
  Forall2 (arpa_line (tp_sd tv)) l' ls' -> Forall (fun x => lenN x < 2 ^ 32) ls' -> Forall2 (arpa_line (tp_sd tv)) l ls -> Forall (fun x => lenN x < 2 ^ 32) ls ->
  forall rest (lrest : list (list N)) vs (done : list ENT) ldone c s bg br arrays, gup arrays k -> l = done ++ rest -> ls = ldone ++ lrest -> length ldone = length done -> Forall2 (value_ok D pq bq pb bb k) rest vs ->
  pbs_prv s = skipn (N.to_nat c) ls' -> pbs_ptrs s = map (kids R k) (range (c + 1)) -> pbs_pos s = lenN done -> c < lenN l' ->
  (forall g, nthN (G k) (lenN done - 1) = Some g -> done <> [] -> nthN (G (k - 1)) c = Some (removelast g)) -> (done = [] -> c = 0) ->
  foldM cvb_push_back (map (fun e : ENT => lid R remap k (rev (fst e))) rest) (pb_grams (pbs_pab s)) = Ok bg ->
  foldM cvb_push_back vs (pb_ranks (pbs_pab s)) = Ok br ->
  exists s' c' arrays', foldM (qp_step env v pb bb (k + 1) (lenN D) remap) lrest (s, arrays) = Ok (s', arrays') /\ gup arrays' k /\
    pbs_pab s' = mkpab bg br /\ pbs_prv s' = skipn (N.to_nat c') ls' /\ pbs_ptrs s' = map (kids R k) (range (c' + 1)) /\ pbs_pos s' = lenN l /\ c' < lenN l' /\
    (forall g, nthN (G k) (lenN l - 1) = Some g -> l <> [] -> nthN (G (k - 1)) c' = Some (removelast g)).
Proof.
  intros Hk RV VV Hl Hl' F2' FL' F2 FL. induction rest as [|e rest IH]; intros lrest vs done ldone c s bg br arrays PA El Els LD HR I1 I2 I3 I4 I5 I6 FG FR.
  - assert (LZ : lrest = []). { apply Forall2_len in F2. rewrite El, Els, !app_length in F2. cbn in F2. destruct lrest; [reflexivity|cbn in F2; lia]. }
    subst lrest. inversion HR; subst vs. rewrite app_nil_r in El. subst done. cbn in FG, FR. injection FG as FG. injection FR as FR. exists s, c, arrays.
    cbn [foldM]. split; [reflexivity|]. split; [exact PA|]. split; [destruct (pbs_pab s); cbn in *; congruence|]. repeat split; try assumption.
  - inversion HR as [|? vv ? vs' Hr HR']; subst vs x l0.
    assert (Ie : In e l) by (rewrite El; apply in_or_app; right; left; reflexivity).
    assert (Ne : nthN l (lenN done) = Some e) by (rewrite El, nthN_app2 by lia; rewrite N.sub_diag; reflexivity).
    destruct (line_parses D tv AF k l ls (lenN done) e Hl F2 FL Ne) as (x & r & Hx & P0 & P1 & P2 & P3 & P4).
    assert (HD : exists lrest', lrest = x :: lrest').
    { rewrite Els, nthN_app2 in Hx by (unfold lenN; lia). replace (lenN done - lenN ldone) with 0 in Hx by (unfold lenN; lia).
      destruct lrest as [|y lr]; [discriminate|]. cbn in Hx. injection Hx as ->. eauto. }
    destruct HD as (lrest' & ->).
    pose proof (nthN_G D k l (lenN done) e Hl Ne) as Ge. pose proof (nthN_In _ _ _ Ge) as Hg.
    set (g := rev (fst e)) in *. pose proof (lev_PRE R remap CRR k Hk g Hg) as Hpre. pose proof (posn_In _ _ Hpre) as Hp. set (p := posn (G (k - 1)) (removelast g)) in *.
    assert (CP : c <= p).
    { destruct done as [|d0 done']; [rewrite (I6 eq_refl); lia|].
      destruct (nthN_Some (G k) (lenN (d0 :: done') - 1)) as (g0 & Hg0). { apply nthN_lt in Ge. lia. }
      pose proof (I5 g0 Hg0 ltac:(discriminate)) as Pc. apply (lev_MON R remap CRR k Hk (lenN (d0 :: done') - 1) (lenN (d0 :: done')) g0 g); auto. rewrite lenN_cons. lia. }
    destruct (words_of D AF k l e Hl Ie) as [LG WG].
    destruct (fst e) as [|w0 h] eqn:Efe; [change (lenN (@nil (list N))) with 0 in LG; lia|].
    assert (NH : h <> []). { intro Z. rewrite Z in LG. change (lenN [w0]) with 1 in LG. lia. }
    assert (W0 : ~ In 32 w0) by (inversion WG as [|? ? Q _]; apply Q).
    assert (Eg : removelast g = rev h) by (unfold g; rewrite tl_rev; reflexivity).
    assert (Lg : last g [] = w0) by (unfold g; cbn [rev]; apply last_last).
    assert (LPp : p < lenN l'). { apply nthN_lt in Hp. rewrite (G_len D _ _ Hl') in Hp. exact Hp. }
    destruct (nthN_Some l' p LPp) as (e' & He').
    assert (Ee' : fst e' = h). { pose proof (nthN_G D _ _ _ _ Hl' He') as K. rewrite Hp, Eg in K. injection K as K. apply rev_inj_. congruence. }
    destruct (suffix_ok (c_str x) (r_gram r) w0 h P3 NH W0) as (q & PE & PT).
    cbn [foldM]. unfold qp_step at 1. rewrite P0. cbn [bind]. cbv beta iota zeta. rewrite PE. cbn [bind fst snd]. rewrite I1.
    rewrite (tp_advance_ok D tv AF (k - 1) l' ls' (c_str x) (q, snd (r_gram r)) h Hl' F2' FL' PT P4 p (pbs_pos s) e' He' Ee' (N.to_nat (p - c)) c (pbs_ptrs s)) by lia. cbn [bind].
    destruct (line_parses D tv AF (k - 1) l' ls' p e' Hl' F2' FL' He') as (x' & r' & Hx' & _).
    pose proof (skipn_nthN _ _ _ Hx') as SKP. rewrite SKP. cbv iota.
    (* the token *)
    destruct (holds_split _ _ _ P3) as (pre & post & EB & B1 & B2). destruct (holds_split _ _ _ PT) as (pre2 & post2 & EB2 & C1 & C2). cbn [fst snd] in C1, C2.
    assert (JC : join (w0 :: h) = w0 ++ 32 :: join h) by (apply join_cons; exact NH). rewrite JC, lenN_app, lenN_cons in B2.
    assert (TK : holds_text (c_str x) (fst (r_gram r), sub64 q 1) w0).
    { rewrite sub64_small by (rewrite EB2, lenN_app in P4; lia). rewrite EB, JC, <- app_assoc. apply holds_mid; [exact B1|lia]. }
    destruct (plook_pair_ok D tv AF v _ _ w0 RV TK) as (y & EPP); [rewrite <- Lg; apply (last_voc R remap CRR k); exact Hg|]. rewrite EPP. cbn [bind].
    assert (TID : exists arr', (if tp_map tv && (remap + 1 <? k + 1) then qmap_gram_rev env v arrays remap (c_str x) (r_gram r) (vid R w0) else Ok (vid R w0, arrays)) = Ok (lid R remap k g, arr') /\ gup arr' k).
    { rewrite (bo_map _ _ _ _ _ _ TI). destruct (N.eqb_spec remap 0) as [R0|R0]; cbn [negb andb].
      - rewrite lid_plain by (left; exact R0). rewrite Lg. exists arrays. split; [reflexivity|exact PA].
      - destruct (N.ltb_spec (remap + 1) (k + 1)) as [RK|RK].
        + rewrite <- Lg. unfold g. rewrite <- Efe. apply (qmap_gram_rev_ok v arrays k k); try assumption; try lia.
          * apply nthN_lt in Hl. lia.
          * rewrite Efe. exact Hg.
          * rewrite Efe. exact P3.
        + rewrite lid_plain by (right; lia). rewrite Lg. exists arrays. split; [reflexivity|exact PA]. }
    destruct TID as (arr' & TID & PA'). rewrite TID. cbn [bind]. cbv beta iota. cbn [map foldM] in FG, FR. rewrite Efe in FG. fold g in FG.
    apply bind_ok in FG. destruct FG as (g1 & G1 & FG). apply bind_ok in FR. destruct FR as (r1 & R1 & FR).
    rewrite G1. cbn [bind]. replace (k + 1 - 2) with (k - 1) by lia. destruct Hr as (pr & Q1 & Q2 & Q3). rewrite P1, Q1. cbn [bind].
    assert (RKE : (if k + 1 =? lenN D then Ok pr else backoff_rank <- q_rank bb (k - 1) (r_backoff r) 1 ;; bits <- q_qbits pb (k - 1) ;; Ok (rank_pack bits pr backoff_rank)) = Ok vv).
    { destruct (N.eqb_spec (k + 1) (lenN D)) as [Y|Y]; [subst vv; reflexivity|]. destruct Q3 as (b0 & S1 & S2 & S3). rewrite P2, S1. cbn [bind].
      destruct VV as (V1 & V2 & V3 & V4 & V5). cbn [fst snd] in V1, V2. pose proof (nthN_lt _ _ _ Hl).
      assert (QB : q_qbits pb (k - 1) = Ok pq). { unfold q_qbits. rewrite V2. apply (proj2 (rd_nthN _ _ _)). apply nthN_rep. lia. }
      rewrite QB. cbn [bind]. f_equal. rewrite S3. pose proof (tab_width D secs (tp_penv tv) pq bq (VIN D secs tv remap pq bq TI)) as [TP TB].
      apply rank_pack_shift; [lia|]. eapply N.lt_le_trans; [exact S2|]. apply N.pow_le_mono_r; pose proof (bo_bits _ _ _ _ _ _ TI); lia. }
    rewrite RKE. cbn [bind]. rewrite R1. cbn [bind].
    edestruct (IH lrest' vs' (done ++ [e]) (ldone ++ [x]) p (mkpbst (skipn (N.to_nat p) ls') (pbs_ptrs s ++ repeat (pbs_pos s) (N.to_nat (p - c))) (pbs_pos s + 1) (mkpab g1 r1)) bg br arr')
      as (s' & c' & arrays' & A1 & A0 & A2 & A3 & A4 & A5 & A6 & A7).
    + exact PA'.
    + rewrite <- app_assoc. exact El.
    + rewrite <- app_assoc. exact Els.
    + rewrite !app_length. cbn. lia.
    + exact HR'.
    + reflexivity.
    + cbn [pbs_ptrs]. rewrite I2. replace (p + 1) with (c + N.of_nat (N.to_nat (p - c)) + 1) by lia. rewrite ptrs_extend. f_equal.
      symmetry. apply map_const. intros j Hj. rewrite I3.
      apply N.le_antisymm.
      * apply N.nlt_ge. intros L. apply (kid_cnt R remap CRR k _ g p j Hk Ge Hp) in L. lia.
      * destruct done as [|d0 done']; [apply N.le_0_l|]. destruct (nthN_Some (G k) (lenN (d0 :: done') - 1)) as (g0 & Hg0). { apply nthN_lt in Ge. lia. }
        pose proof (I5 g0 Hg0 ltac:(discriminate)) as Pc. pose proof (proj1 (kid_cnt R remap CRR k _ g0 c j Hk Hg0 Pc) ltac:(lia)). rewrite lenN_cons in *. lia.
    + cbn [pbs_pos]. rewrite I3, lenN_app. reflexivity.
    + exact LPp.
    + intros g0 Hg0 _. rewrite lenN_app in Hg0. change (lenN [e]) with 1 in Hg0. rewrite N.add_sub, Ge in Hg0. injection Hg0 as <-. exact Hp.
    + intros Z. apply app_eq_nil in Z. destruct Z as [_ Z]. discriminate Z.
    + cbn [pbs_pab pb_grams]. exact FG.
    + cbn [pbs_pab pb_ranks]. exact FR.
    + exists s', c', arrays'. rewrite SKP in A1. split; [exact A1|]. split; [exact A0|]. repeat split; assumption.
Qed.

Lemma qp_ngrams_ok v pb bb arrays k l l' ls ls' vs b bg br : 0 < k -> pvoc_rep D tv v -> vinv D pq bq (lenN D) (pb, bb) -> gup arrays k -> nthN D k = Some l -> nthN D (k - 1) = Some l' ->
  Forall2 (arpa_line (tp_sd tv)) l' ls' -> Forall (fun x => lenN x < 2 ^ 32) ls' -> Forall2 (arpa_line (tp_sd tv)) l ls -> Forall (fun x => lenN x < 2 ^ 32) ls ->
  Forall2 (value_ok D pq bq pb bb k) l vs -> foldM cvb_push_back (lids R remap k) (pb_grams b) = Ok bg -> foldM cvb_push_back vs (pb_ranks b) = Ok br ->
  exists arrays', qp_ngrams env v arrays pb bb (k + 1) (lenN D) remap ls ls' b = Ok (child_ptrs (G (k - 1)) (G k), mkpab bg br, arrays') /\ gup arrays' k.
Proof.
  intros Hk RV VV PA Hl Hl' F2' FL' F2 FL HR FG FR. unfold qp_ngrams.
  destruct (af_size _ AF _ _ Hl) as [NL _]. destruct (af_size _ AF _ _ Hl') as [NL' _].
  assert (PL : 0 < lenN l /\ 0 < lenN l'). { destruct l; [congruence|]. destruct l'; [congruence|]. rewrite !lenN_cons. lia. } destruct PL as [PL PL'].
  destruct (nthN_Some l' 0 PL') as (e0 & He0). destruct (line_parses D tv AF (k - 1) l' ls' 0 e0 Hl' F2' FL' He0) as (x & r & Hx & P0 & _).
  replace (hd [] ls') with x by (destruct ls'; [discriminate|cbn in Hx; injection Hx as ->; reflexivity]). rewrite P0. cbn [bind].
  destruct (qp_fold v pb bb k l l' ls ls' Hk RV VV Hl Hl' F2' FL' F2 FL l ls vs [] [] 0 (mkpbst ls' [0] 0 b) bg br arrays) as (s' & c' & arrays' & A1 & A0 & A2 & A3 & A4 & A5 & A6 & A7); try reflexivity; auto.
  - cbn [pbs_ptrs]. change (range (0 + 1)) with [0]. cbn [map]. unfold kids. rewrite children_0. reflexivity.
  - congruence.
  - rewrite <- FG. unfold lids. rewrite (G_of D k l Hl), map_map. reflexivity.
  - rewrite A1. cbn [bind]. cbv beta iota. exists arrays'. split; [|exact A0]. rewrite A2, A3, A4, A5. f_equal. f_equal. f_equal. unfold child_ptrs. rewrite (G_len D _ _ Hl').
    replace (lenN l' + 1) with (c' + N.of_nat (N.to_nat (lenN l' - c')) + 1) by lia.
    rewrite (ptrs_extend R k c' (N.to_nat (lenN l' - c')) : map (children (G (k - 1)) (G k)) _ = _). f_equal.
    rewrite skipn_length. replace (length ls' - N.to_nat c')%nat with (N.to_nat (lenN l' - c')) by (apply Forall2_len in F2'; unfold lenN; lia).
    symmetry. apply map_const. intros j Hj.
    destruct (nthN_Some (G k) (lenN l - 1)) as (g & Hg). { rewrite (G_len D _ _ Hl). lia. }
    pose proof (A7 g Hg NL) as Pc. pose proof (proj1 (kid_cnt R remap CRR k _ g c' j Hk Hg Pc) ltac:(lia)).
    pose proof (kids_le R k j) as KL. rewrite (G_len D _ _ Hl) in KL. lia.
Qed.
End Build.
