(** * Building a probability trie: the levels *)
From Coq Require Import Floats.SpecFloat.
From Verif Require Import Prelude BitFacts M_Word P_Word M_Bits Spec P_Bits P_Builder M_CompactVector P_CompactVector M_DArray M_EF P_EF P_EF2
  M_HashVec M_Mph P_Mph P_MphTables M_FastEF P_FastEF3 M_Text P_Text P_Text2 M_SeqColl P_SeqColl M_Pool P_Pool M_Trie Spec_Trie P_Trie1 P_Trie2 P_Trie3 P_Trie4 P_Trie5
  M_Score Spec_Katz P_Score1 P_Score2 M_Quant P_Quant M_MphProb Spec_Arpa P_Sentence P_Values M_TrieProb P_TrieProb1.
From Coq Require Import Permutation Sorting.Sorted.

(** reading a rank vector that is followed by a readable word *)
Lemma access_padded c vs x i v : cv_holds c vs -> c_width c <= 57 -> x < 2 ^ 64 -> nthN vs i = Some v ->
  cv_access (mkcv (c_size c) (c_width c) (c_mask c) (c_bits c ++ [x])) i = Ok v.
Proof.
  intros (w & V & (H1 & H2 & H3 & H4 & H5 & H6 & H7 & H8) & HV) HW Hx Hv. pose proof (nthN_lt _ _ _ Hv) as Hi. specialize (HV i Hi). rewrite Hv in HV. injection HV as ->.
  pose proof (slot_bound (lenN vs) w i Hi) as SB. rewrite H2 in HW.
  unfold cv_access. cbn [c_width c_mask c_bits]. rewrite H2, H3, mul64_small, shr3, land7 by lia.
  assert (WS : words (c_bits c ++ [x])) by (apply Forall_app; split; [exact H6|constructor; [exact Hx|constructor]]).
  pose proof (words_for_ge (lenN vs * w)) as WG.
  rewrite load_u64_ok by (try exact WS; rewrite lenN_app, H7; change (lenN [x]) with 1; dlia). cbn [bind]. f_equal.
  apply tb_eq. intros k. unfold slot. rewrite N.land_spec, tb_shr64, tb_ones, !tb_field.
  destruct (N.ltb_spec k w); [|apply andb_false_r]. rewrite andb_true_r. cbn [andb].
  destruct (N.ltb_spec (k + (i * w) mod 8) 64); [|exfalso; dlia]. cbn [andb].
  rewrite <- H8. replace (k + (i * w) mod 8 + 8 * (i * w / 8)) with (k + i * w) by dlia.
  rewrite (wval_app (c_bits c) [x] H6 ltac:(constructor; [exact Hx|constructor])). rewrite N.lor_spec, tb_shl, H7.
  destruct (N.leb_spec (64 * words_for (lenN vs * w)) (k + i * w)); [exfalso; lia|]. cbn [andb]. apply orb_false_r.
Qed.

Section Build.
Variable D : entries.
Variable secs : list (list (list N)).
Variable env : tpenv.
Variables remap pq bq : N.
Hypothesis AF : arpa_file D.
Hypothesis CO : collection (reversed D) remap.
Hypothesis TI : trie_base_ok D secs env remap pq bq.
Notation R := (revD D).
Notation G := (grams (revD D)).
Notation voc := (grams (revD D) 0).
Notation E0 := (tenv0 env).
Notation CRR := (CR D remap CO).
Notation ENT := (gram * (spec_float * spec_float))%type.

Definition parrays_upto (pb bb : qsc) (arrays : list parr) (K : N) : Prop :=
  lenN arrays = lenN D /\
  (forall k, 0 < k < K -> lev_pos R remap E0 (map a_sa arrays) k) /\
  (forall k, k + 1 < K -> lev_ptr R (map a_sa arrays) k) /\
  (forall k l, 0 < k < K -> nthN D k = Some l -> exists a c vs, nthN arrays k = Some a /\ a_pb a = Some c /\ cv_holds c vs /\ c_width c <= 57 /\ Forall2 (value_ok D pq bq pb bb k) l vs).

Lemma nth_sa (arrays : list parr) k a : nthN arrays k = Some a -> nthN (map a_sa arrays) k = Some (a_sa a).
Proof. intro H. rewrite nthN_map, H. reflexivity. Qed.
Lemma revD_lt k : k < lenN R <-> k < lenN D. Proof. rewrite lenN_revD. tauto. Qed.

(** ** remapping *)
Lemma walk pb bb arrays K s : parrays_upto pb bb arrays K -> remap <> 0 -> remap < K -> K <= lenN D -> In s (G remap) ->
  exists a0 ar p, nthN arrays 0 = Some a0 /\ nthN arrays remap = Some ar /\
  (remap = 1 -> exists x w, s = [x; w] /\ sa_range (a_sa a0) (vid R x) = Ok (kids R remap p, kids R remap (p + 1))) /\
  (remap = 2 -> exists x y w a1 r0, s = [x; y; w] /\ sa_range (a_sa a0) (vid R x) = Ok r0 /\ nthN arrays 1 = Some a1 /\
  sa_next (tp_hu env 1) (a_sa a1) r0 (vid R y) = Ok (p, (kids R remap p, kids R remap (p + 1)))) /\
  map_in (tp_hu env remap) (kids R remap p, kids R remap (p + 1)) (vid R (last s [])) (a_sa ar)
    = Ok (posn (G remap) s - kids R remap (posn (G (remap - 1)) (removelast s))).
Proof.
  intros (AL & AP & APtr & _) R0 RK KD Hs. pose proof (col_remap _ _ CRR) as R2.
  destruct (nthN_Some arrays 0 ltac:(lia)) as (a0 & Ha0). destruct (nthN_Some arrays remap ltac:(lia)) as (ar & Har).
  pose proof (lev_PRE R remap CRR remap ltac:(lia) s Hs) as Hpre. pose proof (posn_In _ _ Hpre) as Hp. set (p := posn (G (remap - 1)) (removelast s)) in *.
  pose proof (posn_In _ _ Hs) as Hi. set (i := posn (G remap) s) in *.
  pose proof (kid_range R remap CRR remap i s p ltac:(lia) Hi Hp) as KR.
  exists a0, ar, p. split; [exact Ha0|]. split; [exact Har|].
  assert (FIN : map_in (tp_hu env remap) (kids R remap p, kids R remap (p + 1)) (vid R (last s [])) (a_sa ar) = Ok (i - kids R remap p)).
  { unfold map_in. replace (vid R (last s [])) with (lid R remap remap s) by (apply lid_plain; right; lia).
    pose proof (find_gram R remap CRR E0 (map a_sa arrays) remap i s p (a_sa ar) ltac:(lia) (AP remap ltac:(lia)) (nth_sa _ _ _ Har) Hi Hp) as FG.
    cbn [tenv0 te_hu] in FG. rewrite FG. cbn [bind].
    rewrite (not_found_big i (lenN (G remap))) by (first [eapply nthN_lt; exact Hi | pose proof (lev_size R remap CRR remap); lia]).
    cbn [fst]. rewrite sub64_le; [reflexivity|lia|]. pose proof (nthN_lt _ _ _ Hi). pose proof (lev_size R remap CRR remap). lia. }
  pose proof (gram_len R remap CRR remap s Hs) as Ls.
  split; [|split; [|exact FIN]].
  - intro E1. assert (LS2 : length s = 2%nat) by (rewrite E1 in Ls; exact Ls). destruct s as [|x [|w [|? ?]]]; cbn in LS2; try lia. exists x, w. split; [reflexivity|].
    assert (Hx : In [x] voc) by (apply (gram_voc R remap CRR remap [x; w]); [exact Hs|left; reflexivity]).
    change (removelast [x; w]) with [x] in Hp. assert (E0' : remap - 1 = 0) by lia. rewrite E0' in Hp.
    assert (PV : p = vid R x). { eapply NoDup_nthN; [apply (voc_NoDup R remap CRR)|exact Hp|apply vid_In; exact Hx]. }
    rewrite PV, E1. apply (range_of R (map a_sa arrays) 0 (vid R x) (a_sa a0) (APtr 0 ltac:(lia)) (nth_sa _ _ _ Ha0)). eapply nthN_lt. apply vid_In. exact Hx.
  - intro E2. assert (LS3 : length s = 3%nat) by (rewrite E2 in Ls; exact Ls). destruct s as [|x [|y [|w [|? ?]]]]; cbn in LS3; try lia.
    assert (Hx : In [x] voc) by (apply (gram_voc R remap CRR remap [x; y; w]); [exact Hs|left; reflexivity]).
    assert (Hy : In [y] voc) by (apply (gram_voc R remap CRR remap [x; y; w]); [exact Hs|right; left; reflexivity]).
    destruct (nthN_Some arrays 1 ltac:(lia)) as (a1 & Ha1). pose proof (vid_In R x Hx) as Vx.
    pose proof (range_of R (map a_sa arrays) 0 (vid R x) (a_sa a0) (APtr 0 ltac:(lia)) (nth_sa _ _ _ Ha0) (nthN_lt _ _ _ Vx)) as RG.
    exists x, y, w, a1. eexists. split; [reflexivity|]. split; [exact RG|]. split; [exact Ha1|].
    change (removelast [x; y; w]) with [x; y] in Hp. assert (E1 : remap - 1 = 1) by lia. rewrite E1 in Hp.
    unfold sa_next. replace (vid R y) with (lid R remap 1 [x; y]) by (rewrite lid_plain by (right; lia); reflexivity).
    change (0 + 1) with 1.
    pose proof (find_gram R remap CRR E0 (map a_sa arrays) 1 p [x; y] (vid R x) (a_sa a1) ltac:(lia) (AP 1 ltac:(lia)) (nth_sa _ _ _ Ha1) Hp Vx) as FG.
    cbn [tenv0 te_hu] in FG. rewrite FG. cbn [bind].
    rewrite (not_found_big p (lenN (G 1))) by (first [eapply nthN_lt; exact Hp | pose proof (lev_size R remap CRR 1); lia]).
    rewrite (range_of R (map a_sa arrays) 1 p (a_sa a1) (APtr 1 ltac:(lia)) (nth_sa _ _ _ Ha1)) by (eapply nthN_lt; exact Hp). cbn [bind].
    rewrite E2. reflexivity.
Qed.
Lemma map_ids_ok pb bb arrays K s prev_id prev_prev_id : parrays_upto pb bb arrays K -> remap <> 0 -> remap < K -> K <= lenN D -> In s (G remap) ->
  (forall y, nthN s (remap - 1) = Some y -> prev_id = vid R y) -> (remap = 2 -> forall x, nthN s 0 = Some x -> prev_prev_id = vid R x) ->
  map_ids env arrays prev_id prev_prev_id (vid R (last s [])) remap = Ok (posn (G remap) s - kids R remap (posn (G (remap - 1)) (removelast s))).
Proof.
  intros PA R0 RK KD Hs H1 H2. pose proof (col_remap _ _ CRR) as R2.
  destruct (walk pb bb arrays K s PA R0 RK KD Hs) as (a0 & ar & p & Ha0 & Har & W1 & W2 & FIN).
  unfold map_ids. rewrite (proj2 (rd_nthN _ _ _) Ha0). cbn [bind]. destruct (N.eqb_spec remap 1) as [E1|E1].
  - destruct (W1 E1) as (x & w & -> & RG). rewrite (H1 x) by (rewrite E1; reflexivity). rewrite RG. cbn [bind].
    rewrite (proj2 (rd_nthN _ _ _) Har). cbn [bind]. exact FIN.
  - assert (E2 : remap = 2) by lia. destruct (W2 E2) as (x & y & w & a1 & r0 & -> & RG & Ha1 & SN).
    rewrite (H2 E2 x) by reflexivity. rewrite RG. cbn [bind]. rewrite (proj2 (rd_nthN _ _ _) Ha1). cbn [bind].
    rewrite (H1 y) by (rewrite E2; reflexivity). rewrite SN. cbn [bind]. rewrite (proj2 (rd_nthN _ _ _) Har). cbn [bind]. exact FIN.
Qed.

Lemma rev_rev_split {A} (g pl : list A) x r : rev g = pl ++ x :: r -> g = rev r ++ x :: rev pl.
Proof. intro H. rewrite <- (rev_involutive g), H, rev_app_distr. cbn [rev]. rewrite <- app_assoc. reflexivity. Qed.
Lemma map_gram_rev_ok v pb bb arrays K k buf r g : pvoc_rep D env v -> parrays_upto pb bb arrays K -> remap <> 0 -> remap < k -> k <= K -> K <= lenN D ->
  In (rev g) (G k) -> holds_text buf r (join g) -> lenN buf < 2 ^ 64 ->
  map_gram_rev env v arrays remap buf r (vid R (last (rev g) [])) = Ok (lid R remap k (rev g)).
Proof.
  intros RV PA R0 RK KK KD Hg HT HB. pose proof (col_remap _ _ CRR) as R2.
  pose proof (gram_len R remap CRR k _ Hg) as Lg.
  destruct (suffix_facts R remap CRR k (rev g) ltac:(lia) RK Hg) as (S1 & S2 & S3 & S4). cbv zeta in S1, S2, S3, S4.
  rewrite (lid_mapped R remap k (rev g) R0 RK). cbv zeta. set (s := skipn (N.to_nat (k - remap)) (rev g)) in *.
  assert (Ls : length s = N.to_nat (remap + 1)) by (unfold s; rewrite skipn_length; lia).
  assert (Eg0 : rev g = firstn (N.to_nat (k - remap)) (rev g) ++ s) by (unfold s; symmetry; apply firstn_skipn).
  set (pl := firstn (N.to_nat (k - remap)) (rev g)) in *.
  assert (Wg : Forall (fun w => ~ In 32 w) g).
  { apply Forall_forall. intros w Hw. pose proof (gram_words R remap CRR k _ Hg) as W. rewrite Forall_forall in W. destruct (W w) as [_ X]; [apply in_rev in Hw; exact Hw|exact X]. }
  destruct (walk pb bb arrays K s PA R0 ltac:(lia) KD S1) as (a0 & ar & p & Ha0 & Har & W1 & W2 & FIN).
  rewrite S3 in FIN. unfold map_gram_rev.
  destruct (holds_split _ _ _ HT) as (pre & post & -> & Ha & He). destruct r as [a b]. cbn [fst snd] in Ha, He. subst a b.
  assert (TO : forall x t, s = x :: t -> to (pre ++ join g ++ post) (lenN pre, lenN pre + lenN (join g)) remap
     = Ok (lenN pre + lenN (join (rev t ++ [x])) - lenN x, lenN pre + lenN (join (rev t ++ [x])))).
  { intros x t Es. rewrite Es in Eg0, Ls. apply rev_rev_split in Eg0. cbn in Ls.
    rewrite Eg0 in Wg |- *. unfold to. cbn [fst snd].
    destruct (to_words (rev t) x (rev pl) pre post remap 0 (lenN pre) (S (length (pre ++ join (rev t ++ x :: rev pl) ++ post))) _ Wg eq_refl) as (b & e & E & -> & ->).
    - rewrite !app_length. lia.
    - unfold lenN. rewrite rev_length. lia.
    - reflexivity.
    - exact E. }
  assert (HX : forall x t, s = x :: t -> holds_text (pre ++ join g ++ post) (lenN pre + lenN (join (rev t ++ [x])) - lenN x, lenN pre + lenN (join (rev t ++ [x]))) x).
  { intros x t Es. rewrite Es in Eg0. apply rev_rev_split in Eg0. rewrite Eg0. apply holds_around; reflexivity. }
  assert (RC : remap = 1 \/ remap = 2) by lia. destruct RC as [E1|E2].
  - destruct (W1 E1) as (x & w & Es & RG). rewrite (TO x [w] Es). cbn [bind].
    rewrite (plook_ok D env AF v _ _ x RV (HX x [w] Es)); [|apply (gram_voc R remap CRR remap s); [exact S1|rewrite Es; left; reflexivity]]. cbn [bind].
    rewrite (proj2 (rd_nthN _ _ _) Ha0). cbn [bind]. rewrite RG. cbn [bind]. destruct (N.eqb_spec remap 2); [lia|]. cbn [bind].
    rewrite (proj2 (rd_nthN _ _ _) Har). cbn [bind]. exact FIN.
  - destruct (W2 E2) as (x & y & w & a1 & r0 & Es & RG & Ha1 & SN). rewrite (TO x [y; w] Es). cbn [bind].
    rewrite (plook_ok D env AF v _ _ x RV (HX x [y; w] Es)); [|apply (gram_voc R remap CRR remap s); [exact S1|rewrite Es; left; reflexivity]]. cbn [bind].
    rewrite (proj2 (rd_nthN _ _ _) Ha0). cbn [bind]. rewrite RG. cbn [bind]. destruct (N.eqb_spec remap 2); [|lia].
    cbn [rev app]. 
    assert (JX : join [w; y; x] = w ++ 32 :: y ++ 32 :: x) by reflexivity. rewrite JX.
    rewrite Es in Eg0. apply rev_rev_split in Eg0. cbn [rev app] in Eg0.
    assert (Wy : ~ In 32 y /\ y <> []).
    { pose proof (gram_words R remap CRR remap s S1) as WW. rewrite Es in WW. apply Forall_inv_tail in WW. apply Forall_inv in WW. split; apply WW. }
    assert (BUF : exists post', pre ++ join g ++ post = (pre ++ w) ++ 32 :: y ++ 32 :: x ++ post').
    { rewrite Eg0. destruct (rev pl) as [|z q].
      - exists post. rewrite JX, <- !app_assoc. cbn [app]. rewrite <- !app_assoc. reflexivity.
      - exists (32 :: join (z :: q) ++ post). rewrite (join_cons w) by discriminate. rewrite (join_cons y) by discriminate. rewrite (join_cons x) by discriminate.
        rewrite <- !app_assoc. cbn [app]. rewrite <- !app_assoc. cbn [app]. rewrite <- !app_assoc. reflexivity. }
    destruct BUF as (post' & BUF).
    destruct (prev_ok (pre ++ join g ++ post) (lenN pre + lenN (w ++ 32 :: y ++ 32 :: x) - lenN x, lenN pre + lenN (w ++ 32 :: y ++ 32 :: x)) (pre ++ w) x y post' HB BUF (proj1 Wy) (proj2 Wy)) as (q & EP & HQ).
    { rewrite !lenN_app, lenN_cons, lenN_app, lenN_cons. f_equal; lia. }
    rewrite EP. cbn [bind].
    rewrite (plook_ok D env AF v _ _ y RV HQ); [|apply (gram_voc R remap CRR remap s); [exact S1|rewrite Es; right; left; reflexivity]]. cbn [bind].
    rewrite (proj2 (rd_nthN _ _ _) Ha1). cbn [bind]. rewrite SN. cbn [bind].
    rewrite (proj2 (rd_nthN _ _ _) Har). cbn [bind]. exact FIN.
Qed.

(** ** the lines of a level *)
Lemma line_parses k l ls i e : nthN D k = Some l -> Forall2 (arpa_line (tp_sd env)) l ls -> Forall (fun x => lenN x < 2 ^ 32) ls -> nthN l i = Some e ->
  exists x r, nthN ls i = Some x /\ parse_arpa_line (tp_sd env) x = Ok r /\ r_prob r = fst (snd e) /\ r_backoff r = snd (snd e) /\
    holds_text (c_str x) (r_gram r) (join (fst e)) /\ lenN (c_str x) < 2 ^ 64.
Proof.
  intros Hl F2 FL He. destruct (nthN_Some ls i) as (x & Hx). { apply nthN_lt in He. apply Forall2_len in F2. unfold lenN in *. lia. }
  destruct (level_no_tab D AF k l e Hl (nthN_In _ _ _ He)) as [NT _].
  destruct (parse_arpa_holds (tp_sd env) e x NT (Forall2_nthN _ _ _ _ _ _ F2 He Hx)) as (r & E & _ & P1 & P2 & P3).
  exists x, r. split; [exact Hx|]. split; [exact E|]. split; [exact P1|]. split; [exact P2|]. split; [exact P3|].
  pose proof (Forall_nthN _ _ _ _ FL Hx) as L. cbn in L. unfold c_str. rewrite lenN_app. change (lenN [0]) with 1. lia.
Qed.
Lemma tl_rev (g : gram) : removelast (rev g) = rev (tl g).
Proof. destruct g as [|w g]; [reflexivity|]. cbn [rev tl]. apply removelast_last. Qed.
Lemma rev_inj_ (a b : gram) : rev a = rev b -> a = b.
Proof. intro H. rewrite <- (rev_involutive a), H. apply rev_involutive. Qed.

Lemma tp_advance_ok k l' ls' buf pattern h : nthN D k = Some l' -> Forall2 (arpa_line (tp_sd env)) l' ls' -> Forall (fun x => lenN x < 2 ^ 32) ls' ->
  holds_text buf pattern (join h) -> lenN buf < 2 ^ 64 ->
  forall p pos e, nthN l' p = Some e -> fst e = h -> forall d c ptrs, p = c + N.of_nat d ->
  tp_advance (tp_sd env) buf pattern (skipn (N.to_nat c) ls') ptrs pos = Ok (skipn (N.to_nat p) ls', ptrs ++ repeat pos d).
Proof.
  intros Hl F2 FL HT HB p pos e He Eh.
  assert (WH : Forall word h /\ h <> []).
  { destruct (words_of D AF k l' e Hl (nthN_In _ _ _ He)) as [L W]. rewrite <- Eh. split; [exact W|]. intro Z. rewrite Z in L. change (lenN (@nil (list N))) with 0 in L. lia. }
  destruct WH as [WH NH]. induction d as [|d IH]; intros c ptrs E.
  - replace c with p by lia. destruct (line_parses k l' ls' p e Hl F2 FL He) as (x & r & Hx & P0 & _ & _ & P3 & P4).
    rewrite (skipn_nthN _ _ _ Hx). cbn [tp_advance]. rewrite P0. cbn [bind].
    rewrite (equal_bytes_ok _ _ _ _ _ _ HB P4 HT P3). cbn [bind]. rewrite Eh. destruct (list_eq_dec N.eq_dec _ _) as [_|Z]; [|congruence]. rewrite app_nil_r. reflexivity.
  - pose proof (nthN_lt _ _ _ He) as LP. destruct (nthN_Some l' c ltac:(lia)) as (e1 & He1). destruct (nthN_Some l' (c + 1) ltac:(lia)) as (e2 & He2).
    destruct (line_parses k l' ls' c e1 Hl F2 FL He1) as (x & r & Hx & P0 & _ & _ & P3 & P4).
    destruct (line_parses k l' ls' (c + 1) e2 Hl F2 FL He2) as (x2 & r2 & Hx2 & Q0 & _).
    specialize (IH (c + 1) (ptrs ++ [pos]) ltac:(lia)).
    rewrite (skipn_nthN _ _ _ Hx). cbn [tp_advance]. rewrite P0. cbn [bind].
    rewrite (equal_bytes_ok _ _ _ _ _ _ HB P4 HT P3). cbn [bind]. destruct (list_eq_dec N.eq_dec _ _) as [Z|_].
    + exfalso. destruct (words_of D AF k l' e1 Hl (nthN_In _ _ _ He1)) as [L1 W1].
      assert (N1 : fst e1 <> []). { intro Z'. rewrite Z' in L1. change (lenN (@nil (list N))) with 0 in L1. lia. }
      apply join_inj in Z; [|exact NH|exact N1|exact WH|exact W1].
      assert (ND : NoDup (map fst l')). { pose proof (af_distinct _ AF k) as X. unfold grams in X. rewrite Hl in X. exact X. }
      assert (c = p); [|lia]. apply (NoDup_nthN (map fst l') c p (fst e1) ND); rewrite nthN_map; [rewrite He1; reflexivity|rewrite He; cbn; congruence].
    + rewrite (skipn_nthN _ _ _ Hx2) in IH |- *. cbn [hd]. rewrite Q0. cbn [bind]. rewrite IH. f_equal. f_equal. rewrite <- app_assoc. reflexivity.
Qed.

Lemma tp_fold v pb bb arrays k l l' ls ls' : 0 < k -> pvoc_rep D env v -> vinv D pq bq (lenN D) (pb, bb) -> parrays_upto pb bb arrays k -> nthN D k = Some l -> nthN D (k - 1) = Some l' ->
  Forall2 (arpa_line (tp_sd env)) l' ls' -> Forall (fun x => lenN x < 2 ^ 32) ls' -> Forall2 (arpa_line (tp_sd env)) l ls -> Forall (fun x => lenN x < 2 ^ 32) ls ->
  forall rest (lrest : list (list N)) vs (done : list ENT) ldone c s bg br, l = done ++ rest -> ls = ldone ++ lrest -> length ldone = length done -> Forall2 (value_ok D pq bq pb bb k) rest vs ->
  pbs_prv s = skipn (N.to_nat c) ls' -> pbs_ptrs s = map (kids R k) (range (c + 1)) -> pbs_pos s = lenN done -> c < lenN l' ->
  (forall g, nthN (G k) (lenN done - 1) = Some g -> done <> [] -> nthN (G (k - 1)) c = Some (removelast g)) -> (done = [] -> c = 0) ->
  foldM cvb_push_back (map (fun e : ENT => lid R remap k (rev (fst e))) rest) (pb_grams (pbs_pab s)) = Ok bg ->
  foldM cvb_push_back vs (pb_ranks (pbs_pab s)) = Ok br ->
  exists s' c', foldM (tp_step env v arrays pb bb (k + 1) (lenN D) remap) lrest s = Ok s' /\
    pbs_pab s' = mkpab bg br /\ pbs_prv s' = skipn (N.to_nat c') ls' /\ pbs_ptrs s' = map (kids R k) (range (c' + 1)) /\ pbs_pos s' = lenN l /\ c' < lenN l' /\
    (forall g, nthN (G k) (lenN l - 1) = Some g -> l <> [] -> nthN (G (k - 1)) c' = Some (removelast g)).
Proof.
  intros Hk RV VV PA Hl Hl' F2' FL' F2 FL. induction rest as [|e rest IH]; intros lrest vs done ldone c s bg br El Els LD HR I1 I2 I3 I4 I5 I6 FG FR.
  - assert (LZ : lrest = []). { apply Forall2_len in F2. rewrite El, Els, !app_length in F2. cbn in F2. destruct lrest; [reflexivity|cbn in F2; lia]. }
    subst lrest. inversion HR; subst vs. rewrite app_nil_r in El. subst done. cbn in FG, FR. injection FG as FG. injection FR as FR. exists s, c.
    cbn [foldM]. split; [reflexivity|]. split; [destruct (pbs_pab s); cbn in *; congruence|]. repeat split; try assumption.
  - inversion HR as [|? vv ? vs' Hr HR']; subst vs x l0.
    assert (Ie : In e l) by (rewrite El; apply in_or_app; right; left; reflexivity).
    assert (Ne : nthN l (lenN done) = Some e) by (rewrite El, nthN_app2 by lia; rewrite N.sub_diag; reflexivity).
    destruct (line_parses k l ls (lenN done) e Hl F2 FL Ne) as (x & r & Hx & P0 & P1 & P2 & P3 & P4).
    assert (HD : exists lrest', lrest = x :: lrest').
    { rewrite Els, nthN_app2 in Hx by (unfold lenN; lia). replace (lenN done - lenN ldone) with 0 in Hx by (unfold lenN; lia).
      destruct lrest as [|y lr]; [discriminate|]. cbn in Hx. injection Hx as ->. eauto. }
    destruct HD as (lrest' & ->).
    pose proof (nthN_G D k l (lenN done) e Hl Ne) as Ge. pose proof (nthN_In _ _ _ Ge) as Hg.
    set (g := rev (fst e)) in *. pose proof (lev_PRE R remap CRR k Hk g Hg) as Hpre. pose proof (posn_In _ _ Hpre) as Hp. set (p := posn (G (k - 1)) (removelast g)) in *.
    assert (CP : c <= p).
    { destruct done as [|d0 done']; [rewrite (I6 eq_refl); lia|].
      destruct (nthN_Some (G k) (lenN (d0 :: done') - 1)) as (g0 & Hg0). { apply nthN_lt in Ge. lia. }
      pose proof (I5 g0 Hg0 ltac:(discriminate)) as Pc. apply (lev_MON R remap CRR k Hk (lenN (d0 :: done') - 1) (lenN (d0 :: done')) g0 g); auto. rewrite lenN_cons. lia. }
    destruct (words_of D AF k l e Hl Ie) as [LG WG].
    destruct (fst e) as [|w0 h] eqn:Efe; [change (lenN (@nil (list N))) with 0 in LG; lia|].
    assert (NH : h <> []). { intro Z. rewrite Z in LG. change (lenN [w0]) with 1 in LG. lia. }
    assert (W0 : ~ In 32 w0) by (inversion WG as [|? ? Q _]; apply Q).
    assert (Eg : removelast g = rev h) by (unfold g; rewrite tl_rev; reflexivity).
    assert (Lg : last g [] = w0) by (unfold g; cbn [rev]; apply last_last).
    assert (LPp : p < lenN l'). { apply nthN_lt in Hp. rewrite (G_len D _ _ Hl') in Hp. exact Hp. }
    destruct (nthN_Some l' p LPp) as (e' & He').
    assert (Ee' : fst e' = h). { pose proof (nthN_G D _ _ _ _ Hl' He') as K. rewrite Hp, Eg in K. injection K as K. apply rev_inj_. congruence. }
    destruct (suffix_ok (c_str x) (r_gram r) w0 h P3 NH W0) as (q & PE & PT).
    cbn [foldM]. unfold tp_step at 1. rewrite P0. cbn [bind]. cbv zeta. rewrite PE. cbn [bind fst snd]. rewrite I1.
    rewrite (tp_advance_ok (k - 1) l' ls' (c_str x) (q, snd (r_gram r)) h Hl' F2' FL' PT P4 p (pbs_pos s) e' He' Ee' (N.to_nat (p - c)) c (pbs_ptrs s)) by lia. cbn [bind].
    destruct (line_parses (k - 1) l' ls' p e' Hl' F2' FL' He') as (x' & r' & Hx' & _).
    pose proof (skipn_nthN _ _ _ Hx') as SKP. rewrite SKP. cbv iota.
    (* the token *)
    destruct (holds_split _ _ _ P3) as (pre & post & EB & B1 & B2). destruct (holds_split _ _ _ PT) as (pre2 & post2 & EB2 & C1 & C2). cbn [fst snd] in C1, C2.
    assert (JC : join (w0 :: h) = w0 ++ 32 :: join h) by (apply join_cons; exact NH). rewrite JC, lenN_app, lenN_cons in B2.
    assert (TK : holds_text (c_str x) (fst (r_gram r), sub64 q 1) w0).
    { rewrite sub64_small by (rewrite EB2, lenN_app in P4; lia). rewrite EB, JC, <- app_assoc. apply holds_mid; [exact B1|lia]. }
    destruct (plook_pair_ok D env AF v _ _ w0 RV TK) as (y & EPP); [rewrite <- Lg; apply (last_voc R remap CRR k); exact Hg|]. rewrite EPP. cbn [bind].
    assert (TID : (if tp_map env && (remap + 1 <? k + 1) then map_gram_rev env v arrays remap (c_str x) (r_gram r) (vid R w0) else Ok (vid R w0)) = Ok (lid R remap k g)).
    { rewrite (bo_map _ _ _ _ _ _ TI). destruct (N.eqb_spec remap 0) as [R0|R0]; cbn [negb andb].
      - rewrite lid_plain by (left; exact R0). rewrite Lg. reflexivity.
      - destruct (N.ltb_spec (remap + 1) (k + 1)) as [RK|RK].
        + rewrite <- Lg. unfold g. rewrite <- Efe. apply (map_gram_rev_ok v pb bb arrays k k); try assumption; try lia.
          * apply nthN_lt in Hl. lia.
          * rewrite Efe. exact Hg.
          * rewrite Efe. exact P3.
        + rewrite lid_plain by (right; lia). rewrite Lg. reflexivity. }
    rewrite TID. cbn [bind]. cbn [map foldM] in FG, FR. rewrite Efe in FG. fold g in FG.
    apply bind_ok in FG. destruct FG as (g1 & G1 & FG). apply bind_ok in FR. destruct FR as (r1 & R1 & FR).
    rewrite G1. cbn [bind]. replace (k + 1 - 2) with (k - 1) by lia. destruct Hr as (pr & Q1 & Q2 & Q3). rewrite P1, Q1. cbn [bind].
    assert (RKE : (if k + 1 =? lenN D then Ok pr else backoff_rank <- q_rank bb (k - 1) (r_backoff r) 1 ;; bits <- q_qbits pb (k - 1) ;; Ok (rank_pack bits pr backoff_rank)) = Ok vv).
    { destruct (N.eqb_spec (k + 1) (lenN D)) as [Y|Y]; [subst vv; reflexivity|]. destruct Q3 as (b0 & S1 & S2 & S3). rewrite P2, S1. cbn [bind].
      destruct VV as (V1 & V2 & V3 & V4 & V5). cbn [fst snd] in V1, V2. pose proof (nthN_lt _ _ _ Hl).
      assert (QB : q_qbits pb (k - 1) = Ok pq). { unfold q_qbits. rewrite V2. apply (proj2 (rd_nthN _ _ _)). apply nthN_rep. lia. }
      rewrite QB. cbn [bind]. f_equal. rewrite S3. pose proof (tab_width D secs (tp_penv env) pq bq (VIN D secs env remap pq bq TI)) as [TP TB].
      apply rank_pack_shift; [lia|]. eapply N.lt_le_trans; [exact S2|]. apply N.pow_le_mono_r; pose proof (bo_bits _ _ _ _ _ _ TI); lia. }
    rewrite RKE. cbn [bind]. rewrite R1. cbn [bind].
    edestruct (IH lrest' vs' (done ++ [e]) (ldone ++ [x]) p (mkpbst (skipn (N.to_nat p) ls') (pbs_ptrs s ++ repeat (pbs_pos s) (N.to_nat (p - c))) (pbs_pos s + 1) (mkpab g1 r1)) bg br)
      as (s' & c' & A1 & A2 & A3 & A4 & A5 & A6 & A7).
    + rewrite <- app_assoc. exact El.
    + rewrite <- app_assoc. exact Els.
    + rewrite !app_length. cbn. lia.
    + exact HR'.
    + reflexivity.
    + cbn [pbs_ptrs]. rewrite I2. replace (p + 1) with (c + N.of_nat (N.to_nat (p - c)) + 1) by lia. rewrite ptrs_extend. f_equal.
      symmetry. apply map_const. intros j Hj. rewrite I3.
      apply N.le_antisymm.
      * apply N.nlt_ge. intros L. apply (kid_cnt R remap CRR k _ g p j Hk Ge Hp) in L. lia.
      * destruct done as [|d0 done']; [apply N.le_0_l|]. destruct (nthN_Some (G k) (lenN (d0 :: done') - 1)) as (g0 & Hg0). { apply nthN_lt in Ge. lia. }
        pose proof (I5 g0 Hg0 ltac:(discriminate)) as Pc. pose proof (proj1 (kid_cnt R remap CRR k _ g0 c j Hk Hg0 Pc) ltac:(lia)). rewrite lenN_cons in *. lia.
    + cbn [pbs_pos]. rewrite I3, lenN_app. reflexivity.
    + exact LPp.
    + intros g0 Hg0 _. rewrite lenN_app in Hg0. change (lenN [e]) with 1 in Hg0. rewrite N.add_sub, Ge in Hg0. injection Hg0 as <-. exact Hp.
    + intros Z. apply app_eq_nil in Z. destruct Z as [_ Z]. discriminate Z.
    + cbn [pbs_pab pb_grams]. exact FG.
    + cbn [pbs_pab pb_ranks]. exact FR.
    + exists s', c'. rewrite SKP in A1. repeat split; assumption.
Qed.

Lemma tp_ngrams_ok v pb bb arrays k l l' ls ls' vs b bg br : 0 < k -> pvoc_rep D env v -> vinv D pq bq (lenN D) (pb, bb) -> parrays_upto pb bb arrays k -> nthN D k = Some l -> nthN D (k - 1) = Some l' ->
  Forall2 (arpa_line (tp_sd env)) l' ls' -> Forall (fun x => lenN x < 2 ^ 32) ls' -> Forall2 (arpa_line (tp_sd env)) l ls -> Forall (fun x => lenN x < 2 ^ 32) ls ->
  Forall2 (value_ok D pq bq pb bb k) l vs -> foldM cvb_push_back (lids R remap k) (pb_grams b) = Ok bg -> foldM cvb_push_back vs (pb_ranks b) = Ok br ->
  tp_ngrams env v arrays pb bb (k + 1) (lenN D) remap ls ls' b = Ok (child_ptrs (G (k - 1)) (G k), mkpab bg br).
Proof.
  intros Hk RV VV PA Hl Hl' F2' FL' F2 FL HR FG FR. unfold tp_ngrams.
  destruct (af_size _ AF _ _ Hl) as [NL _]. destruct (af_size _ AF _ _ Hl') as [NL' _].
  assert (PL : 0 < lenN l /\ 0 < lenN l'). { destruct l; [congruence|]. destruct l'; [congruence|]. rewrite !lenN_cons. lia. } destruct PL as [PL PL'].
  destruct (nthN_Some l' 0 PL') as (e0 & He0). destruct (line_parses (k - 1) l' ls' 0 e0 Hl' F2' FL' He0) as (x & r & Hx & P0 & _).
  replace (hd [] ls') with x by (destruct ls'; [discriminate|cbn in Hx; injection Hx as ->; reflexivity]). rewrite P0. cbn [bind].
  destruct (tp_fold v pb bb arrays k l l' ls ls' Hk RV VV PA Hl Hl' F2' FL' F2 FL l ls vs [] [] 0 (mkpbst ls' [0] 0 b) bg br) as (s' & c' & A1 & A2 & A3 & A4 & A5 & A6 & A7); try reflexivity; auto.
  - cbn [pbs_ptrs]. change (range (0 + 1)) with [0]. cbn [map]. unfold kids. rewrite children_0. reflexivity.
  - congruence.
  - rewrite <- FG. unfold lids. rewrite (G_of D k l Hl), map_map. reflexivity.
  - rewrite A1. cbn [bind]. rewrite A2, A3, A4, A5. f_equal. f_equal. unfold child_ptrs. rewrite (G_len D _ _ Hl').
    replace (lenN l' + 1) with (c' + N.of_nat (N.to_nat (lenN l' - c')) + 1) by lia.
    rewrite (ptrs_extend R k c' (N.to_nat (lenN l' - c')) : map (children (G (k - 1)) (G k)) _ = _). f_equal.
    rewrite skipn_length. replace (length ls' - N.to_nat c')%nat with (N.to_nat (lenN l' - c')) by (apply Forall2_len in F2'; unfold lenN; lia).
    symmetry. apply map_const. intros j Hj.
    destruct (nthN_Some (G k) (lenN l - 1)) as (g & Hg). { rewrite (G_len D _ _ Hl). lia. }
    pose proof (A7 g Hg NL) as Pc. pose proof (proj1 (kid_cnt R remap CRR k _ g c' j Hk Hg Pc) ltac:(lia)).
    pose proof (kids_le R k j) as KL. rewrite (G_len D _ _ Hl) in KL. lia.
Qed.
End Build.
