(** * Tries over uniform_pef: building the levels *)
From Verif Require Import Prelude BitFacts M_Word P_Word M_Bits Spec P_Bits M_CompactVector P_CompactVector M_DArray M_EF P_EF P_EF2
  M_HashVec M_Mph P_Mph P_MphTables M_FastEF P_FastEF P_FastEF3 M_Text P_Text P_Text2 M_SeqColl P_SeqColl M_Pool P_Pool M_Pef Spec_Pef
  M_Trie M_TriePef Spec_Trie P_Trie1 P_Trie2 P_Trie3 P_Trie4 P_Trie5 P_TriePef1.
From Coq Require Import Permutation Sorting.Sorted.

Section Build.
Variable D : list (list (gram * N)).
Variable remap : N.
Hypothesis C : collection D remap.
Variable env : penv.
Notation G := (grams D).
Notation voc := (grams D 0).
Notation tv := (pe_t env).

Definition penv_ok : Prop :=
  te_map tv = negb (remap =? 0) /\
  valid_order (hash_domain (lenN (uwords D))) (te_h tv) (uwords D) (te_vorder tv) /\
  (forall k, 0 < k < lenN D -> if pe_pef env then pef_level D remap env k else long_starts 128 (child_ptrs (G (k - 1)) (G k)) = [] \/
     valid_order (hash_domain (lenN (long_starts 128 (child_ptrs (G (k - 1)) (G k))))) (te_hu tv k) (long_starts 128 (child_ptrs (G (k - 1)) (G k))) (te_orders tv k)) /\
  (pe_pspef env = true -> forall k l, nthN D k = Some l -> lenN l * lenN (nodup N.eq_dec (map snd l)) < 2 ^ 56 /\ one_pad (pe_rpad env k)) /\
  Forall2 (fun (l : list (gram * N)) s => Permutation s (with_freq (map snd l))) D (te_sorts tv) /\
  lenN (concat (uwords D)) <= te_ram tv /\
  Forall (Forall (fun e => snd e < 2 ^ 64 - 1)) D.
Hypothesis EO : penv_ok.

Lemma count_lt k l e : nthN D k = Some l -> In e l -> snd e < 2 ^ 64 - 1.
Proof.
  intros H I. destruct EO as (_ & _ & _ & _ & _ & _ & F). pose proof (Forall_nthN _ _ _ _ F H) as F'. cbn in F'. rewrite Forall_forall in F'. auto.
Qed.
Lemma parse_line k l e : nthN D k = Some l -> In e l -> parse_count_line (line e) = Ok ((0, lenN (join (fst e))), snd e).
Proof.
  intros H I. apply parse_format; [apply (gram_tab D remap C k); eapply In_grams; eauto|]. pose proof (count_lt k l e H I). lia.
Qed.

(** ** levels of the built structure *)
Definition lev_pos (arrays : list parr) (k : N) : Prop :=
  exists a g, nthN arrays k = Some a /\ p_grams a = Some g /\ gs_good D remap env k g.
Definition lev_ptr (arrays : list parr) (k : N) : Prop :=
  exists a e, nthN arrays k = Some a /\ p_ptrs a = Some e /\ ef_rep e (child_ptrs (G k) (G (k + 1))).
Definition lev_rank (seqs : list cv) (arrays : list parr) (k : N) : Prop :=
  exists a r vs, nthN arrays k = Some a /\ p_ranks a = Some r /\ rseq_good env k vs r /\
    forall l i e, nthN D k = Some l -> nthN l i = Some e -> exists x, nthN vs i = Some x /\ sc_access seqs k x = Ok (snd e).
Definition arrays_upto (seqs : list cv) (arrays : list parr) (K : N) : Prop :=
  lenN arrays = lenN D /\ (forall k, k < K -> lev_rank seqs arrays k) /\ (forall k, 0 < k < K -> lev_pos arrays k) /\ (forall k, k + 1 < K -> lev_ptr arrays k).

Lemma range_of seqs arrays K k p : arrays_upto seqs arrays K -> k + 1 < K -> p < lenN (G k) -> pa_range arrays k p = Ok (kids D (k + 1) p, kids D (k + 1) (p + 1)).
Proof.
  intros (_ & _ & _ & AP) Hk Hp. destruct (AP k Hk) as (a & e & H1 & H2 & H3). unfold pa_range. rewrite (proj2 (rd_nthN _ _ _) H1). cbn [bind]. rewrite H2. unfold ptr_range, kids.
  rewrite N.add_sub. apply (ef_pair_ok e _ _ _ _ H3); apply nthN_child_ptrs; lia.
Qed.
(** a present gram is found; the arrays stay good *)
Lemma find_gram seqs arrays K k i x p : arrays_upto seqs arrays K -> 0 < k < K -> nthN (G k) i = Some x -> nthN (G (k - 1)) p = Some (removelast x) ->
  exists arrays', pa_position env arrays k (kids D k p, kids D k (p + 1)) (lid D remap k x) = Ok (i, arrays') /\ arrays_upto seqs arrays' K.
Proof.
  intros (AL & AR & AP & AT) Hk Hx Hp. destruct (AP k Hk) as (a & g & H1 & H2 & H3). unfold pa_position. rewrite (proj2 (rd_nthN _ _ _) H1). cbn [bind]. rewrite H2.
  destruct (gs_find D remap env k g i x p H3 Hx Hp) as (g' & E & H3'). rewrite E. cbn [bind]. cbv beta iota. pose proof (nthN_lt _ _ _ H1) as L. rewrite wr_setN by exact L. cbn [bind].
  eexists. split; [reflexivity|]. set (a' := mkparr (p_size a) (Some g') (p_ranks a) (p_ptrs a)). split; [rewrite lenN_setN; exact AL|]. split; [|split].
  - intros j Hj. destruct (AR j Hj) as (b & r & vs & J1 & J2 & J3). destruct (N.eq_dec j k) as [->|NE].
    + rewrite H1 in J1. injection J1 as <-. exists a', r, vs. split; [apply setN_same; exact L|]. auto.
    + exists b, r, vs. split; [rewrite setN_other by (exact L || exact NE); exact J1|]. auto.
  - intros j Hj. destruct (N.eq_dec j k) as [->|NE].
    + exists a', g'. split; [apply setN_same; exact L|]. auto.
    + destruct (AP j Hj) as (b & g0 & J1 & J2). exists b, g0. split; [rewrite setN_other by (exact L || exact NE); exact J1|]. auto.
  - intros j Hj. destruct (AT j Hj) as (b & e & J1 & J2). destruct (N.eq_dec j k) as [->|NE].
    + rewrite H1 in J1. injection J1 as <-. exists a', e. split; [apply setN_same; exact L|]. auto.
    + exists b, e. split; [rewrite setN_other by (exact L || exact NE); exact J1|]. auto.
Qed.
Lemma rank_gram seqs arrays K k l i e : arrays_upto seqs arrays K -> k < K -> nthN D k = Some l -> nthN l i = Some e ->
  exists x arrays', pa_count_rank env arrays k i = Ok (x, arrays') /\ sc_access seqs k x = Ok (snd e) /\ arrays_upto seqs arrays' K.
Proof.
  intros (AL & AR & AP & AT) Hk Hl He. destruct (AR k Hk) as (a & r & vs & H1 & H2 & H3 & H4). destruct (H4 l i e Hl He) as (x & Hx & SX).
  destruct (rseq_get env k vs r i x H3 Hx) as (r' & E & H3'). unfold pa_count_rank. rewrite (proj2 (rd_nthN _ _ _) H1). cbn [bind]. rewrite H2, E. cbn [bind]. cbv beta iota.
  pose proof (nthN_lt _ _ _ H1) as L. rewrite wr_setN by exact L. cbn [bind].
  eexists _, _. split; [reflexivity|]. split; [exact SX|]. set (a' := mkparr (p_size a) (p_grams a) (Some r') (p_ptrs a)). split; [rewrite lenN_setN; exact AL|]. split; [|split].
  - intros j Hj. destruct (N.eq_dec j k) as [->|NE].
    + exists a', r', vs. split; [apply setN_same; exact L|]. auto.
    + destruct (AR j Hj) as (b & r0 & vs0 & J1 & J2). exists b, r0, vs0. split; [rewrite setN_other by (exact L || exact NE); exact J1|]. auto.
  - intros j Hj. destruct (AP j Hj) as (b & g & J1 & J2). destruct (N.eq_dec j k) as [->|NE].
    + rewrite H1 in J1. injection J1 as <-. exists a', g. split; [apply setN_same; exact L|]. auto.
    + exists b, g. split; [rewrite setN_other by (exact L || exact NE); exact J1|]. auto.
  - intros j Hj. destruct (AT j Hj) as (b & e0 & J1 & J2). destruct (N.eq_dec j k) as [->|NE].
    + rewrite H1 in J1. injection J1 as <-. exists a', e0. split; [apply setN_same; exact L|]. auto.
    + exists b, e0. split; [rewrite setN_other by (exact L || exact NE); exact J1|]. auto.
Qed.

(** ** remapping while building *)
Lemma pmap_gram_ok v arrays seqs K k l e : voc_rep D tv v -> arrays_upto seqs arrays K -> remap <> 0 -> remap < k -> k <= K -> nthN D k = Some l -> In e l ->
  exists arrays', pmap_gram env v arrays remap (c_str (line e)) (0, lenN (join (fst e))) (vid D (last (fst e) [])) = Ok (lid D remap k (fst e), arrays') /\
    arrays_upto seqs arrays' K.
Proof.
  intros RV AU R0 RK KK HD HI. set (g := fst e). assert (Hg : In g (G k)) by (eapply In_grams; eauto).
  pose proof (gram_len D remap C k g Hg) as Lg. pose proof (gram_words D remap C k g Hg) as Wg. pose proof (col_remap _ _ C) as R2.
  (* g = l ++ x :: r *)
  set (s := skipn (N.to_nat (k - remap)) g). 
  assert (Ls : length s = N.to_nat (remap + 1)) by (unfold s; rewrite skipn_length; lia).
  destruct s as [|x r] eqn:Es; [cbn in Ls; lia|]. cbn in Ls.
  assert (Eg : g = firstn (N.to_nat (k - remap)) g ++ x :: r) by (rewrite <- Es; unfold s; symmetry; apply firstn_skipn).
  set (pl := firstn (N.to_nat (k - remap)) g) in *.
  assert (Hpl : pl <> []). { intros Z. assert (length pl = 0%nat) by (rewrite Z; reflexivity). unfold pl in H. rewrite firstn_length in H. lia. }
  assert (Hr : r <> []). { intros Z. subst r. cbn in Ls. lia. }
  destruct (suffix_facts D remap C k g ltac:(lia) RK Hg) as (S1 & S2 & S3 & S4). fold s in S1, S2, S3, S4. rewrite Es in S1, S2, S3, S4.
  assert (Hxv : In [x] voc). { eapply (gram_voc D remap C); [exact S1|left; reflexivity]. }
  unfold pmap_gram. rewrite line_str. fold g. rewrite Eg. assert (ER : remap = lenN r) by (unfold lenN; lia).
  pose proof (line_len D remap C k l e HD HI) as LL. rewrite line_str in LL. fold g in LL. rewrite Eg in LL. rewrite Eg in Wg.
  pose proof (back_to_pos [] pl x r (9 :: to_string (snd e) ++ [0]) LL Wg Hpl Hr : back_to (join (pl ++ x :: r) ++ _) (0, lenN (join (pl ++ x :: r))) _ = _) as BT.
  rewrite <- ER in BT. rewrite BT. clear BT.
  cbn [bind]. change (lenN (@nil N) + lenN (join pl) + 1) with (0 + lenN (join pl) + 1).
  change (lenN (@nil N) + lenN (join (pl ++ [x]))) with (0 + lenN (join (pl ++ [x]))). rewrite !N.add_0_l.
  assert (JX : join (pl ++ x :: r) = join pl ++ 32 :: x ++ 32 :: join r).
  { rewrite (join_app pl (x :: r)) by (auto; discriminate). rewrite (join_cons x r) by assumption. reflexivity. }
  assert (JL : lenN (join (pl ++ [x])) = lenN (join pl) + 1 + lenN x). { rewrite join_snoc by assumption. rewrite lenN_app, lenN_cons. lia. }
  set (tail := 9 :: to_string (snd e) ++ [0]).
  assert (B : join (pl ++ x :: r) ++ tail = (join pl ++ [32]) ++ x ++ (32 :: join r ++ tail)).
  { rewrite JX. rewrite <- !app_assoc. cbn. rewrite <- !app_assoc. reflexivity. }
  assert (LPL : lenN (join pl ++ [32]) = lenN (join pl) + 1) by (rewrite lenN_app; reflexivity).
  rewrite (vlook_ok D tv v _ _ x RV); [|rewrite B; apply holds_mid; [lia|rewrite LPL; lia]|assumption]. cbn [bind].
  
  pose proof (vid_In D x Hxv) as Vx.
  rewrite (range_of seqs arrays K 0 (vid D x) AU ltac:(lia)) by (eapply nthN_lt; eauto). cbn [bind].
  
  pose proof (suffix_pos D remap C k g R0 RK Hg) as SP. cbn zeta in SP. fold s in SP. rewrite Es in SP. destruct SP as (i & p & I1 & I2 & I3 & I4).
  assert (LV : lid D remap remap (x :: r) = vid D (last g [])). { rewrite lid_plain by (right; lia). rewrite S3. reflexivity. }
  assert (FIN : forall arr rg, arrays_upto seqs arr K -> rg = (kids D remap p, kids D remap (p + 1)) ->
    exists arrays', pmap_in env arr remap rg (vid D (last g [])) = Ok (lid D remap k g, arrays') /\ arrays_upto seqs arrays' K).
  { intros arr rg AUa ->. unfold pmap_in. rewrite <- LV.
    destruct (find_gram seqs arr K remap i (x :: r) p AUa ltac:(lia) I1 I2) as (arr' & FE & AU'). rewrite FE. cbn [bind]. cbv beta iota.
    rewrite (not_found_big i (lenN (G remap))) by (first [eapply nthN_lt; exact I1 | pose proof (lev_size D remap C remap); lia]).
    cbn [fst]. rewrite sub64_le; [exists arr'; split; [do 2 f_equal; symmetry; exact I4|exact AU']|lia|]. pose proof (nthN_lt _ _ _ I1). pose proof (lev_size D remap C remap). lia. }
  rewrite Eg in FIN.
  assert (RC : remap = 1 \/ remap = 2) by lia.
  destruct (N.eqb_spec remap 2) as [E2|E2].
  - (* two words of context: x y *)
    destruct r as [|y r']; [congruence|]. destruct r' as [|w r']; [cbn in Ls; lia|]. destruct r'; [|cbn in Ls; lia].
    change (removelast (x :: [y; w])) with [x; y] in I2, S4. 
    assert (Hyv : In [y] voc). { eapply (gram_voc D remap C); [exact S1|right; left; reflexivity]. }
    unfold next. cbn [fst snd]. rewrite JL.
    assert (B' : join (pl ++ [x; y; w]) ++ tail = (join pl ++ [32] ++ x ++ [32]) ++ y ++ 32 :: (w ++ tail)).
    { rewrite B. cbn [join]. rewrite <- !app_assoc. reflexivity. }
    assert (LPY : lenN (join pl ++ [32] ++ x ++ [32]) = lenN (join pl) + 1 + lenN x + 1) by (rewrite !lenN_app; change (lenN [32]) with 1; lia).
    assert (Wy : ~ In 32 y). { pose proof Wg as Wg'. apply Forall_app in Wg'. destruct Wg' as [_ Wg']. inversion Wg' as [|? ? _ Q]; subst. inversion Q as [|? ? Q' _]; subst. apply Q'. }
    rewrite B'. rewrite <- LPY. unfold c_space.
    rewrite (seek_ok 32 y Wy) by (rewrite !app_length; lia). cbn [bind].
    rewrite (vlook_ok D tv v _ _ y RV); [|apply holds_mid; [reflexivity|reflexivity]|assumption]. cbn [bind].
    assert (H2 : remap - 1 = 1) by lia. rewrite H2 in I2, S4.
    unfold pa_next. replace (vid D y) with (lid D remap 1 [x; y]) by (rewrite lid_plain by (right; lia); reflexivity).
    change (0 + 1) with 1. destruct (find_gram seqs arrays K 1 p [x; y] (vid D x) AU ltac:(lia) I2 Vx) as (arr1 & FE & AU1). rewrite FE. cbn [bind]. cbv beta iota.
    rewrite (not_found_big p (lenN (G 1))) by (first [eapply nthN_lt; exact I2 | pose proof (lev_size D remap C 1); lia]).
    rewrite (range_of seqs arr1 K 1 p AU1 ltac:(lia)) by (eapply nthN_lt; eauto). cbn [bind]. cbv beta iota.
    apply FIN; [exact AU1|]. rewrite E2. reflexivity.
  - assert (E1 : remap = 1) by lia. destruct r as [|w r']; [congruence|]. destruct r'; [|cbn in Ls; lia].
    change (removelast [x; w]) with [x] in I2. rewrite E1 in I2. change (1 - 1) with 0 in I2.
    assert (p = vid D x) by (eapply NoDup_nthN; [apply (voc_NoDup D remap C)|exact I2|exact Vx]). subst p. cbn [bind]. cbv beta iota.
    apply FIN; [exact AU|]. rewrite E1. reflexivity.
Qed.

(** ** one level *)
Lemma padvance_ok k l' buf pattern g : 0 < k -> nthN D (k - 1) = Some l' -> In g (G k) -> holds_text buf pattern (join (removelast g)) -> lenN buf < 2 ^ 64 ->
  forall p pointer, nthN (G (k - 1)) p = Some (removelast g) -> forall d c ptrs, p = c + N.of_nat d ->
  advance buf pattern (map line (skipn (N.to_nat c) l')) ptrs pointer = Ok (map line (skipn (N.to_nat p) l'), ptrs ++ repeat pointer d).
Proof.
  intros Hk Hl' Hg HT HB p pointer Hp. 
  assert (Wg : Forall word (removelast g)). { eapply gram_words; [exact C|]. eapply nthN_In; eauto. }
  assert (Ng : removelast g <> []). { eapply gram_ne; [exact C|]. eapply nthN_In; eauto. }
  assert (LPp : p < lenN l'). { apply nthN_lt in Hp. rewrite (grams_of D _ _ Hl'), lenN_map in Hp. assumption. }
  induction d as [|d IH]; intros c ptrs E.
  - replace c with p by lia. destruct (nthN_Some l' p LPp) as (e & He). rewrite (skipn_nthN _ _ _ He). cbn [map advance].
    rewrite (parse_line _ _ e Hl') by (eapply nthN_In; eauto). cbn [bind].
    assert (Ee : fst e = removelast g). { pose proof (nthN_gram D _ _ _ _ Hl' He) as K. rewrite Hp in K. congruence. }
    rewrite (equal_bytes_ok _ _ _ _ _ _ HB (line_len D remap C (k - 1) l' e Hl' (nthN_In _ _ _ He)) HT (line_holds e)). cbn [bind].
    rewrite Ee. destruct (list_eq_dec N.eq_dec _ _) as [_|Z]; [|congruence]. rewrite app_nil_r. reflexivity.
  - destruct (nthN_Some l' c ltac:(lia)) as (e & He). rewrite (skipn_nthN _ _ _ He). cbn [map advance].
    rewrite (parse_line _ _ e Hl') by (eapply nthN_In; eauto). cbn [bind].
    assert (Ge := nthN_gram D _ _ _ _ Hl' He).
    rewrite (equal_bytes_ok _ _ _ _ _ _ HB (line_len D remap C (k - 1) l' e Hl' (nthN_In _ _ _ He)) HT (line_holds e)). cbn [bind].
    destruct (list_eq_dec N.eq_dec _ _) as [Z|_].
    + exfalso. apply join_inj in Z; auto.
      * rewrite Z in Hp. pose proof (NoDup_nthN _ _ _ _ (lev_NoDup D remap C (k - 1)) Hp Ge). lia.
      * eapply gram_ne; [exact C|]. eapply nthN_In; eauto.
      * eapply gram_words; [exact C|]. eapply nthN_In; eauto.
    + rewrite (IH (c + 1)) by lia. f_equal. f_equal. rewrite <- app_assoc. reflexivity.
Qed.

Lemma pngrams_fold v cb k l l' n seqs : 0 < k -> voc_rep D tv v -> nthN D k = Some l -> nthN D (k - 1) = Some l' ->
  forall rest rs done c s bg br arrays, arrays_upto seqs arrays k -> l = done ++ rest -> Forall2 (rank_ok cb k n) rest rs ->
  bs_prv s = map line (skipn (N.to_nat c) l') -> bs_ptrs s = map (kids D k) (range (c + 1)) -> bs_pointer s = lenN done -> c < lenN l' ->
  (forall g, nthN (G k) (lenN done - 1) = Some g -> done <> [] -> nthN (G (k - 1)) c = Some (removelast g)) -> (done = [] -> c = 0) ->
  foldM cvb_push_back (map (fun e => lid D remap k (fst e)) rest) (ab_grams (bs_sab s)) = Ok bg ->
  foldM cvb_push_back rs (ab_ranks (bs_sab s)) = Ok br ->
  exists s' c' arrays', foldM (pngram_step env v cb (k + 1) remap) (map line rest) (s, arrays) = Ok (s', arrays') /\ arrays_upto seqs arrays' k /\
    bs_sab s' = mksab bg br /\ bs_prv s' = map line (skipn (N.to_nat c') l') /\ bs_ptrs s' = map (kids D k) (range (c' + 1)) /\ bs_pointer s' = lenN l /\ c' < lenN l' /\
    (forall g, nthN (G k) (lenN l - 1) = Some g -> l <> [] -> nthN (G (k - 1)) c' = Some (removelast g)).
Proof.
  intros Hk RV Hl Hl'. induction rest as [|e rest IH]; intros rs done c s bg br arrays AU El HR I1 I2 I3 I4 I5 I6 FG FR.
  - inversion HR; subst rs. rewrite app_nil_r in El. subst done. cbn in FG, FR. injection FG as FG. injection FR as FR. exists s, c, arrays.
    cbn [map foldM]. split; [reflexivity|]. split; [exact AU|]. split; [destruct (bs_sab s); cbn in *; congruence|]. repeat split; try assumption.
  - inversion HR as [|? r ? rs' Hr HR']; subst.
    assert (Ie : In e (done ++ e :: rest)) by (apply in_or_app; right; left; reflexivity).
    assert (Ne : nthN (done ++ e :: rest) (lenN done) = Some e) by (rewrite nthN_app2 by lia; rewrite N.sub_diag; reflexivity).
    pose proof (nthN_gram D _ _ _ _ Hl Ne) as Ge. pose proof (In_grams D k _ e Hl Ie) as Hg.
    set (g := fst e) in *. pose proof (lev_PRE D remap C k Hk g Hg) as Hpre. pose proof (posn_In _ _ Hpre) as Hp. set (p := posn (G (k - 1)) (removelast g)) in *.
    assert (CP : c <= p).
    { destruct done as [|d0 done']; [rewrite (I6 eq_refl); lia|]. 
      destruct (nthN_Some (G k) (lenN (d0 :: done') - 1)) as (g0 & Hg0). { apply nthN_lt in Ge. lia. }
      pose proof (I5 g0 Hg0 ltac:(discriminate)) as Pc. apply (lev_MON D remap C k Hk (lenN (d0 :: done') - 1) (lenN (d0 :: done')) g0 g); auto. rewrite lenN_cons. lia. }
    (* the line *)
    pose proof (gram_ne D remap C k g Hg) as NEg. pose proof (snoc_removelast g [] NEg) as Eg.
    pose proof (gram_words D remap C k g Hg) as Wg. 
    pose proof (line_len D remap C k _ e Hl Ie) as LL.
    assert (HPR : removelast g <> []). { eapply gram_ne; [exact C|exact Hpre]. }
    assert (WL : ~ In 32 (last g [])). { rewrite Eg in Wg. apply Forall_app in Wg. destruct Wg as [_ Wg]. inversion Wg as [|? ? Q _]; subst. apply Q. }
    pose proof (line_holds e) as LH. fold g in LH. 
    assert (LH' : holds_text (c_str (line e)) (0, lenN (join g)) (join (removelast g ++ [last g []]))) by (rewrite <- Eg; exact LH).
    destruct (predecessor_ok _ _ _ _ LL LH' HPR WL) as (q & PE & PT1 & PT2). cbn [fst snd] in PE, PT1, PT2.
    cbn [map foldM]. unfold pngram_step at 1. rewrite (parse_line k _ e Hl Ie). cbn [bind]. cbv beta iota zeta. fold g.
    rewrite PE. cbn [bind fst snd]. rewrite I1.
    rewrite (padvance_ok k l' (c_str (line e)) (0, q) g Hk Hl' Hg PT1 LL p (bs_pointer s) Hp (N.to_nat (p - c)) c (bs_ptrs s)) by lia. cbn [bind].
    assert (LPp : p < lenN l'). { apply nthN_lt in Hp. rewrite (grams_of D _ _ Hl'), lenN_map in Hp. assumption. }
    destruct (nthN_Some l' p LPp) as (e' & He'). rewrite (skipn_nthN _ _ _ He'). cbn [map].
    rewrite (vlook_ok D tv v _ _ (last g []) RV PT2) by (apply (last_voc D remap C k); assumption). cbn [bind].
    assert (TID : exists arr', (if te_map tv && (remap + 1 <? k + 1) then
       ' (m, arrays) <- pmap_gram env v arrays remap (c_str (line e)) (0, lenN (join g)) (vid D (last g [])) ;; if m =? not_found then Throw else Ok (m, arrays)
       else Ok (vid D (last g []), arrays)) = Ok (lid D remap k g, arr') /\ arrays_upto seqs arr' k).
    { destruct EO as (EM & _). rewrite EM. destruct (N.eqb_spec remap 0) as [R0|R0]; cbn [negb andb].
      - rewrite lid_plain by (left; assumption). exists arrays. split; [reflexivity|exact AU].
      - destruct (N.ltb_spec (remap + 1) (k + 1)) as [RK|RK].
        + destruct (pmap_gram_ok v arrays seqs k k _ e RV AU R0 ltac:(lia) ltac:(lia) Hl Ie) as (arr' & MG & AU'). fold g in MG. rewrite MG. cbn [bind]. cbv beta iota.
          rewrite (not_found_big _ (lenN voc)) by (first [apply (lid_bound D remap C k); assumption | pose proof (lev_size D remap C 0); lia]). exists arr'. split; [reflexivity|exact AU'].
        + rewrite lid_plain by (right; lia). exists arrays. split; [reflexivity|exact AU]. }
    destruct TID as (arr' & TID & AU'). rewrite TID. cbn [bind]. cbv beta iota. cbn [map foldM] in FG, FR. fold g in FG. apply bind_ok in FG. destruct FG as (g1 & G1 & FG). apply bind_ok in FR. destruct FR as (r1 & R1 & FR).
    rewrite G1. cbn [bind]. destruct Hr as (Hr & Hr'). rewrite N.add_sub, Hr. cbn [bind]. rewrite R1. cbn [bind].
    edestruct (IH rs' (done ++ [e]) p (mkbst (map line (skipn (N.to_nat p) l')) (bs_ptrs s ++ repeat (bs_pointer s) (N.to_nat (p - c))) (bs_pointer s + 1) (mksab g1 r1)) bg br arr')
      as (s' & c' & arr2 & A1 & AU2 & A2 & A3 & A4 & A5 & A6 & A7).
    + exact AU'.
    + rewrite <- app_assoc. reflexivity.
    + assumption.
    + reflexivity.
    + cbn [bs_ptrs]. rewrite I2. replace (p + 1) with (c + N.of_nat (N.to_nat (p - c)) + 1) by lia. rewrite (ptrs_extend D). f_equal.
      symmetry. apply map_const. intros j Hj. rewrite I3.
      (* kids j = lenN done for c < j <= p *)
      apply N.le_antisymm.
      * apply N.nlt_ge. intros L. apply (kid_cnt D remap C k _ g p j Hk Ge Hp) in L. lia.
      * destruct done as [|d0 done']; [apply N.le_0_l|]. destruct (nthN_Some (G k) (lenN (d0 :: done') - 1)) as (g0 & Hg0). { apply nthN_lt in Ge. lia. }
        pose proof (I5 g0 Hg0 ltac:(discriminate)) as Pc. pose proof (proj1 (kid_cnt D remap C k _ g0 c j Hk Hg0 Pc) ltac:(lia)). rewrite lenN_cons in *. lia.
    + cbn [bs_pointer]. rewrite I3, lenN_app. reflexivity.
    + assumption.
    + intros g0 Hg0 _. rewrite lenN_app in Hg0. change (lenN [e]) with 1 in Hg0. rewrite N.add_sub, Ge in Hg0. injection Hg0 as <-. assumption.
    + intros Z. apply app_eq_nil in Z. destruct Z as [_ Z]. discriminate Z.
    + cbn [bs_sab ab_grams]. assumption.
    + cbn [bs_sab ab_ranks]. assumption.
    + exists s', c', arr2. rewrite (skipn_nthN _ _ _ He') in A1. cbn [map] in A1. split; [exact A1|]. split; [exact AU2|]. repeat split; assumption.
Qed.

Lemma pbuild_ngrams_ok v arrays cb k l l' n seqs rs b bg br : 0 < k -> voc_rep D tv v -> arrays_upto seqs arrays k -> nthN D k = Some l -> nthN D (k - 1) = Some l' ->
  Forall2 (rank_ok cb k n) l rs -> foldM cvb_push_back (lids D remap k) (ab_grams b) = Ok bg -> foldM cvb_push_back rs (ab_ranks b) = Ok br ->
  exists arrays', pbuild_ngrams env v arrays cb (k + 1) remap (map line l) (map line l') b = Ok (child_ptrs (G (k - 1)) (G k), mksab bg br, arrays') /\ arrays_upto seqs arrays' k.
Proof.
  intros Hk RV AU Hl Hl' HR FG FR. unfold pbuild_ngrams.
  assert (NL : l <> [] /\ l' <> []). { destruct (col_size _ _ C _ _ Hl). destruct (col_size _ _ C _ _ Hl'). auto. }
  destruct NL as [NL NL']. assert (0 < lenN l /\ 0 < lenN l'). { destruct l; [congruence|]. destruct l'; [congruence|]. rewrite !lenN_cons. lia. }
  destruct (pngrams_fold v cb k l l' n seqs Hk RV Hl Hl' l rs [] 0 (mkbst (map line l') [0] 0 b) bg br arrays AU) as (s' & c' & arr' & A1 & AU' & A2 & A3 & A4 & A5 & A6 & A7); try reflexivity; auto.
  - cbn [bs_ptrs]. change (range (0 + 1)) with [0]. cbn [map]. unfold kids. rewrite children_0. reflexivity.
  - lia.
  - congruence.
  - rewrite <- FG. unfold lids. rewrite (grams_of D k l Hl), map_map. reflexivity.
  - rewrite A1. cbn [bind]. cbv beta iota. exists arr'. split; [|exact AU']. rewrite A2, A3, A4, A5. do 3 f_equal. unfold child_ptrs.
    rewrite (grams_of D _ _ Hl'), lenN_map. replace (lenN l' + 1) with (c' + N.of_nat (N.to_nat (lenN l' - c')) + 1) by lia.
    rewrite <- (grams_of D _ _ Hl'). rewrite (ptrs_extend D k c' (N.to_nat (lenN l' - c')) : map (children (G (k - 1)) (G k)) _ = _). f_equal.
    rewrite map_length, skipn_length. replace (length l' - N.to_nat c')%nat with (N.to_nat (lenN l' - c')) by (unfold lenN; lia).
    symmetry. apply map_const. intros j Hj.
    destruct (nthN_Some (G k) (lenN l - 1)) as (g & Hg). { rewrite (grams_of D _ _ Hl), lenN_map. lia. }
    pose proof (A7 g Hg NL) as Pc. pose proof (proj1 (kid_cnt D remap C k _ g c' j Hk Hg Pc) ltac:(lia)).
    pose proof (kids_le D k j) as KL. rewrite (grams_of D _ _ Hl), lenN_map in KL. lia.
Qed.
End Build.
