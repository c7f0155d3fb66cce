(** * Building a count trie: text, vocabulary, one level *)
From Verif Require Import Prelude BitFacts M_Word P_Word M_Bits Spec P_Bits M_CompactVector P_CompactVector M_DArray M_EF P_EF P_EF2
  M_HashVec M_Mph P_Mph P_MphTables M_FastEF P_FastEF3 M_Text P_Text P_Text2 M_SeqColl P_SeqColl M_Pool P_Pool M_Trie Spec_Trie P_Trie1 P_Trie2.
From Coq Require Import Permutation Sorting.Sorted.

(** ** text *)
Definition line (e : gram * N) : list N := format_count_line (join (fst e)) (snd e).

Lemma dec_digits_len fuel : forall n acc, lenN (dec_digits fuel n acc) <= N.of_nat fuel + lenN acc.
Proof.
  induction fuel as [|f IH]; intros n acc; cbn [dec_digits]; [lia|].
  destruct (n / 10 =? 0); [rewrite lenN_cons; lia|]. pose proof (IH (n / 10) ((48 + n mod 10) :: acc)) as H. rewrite lenN_cons in H. lia.
Qed.
Lemma join_inj a : forall b, a <> [] -> b <> [] -> Forall word a -> Forall word b -> join a = join b -> a = b.
Proof.
  assert (P : forall x y r s, word x -> word y -> x ++ 32 :: r = y ++ 32 :: s -> x = y /\ r = s).
  { induction x as [|c x IH]; intros y r s Wx Wy E.
    - destruct Wx as [[] _]; reflexivity.
    - destruct y as [|d y]; [destruct Wy as [[] _]; reflexivity|]. cbn in E. injection E as -> E.
      destruct x as [|c' x].
      + destruct y as [|d' y]; [injection E as E; split; [reflexivity|assumption]|]. cbn in E. injection E as <- E. destruct Wy as [_ H]. exfalso. apply H. right. left. reflexivity.
      + destruct y as [|d' y]. * cbn in E. injection E as -> E. destruct Wx as [_ H]. exfalso. apply H. right. left. reflexivity.
        * destruct (IH (d' :: y) r s) as [-> ->]; auto.
          { split; [discriminate|]. destruct Wx as [_ H]. intros I. apply H. right. assumption. }
          { split; [discriminate|]. destruct Wy as [_ H]. intros I. apply H. right. assumption. } }
  assert (Q : forall x y s, word x -> word y -> x = y ++ 32 :: s -> False).
  { intros x y s [_ Hx] _ ->. apply Hx. apply in_or_app. right. left. reflexivity. }
  induction a as [|x a IH]; intros b Ha Hb Wa Wb E; [congruence|]. destruct b as [|y b]; [congruence|].
  inversion Wa as [|? ? Wx Wa']; subst. inversion Wb as [|? ? Wy Wb']; subst.
  destruct a as [|x' a]; destruct b as [|y' b].
  - cbn in E. congruence.
  - rewrite (join_cons y (y' :: b)) in E by discriminate. exfalso. exact (Q _ _ _ Wx Wy E).
  - rewrite (join_cons x (x' :: a)) in E by discriminate. exfalso. symmetry in E. exact (Q _ _ _ Wy Wx E).
  - rewrite !join_cons in E by discriminate. destruct (P _ _ _ _ Wx Wy E) as [-> E']. f_equal. apply IH; auto; discriminate.
Qed.
Lemma join_no_tab g : Forall (fun w => ~ In 9 w) g -> ~ In 9 (join g).
Proof.
  induction g as [|w g IH]; intros F I; [destruct I|]. inversion F as [|? ? H1 H2]; subst.
  destruct g as [|w' g]; [cbn in I; auto|]. rewrite join_cons in I by discriminate. apply in_app_or in I.
  destruct I as [I|[I|I]]; [auto|discriminate|]. apply IH; auto.
Qed.
Lemma bytes_at_ok buf r s : holds_text buf r s -> bytes_at buf r = Ok s.
Proof.
  intros [[H1 H2] H3]. unfold bytes_at. replace (fst r <=? snd r) with true by (symmetry; apply N.leb_le; assumption).
  replace (snd r <=? lenN buf) with true by (symmetry; apply N.leb_le; assumption). cbn [andb]. rewrite <- H3. reflexivity.
Qed.

Lemma back_to_pos pre l x r post : lenN (pre ++ join (l ++ x :: r) ++ post) < 2 ^ 64 -> Forall word (l ++ x :: r) -> l <> [] -> r <> [] ->
  back_to (pre ++ join (l ++ x :: r) ++ post) (lenN pre, lenN pre + lenN (join (l ++ x :: r))) (lenN r)
  = Ok (lenN pre + lenN (join l) + 1, lenN pre + lenN (join (l ++ [x]))).
Proof.
  intros L F Hl Hr. unfold back_to. cbn [fst snd]. 
  assert (J : 0 < lenN (join (l ++ x :: r))). { apply join_nonempty; [|assumption]. destruct l; discriminate. }
  rewrite !lenN_app in L. rewrite sub64_le by lia. apply back_words; auto; try lia.
  rewrite !app_length. lia.
Qed.

Section Build.
Variable D : list (list (gram * N)).
Variable remap : N.
Hypothesis C : collection D remap.
Variable env : tenv.
Notation G := (grams D).
Notation voc := (grams D 0).

Definition uwords : list (list N) := map (fun g : gram => join g) voc.
Definition env_ok : Prop :=
  te_map env = negb (remap =? 0) /\
  valid_order (hash_domain (lenN uwords)) (te_h env) uwords (te_vorder env) /\
  (forall k, 0 < k < lenN D -> long_starts 128 (child_ptrs (G (k - 1)) (G k)) = [] \/
     valid_order (hash_domain (lenN (long_starts 128 (child_ptrs (G (k - 1)) (G k))))) (te_hu env k) (long_starts 128 (child_ptrs (G (k - 1)) (G k))) (te_orders env k)) /\
  Forall2 (fun (l : list (gram * N)) s => Permutation s (with_freq (map snd l))) D (te_sorts env) /\
  lenN (concat uwords) <= te_ram env /\
  Forall (Forall (fun e => snd e < 2 ^ 64 - 1)) D.
Hypothesis EO : env_ok.

Lemma count_lt k l e : nthN D k = Some l -> In e l -> snd e < 2 ^ 64 - 1.
Proof.
  intros H I. destruct EO as (_ & _ & _ & _ & _ & F). pose proof (Forall_nthN _ _ _ _ F H) as F'. cbn in F'. rewrite Forall_forall in F'. auto.
Qed.
Lemma In_grams k l e : nthN D k = Some l -> In e l -> In (fst e) (G k).
Proof. intros H I. unfold grams. rewrite H. apply in_map. assumption. Qed.
Lemma gram_words k g : In g (G k) -> Forall word g.
Proof. intros H. destruct (col_words _ _ C k g H) as [_ F]. eapply Forall_impl; [|exact F]. intros a (H1 & _). assumption. Qed.
Lemma gram_tab k g : In g (G k) -> ~ In 9 (join g).
Proof. intros H. apply join_no_tab. destruct (col_words _ _ C k g H) as [_ F]. eapply Forall_impl; [|exact F]. intros a (_ & H1 & _). assumption. Qed.
Lemma gram_voc k g w : In g (G k) -> In w g -> In [w] voc.
Proof. intros H I. destruct (col_words _ _ C k g H) as [_ F]. rewrite Forall_forall in F. apply F. assumption. Qed.

Lemma parse_line k l e : nthN D k = Some l -> In e l -> parse_count_line (line e) = Ok ((0, lenN (join (fst e))), snd e).
Proof.
  intros H I. apply parse_format; [apply (gram_tab k); eapply In_grams; eauto|]. pose proof (count_lt k l e H I). lia.
Qed.
Lemma line_str e : c_str (line e) = join (fst e) ++ (9 :: to_string (snd e) ++ [0]).
Proof. unfold line, format_count_line, c_str, c_tab. rewrite <- !app_assoc. reflexivity. Qed.
Lemma line_holds e : holds_text (c_str (line e)) (0, lenN (join (fst e))) (join (fst e)).
Proof. rewrite line_str. apply (holds_mid []); reflexivity. Qed.
Lemma line_len k l e : nthN D k = Some l -> In e l -> lenN (c_str (line e)) < 2 ^ 64.
Proof.
  intros H I. rewrite line_str, lenN_app, lenN_cons, lenN_app. pose proof (col_bytes _ _ C k (fst e) (In_grams k l e H I)).
  pose proof (dec_digits_len 20 (snd e) []) as T. change (lenN (@nil N)) with 0 in T. unfold to_string. change (lenN [0]) with 1. lia.
Qed.

(** ** vocabulary *)
Definition voc_rep (v : svt) : Prop := svt_rep 64 (te_h env) v uwords (range (lenN uwords)).
Lemma lenN_uwords : lenN uwords = lenN voc. Proof. apply lenN_map. Qed.
Lemma uword_id w : In [w] voc -> In (w, vid D w) (combine uwords (range (lenN uwords))).
Proof.
  intros H. apply nthN_combine_range. unfold uwords. rewrite nthN_map, (vid_In D w H). reflexivity.
Qed.
Lemma voc_lookup v w : voc_rep v -> In [w] voc -> svt_lookup 64 (te_h env) v w = Ok (vid D w).
Proof. intros R H. eapply svt_lookup_in; [exact R|apply uword_id; assumption]. Qed.
Lemma vlook_ok v buf r w : voc_rep v -> holds_text buf r w -> In [w] voc -> vlook (te_h env) v buf r = Ok (vid D w).
Proof. intros R H I. unfold vlook. rewrite (bytes_at_ok _ _ _ H). cbn [bind]. apply voc_lookup; assumption. Qed.
Lemma vid_lt w : In [w] voc -> vid D w < 2 ^ 31.
Proof. intros H. pose proof (nthN_lt _ _ _ (vid_In D w H)). pose proof (lev_size D remap C 0). lia. Qed.

(** ** levels of the built structure *)
Definition lev_pos (arrays : list sarr) (k : N) : Prop :=
  exists a f vs, nthN arrays k = Some a /\ s_grams a = Some f /\ fef_rep (te_hu env k) f (lids D remap k) (child_ptrs (G (k - 1)) (G k)) vs.
Definition lev_ptr (arrays : list sarr) (k : N) : Prop :=
  exists a e, nthN arrays k = Some a /\ s_ptrs a = Some e /\ ef_rep e (child_ptrs (G k) (G (k + 1))).
Definition lev_rank (seqs : list cv) (arrays : list sarr) (k : N) : Prop :=
  exists a, nthN arrays k = Some a /\ forall l i e, nthN D k = Some l -> nthN l i = Some e ->
    exists r, sa_count_rank a i = Ok r /\ sc_access seqs k r = Ok (snd e).
Definition arrays_upto (seqs : list cv) (arrays : list sarr) (K : N) : Prop :=
  lenN arrays = lenN D /\ (forall k, k < K -> lev_rank seqs arrays k) /\ (forall k, 0 < k < K -> lev_pos arrays k) /\ (forall k, k + 1 < K -> lev_ptr arrays k).

Lemma range_of arrays k p a : lev_ptr arrays k -> nthN arrays k = Some a -> p < lenN (G k) -> sa_range a p = Ok (kids D (k + 1) p, kids D (k + 1) (p + 1)).
Proof.
  intros (a' & e & H1 & H2 & H3) Ha Hp. rewrite Ha in H1. injection H1 as <-. unfold sa_range. rewrite H2. unfold ptr_range, kids.
  rewrite N.add_sub. apply (ef_pair_ok e _ _ _ _ H3); apply nthN_child_ptrs; lia.
Qed.
Lemma find_of arrays k p x a : 0 < k -> lev_pos arrays k -> nthN arrays k = Some a -> p < lenN (G (k - 1)) -> kids D k p < kids D k (p + 1) -> x < 2 ^ 64 ->
  exists r, sa_position (te_hu env k) a (kids D k p, kids D k (p + 1)) x = Ok r /\ search_result (lids D remap k) (kids D k p) (kids D k (p + 1)) x r.
Proof.
  intros Hk (a' & f & vs & H1 & H2 & H3) Ha Hp NE Hx. rewrite Ha in H1. injection H1 as <-. unfold sa_position. rewrite H2.
  eapply fef_find_ok; eauto. apply child_range. exists p. auto.
Qed.
Lemma not_found_big r n : r < n -> n <= 2 ^ 31 -> (r =? not_found) = false.
Proof. intros H1 H2. apply N.eqb_neq. intros ->. assert (not_found = 2 ^ 64 - 1) by reflexivity. lia. Qed.
(** a present gram *)
Lemma find_gram arrays k i g p a : 0 < k -> lev_pos arrays k -> nthN arrays k = Some a -> nthN (G k) i = Some g -> nthN (G (k - 1)) p = Some (removelast g) ->
  sa_position (te_hu env k) a (kids D k p, kids D k (p + 1)) (lid D remap k g) = Ok i.
Proof.
  intros Hk LP Ha Hg Hp. pose proof (kid_range D remap C k i g p Hk Hg Hp) as R.
  destruct (find_of arrays k p (lid D remap k g) a Hk LP Ha) as (r & E & S); [eapply nthN_lt; eauto|lia| |].
  - pose proof (lid_bound D remap C k g (nthN_In _ _ _ Hg)). pose proof (lev_size D remap C 0). lia.
  - rewrite E. f_equal. eapply search_present; eauto.
Qed.

(** ** remapping while building *)
Lemma map_gram_ok v arrays seqs K k l e : voc_rep v -> arrays_upto seqs arrays K -> remap <> 0 -> remap < k -> k <= K -> nthN D k = Some l -> In e l ->
  map_gram env v arrays remap (c_str (line e)) (0, lenN (join (fst e))) (vid D (last (fst e) [])) = Ok (lid D remap k (fst e)).
Proof.
  intros RV (AL & AR & AP & APtr) R0 RK KK HD HI. set (g := fst e). assert (Hg : In g (G k)) by (eapply In_grams; eauto).
  pose proof (gram_len D remap C k g Hg) as Lg. pose proof (gram_words k g Hg) as Wg. pose proof (col_remap _ _ C) as R2.
  (* g = l ++ x :: r *)
  set (s := skipn (N.to_nat (k - remap)) g). 
  assert (Ls : length s = N.to_nat (remap + 1)) by (unfold s; rewrite skipn_length; lia).
  destruct s as [|x r] eqn:Es; [cbn in Ls; lia|]. cbn in Ls.
  assert (Eg : g = firstn (N.to_nat (k - remap)) g ++ x :: r) by (rewrite <- Es; unfold s; symmetry; apply firstn_skipn).
  set (pl := firstn (N.to_nat (k - remap)) g) in *.
  assert (Hpl : pl <> []). { intros Z. assert (length pl = 0%nat) by (rewrite Z; reflexivity). unfold pl in H. rewrite firstn_length in H. lia. }
  assert (Hr : r <> []). { intros Z. subst r. cbn in Ls. lia. }
  destruct (suffix_facts D remap C k g ltac:(lia) RK Hg) as (S1 & S2 & S3 & S4). fold s in S1, S2, S3, S4. rewrite Es in S1, S2, S3, S4.
  assert (Hxv : In [x] voc). { eapply gram_voc; [exact S1|left; reflexivity]. }
  unfold map_gram. rewrite line_str. fold g. rewrite Eg. replace remap with (lenN r) at 1 by (unfold lenN; lia).
  pose proof (line_len k l e HD HI) as LL. rewrite line_str in LL. fold g in LL. rewrite Eg in LL. rewrite Eg in Wg.
  rewrite (back_to_pos [] pl x r (9 :: to_string (snd e) ++ [0]) LL Wg Hpl Hr : back_to (join (pl ++ x :: r) ++ _) (0, lenN (join (pl ++ x :: r))) _ = _).
  cbn [bind]. change (lenN (@nil N) + lenN (join pl) + 1) with (0 + lenN (join pl) + 1).
  change (lenN (@nil N) + lenN (join (pl ++ [x]))) with (0 + lenN (join (pl ++ [x]))). rewrite !N.add_0_l.
  assert (JX : join (pl ++ x :: r) = join pl ++ 32 :: x ++ 32 :: join r).
  { rewrite (join_app pl (x :: r)) by (auto; discriminate). rewrite (join_cons x r) by assumption. reflexivity. }
  assert (JL : lenN (join (pl ++ [x])) = lenN (join pl) + 1 + lenN x). { rewrite join_snoc by assumption. rewrite lenN_app, lenN_cons. lia. }
  set (tail := 9 :: to_string (snd e) ++ [0]).
  assert (B : join (pl ++ x :: r) ++ tail = (join pl ++ [32]) ++ x ++ (32 :: join r ++ tail)).
  { rewrite JX. rewrite <- !app_assoc. cbn. rewrite <- !app_assoc. reflexivity. }
  assert (LPL : lenN (join pl ++ [32]) = lenN (join pl) + 1) by (rewrite lenN_app; reflexivity).
  rewrite (vlook_ok v _ _ x RV); [|rewrite B; apply holds_mid; [lia|rewrite LPL; lia]|assumption]. cbn [bind].
  destruct (nthN_Some arrays 0 ltac:(pose proof (col_order _ _ C); lia)) as (a0 & Ha0). rewrite (proj2 (rd_nthN _ _ _) Ha0). cbn [bind].
  pose proof (vid_In D x Hxv) as Vx.
  rewrite (range_of arrays 0 (vid D x) a0 (APtr 0 ltac:(lia)) Ha0) by (eapply nthN_lt; eauto). cbn [bind].
  destruct (nthN_Some arrays remap) as (ar & Har). { pose proof (nthN_lt _ _ _ HD). lia. }
  pose proof (suffix_pos D remap C k g R0 RK Hg) as SP. cbn zeta in SP. fold s in SP. rewrite Es in SP. destruct SP as (i & p & I1 & I2 & I3 & I4).
  assert (LV : lid D remap remap (x :: r) = vid D (last g [])). { rewrite lid_plain by (right; lia). rewrite S3. reflexivity. }
  assert (FIN : forall rg, rg = (kids D remap p, kids D remap (p + 1)) ->
    (a <- rd arrays remap ;; map_in (te_hu env remap) rg (vid D (last g [])) a) = Ok (lid D remap k g)).
  { intros rg ->. rewrite (proj2 (rd_nthN _ _ _) Har). cbn [bind]. unfold map_in. rewrite <- LV.
    rewrite (find_gram arrays remap i (x :: r) p ar ltac:(lia) (AP remap ltac:(lia)) Har I1 I2). cbn [bind].
    rewrite (not_found_big i (lenN (G remap))) by (first [eapply nthN_lt; exact I1 | pose proof (lev_size D remap C remap); lia]).
    cbn [fst]. rewrite sub64_le; [f_equal; symmetry; exact I4|lia|]. pose proof (nthN_lt _ _ _ I1). pose proof (lev_size D remap C remap). lia. }
  rewrite Eg in FIN.
  assert (RC : remap = 1 \/ remap = 2) by lia.
  destruct (N.eqb_spec remap 2) as [E2|E2].
  - (* two words of context: x y *)
    destruct r as [|y r']; [congruence|]. destruct r' as [|w r']; [cbn in Ls; lia|]. destruct r'; [|cbn in Ls; lia].
    change (removelast (x :: [y; w])) with [x; y] in I2, S4. 
    assert (Hyv : In [y] voc). { eapply gram_voc; [exact S1|right; left; reflexivity]. }
    unfold next. cbn [fst snd]. rewrite JL.
    assert (B' : join (pl ++ [x; y; w]) ++ tail = (join pl ++ [32] ++ x ++ [32]) ++ y ++ 32 :: (w ++ tail)).
    { rewrite B. cbn [join]. rewrite <- !app_assoc. reflexivity. }
    assert (LPY : lenN (join pl ++ [32] ++ x ++ [32]) = lenN (join pl) + 1 + lenN x + 1) by (rewrite !lenN_app; change (lenN [32]) with 1; lia).
    assert (Wy : ~ In 32 y). { pose proof Wg as Wg'. apply Forall_app in Wg'. destruct Wg' as [_ Wg']. inversion Wg' as [|? ? _ Q]; subst. inversion Q as [|? ? Q' _]; subst. apply Q'. }
    rewrite B'. rewrite <- LPY. unfold c_space.
    rewrite (seek_ok 32 y Wy) by (rewrite !app_length; lia). cbn [bind].
    rewrite (vlook_ok v _ _ y RV); [|apply holds_mid; [reflexivity|reflexivity]|assumption]. cbn [bind].
    destruct (nthN_Some arrays 1) as (a1 & Ha1). { pose proof (nthN_lt _ _ _ HD). lia. }
    rewrite (proj2 (rd_nthN _ _ _) Ha1). cbn [bind].
    assert (H2 : remap - 1 = 1) by lia. rewrite H2 in I2, S4.
    unfold sa_next. replace (vid D y) with (lid D remap 1 [x; y]) by (rewrite lid_plain by (right; lia); reflexivity).
    change (0 + 1) with 1. rewrite (find_gram arrays 1 p [x; y] (vid D x) a1 ltac:(lia) (AP 1 ltac:(lia)) Ha1 I2 Vx). cbn [bind].
    rewrite (not_found_big p (lenN (G 1))) by (first [eapply nthN_lt; exact I2 | pose proof (lev_size D remap C 1); lia]).
    rewrite (range_of arrays 1 p a1 (APtr 1 ltac:(lia)) Ha1) by (eapply nthN_lt; eauto). cbn [bind].
    apply FIN. rewrite E2. reflexivity.
  - assert (E1 : remap = 1) by lia. destruct r as [|w r']; [congruence|]. destruct r'; [|cbn in Ls; lia].
    change (removelast [x; w]) with [x] in I2. rewrite E1 in I2. change (1 - 1) with 0 in I2.
    assert (p = vid D x) by (eapply NoDup_nthN; [apply (voc_NoDup D remap C)|exact I2|exact Vx]). subst p. cbn [bind].
    apply FIN. rewrite E1. reflexivity.
Qed.
End Build.
