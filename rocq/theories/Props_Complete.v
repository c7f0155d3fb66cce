(** * Property C57: a trie that was built has a complete input

    For any files at all (any order, repetitions, lines that are not n-grams) and any hash functions: if the
    build ends normally then every line of each file continues a line of the file of the order below, and the
    lines continued come in the order of that file. *)
From Coq Require Import String Floats.SpecFloat Sorted.
From Verif Require M_TrieProb Props_TrieProb.
From Verif Require Import Prelude BitFacts M_Word M_Bits Spec M_HashVec M_Mph M_Text P_Text P_Text2 P_Typed M_Pool M_Trie Spec_Trie P_Trie1 P_Trie2 P_Trie3 P_Trie4 P_SeqColl Props_Trie P_FastEF3 M_MphCount Props_MphCount
  Spec_Complete M_Score M_TriePef M_ArpaFile Spec_Arpa Spec_ArpaFile P_ArpaFile Props_ArpaFile M_TrieProb M_TrieProbPef P_TrieProbBridge M_MphProb Props_MphProb Props_TrieProb Props_ScoreCorpus
  Props_Save Props_TriePef M_GramFile M_Header M_Programs Spec_Programs P_Programs Props_Programs M_ProbPrograms P_Complete.

(** ** files of lines *)
Theorem C57_counts : forall env files order remap t, Forall (Forall (fun l => lenN l < 2 ^ 63)) files -> trie_build env files order remap = Ok t ->
  forall k prv cur, k + 1 < order -> nthN files k = Some prv -> nthN files (k + 1) = Some cur -> continues by_prefix prv cur.
Proof. exact trie_build_checked. Qed.
Theorem C57_pef_counts : forall env files order remap t, Forall (Forall (fun l => lenN l < 2 ^ 63)) files -> ptrie_build env files order remap = Ok t ->
  forall k prv cur, k + 1 < order -> nthN files k = Some prv -> nthN files (k + 1) = Some cur -> continues by_prefix prv cur.
Proof. exact ptrie_build_checked. Qed.

(** ** n-grams *)
Lemma first_sep c : forall x y r r' : list N, ~ In c x -> ~ In c y -> x ++ c :: r = y ++ c :: r' -> x = y /\ r = r'.
Proof.
  induction x as [|a x IH]; intros [|b y] r r' X Y E; cbn [app] in E.
  - injection E as ->. auto.
  - injection E as -> _. elim Y. left; reflexivity.
  - injection E as -> _. elim X. left; reflexivity.
  - injection E as -> E. destruct (IH y r r') as [-> ->]; auto; intro I; [apply X|apply Y]; right; exact I.
Qed.
Lemma last_sep c (x y r r' : list N) : ~ In c r -> ~ In c r' -> x ++ c :: r = y ++ c :: r' -> x = y /\ r = r'.
Proof.
  intros X Y E. apply (f_equal (@rev N)) in E. rewrite !rev_app_distr in E. cbn [rev] in E. rewrite <- !app_assoc in E. cbn [app] in E.
  apply first_sep in E; [|intro I; apply in_rev in I; auto|intro I; apply in_rev in I; auto]. destruct E as [E1 E2].
  split; [rewrite <- (rev_involutive x), E2, rev_involutive; reflexivity|rewrite <- (rev_involutive r), E1, rev_involutive; reflexivity].
Qed.
Lemma before_tab_line e p : ~ In 9 (join (fst e)) -> before_tab (line e) p -> p = join (fst e).
Proof.
  intros H [N [E|(r & E)]]; unfold line, format_count_line, c_tab in E.
  - elim N. rewrite <- E. apply in_or_app. right. left. reflexivity.
  - cbn [app] in E. apply first_sep in E; [destruct E; congruence|exact H|exact N].
Qed.
Lemma plain_cut (g : gram) : 2 <= lenN g -> exists a x, g = a ++ [x] /\ a <> [].
Proof.
  intros H. destruct (exists_last (l := g)) as (a & x & ->); [intros ->; change (lenN (@nil (list N))) with 0 in H; lia|]. exists a, x. split; [reflexivity|].
  intros ->. change (lenN ([] ++ [x])) with 1 in H. lia.
Qed.
Lemma plain_words g : Forall (fun w => word w /\ ~ In 9 w) g -> Forall word g /\ ~ In 9 (join g).
Proof.
  intros H. split; [|apply join_no_tab]; eapply Forall_impl; try exact H; cbn; tauto.
Qed.
Lemma prefix_gram (e e' : gram * N) : 2 <= lenN (fst e) -> fst e' <> [] -> Forall (fun w => word w /\ ~ In 9 w) (fst e) -> Forall (fun w => word w /\ ~ In 9 w) (fst e') ->
  by_prefix (line e') (line e) -> fst e' = removelast (fst e).
Proof.
  intros L NE W W' (g & p & B & B' & (w & NW & E)). apply plain_words in W, W'. destruct W as [W T], W' as [W' T']. apply before_tab_line in B; [|exact T]. apply before_tab_line in B'; [|exact T']. subst g p.
  destruct (plain_cut _ L) as (a & x & EG & NA). rewrite EG in *. rewrite join_snoc in E by exact NA. apply Forall_app in W. destruct W as [WA WX].
  apply last_sep in E; [|exact (proj2 (Forall_inv WX))|exact NW]. rewrite removelast_last. symmetry. apply join_inj; auto. exact (proj1 E).
Qed.
Lemma continue_map {A} (R : list N -> list N -> Prop) (ln ln' : gram * A -> list N) (prv cur : list (gram * A)) (cut : gram -> gram) :
  (forall e e', In e cur -> In e' prv -> R (ln' e') (ln e) -> fst e' = cut (fst e)) -> continues R (map ln' prv) (map ln cur) ->
  exists at_ : list N, Forall2 (fun g i => nthN (map fst prv) i = Some (cut g)) (map fst cur) at_ /\ StronglySorted N.le at_.
Proof.
  intros H (at_ & F & S). exists at_. split; [|exact S]. clear S. revert at_ F. induction cur as [|e cur IH]; intros at_ F; inversion F as [|x i y l' (z & Z & RZ) F' E1 E2]; subst; cbn [map]; constructor.
  - rewrite nthN_map in Z. destruct (nthN prv i) as [e'|] eqn:P; [|discriminate]. injection Z as <-. rewrite nthN_map, P. cbn [option_map]. f_equal. apply H; [left; reflexivity|eapply nthN_In; exact P|exact RZ].
  - apply IH; [|exact F']. intros e0 e' I I' RR. apply H; auto. right. exact I.
Qed.
Lemma grams_some {A} (D : list (list (gram * A))) k l : nthN D k = Some l -> grams D k = map fst l. Proof. intros H. unfold grams. rewrite H. reflexivity. Qed.
Lemma plain_short D : plain_grams D -> Forall (Forall (fun l => lenN l < 2 ^ 63)) (map (map line) D).
Proof.
  intros P. apply Forall_forall. intros f F. apply in_map_iff in F. destruct F as (l & <- & I). apply In_nthN in I. destruct I as (k & I). apply Forall_forall. intros y Y. apply in_map_iff in Y. destruct Y as (e & <- & IE).
  destruct (P k (fst e)) as (_ & _ & B). { rewrite (grams_some _ _ _ I). apply in_map. exact IE. }
  unfold line, format_count_line. rewrite !lenN_app. change (lenN [c_tab]) with 1. unfold to_string. pose proof (dec_digits_len 20 (snd e) []) as X. assert (lenN (dec_digits 20 (snd e) []) < 64). { change (lenN (@nil N)) with 0 in X. clear - X. lia. }
  change (2 ^ 62) with 4611686018427387904 in B. change (2 ^ 63) with 9223372036854775808. lia.
Qed.
Lemma gram_prefixes (D : list (list (gram * N))) k prv cur : plain_grams D -> nthN D k = Some prv -> nthN D (k + 1) = Some cur -> continues by_prefix (map line prv) (map line cur) -> grams_continue (@removelast _) D k.
Proof.
  intros P Hp Hc C. unfold grams_continue. rewrite (grams_some _ _ _ Hp), (grams_some _ _ _ Hc). eapply continue_map; [|exact C]. intros e e' I I' R.
  destruct (P (k + 1) (fst e)) as (L & W & _). { rewrite (grams_some _ _ _ Hc). apply in_map. exact I. }
  destruct (P k (fst e')) as (L' & W' & _). { rewrite (grams_some _ _ _ Hp). apply in_map. exact I'. }
  apply prefix_gram; auto; [lia|]. intros E. rewrite E in L'. change (lenN (@nil (list N))) with 0 in L'. lia.
Qed.
(** The count tries: any of the twelve classes, built from files with these n-grams and counts. *)
Theorem C57_count_grams : forall env D order remap t, plain_grams D -> ptrie_build env (map (map line) D) order remap = Ok t ->
  forall k, k + 1 < order -> k + 1 < lenN D -> grams_continue (@removelast _) D k.
Proof.
  intros env D order remap t P E k K L. destruct (nthN_Some D k) as (prv & Hp); [lia|]. destruct (nthN_Some D (k + 1)) as (cur & Hc); [exact L|].
  apply (gram_prefixes D k prv cur P Hp Hc). apply (C57_pef_counts env (map (map line) D) order remap t (plain_short D P) E k); [exact K| |]; rewrite nthN_map; [rewrite Hp|rewrite Hc]; reflexivity.
Qed.
(** In particular a prefix that is not listed makes the build fail. *)
Theorem C57_missing_prefix : forall env D order remap k g, plain_grams D -> k + 1 < order -> k + 1 < lenN D -> In g (grams D (k + 1)) -> ~ In (removelast g) (grams D k) ->
  forall t, ptrie_build env (map (map line) D) order remap <> Ok t.
Proof.
  intros env D order remap k g P K L I NI t E. destruct (C57_count_grams env D order remap t P E k K L) as (at_ & F & _).
  apply NI. clear - I F. induction F as [|x i l a X F IH]; [destruct I|]. destruct I as [->|I]; [eapply nthN_In; exact X|exact (IH I)].
Qed.

(** ** ARPA files *)
(** where the number that starts a line ends *)
Definition number_end (sd : list N -> N -> spec_float * N) (l : list N) : N := snd (sd (l ++ [0]) 0).
Lemma text_of_len ls l : In l ls -> lenN l <= lenN (text_of ls).
Proof.
  unfold text_of. induction ls as [|x ls IH]; intros I; [destruct I|]. cbn [map List.concat]. rewrite !lenN_app. destruct I as [->|I]; [lia|]. specialize (IH I). lia.
Qed.
Lemma section_len s l : forall secs i gaps, In s secs -> In l s -> In l (section_lines i secs gaps).
Proof.
  induction secs as [|x secs IH]; intros i gaps I J; [destruct I|]. cbn [section_lines]. destruct I as [->|I].
  - apply in_or_app. left. right. exact J.
  - apply in_or_app. right. apply in_or_app. right. apply IH; assumption.
Qed.
Lemma arpa_short data secs : arpa_text data secs -> lenN data < 2 ^ 63 -> Forall (Forall (fun l => lenN l < 2 ^ 63)) secs.
Proof.
  intros (b0 & b1 & gaps & tail & -> & _) H. apply Forall_forall. intros s S1. apply Forall_forall. intros l L1. rewrite lenN_app in H.
  assert (X : lenN l <= lenN (text_of (blanks b0 ++ [[92; 100; 97; 116; 97; 92]] ++ count_lines 1 (map lenN secs) ++ blanks (S b1) ++ section_lines 1 secs gaps))).
  { apply text_of_len. apply in_or_app. right. apply in_or_app. right. apply in_or_app. right. apply in_or_app. right. eapply section_len; eauto. }
  lia.
Qed.
(** the sections of a file that was accepted *)
Theorem C57_probs : forall env data secs order remap unk pq bq t, arpa_text data secs -> lenN data < 2 ^ 63 -> tp_build_file env data order remap unk pq bq = Ok t ->
  order = lenN secs /\ forall k prv cur, nthN secs k = Some prv -> nthN secs (k + 1) = Some cur -> continues (by_suffix (number_end (tp_sd env))) prv cur.
Proof.
  intros env data secs order remap unk pq bq t AT LD E. pose proof (arpa_short data secs AT LD) as SH. rewrite (C40_trie_from_file data secs) in E by exact AT.
  assert (O : order = lenN secs).
  { unfold tp_build in E. do 2 (apply bind_inv in E; destruct E as (? & _ & E)). destruct (N.ltb_spec (lenN secs) order); [discriminate|]. apply bind_inv in E. destruct E as ((pb & bb) & _ & E). destruct (N.ltb_spec order (lenN secs)); [discriminate|]. lia. }
  split; [exact O|]. intros k prv cur Hp Hc. pose proof (nthN_lt _ _ _ Hc) as L. refine (tp_build_checked env secs order remap unk pq bq t SH E k prv cur _ Hp Hc). lia.
Qed.
Theorem C57_pef_probs : forall env data secs order remap unk pq bq t, arpa_text data secs -> lenN data < 2 ^ 63 -> qp_build_file env data order remap unk pq bq = Ok t ->
  order = lenN secs /\ forall k prv cur, nthN secs k = Some prv -> nthN secs (k + 1) = Some cur -> continues (by_suffix (number_end (tp_sd (qe_t env)))) prv cur.
Proof.
  intros env data secs order remap unk pq bq t AT LD E. pose proof (arpa_short data secs AT LD) as SH. destruct (qp_build_file_checked _ _ _ _ _ _ _ _ E) as (pb & bb & secs' & EL & C).
  assert (1 <= order). { unfold qp_build_file in E. apply bind_inv in E. destruct E as (u & CO & _). unfold check_order, u8 in CO. destruct (N.eq_dec order 0) as [->|]; [discriminate|lia]. }
  rewrite (load_ok _ data secs order pq bq AT) in EL by assumption. destruct (N.ltb_spec (lenN secs) order); [discriminate|]. apply bind_inv in EL. destruct EL as (bs & _ & EL). destruct (N.ltb_spec order (lenN secs)); [discriminate|].
  injection EL as _ <-. split; [lia|]. intros k prv cur Hp Hc. pose proof (nthN_lt _ _ _ Hc) as L. refine (C SH k prv cur _ Hp Hc). lia.
Qed.
(** n-grams *)
Lemma after_number_line sd e l g : arpa_line sd e l -> ~ In 9 (join (fst e)) -> after_number (number_end sd l) l g -> g = join (fst e).
Proof.
  intros (num & rest & p & EL & SD & _ & RS) NT (pre & LP & NG & D). unfold number_end in LP. rewrite SD in LP. cbn [snd] in LP.
  assert (R : rest = [] \/ exists t, rest = 9 :: t) by (destruct RS as [[-> _]|(t & -> & _)]; eauto). clear RS SD.
  assert (EL' : l = (num ++ [9]) ++ join (fst e) ++ rest) by (rewrite <- app_assoc; exact EL).
  assert (X : exists q, l = pre ++ q /\ (q = g \/ exists r, q = g ++ 9 :: r)) by (destruct D as [->|(r & ->)]; eauto). destruct X as (q & EQ & Q).
  rewrite EL' in EQ. assert (QQ : join (fst e) ++ rest = q).
  { assert (LL : List.length (num ++ [9]) = List.length pre). { unfold lenN in LP. rewrite app_length. cbn [List.length]. lia. }
    clear - EQ LL. revert EQ LL. generalize (num ++ [9]). intros a. revert pre. induction a as [|x a IH]; intros [|y b] E L; cbn [List.length] in L; try lia; cbn [app] in E; [exact E|]. injection E as _ E. apply (IH b E). lia. }
  rewrite <- QQ in Q. destruct R as [->|(t & ->)]; destruct Q as [Q|(r & Q)].
  - rewrite app_nil_r in Q. congruence.
  - rewrite app_nil_r in Q. elim NT. rewrite Q. apply in_or_app. right. left. reflexivity.
  - elim NG. rewrite <- Q. apply in_or_app. right. left. reflexivity.
  - apply first_sep in Q; [destruct Q; congruence|exact NT|exact NG].
Qed.
Lemma suffix_gram sd e e' l l' : arpa_line sd e l -> arpa_line sd e' l' -> 2 <= lenN (fst e) -> fst e' <> [] -> Forall (fun w => word w /\ ~ In 9 w) (fst e) -> Forall (fun w => word w /\ ~ In 9 w) (fst e') ->
  by_suffix (number_end sd) l' l -> fst e' = tl (fst e).
Proof.
  intros A A' L NE W W' (g & s & B & B' & (w & NW & E)). apply plain_words in W, W'. destruct W as [W T], W' as [W' T']. apply (after_number_line sd e) in B; [|exact A|exact T]. apply (after_number_line sd e') in B'; [|exact A'|exact T']. subst g s.
  destruct (fst e) as [|x a]; [change (lenN (@nil (list N))) with 0 in L; lia|]. assert (NA : a <> []) by (intros ->; change (lenN [x]) with 1 in L; lia). rewrite join_cons in E by exact NA.
  apply first_sep in E; [|exact (proj2 (Forall_inv W))|exact NW]. cbn [tl]. symmetry. apply join_inj; auto; [exact (Forall_inv_tail W)|exact (proj2 E)].
Qed.
Lemma continue_rel {A} (Q : gram * A -> list N -> Prop) (R : list N -> list N -> Prop) (prv cur : list (gram * A)) lp lc (cut : gram -> gram) :
  (forall e e' l l', In e cur -> In e' prv -> Q e l -> Q e' l' -> R l' l -> fst e' = cut (fst e)) -> Forall2 Q prv lp -> Forall2 Q cur lc -> continues R lp lc ->
  exists at_ : list N, Forall2 (fun g i => nthN (map fst prv) i = Some (cut g)) (map fst cur) at_ /\ StronglySorted N.le at_.
Proof.
  intros H QP QC (at_ & F & S). exists at_. split; [|exact S]. clear S. revert at_ F H. induction QC as [|e l cur lc QE QC IH]; intros at_ F H; inversion F as [|x i y l' (z & Z & RZ) F' E1 E2]; subst; cbn [map]; constructor.
  - assert (P : exists e', nthN prv i = Some e' /\ Q e' z).
    { clear - QP Z. revert i Z. induction QP as [|e0 l0 prv lp Q0 QP IH]; intros i Z; [rewrite nthN_nil in Z; discriminate|]. rewrite nthN_cons in Z. rewrite nthN_cons.
      destruct (i =? 0); [injection Z as <-; exists e0; auto|exact (IH _ Z)]. }
    destruct P as (e' & P & QE'). rewrite nthN_map, P. cbn [option_map]. f_equal. apply (H e e' l z); auto; [left; reflexivity|eapply nthN_In; exact P].
  - apply IH; [exact F'|]. intros e0 e' l0 l1 I. apply H. right. exact I.
Qed.

Lemma Forall2_nthN' {A B} (Q : A -> B -> Prop) a b : Forall2 Q a b -> forall i x, nthN a i = Some x -> exists y, nthN b i = Some y /\ Q x y.
Proof.
  induction 1 as [|x0 y0 a b Q0 F IH]; intros i x Z; [rewrite nthN_nil in Z; discriminate|]. rewrite nthN_cons in Z. rewrite nthN_cons. destruct (i =? 0); [injection Z as <-; eauto|exact (IH _ _ Z)].
Qed.
(** The tries of probabilities, over either sequence type: every n-gram without its first word is an n-gram of
    the section below. *)
Theorem C57_prob_grams : forall env data secs D order remap unk pq bq t, arpa_text data secs -> lenN data < 2 ^ 63 ->
  Forall2 (Forall2 (arpa_line (tp_sd (qe_t env)))) D secs -> plain_grams D -> qp_build_file env data order remap unk pq bq = Ok t ->
  order = lenN D /\ forall k, k + 1 < order -> grams_continue (@tl _) D k.
Proof.
  intros env data secs D order remap unk pq bq t AT LD F2 P E. destruct (C57_pef_probs env data secs order remap unk pq bq t AT LD E) as [O C].
  assert (LL : lenN D = lenN secs). { clear - F2. unfold lenN. induction F2; cbn [List.length]; lia. }
  split; [lia|]. intros k K. destruct (nthN_Some D k) as (prv & Hp); [lia|]. destruct (nthN_Some D (k + 1)) as (cur & Hc); [lia|].
  destruct (Forall2_nthN' _ _ _ F2 _ _ Hp) as (lp & Lp & QP). destruct (Forall2_nthN' _ _ _ F2 _ _ Hc) as (lc & Lc & QC).
  unfold grams_continue. rewrite (grams_some _ _ _ Hp), (grams_some _ _ _ Hc). eapply continue_rel; [|exact QP|exact QC|exact (C k lp lc Lp Lc)].
  intros e e' l l' I I' Q Q' R.
  destruct (P (k + 1) (fst e)) as (L & W & _). { rewrite (grams_some _ _ _ Hc). apply in_map. exact I. }
  destruct (P k (fst e')) as (L' & W' & _). { rewrite (grams_some _ _ _ Hp). apply in_map. exact I'. }
  apply (suffix_gram (tp_sd (qe_t env)) e e' l l'); auto; [lia|]. intros Z. rewrite Z in L'. change (lenN (@nil (list N))) with 0 in L'. lia.
Qed.
Theorem C57_missing_suffix : forall env data secs D order remap unk pq bq k g, arpa_text data secs -> lenN data < 2 ^ 63 ->
  Forall2 (Forall2 (arpa_line (tp_sd (qe_t env)))) D secs -> plain_grams D -> In g (grams D (k + 1)) -> ~ In (tl g) (grams D k) ->
  forall t, qp_build_file env data order remap unk pq bq <> Ok t.
Proof.
  intros env data secs D order remap unk pq bq k g AT LD F2 P I NI t E. destruct (C57_prob_grams env data secs D order remap unk pq bq t AT LD F2 P E) as [O C].
  assert (L : k + 1 < lenN D). { unfold grams in I. destruct (nthN D (k + 1)) eqn:X; [apply nthN_lt in X; exact X|destruct I]. }
  destruct (C k) as (at_ & F & _); [lia|]. apply NI. clear - I F. induction F as [|x i l a X F IH]; [destruct I|]. destruct I as [->|I]; [eapply nthN_In; exact X|exact (IH I)].
Qed.
Print Assumptions C57_counts. Print Assumptions C57_pef_counts. Print Assumptions C57_count_grams. Print Assumptions C57_missing_prefix.
Print Assumptions C57_probs. Print Assumptions C57_pef_probs. Print Assumptions C57_prob_grams. Print Assumptions C57_missing_suffix.

(** ** the programs *)
(** build_trie with value type count: if it wrote a file then the files of the directory are complete *)
Theorem C57_count_program : forall x env a d D out bytes, plain_grams D -> no_newlines D -> holds_counts d D -> ta_order a = lenN D -> lenN D < 256 ->
  (forall k l, nthN D k = Some l -> l <> [] /\ lenN l < 2 ^ 64) -> (forall l e, In l D -> In e l -> snd e < 2 ^ 64 - 1) ->
  build_trie_count x env a d = Ok (Wrote out bytes) -> forall k, k + 1 < lenN D -> grams_continue (@removelast _) D k.
Proof.
  intros x env a d D out bytes P NN HD AO L256 SZ CT E.
  assert (CT' : forall k l e, nthN D k = Some l -> In e l -> snd e < 2 ^ 64 - 1) by (intros k l e H; apply CT; eapply nthN_In; exact H).
  assert (PL : forall k l e, nthN D k = Some l -> In e l -> parse_count_line (line e) = Ok ((0, lenN (join (fst e))), snd e)).
  { intros k l e H I. destruct (P k (fst e)) as (_ & W & _); [rewrite (grams_some _ _ _ H); apply in_map; exact I|]. apply plain_words in W. apply parse_format; [exact (proj2 W)|]. pose proof (CT' k l e H I). lia. }
  unfold build_trie_count in E. apply bind_inv in E. destruct E as (order & EO & E).
  assert (O : order = lenN D).
  { unfold accepted_order in EO. apply bind_inv in EO. destruct EO as (u & CO & EO). injection EO as <-. rewrite AO. unfold u8. change 255 with (N.ones 8). rewrite N.land_ones. apply N.mod_small. exact L256. }
  subst order. cbv zeta in E. destruct (if String.eqb (ta_type a) "ef_trie" then Some 1 else if String.eqb (ta_type a) "pef_trie" then Some 2 else None) as [ds|]; [|discriminate].
  apply bind_inv in E. destruct E as (u1 & _ & E). apply bind_inv in E. destruct E as (remap & _ & E). apply bind_inv in E. destruct E as (header & _ & E).
  destruct (dispatch trie_count_types (bh_parse header)) as [inst|]; [|discriminate]. apply bind_inv in E. destruct E as (files & EF & E). rewrite (dir_lines_ok D d HD NN SZ CT' PL) in EF. injection EF as <-.
  apply bind_inv in E. destruct E as (t & E & _). intros k K. eapply C57_count_grams; [exact P|exact E|exact K|exact K].
Qed.
Print Assumptions C57_count_program.
(** build_trie with value type prob_backoff *)
Theorem C57_prob_program : forall x env a data secs D out bytes, arpa_text data secs -> lenN data < 2 ^ 63 ->
  Forall2 (Forall2 (arpa_line (tp_sd (qe_t env)))) D secs -> plain_grams D ->
  build_trie_prob x env a (Some (Some data)) = Ok (Wrote out bytes) -> forall k, k + 1 < lenN D -> grams_continue (@tl _) D k.
Proof.
  intros x env a data secs D out bytes AT LD F2 P E. unfold build_trie_prob in E. apply bind_inv in E. destruct E as (order & _ & E). cbv zeta in E.
  destruct (if String.eqb (ra_type a) "ef_trie" then Some 1 else if String.eqb (ra_type a) "pef_trie" then Some 2 else None) as [ds|]; [|discriminate].
  apply bind_inv in E. destruct E as (u1 & _ & E). apply bind_inv in E. destruct E as (remap & _ & E). apply bind_inv in E. destruct E as (header & _ & E).
  destruct (dispatch trie_prob_types (bh_parse header)) as [inst|]; [|discriminate]. cbn [open_arpa bind] in E. apply bind_inv in E. destruct E as (m & E & _).
  assert (SD : tp_sd (qe_t (prob_instance env inst)) = tp_sd (qe_t env)) by reflexivity. rewrite <- SD in F2.
  destruct (C57_prob_grams (prob_instance env inst) data secs D _ _ _ _ _ m AT LD F2 P E) as [O C]. intros k K. apply C. lia.
Qed.
Print Assumptions C57_prob_program.

(** ** What is not checked *)
Definition c57_D (bigrams : list (gram * N)) : list (list (gram * N)) := [[([wa], 5); ([wb], 3); ([wc], 2); ([wd], 10)]; bigrams].
Definition c57_env (D : list (list (gram * N))) : tenv :=
  mktenv ex_h [(0, 2, 4); (1, 2, 4); (3, 0, 4); (5, 0, 2)] (fun _ _ => (0, 0, 0)) (fun _ => []) (map (fun l => with_freq (map snd l)) D) IC false 10.
Definition c57_ask (D : list (list (gram * N))) (qs : list gram) : res (list N) :=
  t <- trie_build (c57_env D) (map (map line) D) 2 0 ;;
  mapM (fun q => ' (x, _) <- trie_lookup (c57_env D) t ex_statics (join q) (0, lenN (join q)) ;; Ok x) qs.
(** A last word that is not in the vocabulary is not noticed: the build ends normally and the n-gram is not in
    the index. *)
Theorem C57_unknown_last_word_refuted : exists D, plain_grams D /\ indexed D [wc; [120]] 7 /\ ~ In [[120]] (grams D 0) /\
  c57_ask D [[wa; wb]; [wc; [120]]; [wd; wa]] = Ok [3; not_found; 6].
Proof.
  exists (c57_D [([wa; wb], 3); ([wa; wc], 2); ([wc; [120]], 7); ([wd; wa], 6)]). split; [|split; [|split]].
  - intros k g I. assert (K : k = 0 \/ k = 1). { unfold grams in I. destruct (nthN _ k) eqn:X; [apply nthN_lt in X; change (k < 2) in X; lia|destruct I]. }
    destruct K as [->| ->]; cbn in I; repeat (destruct I as [<-|I]; [split; [reflexivity|split; [repeat (constructor; [split; [split; [discriminate|cbn; intuition discriminate]|cbn; intuition discriminate]|]); constructor|reflexivity]]|]); destruct I.
  - exists 1. eexists. split; [reflexivity|]. cbn. tauto.
  - vm_compute. intros I. repeat (destruct I as [I|I]; [discriminate|]). destruct I.
  - vm_compute. reflexivity.
Qed.
Print Assumptions C57_unknown_last_word_refuted.
(** A bigram listed twice is not noticed either: the first count is returned. *)
Theorem C57_duplicate_refuted : exists D, plain_grams D /\ indexed D [wb; wc] 3 /\ indexed D [wb; wc] 4 /\ c57_ask D [[wb; wc]; [wd; wa]] = Ok [3; 6].
Proof.
  exists (c57_D [([wb; wc], 3); ([wb; wc], 4); ([wd; wa], 6)]). split; [|split; [|split]].
  - intros k g I. assert (K : k = 0 \/ k = 1). { unfold grams in I. destruct (nthN _ k) eqn:X; [apply nthN_lt in X; change (k < 2) in X; lia|destruct I]. }
    destruct K as [->| ->]; cbn in I; repeat (destruct I as [<-|I]; [split; [reflexivity|split; [repeat (constructor; [split; [split; [discriminate|cbn; intuition discriminate]|cbn; intuition discriminate]|]); constructor|reflexivity]]|]); destruct I.
  - exists 1. eexists. split; [reflexivity|]. cbn. tauto.
  - exists 1. eexists. split; [reflexivity|]. cbn. tauto.
  - vm_compute. reflexivity.
Qed.
Print Assumptions C57_duplicate_refuted.
(** The hash builders do not look at the other orders: a bigram of a word that is not listed is accepted. *)
Definition c57_h (k : N) (s : list N) : triple :=
  match k, s with
  | 0, [97] | 1, [120; 32; 98] => (0, 1, 0)
  | 0, [98] | 1, [98; 32; 99] => (1, 1, 0)
  | 0, [99] | 1, [99; 32; 97] => (1, 0, 0)
  | _, c :: _ => (c, c, c)
  | _, [] => (0, 0, 0)
  end.
Definition c57_hD : list (list (gram * N)) := [[([[97]], 5); ([[98]], 3); ([[99]], 2)]; [([[120]; [98]], 3); ([[98]; [99]], 2); ([[99]; [97]], 3)]].
Definition c57_henv : menv := mkmenv 64 c57_h (fun _ => [(3, 0, 4); (1, 3, 4); (2, 1, 4)]) (map (fun l => with_freq (map snd l)) c57_hD) 100.
Theorem C57_hash_refuted : ~ grams_continue (@removelast _) c57_hD 0 /\
  (m <- mc_build c57_henv (map (map line) c57_hD) 2 ;; mc_lookup c57_henv m (join [[120]; [98]]) (0, 3)) = Ok 3.
Proof.
  split; [|vm_compute; reflexivity]. intros (at_ & F & _). inversion F as [|g i l l' E F']; subst. apply nthN_In in E. vm_compute in E. repeat (destruct E as [E|E]; [discriminate|]). destruct E.
Qed.
Print Assumptions C57_hash_refuted.

(** ** The statements at work *)
(** the index of C22's example was accepted, so its n-grams are complete *)
Example C57_example : forall k, k + 1 < 4 -> grams_continue (@removelast _) ex_D k.
Proof.
  intros k K. assert (P : plain_grams ex_D).
  { intros j g I. destruct (ex_collection 0 ltac:(lia)) as [_ _ CW CB _ _ _ _ _]. destruct (CW j g I) as [L W]. pose proof (CB j g I) as B. split; [exact L|]. split; [eapply Forall_impl; [|exact W]; cbn; tauto|]. assert (2 ^ 32 < 2 ^ 62) by reflexivity. lia. }
  assert (NN : no_newlines ex_D) by exact ex_no_newlines.
  destruct (ex_programs true 1 R_PSPEF ltac:(lia)) as (file & E & _). refine (C57_count_program ex_x _ (ex_args true 4 1 R_PSPEF) (ex_dir ex_D) ex_D _ file P NN (ex_dir_ok ex_D) eq_refl eq_refl _ _ E k K).
  - intros j l H. destruct (col_size _ _ (ex_collection 0 ltac:(lia)) _ _ H) as [A B]. split; [exact A|]. assert (2 ^ 31 < 2 ^ 64) by reflexivity. lia.
  - intros l e I J. cbn in I. repeat (destruct I as [<-|I]; [cbn in J; repeat (destruct J as [<-|J]; [reflexivity|]); destruct J|]). destruct I.
Qed.
(** a missing prefix, and prefixes that come in another order, make the build fail *)
Example C57_example_fails :
  c57_ask (c57_D [([wa; wb], 3); ([[120]; wb], 7); ([wd; wa], 6)]) [] = Throw /\ c57_ask (c57_D [([wa; wb], 3); ([wd; wa], 6); ([wb; wb], 7)]) [] = Throw.
Proof. split; vm_compute; reflexivity. Qed.
(** the trie of C41's example was accepted, so its n-grams are complete *)
Example C57_example_probs : forall k, k + 1 < 3 -> grams_continue (@tl _) txD k.
Proof.
  intros k K. assert (P : plain_grams txD).
  { intros j g I. destruct tx_arpa as [_ _ AW _ _]. unfold grams in I. destruct (nthN txD j) as [l|] eqn:H; [|destruct I]. apply in_map_iff in I. destruct I as (e & <- & I). destruct (AW j l e H I) as [L W]. split; [exact L|]. split; [eapply Forall_impl; [|exact W]; cbn; tauto|].
    assert (C : forallb (forallb (fun e : gram * (spec_float * spec_float) => lenN (join (fst e)) <? 2 ^ 62)) txD = true) by (vm_compute; reflexivity).
    rewrite forallb_forall in C. specialize (C l (nthN_In _ _ _ H)). rewrite forallb_forall in C. apply N.ltb_lt. exact (C e I). }
  destruct (qp_build_file (mkqenv (txenv 1 [77]) false (fun _ => M_Pef.mkpads [0] [0])) txfile 3 1 default_unk 2 2) as [t| |] eqn:E; [|vm_compute in E; discriminate|vm_compute in E; discriminate].
  refine (proj2 (C57_prob_grams _ txfile txsecs txD 3 1 default_unk 2 2 t C41_ex_text eq_refl _ P E) k K).
  destruct (tx_inputs 1 [77] ltac:(lia) ltac:(exists 77; split; reflexivity)) as [V _ _ _ _ _ _]. destruct V. assumption.
Qed.
