(** * Proofs about the corpus scorer *)
From Coq Require Import Floats.SpecFloat.
From Verif Require Import Prelude BitFacts M_Word Spec M_Text P_Text P_Text2 M_Pool M_Trie Spec_Trie M_Score Spec_Katz P_Score1 P_Score2 P_Score3 M_Quant M_MphProb Spec_Arpa
  P_Sentence M_TrieProb Spec_Corpus M_ScoreCorpus.

Lemma fadd_feq a b a' b' : feq a a' -> feq b b' -> feq (fplus a b) (fplus a' b').
Proof.
  intros [<-|[Z1 Z2]] [<-|[Z3 Z4]].
  - apply feq_refl.
  - apply feq_trans with a; [apply fplus_zero_r; exact Z3|apply feq_sym, fplus_zero_r; exact Z4].
  - destruct a, a'; try discriminate. unfold fplus. destruct b; cbn; try apply feq_refl. destruct (Bool.eqb s s1), (Bool.eqb s0 s1); right; split; reflexivity.
  - destruct a, a', b, b'; try discriminate. unfold fplus. cbn. right. destruct (Bool.eqb s s1), (Bool.eqb s0 s2); split; reflexivity.
Qed.
Lemma fold_feq l : forall l' a a', Forall2 feq l l' -> feq a a' -> feq (fold_left fplus l a) (fold_left fplus l' a').
Proof.
  induction l as [|x l IH]; intros l' a a' F2 E; inversion F2; [exact E|]. cbn [fold_left]. apply IH; [assumption|]. apply fadd_feq; assumption.
Qed.

Lemma filter_len {A} (f : A -> bool) l : lenN (filter f l) <= lenN l.
Proof. induction l as [|x l IH]; [reflexivity|]. cbn [filter]. destruct (f x); rewrite ?lenN_cons; lia. Qed.

Lemma corpus_len : forall l, corpus_ok l -> lenN l <= lenN (concat l) /\ lenN (concat l) <= lenN (corpus_bytes l).
Proof.
  induction l as [|ws l IH]; intro H; [split; discriminate|]. unfold corpus_ok in *. apply Forall_cons_iff in H. destruct H as [[NE _] H]. destruct (IH H) as [A B].
  unfold corpus_bytes in *. cbn [concat map]. rewrite !lenN_app, !lenN_cons, lenN_nil. pose proof (join_len ws).
  destruct ws as [|w ws]; [congruence|]. rewrite lenN_cons in *. lia.
Qed.

Section GEN.
Variable score : list N -> pstate N -> byte_range -> res (spec_float * pstate N * bool).
Fixpoint sentence (buf : list N) (st : pstate N) (ws : list byte_range) : res (list (spec_float * bool) * pstate N) :=
  match ws with
  | [] => Ok ([], st)
  | w :: ws =>
      ' (x, st, oov) <- score buf st w ;;
      ' (xs, st) <- sentence buf st ws ;;
      Ok ((x, oov) :: xs, st)
  end.
Definition addp (b : spec_float) (x : spec_float * bool) : spec_float := if snd x then fadd b (fst x) else b.

Lemma line_ok ws : ws <> [] -> Forall no_sep ws -> forall pre post n fuel st a b out st',
  (length ws <= fuel)%nat ->
  sentence (pre ++ join ws ++ 10 :: post) st (word_ranges (lenN pre) ws) = Ok (out, st') ->
  score_line score fuel (pre ++ join ws ++ 10 :: post) (mktl (lenN pre) n false) st a b
    = Ok (mktl (lenN pre + lenN (join ws) + 1) (n + lenN ws) true, st', fold_left fadd (map fst out) a, fold_left addp out b).
Proof.
  induction ws as [|w ws IH]; intros Hne HF pre post n fuel st a b out st' Hf HS; [congruence|].
  apply Forall_cons_iff in HF. destruct HF as [Hw HF]. cbn [sentence word_ranges] in HS.
  apply bind_ok in HS. destruct HS as ([[x st1] o] & E1 & HS). apply bind_ok in HS. destruct HS as ([xs st2] & E2 & HS). injection HS as <- <-.
  destruct fuel as [|f]; [cbn in Hf; lia|]. cbn [score_line tl_eol]. unfold tl_next. cbn [tl_pos tl_words tl_eol].
  destruct ws as [|w2 ws].
  - cbn [join] in *. rewrite tl_seek_ok; [| assumption | rewrite !app_length; lia | right; reflexivity]. cbn [bind].
    change (10 =? 10) with true. cbv iota. rewrite E1. cbn [bind]. cbn [word_ranges sentence] in E2. injection E2 as <- <-.
    destruct f as [|f]; cbn [score_line tl_eol]; cbn [map fold_left fst snd addp]; unfold addp; cbn [fst snd]; rewrite lenN_cons, lenN_nil, N.add_0_r; reflexivity.
  - rewrite join_cons by discriminate. rewrite join_cons in E1, E2 by discriminate.
    assert (EB : pre ++ (w ++ 32 :: join (w2 :: ws)) ++ 10 :: post = pre ++ w ++ 32 :: (join (w2 :: ws) ++ 10 :: post)) by (rewrite <- !app_assoc; reflexivity).
    rewrite EB in *. rewrite tl_seek_ok; [| assumption | rewrite !app_length; lia | left; reflexivity]. cbn [bind].
    change (32 =? 10) with false. cbv iota. rewrite E1. cbn [bind].
    assert (EB' : (pre ++ w ++ [32]) ++ join (w2 :: ws) ++ 10 :: post = pre ++ w ++ 32 :: join (w2 :: ws) ++ 10 :: post) by (rewrite <- !app_assoc; reflexivity).
    assert (EL : lenN pre + lenN w + 1 = lenN (pre ++ w ++ [32])) by (rewrite !lenN_app, lenN_cons, lenN_nil; lia).
    rewrite EL in E2 |- *. rewrite <- EB' in E2 |- *. assert (LF : (length (w2 :: ws) <= f)%nat) by (cbn in *; lia).
    rewrite (IH ltac:(discriminate) HF (pre ++ w ++ [32]) post (n + 1) f st1 (fadd a x) (if o then fadd b x else b) xs st2 LF E2). cbn [map fold_left fst].
    match goal with |- Ok (mktl ?a ?b _, _, _, _) = Ok (mktl ?c ?d _, _, _, _) => replace a with c by (rewrite !lenN_app, !lenN_cons, lenN_nil; lia); replace b with d by (rewrite !lenN_cons; lia) end. reflexivity.
Qed.

Variable (Inv : pstate N -> Prop) (K : list (list N) -> list spec_float) (unknown : list N -> bool) (lines : list (list (list N))).
Hypothesis HS : forall pre post ws s, Inv s -> In ws lines -> corpus_bytes lines = pre ++ join ws ++ 10 :: post ->
  exists s1 out s2, ps_init s = Ok s1 /\ sentence (corpus_bytes lines) s1 (word_ranges (lenN pre) ws) = Ok (out, s2) /\ Inv s2 /\
    Forall2 feq (map fst out) (K ws) /\ map snd out = map unknown ws /\ ps_oovs s2 = lenN (filter unknown ws).
Hypothesis HL : corpus_ok lines.
Hypothesis HB : lenN (corpus_bytes lines) < 2 ^ 62.

Lemma addp_fold out : forall ks us b b', Forall2 feq (map fst out) ks -> map snd out = us -> feq b b' ->
  feq (fold_left addp out b) (fold_left fplus (select ks us) b').
Proof.
  induction out as [|[x o] out IH]; intros ks us b b' F2 E FE; inversion F2 as [|? k ? ks' FX F2']; subst; [exact FE|].
  cbn [map fold_left snd fst]. unfold addp at 2. cbn [fst snd]. unfold select. cbn [combine filter snd map fst]. destruct o.
  - cbn [map fst fold_left]. apply IH; [assumption|reflexivity|]. apply fadd_feq; assumption.
  - apply IH; [assumption|reflexivity|assumption].
Qed.

Lemma lines_ok rest : forall done pre t st tot fuel, lines = done ++ rest -> corpus_bytes lines = pre ++ corpus_bytes rest -> Inv st -> (length rest < fuel)%nat ->
  tl_pos t = lenN pre -> tl_words t = lenN (concat done) ->
  tt_oovs tot = lenN (filter unknown (concat done)) -> tt_sentences tot = lenN done ->
  feq (tt_prob tot) (fsum (map (fun ws => fsum (K ws)) done)) ->
  feq (tt_oov_prob tot) (fsum (concat (map (fun ws => select (K ws) (map unknown ws)) done))) ->
  exists t' st' tot', score_lines score fuel (corpus_bytes lines) t st tot = Ok (t', st', tot') /\ tl_words t' = lenN (concat lines) /\
    tt_oovs tot' = lenN (filter unknown (concat lines)) /\ tt_sentences tot' = lenN lines /\
    feq (tt_prob tot') (fsum (map (fun ws => fsum (K ws)) lines)) /\
    feq (tt_oov_prob tot') (fsum (concat (map (fun ws => select (K ws) (map unknown ws)) lines))).
Proof.
  induction rest as [|ws rest IH]; intros done pre t st tot fuel EL EB IV Hf T1 T2 O1 O2 P1 P2.
  - rewrite app_nil_r in EL. subst done. destruct fuel as [|f]; [lia|]. cbn [score_lines]. unfold tl_eof.
    assert (X : tl_pos t =? lenN (corpus_bytes lines) = true) by (apply N.eqb_eq; rewrite T1, EB, lenN_app; unfold corpus_bytes; cbn [map concat]; rewrite lenN_nil; lia).
    rewrite X. exists t, st, tot. auto 8.
  - destruct fuel as [|f]; [lia|]. cbn [score_lines]. unfold tl_eof.
    assert (ER : corpus_bytes (ws :: rest) = join ws ++ 10 :: corpus_bytes rest) by (unfold corpus_bytes; cbn [map concat]; rewrite <- app_assoc; reflexivity).
    rewrite ER in EB.
    assert (X : tl_pos t =? lenN (corpus_bytes lines) = false) by (apply N.eqb_neq; rewrite T1, EB, !lenN_app, lenN_cons; lia).
    rewrite X. clear X.
    assert (IW : In ws lines) by (rewrite EL; apply in_elt).
    destruct (HS pre (corpus_bytes rest) ws st IV IW EB) as (s1 & out & s2 & E1 & E2 & IV2 & F2 & EO & OO).
    rewrite E1. cbn [bind].
    assert (CW : ws <> [] /\ Forall (fun w => ~ In 32 w /\ ~ In 10 w) ws) by (unfold corpus_ok in HL; rewrite Forall_forall in HL; apply HL; exact IW).
    destruct CW as [NE FW].
    assert (NS : Forall no_sep ws) by (eapply Forall_impl; [|exact FW]; intros w [A B]; split; assumption).
    unfold tl_begin_line. rewrite T1.
    assert (LF : (length ws <= S (length (corpus_bytes lines)))%nat).
    { assert (Z : lenN ws <= lenN (join ws) + 1) by apply join_len. rewrite EB, !app_length. unfold lenN in Z. cbn [length]. lia. }
    assert (LK := line_ok ws NE NS pre (corpus_bytes rest) (tl_words t) (S (length (corpus_bytes lines))) s1 fzero (tt_oov_prob tot) out s2 LF).
    rewrite <- EB in LK. rewrite (LK E2). cbn [bind].
    destruct (corpus_len lines HL) as [B1 B2].
    assert (BF : lenN (filter unknown (concat lines)) <= lenN (concat lines)) by (apply filter_len).
    assert (EC : concat lines = concat done ++ ws ++ concat rest) by (rewrite EL, concat_app; reflexivity).
    assert (EN : lenN lines = lenN done + (1 + lenN rest)) by (rewrite EL, lenN_app, lenN_cons; reflexivity).
    assert (P62 : 2 ^ 62 < 2 ^ 64) by reflexivity.
    assert (CD : concat (done ++ [ws]) = concat done ++ ws) by (rewrite concat_app; cbn [concat]; rewrite app_nil_r; reflexivity).
    apply (IH (done ++ [ws]) (pre ++ join ws ++ [10])).
    + rewrite EL, <- app_assoc. reflexivity.
    + rewrite EB, <- !app_assoc. reflexivity.
    + exact IV2.
    + cbn in Hf. lia.
    + cbn [tl_pos]. rewrite !lenN_app, lenN_cons, lenN_nil. lia.
    + cbn [tl_words]. rewrite T2, CD, lenN_app. reflexivity.
    + cbn [tt_oovs]. rewrite O1, OO, CD, filter_app, lenN_app. apply add64_small.
      rewrite EC in BF at 1. rewrite !filter_app, !lenN_app in BF. lia.
    + cbn [tt_sentences]. rewrite O2, lenN_app, lenN_cons, lenN_nil. apply add64_small. lia.
    + cbn [tt_prob]. unfold fsum at 1. rewrite map_app, fold_left_app. cbn [map fold_left]. apply fadd_feq; [exact P1|]. apply fold_feq; [exact F2|apply feq_refl].
    + cbn [tt_oov_prob]. unfold fsum. rewrite map_app, concat_app, fold_left_app. cbn [map concat]. rewrite app_nil_r. apply addp_fold; [exact F2|exact EO|exact P2].
Qed.
Lemma gen_corpus st : Inv st -> exists tot, score_corpus score (corpus_bytes lines) st = Ok (tot, lenN (concat lines)) /\
    tt_oovs tot = lenN (filter unknown (concat lines)) /\ tt_sentences tot = lenN lines /\
    feq (tt_prob tot) (fsum (map (fun ws => fsum (K ws)) lines)) /\
    feq (tt_oov_prob tot) (fsum (concat (map (fun ws => select (K ws) (map unknown ws)) lines))).
Proof.
  intro IV. destruct (corpus_len lines HL) as [B1 B2].
  destruct (lines_ok lines [] [] tl_init st tot_init (S (length (corpus_bytes lines)))) as (t' & st' & tot' & E & T & R); try reflexivity; try assumption; try (left; reflexivity).
  - unfold lenN in *. lia.
  - exists tot'. unfold score_corpus. rewrite E. cbn [bind]. rewrite T. split; [reflexivity|exact R].
Qed.
End GEN.
