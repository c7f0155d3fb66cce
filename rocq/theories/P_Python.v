(** * Proofs about the Python bindings *)
From Coq Require Import String Floats.SpecFloat ZArith.
From Verif Require Import Prelude BitFacts M_Word Spec P_Bits M_Text P_Text P_Text2 M_Trie Spec_Trie P_Trie3 M_Score Spec_Katz P_Score2 M_Quant M_MphProb Spec_Arpa M_TrieProb M_ScoreCorpus Spec_Corpus P_ScoreCorpus
  M_Save P_Save Spec_Save M_SavePef M_Pef M_TriePef P_TrieBridge M_GramFile Spec_GramFile M_Header M_Programs Spec_Programs P_Programs Props_Trie Props_Save M_Save2 M_Python Spec_Python.
Local Open Scope N_scope.

Lemma utf8_bytes c b : In b (utf8 c) -> b = c /\ c < 128 \/ 128 <= b.
Proof.
  unfold utf8. destruct (N.ltb_spec c 128); [intros [<-|[]]; left; split; [reflexivity|assumption]|].
  destruct (c <? 2048); [|destruct (c <? 65536)]; cbn [In]; intros H0; right; repeat (destruct H0 as [<-|H0]; [lia|]); destruct H0.
Qed.
Lemma utf8_ne c : utf8 c <> [].
Proof. unfold utf8. destruct (c <? 128), (c <? 2048), (c <? 65536); discriminate. Qed.
Lemma encode_ascii w : ascii w -> encode w = w.
Proof.
  intros A. unfold encode. induction A as [|c w H _ IH]; [reflexivity|]. cbn [map concat]. rewrite IH. unfold utf8. destruct (N.ltb_spec c 128); [reflexivity|lia].
Qed.
Lemma encode_app a b : encode (a ++ b) = encode a ++ encode b.
Proof. unfold encode. rewrite map_app, concat_app. reflexivity. Qed.
Lemma encode_bytes w b : In b (encode w) -> b < 128 -> In b w.
Proof.
  unfold encode. intros H L. apply in_concat in H. destruct H as (l & H1 & H2). apply in_map_iff in H1. destruct H1 as (c & <- & H1).
  apply utf8_bytes in H2. destruct H2 as [[-> _]|H2]; [assumption|lia].
Qed.
Lemma encode_join : forall ws, encode (join ws) = join (map encode ws).
Proof.
  induction ws as [|w [|w2 ws] IH]; [reflexivity|reflexivity|]. rewrite (join_cons w) by discriminate. change (map encode (w :: w2 :: ws)) with (encode w :: map encode (w2 :: ws)).
  rewrite (join_cons (encode w) (map encode (w2 :: ws))) by (cbn [map]; discriminate). rewrite encode_app. change (32 :: join (w2 :: ws)) with ([32] ++ join (w2 :: ws)). rewrite encode_app, IH. reflexivity.
Qed.
Lemma py_word_bytes w : py_word w -> word (encode w) /\ ~ In 10 (encode w).
Proof.
  intros [NE F]. rewrite Forall_forall in F. split; [split|].
  - destruct w as [|c w]; [congruence|]. unfold encode. cbn [map concat]. pose proof (utf8_ne c). destruct (utf8 c); [congruence|discriminate].
  - intros H. apply encode_bytes in H; [|lia]. apply F in H. tauto.
  - intros H. apply encode_bytes in H; [|lia]. apply F in H. tauto.
Qed.
Lemma arg_s_join ws : Forall py_word ws -> arg_s (join ws) = Ok (join (map encode ws)).
Proof.
  intros F. unfold arg_s. assert (H : forallb (fun c => negb (c =? 0) && negb (surrogate c)) (join ws) = true); [|rewrite H, encode_join; reflexivity].
  apply forallb_forall. intros c I.
  assert (K : c = 32 \/ exists w, In w ws /\ In c w) by (apply join_bytes; exact I).
  destruct K as [->|(w & Hw & Hc)]; [reflexivity|]. rewrite Forall_forall in F. destruct (F w Hw) as [_ F2]. rewrite Forall_forall in F2. specialize (F2 c Hc). unfold surrogate.
  destruct (N.eqb_spec c 0); [tauto|]. destruct (N.leb_spec 0xD800 c), (N.leb_spec c 0xDFFF); try reflexivity. exfalso. apply F2. lia.
Qed.
Lemma ascii_join ws : Forall ascii ws -> ascii (join ws).
Proof.
  intros F. apply Forall_forall. intros c I. apply join_bytes in I. destruct I as [->|(w & Hw & Hc)]; [reflexivity|]. rewrite Forall_forall in F. pose proof (F w Hw) as A. unfold ascii in A. rewrite Forall_forall in A. auto.
Qed.

(** ** what build_trie writes *)
Lemma built_file x env D remap a d : collection D remap -> no_newlines D -> holds_counts d D -> asks a false (lenN D) remap R_IC ->
  let e := instance env (false, negb (remap =? 0), R_IC) in inputs_ok D remap (pe_t e) -> forall t, trie_build (pe_t e) (map (map line) D) (lenN D) remap = Ok t ->
  exists h, h < 2 ^ 8 /\ bh_parse h = type_name false remap R_IC /\
    build_trie_count x env a d = Ok (Wrote (out_name (ta_out a) (type_name false remap R_IC)) (save_file h (save_trie x IC) t)).
Proof.
  intros C NN HD (A1 & A2 & A3 & A4 & A5) e IO t ET.
  pose proof (col_order _ _ C) as CO. pose proof (col_remap _ _ C) as CR. pose proof (inputs_env _ _ _ IO) as EO.
  assert (SZ : forall k l, nthN D k = Some l -> l <> [] /\ lenN l < 2 ^ 64). { intros k l Hl. destruct (col_size _ _ C _ _ Hl) as [S1 S2]. split; [exact S1|lia]. }
  assert (CT : forall k l e, nthN D k = Some l -> In e l -> snd e < 2 ^ 64 - 1).
  { intros k l e0 Hl He. pose proof (io_counts _ _ _ IO) as F. pose proof (Forall_nthN _ _ _ _ F Hl) as F2. rewrite Forall_forall in F2. exact (F2 e0 He). }
  assert (PL : forall k l e, nthN D k = Some l -> In e l -> parse_count_line (line e) = Ok ((0, lenN (join (fst e))), snd e)) by (intros k l e0; exact (P_Trie3.parse_line D remap C _ EO k l e0)).
  destruct (trie_header false remap R_IC CR) as (h & H1 & H2 & H3 & H4 & H5).
  assert (U8 : u8 (lenN D) = lenN D). { unfold u8. change 255 with (N.ones 8). rewrite N.land_ones. apply N.mod_small. lia. }
  assert (U8R : u8 remap = remap). { unfold u8. change 255 with (N.ones 8). rewrite N.land_ones. apply N.mod_small. lia. }
  exists h. split; [exact H2|]. split; [exact H3|].
  unfold build_trie_count, accepted_order, check_order. rewrite A1, A2, A3, U8.
  destruct (N.ltb_spec (lenN D) 2); [lia|]. destruct (N.ltb_spec 8 (lenN D)); [lia|]. cbn [bind].
  change (structure_name false) with "ef_trie"%string. change (String.eqb "ef_trie" "ef_trie") with true. cbv iota. cbn [bind].
  assert (RM : match ta_remap a with Some r => _ <- check_remapping_order r ;; Ok r | None => Ok 0 end = Ok remap).
  { destruct A4 as [->|(-> & ->)]; [|reflexivity]. unfold check_remapping_order. rewrite U8R. destruct (N.ltb_spec 2 remap); [lia|reflexivity]. }
  rewrite RM. cbn [bind].
  assert (RK : match ta_ranks a with Some r => if String.eqb r "IC" then 0 else if String.eqb r "PSEF" then 1 else if String.eqb r "PSPEF" then 2 else 0 | None => 0 end = 0).
  { destruct A5 as [->|(-> & _)]; reflexivity. }
  rewrite RK. change (bh_get (mkbh (Some 1) (Some 0) (Some remap) None (Some 0)) = Ok h) in H1. rewrite H1. cbn [bind]. rewrite H3, H4. rewrite (dir_lines_ok D d HD NN SZ CT PL). cbn [bind]. rewrite U8R.
  fold e. rewrite (ptrie_build_emb e eq_refl eq_refl), ET. cbn [bind]. unfold save_file. rewrite (save_emb e eq_refl eq_refl). reflexivity.
Qed.
Lemma py_load_ok {A} (load : list N -> res (A * list N)) (h : N) f m n : file_header f = Ok h -> load_file load f = Ok (m, n) -> py_load load f = Ok m.
Proof. intros H L. unfold py_load. rewrite H. cbn [bind]. rewrite L. reflexivity. Qed.

(** ** scoring *)
Lemma words_ok env m ws : Forall no_sep ws -> (ws = [] \/ last ws [] <> []) -> forall pre post fuel st out st' s n,
  (length (join ws) + 1 < fuel)%nat -> n + lenN ws < 2 ^ 64 ->
  sentence (tp_score (py_tpenv env) m) (pre ++ join ws ++ post) st (word_ranges (lenN pre) ws) = Ok (out, st') ->
  py_words fuel env m (pre ++ join ws ++ post) (lenN pre, lenN pre + lenN (join ws)) st s n = Ok (fold_left fadd (map fst out) s, n + lenN ws).
Proof.
  induction ws as [|w ws IH]; intros HF Hlast pre post fuel st out st' s n Hf Hn HS.
  - destruct fuel as [|f]; [lia|]. cbn [sentence word_ranges] in HS. injection HS as <- <-. cbn [join py_words]. rewrite !lenN_nil, !N.add_0_r. unfold fwd_has_next. cbn [fst snd]. rewrite N.ltb_irrefl. reflexivity.
  - destruct Hlast as [|Hlast]; [discriminate|]. apply Forall_cons_iff in HF. destruct HF as [Hw HF]. cbn [sentence word_ranges] in HS.
    apply bind_ok in HS. destruct HS as ([[x st1] o] & E1 & HS). apply bind_ok in HS. destruct HS as ([xs st2] & E2 & HS). injection HS as <- <-.
    rewrite lenN_cons in Hn. destruct fuel as [|f]; [lia|]. destruct ws as [|w2 ws].
    + cbn [join last] in *. assert (Hpos : 0 < lenN w) by (destruct w; [congruence|rewrite lenN_cons; lia]).
      cbn [py_words]. unfold fwd_has_next. cbn [fst snd]. destruct (N.ltb_spec (lenN pre) (lenN pre + lenN w)); [|lia]. cbn [negb].
      unfold fwd_next. cbn [fst snd]. rewrite fwd_seek_ok; [| assumption | rewrite !app_length; lia | lia | lia]. cbn [bind]. cbv beta iota. rewrite E1. cbn [bind]. cbv beta iota.
      cbn [word_ranges sentence] in E2. injection E2 as <- <-. destruct f as [|f]; [lia|]. cbn [py_words]. unfold fwd_has_next. cbn [fst snd].
      destruct (N.ltb_spec (lenN pre + lenN w + 1) (lenN pre + lenN w)); [lia|]. cbn [negb map fold_left fst]. rewrite lenN_cons, lenN_nil. rewrite add64_small by lia. reflexivity.
    + rewrite join_cons in * by discriminate. rewrite lenN_app, lenN_cons. rewrite app_length in Hf. cbn [length] in Hf.
      cbn [py_words]. unfold fwd_has_next. cbn [fst snd].
      destruct (N.ltb_spec (lenN pre) (lenN pre + (lenN w + (1 + lenN (join (w2 :: ws)))))); [|lia]. cbn [negb].
      unfold fwd_next. cbn [fst snd].
      assert (EB : pre ++ (w ++ 32 :: join (w2 :: ws)) ++ post = pre ++ w ++ (32 :: join (w2 :: ws) ++ post)) by (rewrite <- !app_assoc; reflexivity). rewrite EB in *.
      rewrite fwd_seek_ok; [| assumption | rewrite !app_length; lia | lia | intros _; eexists _, _; split; [reflexivity|left; reflexivity]]. cbn [bind]. cbv beta iota. rewrite E1. cbn [bind]. cbv beta iota.
      assert (EB' : (pre ++ w ++ [32]) ++ join (w2 :: ws) ++ post = pre ++ w ++ 32 :: join (w2 :: ws) ++ post) by (rewrite <- !app_assoc; reflexivity).
      assert (EL : lenN (pre ++ w ++ [32]) = lenN pre + lenN w + 1) by (rewrite !lenN_app, lenN_cons, lenN_nil; lia).
      rewrite <- EB' in E2 |- *. rewrite <- EL in E2.
      pose proof (IH HF (or_intror Hlast) (pre ++ w ++ [32]) post f st1 xs st2 (fadd s x) (add64 n 1) ltac:(lia)) as G. rewrite add64_small in G |- * by lia. specialize (G ltac:(lia) E2). rewrite EL in G.
      replace (lenN pre + (lenN w + (1 + lenN (join (w2 :: ws))))) with (lenN pre + lenN w + 1 + lenN (join (w2 :: ws))) by lia. rewrite G. cbn [map fold_left fst]. rewrite !lenN_cons. do 2 f_equal. lia.
Qed.
(** the corpus: the totals of the program score without those of the unknown words *)
Lemma py_line_ok env m buf : forall fuel t st sent oovp, py_line fuel env m buf t st sent = (' (t, st, sent, _) <- score_line (tp_score (py_tpenv env) m) fuel buf t st sent oovp ;; Ok (t, st, sent)).
Proof.
  induction fuel as [|f IH]; intros t st sent oovp; cbn [py_line score_line]; (destruct (tl_eol t); [reflexivity|]); [reflexivity|].
  destruct (tl_next buf t) as [[w t1]| |]; cbn [bind]; cbv beta iota; [|reflexivity|reflexivity].
  destruct (tp_score (py_tpenv env) m buf st w) as [[[x st1] o]| |]; cbn [bind]; cbv beta iota; [|reflexivity|reflexivity]. apply IH.
Qed.
Lemma py_corpus_ok env m buf : py_score_corpus env m buf = (' (tot, n) <- tp_corpus (py_tpenv env) m buf ;; Ok (tt_prob tot, n)).
Proof.
  unfold py_score_corpus, tp_corpus, score_corpus. destruct (tp_state m) as [st| |]; cbn [bind]; [|reflexivity|reflexivity].
  change fzero with (tt_prob tot_init). generalize tot_init. generalize tl_init. revert st. generalize (S (length buf)). intros fuel. induction fuel as [|f IH]; intros st t tot; cbn [py_lines score_lines].
  - destruct (tl_eof buf t); reflexivity.
  - destruct (tl_eof buf t); [reflexivity|]. destruct (ps_init st) as [s| |]; cbn [bind]; [|reflexivity|reflexivity].
    rewrite (py_line_ok env m buf _ _ _ _ (tt_oov_prob tot)). destruct (score_line (tp_score (py_tpenv env) m) (S (length buf)) buf (tl_begin_line t) s fzero (tt_oov_prob tot)) as [[[[t1 s1] sent] oo]| |]; cbn [bind]; cbv beta iota; [|reflexivity|reflexivity].
    rewrite <- IH. reflexivity.
Qed.
