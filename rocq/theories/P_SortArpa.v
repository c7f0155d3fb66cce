From Coq Require Import Floats.SpecFloat.
From Verif Require Import Prelude BitFacts M_Word Spec M_Mph M_Text P_Text P_Text2 P_SeqColl M_Pool P_Pool Props_Pool M_Trie P_Trie1 P_Trie3 M_Score Spec_Trie Spec_Katz P_Score2 M_Quant M_MphProb M_TrieProb
  Spec_Arpa P_Values M_Sort Spec_Sort P_Sort P_Sort2 M_ArpaFile Spec_ArpaFile P_ArpaFile M_SortArpa Spec_SortArpa.
From Coq Require Import Sorting.Sorted Permutation.
Local Open Scope N_scope.

Notation ent := (list (list N) * (spec_float * spec_float))%type.

Section Lines.
Variable env : aenv.
Variable V : list (list N).
Variables k M : N.
Hypothesis VW : Forall vword V.
Hypothesis VL : lenN V < 2 ^ 64 - 1.
Hypothesis HK : 0 < k < 2 ^ 32.
Hypothesis HM : M < 2 ^ 63.
Hypothesis PR : prints (ae_sd env) (ae_fmt env).
Notation PH := (prob_handler env).
Notation rec_ok := (rec_ok (fun _ : spec_float * spec_float => True) V k M).

Lemma wline_printed (e : ent) : wline PH e = printed (ae_fmt env) e.
Proof. unfold wline, printed. cbn [h_format prob_handler]. destruct (snd (snd e)); reflexivity. Qed.
Lemma gram_no_tab g : vgram V k g -> ~ In 9 (join g).
Proof. intros (_ & F). apply join_no_tab. rewrite Forall_forall in VW. eapply Forall_impl; [|exact F]. intros w I. apply (VW w I). Qed.
Lemma prob_HP (r : ent) : rec_ok r ->
  exists br x, h_parse PH (wline PH r) = Ok (br, x) /\ holds_text (c_str (wline PH r)) br (join (fst r)) /\ lenN (c_str (wline PH r)) < 2 ^ 64.
Proof.
  intros (G & _ & L). rewrite wline_printed. destruct r as [g [p b]]. cbn [fst snd] in *.
  remember (match b with S754_zero _ => [] | b => 9 :: ae_fmt env b end) as rest eqn:ER. destruct (PR p) as (_ & Lp & Ep). destruct (PR b) as (_ & Lb & _).
  remember (ae_fmt env p ++ 9 :: join g ++ rest) as l eqn:EL0.
  assert (GL : printed (ae_fmt env) (g, (p, b)) = l) by (rewrite EL0, ER; unfold printed; cbn [fst snd]; destruct b; reflexivity). rewrite GL. clear GL.
  assert (E0 : snd (ae_sd env (l ++ [0]) 0) = lenN (ae_fmt env p)). { rewrite EL0. rewrite <- app_assoc. cbn [app]. apply Ep. }
  destruct (ae_sd env (l ++ [0]) 0) as [pv pe] eqn:ES. cbn [snd] in E0. subst pe.
  assert (AL : exists bo, arpa_line (ae_sd env) (g, (if SFltb (S754_zero false) pv then S754_zero false else pv, bo)) l).
  { assert (RC : rest = [] \/ exists t, rest = 9 :: t) by (rewrite ER; destruct b; eauto). destruct RC as [RC|(t & RC)].
    - exists (S754_zero false), (ae_fmt env p), rest, pv. cbn [fst snd]. split; [exact EL0|]. split; [exact ES|]. split; [reflexivity|]. left. auto.
    - exists (fst (ae_sd env (l ++ [0]) (lenN (ae_fmt env p) + 1 + lenN (join g)))), (ae_fmt env p), rest, pv. cbn [fst snd]. split; [exact EL0|]. split; [exact ES|]. split; [reflexivity|]. right. exists t. auto. }
  destruct AL as (bo & AL). cbn [h_parse prob_handler].
  pose proof AL as AL2. destruct AL2 as (num & rest' & p' & EL & EP & _).
  unfold parse_arpa_line. unfold c_str in *. rewrite ES. cbv beta iota zeta.
  assert (RL : lenN rest <= 1 + lenN (ae_fmt env b)) by (rewrite ER; destruct b; cbn [lenN]; rewrite ?lenN_cons; change (lenN (@nil N)) with 0; lia).
  assert (LL : lenN l = lenN (ae_fmt env p) + 1 + lenN (join g) + lenN rest) by (rewrite EL0; rewrite lenN_app, lenN_cons, lenN_app; lia).
  destruct (N.ltb_spec (lenN l) (lenN (ae_fmt env p) + 1)) as [Z|Z]; [lia|].
  assert (EQ : l ++ [0] = (ae_fmt env p ++ [9]) ++ join g ++ rest ++ [0]) by (rewrite EL0; rewrite <- !app_assoc; cbn; rewrite <- !app_assoc; reflexivity).
  assert (SK : seek_end (S (length (l ++ [0]))) (l ++ [0]) (lenN (ae_fmt env p) + 1) (lenN l) c_tab = Ok (lenN (ae_fmt env p) + 1 + lenN (join g))).
  { rewrite EQ. replace (lenN (ae_fmt env p) + 1) with (lenN (ae_fmt env p ++ [9])) by (rewrite lenN_app; reflexivity).
    rewrite (seek_end_ok c_tab (join g) (gram_no_tab g G) (ae_fmt env p ++ [9]) rest); [reflexivity| |].
    - rewrite !app_length. cbn. lia.
    - assert (RC : rest = [] \/ exists t, rest = 9 :: t) by (rewrite ER; destruct b; eauto). destruct RC as [RC|(t & RC)]; rewrite RC in *.
      + left. split; [reflexivity|]. rewrite LL, lenN_app. change (lenN [9]) with 1. change (lenN (@nil N)) with 0. lia.
      + right. split; [exists t; reflexivity|]. rewrite LL, lenN_cons, lenN_app. change (lenN [9]) with 1. lia. }
  rewrite SK. cbn [bind]. do 2 eexists. split; [reflexivity|]. cbn [r_gram]. split.
  - rewrite EQ. apply holds_mid; rewrite lenN_app; change (lenN [9]) with 1; lia.
  - rewrite lenN_app. change (lenN [0]) with 1. clear - LL RL Lp Lb L HM. assert (2 ^ 63 + 2 ^ 32 + 2 ^ 32 + 8 < 2 ^ 64) by reflexivity. lia.
Qed.

(** ** the lines of the input *)
Definition wl (e : ent) (l : list N) : Prop := arpa_line (ae_sd env) e l /\ ~ In 10 l.
Lemma wl_ne e l : wl e l -> l <> [].
Proof. intros ((num & rest & p & -> & _) & _). destruct num; discriminate. Qed.
(** the parser stands at the first of the lines of [es] *)
Definition cur (data : list N) (a : aps) (es : list ent) (post : list N) : Prop :=
  match es with
  | [] => True
  | e :: rest => exists ls, wl e (ap_line a) /\ Forall2 wl rest ls /\ st data a (text_of ls ++ post)
  end.
Lemma ap_append_ok (p : pool (spec_float * spec_float)) held (e : ent) a : pool_rep p M (map kv held) -> rec_ok e -> wl e (ap_line a) ->
  if gram_bytes (held ++ [e]) <=? M then exists p', ap_append env p a = Ok (true, p') /\ pool_rep p' M (map kv (held ++ [e]))
  else ap_append env p a = Ok (false, p).
Proof.
  intros R Q (W & _). unfold ap_append. destruct (parse_arpa_ok (ae_sd env) e (ap_line a) (gram_no_tab _ (proj1 Q)) W) as (r & E1 & E2 & E3 & E4). rewrite E1. cbn [bind]. rewrite E2, E3, E4.
  pose proof (join_ne V k M VW VL HK HM _ (proj1 Q)) as NE. rewrite gram_bytes_app, gram_bytes_one. replace (fst (snd e), snd (snd e)) with (snd e) by (destruct e as [? []]; reflexivity). destruct (N.leb_spec (gram_bytes held + lenN (join (fst e))) M) as [L|L].
  - destruct (pool_append_rep p M (map kv held) (join (fst e)) (snd e) R NE) as (p' & E & R'); [rewrite gram_bytes_concat; assumption|].
    exists p'. rewrite E. split; [reflexivity|]. rewrite map_app. exact R'.
  - pose proof R as (H1 & H2 & H3 & H4 & _). unfold pool_append. rewrite H1, H4, gram_bytes_concat.
    destruct (N.eqb_spec (lenN (join (fst e))) 0) as [Z|_]; [destruct (join (fst e)); [congruence|rewrite lenN_cons in Z; lia]|].
    destruct (N.ltb_spec M (gram_bytes held + lenN (join (fst e)))); [reflexivity|lia].
Qed.
Lemma fill_arpa_ok data post b : forall rest ls held p a n i fuel, pool_rep p M (map kv held) -> Forall rec_ok (b ++ rest) -> i + 1 + lenN (b ++ rest) = n -> n < 2 ^ 64 ->
  Forall2 wl (b ++ rest) ls -> st data a (text_of ls ++ post) ->
  (length (b ++ rest) <= fuel)%nat -> gram_bytes (held ++ b) <= M -> (forall r rest', rest = r :: rest' -> M < gram_bytes ((held ++ b) ++ [r])) ->
  exists p' a', fill_arpa fuel env n p a i = Ok (p', a', i + lenN b) /\ pool_rep p' M (map kv (held ++ b)) /\ cur data a' rest post.
Proof.
  induction b as [|r b IH]; intros rest ls held p a n i fuel R F HN HB FW SS Hf HG HR.
  - cbn [app] in *. rewrite app_nil_r in *. change (lenN (@nil ent)) with 0. rewrite N.add_0_r.
    destruct rest as [|r rest].
    + exists p, a. change (lenN (@nil ent)) with 0 in HN. destruct fuel; cbn [fill_arpa]; rewrite sub64_small by lia; (destruct (N.eqb_spec i (n - 1)) as [_|Z]; [|lia]); (split; [reflexivity|split; [assumption|exact I]]).
    + rewrite lenN_cons in HN. destruct fuel; [cbn [length] in Hf; lia|]. cbn [fill_arpa]. rewrite sub64_small by lia. destruct (N.eqb_spec i (n - 1)) as [Z|_]; [lia|].
      inversion FW as [|? l ? ls' W FW']; subst. rewrite text_of_cons in SS. destruct (read_line_ok data a l _ SS (proj2 W)) as (a1 & E1 & S1 & L1 & _). rewrite E1.
      pose proof (wl_ne _ _ W) as NE. destruct l as [|c l]; [congruence|]. cbv beta iota.
      inversion F as [|? ? Q F']; subst. rewrite <- L1 in W. pose proof (ap_append_ok p held r a1 R Q W) as X. specialize (HR r rest eq_refl).
      destruct (N.leb_spec (gram_bytes (held ++ [r])) M); [lia|]. rewrite X. cbn [bind]. exists p, a1. split; [reflexivity|]. split; [assumption|]. exists ls'. auto.
  - cbn [app] in *. rewrite lenN_cons in *. cbn [length] in Hf. destruct fuel as [|f]; [lia|]. cbn [fill_arpa]. rewrite sub64_small by lia.
    destruct (N.eqb_spec i (n - 1)) as [Z|_]; [lia|].
    inversion FW as [|? l ? ls' W FW']; subst. rewrite text_of_cons in SS. destruct (read_line_ok data a l _ SS (proj2 W)) as (a1 & E1 & S1 & L1 & _). rewrite E1.
    pose proof (wl_ne _ _ W) as NE. destruct l as [|c l]; [congruence|]. cbv beta iota.
    inversion F as [|? ? Q F']; subst. rewrite <- L1 in W. pose proof (ap_append_ok p held r a1 R Q W) as X. assert (G1 : gram_bytes (held ++ [r]) <= M).
    { replace (held ++ r :: b) with ((held ++ [r]) ++ b) in HG by (rewrite <- app_assoc; reflexivity). rewrite gram_bytes_app in HG. lia. }
    destruct (N.leb_spec (gram_bytes (held ++ [r])) M); [|lia]. destruct X as (p1 & E2 & R1). rewrite E2. cbn [bind]. rewrite add64_small by lia.
    destruct (IH rest ls' (held ++ [r]) p1 a1 (i + 1 + (1 + lenN (b ++ rest))) (i + 1) f) as (p2 & a2 & E3 & R2 & C2); try assumption.
    + lia. + lia. + rewrite <- app_assoc. exact HG. + intros x rest' E. rewrite <- (app_assoc held [r] b). apply (HR x rest' E).
    + exists p2, a2. rewrite E3. split; [replace (i + 1 + lenN b) with (i + (1 + lenN b)) by lia; reflexivity|]. rewrite <- app_assoc in R2. split; assumption.
Qed.
Variable look : list N -> byte_range -> res N.
Hypothesis ND : NoDup V.
Hypothesis LK : look_ok V look.
Variable srt : (@srec (spec_float * spec_float) -> @srec (spec_float * spec_float) -> res bool) -> list (@srec (spec_float * spec_float)) -> list (@srec (spec_float * spec_float)).
Hypothesis SRT : std_sort srt.
Notation sorted_recs := (sorted_recs (fun _ : spec_float * spec_float => True) V false k M).
Notation file_of := (file_of PH).

Lemma arpa_loop_ok data post rs bs : batches M rs bs -> forall i n fuel p a files out0, pool_rep p M [] -> Forall rec_ok rs -> i + lenN rs = n -> n < 2 ^ 64 ->
  cur data a rs post -> (0 < lenN rs -> 0 < i \/ (1 < length bs)%nat) -> (0 < n) -> (length bs <= fuel)%nat ->
  exists bs', Forall2 (fun b b' => Permutation b b' /\ sorted_recs b') (kept bs) bs' /\
    arpa_loop fuel env look srt n (mkso n files out0) p a i = Ok (mkso n (files ++ map (fun b => TmpFile (file_of b)) bs') out0).
Proof.
  induction 1 as [|b rest bs NE GB GR BA IH]; intros i n fuel p a files out0 R F HN HB CU HS HP Hf.
  - exists []. cbn [kept map]. split; [constructor|]. rewrite app_nil_r. change (lenN (@nil ent)) with 0 in HN. rewrite N.add_0_r in HN. subst i.
    destruct fuel; cbn [arpa_loop]; rewrite sub64_small by lia; (destruct (N.ltb_spec n (n - 1)) as [Z|_]; [lia|reflexivity]).
  - destruct b as [|r b]; [congruence|]. cbn [app] in *. rewrite lenN_cons in *. rewrite lenN_app in *.
    assert (RB : rest = [] <-> bs = []). { inversion BA as [|b2 rest2 bs2 NE2 ? ? ?]; subst; split; intros E; try reflexivity; try discriminate. destruct b2; [congruence|discriminate]. }
    destruct (N.ltb_spec i (sub64 n 1)) as [LT|GE].
    + assert (KP : kept ((r :: b) :: bs) = (r :: b) :: kept bs).
      { cbn [kept]. destruct bs; [|reflexivity]. assert (rest = []) by (apply RB; reflexivity). subst rest. destruct b; [|reflexivity]. exfalso. rewrite sub64_small in LT by lia. change (lenN (@nil ent)) with 0 in *. lia. }
      rewrite KP. destruct fuel as [|f]; [cbn [length] in Hf; lia|]. cbn [arpa_loop]. destruct (N.ltb_spec i (sub64 n 1)) as [_|Z]; [|lia].
      inversion F as [|? ? Q F']; subst. destruct CU as (ls & W & FW & SS). pose proof (ap_append_ok p [] r a R Q W) as X. cbn [app] in X. rewrite gram_bytes_one in X.
      destruct (N.leb_spec (lenN (join (fst r))) M); [|destruct Q as (_ & _ & Q); lia]. destruct X as (p1 & E1 & R1). rewrite E1. cbn [bind].
      set (n := i + (1 + (lenN b + lenN rest))) in *.
      destruct (fill_arpa_ok data post b rest ls [r] p1 a n i (N.to_nat n + S (S (length (is_data (ap_is a)))))) as (p2 & a2 & E2 & R2 & C2); try assumption; try lia.
      { rewrite lenN_app. lia. } { rewrite app_length. unfold n, lenN. lia. }
      rewrite E2. cbn [bind]. cbn [app] in R2. apply Forall_app in F'. destruct F' as [F1 F2].
      destruct (so_sort_ok PH (fun _ : spec_float * spec_float => True) V look false k M ND VW VL LK HK HM prob_HP srt SRT p2 (r :: b) (mkso n files out0) R2 ltac:(discriminate) ltac:(constructor; assumption)) as (b' & PB & SB & ES). cbn [so_n so_files so_out] in ES.
      rewrite lenN_cons in ES. destruct (N.eqb_spec (1 + lenN b) n) as [Z|_].
      { exfalso. destruct HS as [HS|HS]; [unfold n; lia|lia|]. cbn [length] in HS. destruct bs; [cbn in HS; lia|]. destruct rest as [|x rest]; [destruct RB as [RB _]; specialize (RB eq_refl); discriminate|]. unfold n in Z. rewrite lenN_cons in Z. lia. }
      rewrite ES. cbn [bind].
      destruct (IH (i + 1 + lenN b) n f (pool_clear p2) a2 (files ++ [TmpFile (file_of b')]) out0) as (bs' & FB & EB); try assumption; try lia.
      { eapply pool_clear_rep. exact R2. } { cbn [length] in Hf. lia. }
      exists (b' :: bs'). split; [constructor; [split; assumption|assumption]|].
      rewrite add64_small by lia. replace (i + lenN b + 1) with (i + 1 + lenN b) by lia. rewrite EB. cbn [map]. rewrite <- app_assoc. reflexivity.
    + rewrite sub64_small in GE by lia. assert (Z1 : lenN b = 0 /\ lenN rest = 0) by lia. destruct Z1 as [Z1 Z2].
      destruct b; [|rewrite lenN_cons in Z1; lia]. destruct rest; [|rewrite lenN_cons in Z2; lia]. assert (bs = []) by (apply RB; reflexivity). subst bs.
      exists []. split; [constructor|]. cbn [map]. rewrite app_nil_r. destruct fuel; cbn [arpa_loop]; rewrite sub64_small by lia; (destruct (N.ltb_spec i (n - 1)) as [Z|_]; [lia|rewrite ?app_nil_r; reflexivity]).
Qed.
Lemma arpa_one_ok data post b fuel p a out0 : pool_rep p M [] -> Forall rec_ok b -> 2 <= lenN b < 2 ^ 64 -> gram_bytes b <= M -> (1 <= fuel)%nat -> cur data a b post ->
  exists b', Permutation b b' /\ sorted_recs b' /\
    arpa_loop fuel env look srt (lenN b) (mkso (lenN b) [] out0) p a 0 = Ok (mkso (lenN b) [OutFile] (out0 ++ file_of b')).
Proof.
  intros R F HN GB Hf CU. destruct fuel as [|f]; [lia|]. destruct b as [|r b]; [change (lenN (@nil ent)) with 0 in HN; lia|].
  cbn [arpa_loop]. rewrite sub64_small by lia. destruct (N.ltb_spec 0 (lenN (r :: b) - 1)) as [_|Z]; [|lia].
  inversion F as [|? ? Q F']; subst. destruct CU as (ls & W & FW & SS). pose proof (ap_append_ok p [] r a R Q W) as X. cbn [app] in X. rewrite gram_bytes_one in X.
  destruct (N.leb_spec (lenN (join (fst r))) M); [|destruct Q as (_ & _ & Q); lia]. destruct X as (p1 & E1 & R1). rewrite E1. cbn [bind].
  rewrite lenN_cons in *.
  destruct (fill_arpa_ok data post b [] ls [r] p1 a (1 + lenN b) 0 (N.to_nat (1 + lenN b) + S (S (length (is_data (ap_is a)))))) as (p2 & a2 & E2 & R2 & C2); rewrite ?app_nil_r; try assumption; try lia.
  { unfold lenN. lia. } { intros ? ? Z. discriminate. }
  rewrite E2. cbn [bind app] in *.
  destruct (so_sort_ok PH (fun _ : spec_float * spec_float => True) V look false k M ND VW VL LK HK HM prob_HP srt SRT p2 (r :: b) (mkso (1 + lenN b) [] out0) R2 ltac:(discriminate) F) as (b' & PB & SB & ES). cbn [so_n so_files so_out] in ES. rewrite lenN_cons, N.eqb_refl in ES.
  rewrite ES. cbn [bind]. exists b'. split; [assumption|]. split; [assumption|]. rewrite add64_small by lia.
  destruct f; cbn [arpa_loop]; rewrite sub64_small by lia; (destruct (N.ltb_spec (0 + lenN b + 1) (1 + lenN b - 1)) as [Z|_]; [lia|reflexivity]).
Qed.
End Lines.

(** ** reaching the section *)
Lemma skip_lines_ok data : forall s fuel a post, (length s < fuel)%nat -> Forall (fun l => l <> [] /\ ~ In 10 l) s -> st data a (text_of s ++ 10 :: post) ->
  exists a', skip_lines fuel a = Ok a' /\ st data a' post.
Proof.
  induction s as [|l s IH]; intros fuel a post Hf F SS; (destruct fuel as [|f]; [cbn in Hf; lia|]); cbn [skip_lines].
  - destruct (read_line_ok data a [] post SS ltac:(intros [])) as (a' & E & S' & _). rewrite E. eauto.
  - rewrite text_of_cons in SS. destruct (Forall_inv F) as [NE NI]. destruct (read_line_ok data a l _ SS NI) as (a1 & E & S1 & _). rewrite E. destruct l as [|c l]; [congruence|].
    apply (IH f a1 post); [cbn [length] in Hf; lia|exact (Forall_inv_tail F)|exact S1].
Qed.
(** from the first line of the section of order [i] to the first line of the section of order [i + length pre] *)
Lemma skip_orders_ok data tail : forall pre i l0 s0 a sec rest, i + lenN pre < 2 ^ 64 ->
  Forall (fun s => s <> []) (pre ++ [sec]) -> Forall (Forall (fun l => l <> [] /\ ~ In 10 l)) (pre ++ [sec]) ->
  nthN (pre ++ [sec]) 0 = Some (l0 :: s0) -> ap_line a = l0 ->
  st data a (text_of s0 ++ 10 :: text_of (section_lines (i + 1) (tl (pre ++ [sec]) ++ rest) []) ++ tail) ->
  exists a' l s, skip_orders (length pre) a = Ok a' /\ sec = l :: s /\ ap_line a' = l /\
    st data a' (text_of s ++ 10 :: text_of (section_lines (i + lenN pre + 1) rest []) ++ tail).
Proof.
  induction pre as [|q pre IH]; intros i l0 s0 a sec rest HI NE F N0 EL SS.
  - cbn [length skip_orders app tl] in *. cbn in N0. injection N0 as ->. exists a, l0, s0. split; [reflexivity|]. split; [reflexivity|]. split; [exact EL|].
    change (lenN (@nil (list (list N)))) with 0. rewrite N.add_0_r. exact SS.
  - cbn [app tl] in *. cbn in N0. injection N0 as ->. cbn [length skip_orders]. rewrite lenN_cons in HI.
    pose proof (Forall_inv_tail (Forall_inv F)) as F0.
    destruct (skip_lines_ok data s0 (S (S (length (is_data (ap_is a))))) a (text_of (section_lines (i + 1) ((pre ++ [sec]) ++ rest) []) ++ tail)) as (a1 & E1 & S1); [|exact F0|exact SS|].
    { rewrite (st_data _ _ _ SS). pose proof (st_len _ _ _ SS) as LL. rewrite app_length in LL. pose proof (text_of_len s0). lia. }
    rewrite E1. cbn [bind]. destruct (pre ++ [sec]) as [|q2 more] eqn:EP; [destruct pre; discriminate|].
    cbn [app] in S1. rewrite sections_text in S1. destruct (title_ok (i + 1)) as (T1 & T2 & _); [lia|].
    destruct (read_line_ok data a1 (title (i + 1)) _ S1 T2) as (a2 & E2 & S2 & _). rewrite E2.
    pose proof (Forall_inv (Forall_inv_tail NE)) as NE2. destruct q2 as [|l1 s1]; [congruence|]. rewrite text_of_cons in S2.
    pose proof (Forall_inv (Forall_inv (Forall_inv_tail F))) as (_ & NI1).
    destruct (read_line_ok data a2 l1 _ S2 NI1) as (a3 & E3 & S3 & L3 & _). rewrite E3.
    destruct (IH (i + 1) l1 s1 a3 sec rest) as (a4 & l & s & E4 & ES & L4 & S4); rewrite ?EP.
    + lia. + exact (Forall_inv_tail NE). + exact (Forall_inv_tail F). + reflexivity. + exact L3.
    + cbn [tl]. replace (match more ++ rest with [] => O | _ :: _ => hd O [] end) with O in S3 by (destruct (more ++ rest); reflexivity). cbn [blanks repeat app] in S3. exact S3.
    + exists a4, l, s. split; [exact E4|]. split; [exact ES|]. split; [exact L4|].
      assert (EQ : i + lenN ((l0 :: s0) :: pre) + 1 = i + 1 + lenN pre + 1) by (rewrite lenN_cons; lia). rewrite EQ. exact S4.
Qed.
