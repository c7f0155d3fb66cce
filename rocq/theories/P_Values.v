(** * Reading the values of an ARPA file: lines, quantizers, unk probability *)
From Coq Require Import Floats.SpecFloat.
From Verif Require Import Prelude BitFacts M_Word P_Word M_Bits Spec P_Bits P_Builder M_CompactVector P_CompactVector
  M_HashVec M_Mph P_Mph P_MphTables M_Text P_Text P_Text2 M_Pool P_Pool M_Trie Spec_Trie P_Trie1 P_Trie3 P_Trie4 P_Trie5 M_SeqColl P_SeqColl
  M_Score Spec_Katz P_Score1 P_Score2 P_Score3 M_Quant P_Quant M_MphProb Spec_Arpa P_Sentence.
From Coq Require Import Permutation.

(** ** lines *)
Lemma parse_arpa_ok sd (e : gram * (spec_float * spec_float)) line : ~ In 9 (join (fst e)) -> arpa_line sd e line ->
  exists r, parse_arpa_line sd line = Ok r /\ prec_bytes line r = join (fst e) /\ r_prob r = fst (snd e) /\ r_backoff r = snd (snd e).
Proof.
  intros HT (num & rest & p & EL & EP & EPR & ER). unfold parse_arpa_line. unfold c_str.
  rewrite EP. cbv beta iota zeta. fold fzero. change (flt fzero p) with (SFltb (S754_zero false) p).
  assert (LL : lenN line = lenN num + 1 + lenN (join (fst e)) + lenN rest).
  { rewrite EL, lenN_app, lenN_cons, lenN_app. lia. }
  destruct (N.ltb_spec (lenN line) (lenN num + 1)) as [Z|Z]; [lia|].
  assert (SK : seek_end (S (length (line ++ [0]))) (line ++ [0]) (lenN num + 1) (lenN line) c_tab = Ok (lenN num + 1 + lenN (join (fst e)))).
  { replace (line ++ [0]) with ((num ++ [9]) ++ join (fst e) ++ rest ++ [0]) by (rewrite EL, <- !app_assoc; cbn; rewrite <- !app_assoc; reflexivity).
    replace (lenN num + 1) with (lenN (num ++ [9])) by (rewrite lenN_app; reflexivity).
    rewrite (seek_end_ok c_tab (join (fst e)) HT (num ++ [9]) rest); [reflexivity| |].
    - rewrite !app_length. cbn. lia.
    - destruct ER as [[-> _]|(t & -> & _)].
      + left. split; [reflexivity|]. rewrite LL, lenN_app. change (lenN [9]) with 1. change (lenN (@nil N)) with 0. lia.
      + right. split; [exists t; reflexivity|]. rewrite LL, lenN_cons, lenN_app. change (lenN [9]) with 1. lia. }
  rewrite SK. cbn [bind]. eexists. split; [reflexivity|]. unfold prec_bytes, c_str. cbn [r_gram r_prob r_backoff fst snd]. split; [|split].
  - replace (line ++ [0]) with ((num ++ [9]) ++ join (fst e) ++ rest ++ [0]) by (rewrite EL, <- !app_assoc; cbn; rewrite <- !app_assoc; reflexivity).
    replace (lenN num + 1) with (lenN (num ++ [9])) by (rewrite lenN_app; reflexivity).
    replace (lenN (num ++ [9]) + lenN (join (fst e)) - lenN (num ++ [9])) with (lenN (join (fst e))) by lia.
    unfold lenN. rewrite !Nat2N.id. rewrite skipn_app, skipn_all, Nat.sub_diag. cbn [skipn app]. rewrite firstn_app, Nat.sub_diag, firstn_all. apply app_nil_r.
  - rewrite EPR. reflexivity.
  - destruct ER as [[-> ->]|(t & -> & <-)].
    + destruct (N.eqb_spec (lenN num + 1 + lenN (join (fst e))) (lenN line)) as [|X]; [reflexivity|]. rewrite LL in X. change (lenN (@nil N)) with 0 in X. lia.
    + destruct (N.eqb_spec (lenN num + 1 + lenN (join (fst e))) (lenN line)) as [X|X]; [|reflexivity]. rewrite LL, lenN_cons in X. lia.
Qed.
Lemma push_w_holds vs w : 1 <= w <= 64 -> lenN vs * w + 64 < 2 ^ 64 -> Forall (fun v => v < 2 ^ w) vs ->
  exists b b', cvb_new (lenN vs) w = Ok b /\ foldM cvb_push_back vs b = Ok b' /\ cv_holds (cv_of_builder b') vs /\ c_width (cv_of_builder b') = w.
Proof.
  intros Hw Hn HF. destruct (cvb_new_ok (lenN vs) w ltac:(lia) Hn) as (b & E & R & C).
  destruct (cvb_pushes_ok vs b _ w 0 0 R C ltac:(lia) HF) as (b' & V' & E' & R' & C' & S').
  exists b, b'. split; [exact E|]. split; [exact E'|]. split; [|apply R'].
  exists w, V'. split; [apply cv_of_builder_rep; exact R'|]. intros i Hi. rewrite S'.
  destruct (N.leb_spec 0 i); [|lia]. destruct (N.ltb_spec i (0 + lenN vs)); [|lia].
  cbn [andb]. rewrite N.sub_0_r. destruct (nthN_Some vs i Hi) as (v & Ev). rewrite Ev. reflexivity.
Qed.

(** ** what reading the values needs *)
Definition nonzero_backoffs (l : list (gram * (spec_float * spec_float))) : list spec_float :=
  filter (fun b => negb (is_zero b)) (map (fun e => snd (snd e)) l).
Record value_inputs_ok (D : entries) (secs : list (list (list N))) (env : penv) (pq bq : N) : Prop := {
  vi_lines : Forall2 (Forall2 (arpa_line (pe_sd env))) D secs;
  vi_sort : forall l, Permutation (pe_sort env l) l;
  vi_pq : 2 <= pq <= 31 /\ forall k l, 1 <= k -> nthN D k = Some l -> 2 ^ pq <= lenN l;
  vi_bq : 2 <= bq <= 32 /\ forall k l, 1 <= k -> k + 1 < lenN D -> nthN D k = Some l -> nonzero_backoffs l = [] \/ 2 ^ bq <= lenN (nonzero_backoffs l) }.

Section Values.
Variable D : entries.
Variable secs : list (list (list N)).
Variable env : penv.
Variables pq bq : N.
Hypothesis AF : arpa_file D.
Hypothesis VI : value_inputs_ok D secs env pq bq.

Lemma level_no_tab k l e : nthN D k = Some l -> In e l -> ~ In 9 (join (fst e)) /\ join (fst e) <> [].
Proof.
  intros Hl He. destruct (af_words _ AF k l e Hl He) as (LG & FW). split.
  - apply join_no_tab. eapply Forall_impl; [|exact FW]. intros ? [_ ?]. assumption.
  - intro Z. assert (J : 0 < lenN (join (fst e))).
    { apply join_nonempty; [intro X; rewrite X in LG; change (lenN (@nil (list N))) with 0 in LG; lia|eapply Forall_impl; [|exact FW]; intros ? [? _]; assumption]. }
    rewrite Z in J. revert J. apply N.nlt_0_r.
Qed.
Lemma level_lines k l : nthN D k = Some l -> exists ls, nthN secs k = Some ls /\ Forall2 (arpa_line (pe_sd env)) l ls.
Proof.
  intro Hl. pose proof (vi_lines _ _ _ _ _ VI) as F2. destruct (nthN_Some secs k) as (ls & Hs).
  { apply nthN_lt in Hl. apply Forall2_len in F2. unfold lenN in *. lia. }
  exists ls. split; [exact Hs|]. eapply Forall2_nthN; eauto.
Qed.
Lemma lenN_secs : lenN secs = lenN D.
Proof. pose proof (Forall2_len _ _ _ (vi_lines _ _ _ _ _ VI)). unfold lenN. lia. Qed.

(** reading a section *)
Lemma read_values_ok k l ls ord : nthN D k = Some l -> Forall2 (arpa_line (pe_sd env)) l ls -> ord <> 1 ->
  read_values (pe_sd env) ord ls = Ok (map (fun e => fst (snd e)) l, nonzero_backoffs l).
Proof.
  intros Hl F2 Ho. unfold read_values, nonzero_backoffs.
  assert (G : forall l0 ls0, Forall2 (arpa_line (pe_sd env)) l0 ls0 -> incl l0 l -> forall ps bs,
    foldM (fun pb x => r <- parse_arpa_line (pe_sd env) x ;; Ok (fst pb ++ [r_prob r], if (ord =? 1) || ftrue (r_backoff r) then snd pb ++ [r_backoff r] else snd pb)) ls0 (ps, bs)
    = Ok (ps ++ map (fun e => fst (snd e)) l0, bs ++ filter (fun b => negb (is_zero b)) (map (fun e => snd (snd e)) l0))).
  { intros l0 ls0 H. induction H as [|e x l0 ls0 He H IH]; intros I ps bs.
    - cbn. rewrite !app_nil_r. reflexivity.
    - cbn [foldM map filter]. destruct (parse_arpa_ok (pe_sd env) e x) as (r & E & _ & P1 & P2); [eapply level_no_tab; eauto; apply I; left; reflexivity|exact He|].
      rewrite E. cbn [bind fst snd]. rewrite P1, P2. destruct (N.eqb_spec ord 1); [contradiction|]. cbn [orb]. rewrite ftrue_zero.
      rewrite IH by (intros y Hy; apply I; right; exact Hy). rewrite <- !app_assoc. destruct (is_zero (snd (snd e))); cbn [negb]; rewrite <- ?app_assoc; reflexivity. }
  apply (G l ls F2 (incl_refl _) [] []).
Qed.
Lemma read_values_uni ls l ord : nthN D 0 = Some l -> Forall2 (arpa_line (pe_sd env)) l ls -> exists x, read_values (pe_sd env) ord ls = Ok x.
Proof.
  intros Hl F2. unfold read_values.
  assert (G : forall l0 ls0, Forall2 (arpa_line (pe_sd env)) l0 ls0 -> incl l0 l -> forall pb, exists x,
    foldM (fun pb x => r <- parse_arpa_line (pe_sd env) x ;; Ok (fst pb ++ [r_prob r], if (ord =? 1) || ftrue (r_backoff r) then snd pb ++ [r_backoff r] else snd pb)) ls0 pb = Ok x).
  { intros l0 ls0 H. induction H as [|e x l0 ls0 He H IH]; intros I pb.
    - eexists. reflexivity.
    - cbn [foldM]. destruct (parse_arpa_ok (pe_sd env) e x) as (r & E & _); [eapply level_no_tab; eauto; apply I; left; reflexivity|exact He|].
      rewrite E. cbn [bind]. apply IH. intros y Hy. apply I. right. exact Hy. }
  apply (G l ls F2 (incl_refl _)).
Qed.

(** the quantizers: [j] orders above 1 done *)
Definition vinv (ord : N) (bs : qsc * qsc) : Prop :=
  lenN (q_seqs (fst bs)) = ord - 1 /\ q_bits (fst bs) = repN pq (ord - 1) /\ Forall (fun cs => lenN cs = 2 ^ pq) (q_seqs (fst bs)) /\
  lenN (q_seqs (snd bs)) = N.min ord (lenN D - 1) - 1 /\ Forall (fun cs => lenN cs = 2 ^ bq /\ exists t, cs = fzero :: t) (q_seqs (snd bs)).
Lemma perm_len {A} (l l' : list A) : Permutation l l' -> lenN l = lenN l'.
Proof. intro H. apply Permutation_length in H. unfold lenN. lia. Qed.
Lemma values_ok : exists bs, mp_values env secs (lenN D) pq bq = Ok bs /\ vinv (lenN D) bs.
Proof.
  pose proof (af_order _ AF) as HO. unfold mp_values.
  assert (G : forall m ord bs, ord + N.of_nat m = lenN D -> vinv ord bs ->
    exists bs', foldM (fun (bs : qsc * qsc) ord =>
           lines <- rd secs (ord - 1) ;;
           ' (probs, backoffs) <- read_values (pe_sd env) ord lines ;;
           if ord =? 1 then Ok bs else
           pb <- build_probs (fst bs) (pe_sort env probs) pq ;;
           bb <- (if ord =? lenN D then Ok (snd bs) else build_backoffs (snd bs) (pe_sort env backoffs) bq) ;;
           Ok (pb, bb)) (seqN (ord + 1) m) bs = Ok bs' /\ vinv (lenN D) bs').
  { induction m as [|m IH]; intros ord bs Hm VN.
    - exists bs. split; [reflexivity|]. replace (lenN D) with ord by lia. exact VN.
    - cbn [seqN foldM]. replace (ord + 1 - 1) with ord by lia.
      destruct (nthN_Some D ord ltac:(lia)) as (l & Hl). destruct (level_lines ord l Hl) as (ls & Hs & F2).
      rewrite (proj2 (rd_nthN _ _ _) Hs). cbn [bind]. destruct (N.eqb_spec (ord + 1) 1) as [Z|Z].
      + assert (ord = 0) by lia. subst ord. destruct (read_values_uni ls l (0 + 1) Hl F2) as ([a b] & E). rewrite E. cbn [bind].
        replace (N.succ (0 + 1)) with (1 + 1) by reflexivity. apply IH; [lia|].
        destruct VN as (V1 & V2 & V3 & V4 & V5). split; [rewrite V1; reflexivity|]. split; [rewrite V2; reflexivity|]. split; [exact V3|]. split; [rewrite V4; lia|exact V5].
      + rewrite (read_values_ok ord l ls (ord + 1) Hl F2 Z). cbn [bind].
        destruct (vi_pq _ _ _ _ _ VI) as [P1 P2]. destruct (vi_bq _ _ _ _ _ VI) as [Q1 Q2]. pose proof (vi_sort _ _ _ _ _ VI) as PS.
        destruct VN as (V1 & V2 & V3 & V4 & V5).
        destruct (build_probs_ok (fst bs) (pe_sort env (map (fun e => fst (snd e)) l)) pq P1) as (cs & E & L).
        { right. rewrite (perm_len _ _ (PS _)), lenN_map. apply (P2 ord l); [lia|exact Hl]. }
        rewrite E. cbn [bind].
        assert (VP : lenN (q_seqs (fst bs) ++ [cs]) = ord + 1 - 1 /\ q_bits (fst bs) ++ [pq] = repN pq (ord + 1 - 1) /\ Forall (fun cs => lenN cs = 2 ^ pq) (q_seqs (fst bs) ++ [cs])).
        { split; [rewrite lenN_app, V1; change (lenN [cs]) with 1; lia|]. split.
          - rewrite V2. unfold repN. replace (N.to_nat (ord + 1 - 1)) with (N.to_nat (ord - 1) + 1)%nat by lia. rewrite repeat_app. reflexivity.
          - apply Forall_app. split; [exact V3|]. constructor; [exact L|constructor]. }
        destruct (N.eqb_spec (ord + 1) (lenN D)) as [Y|Y].
        * cbn [bind]. replace (N.succ (ord + 1)) with (ord + 1 + 1) by lia. apply IH; [lia|].
          destruct VP as (W1 & W2 & W3). split; [exact W1|]. split; [exact W2|]. split; [exact W3|]. cbn [snd]. split; [rewrite V4; lia|exact V5].
        * destruct (build_backoffs_ok (snd bs) (pe_sort env (nonzero_backoffs l)) bq Q1) as (ds & E' & L').
          { destruct (Q2 ord l ltac:(lia) ltac:(lia) Hl) as [X|X].
            - left. rewrite X. pose proof (PS []) as X'. apply Permutation_sym, Permutation_nil in X'. exact X'.
            - right. rewrite (perm_len _ _ (PS _)). exact X. }
          rewrite E'. cbn [bind]. replace (N.succ (ord + 1)) with (ord + 1 + 1) by lia. apply IH; [lia|].
          destruct VP as (W1 & W2 & W3). split; [exact W1|]. split; [exact W2|]. split; [exact W3|]. cbn [snd q_seqs].
          split; [rewrite lenN_app, V4; change (lenN [fzero :: ds]) with 1; lia|]. apply Forall_app. split; [exact V5|]. constructor; [|constructor]. split; [exact L'|eauto]. }
  apply (G (N.to_nat (lenN D)) 0); [lia|]. split; [reflexivity|]. split; [reflexivity|]. split; [constructor|]. split; [|constructor].
  change (lenN (q_seqs (snd (qsc_empty, qsc_empty)))) with 0. lia.
Qed.

Definition uni_value (e : gram * (spec_float * spec_float)) : N := pack (f_bits (fst (snd e))) (f_bits (snd (snd e))).
(** a table above the vocabulary *)
Definition value_ok (pb bb : qsc) (k : N) (e : gram * (spec_float * spec_float)) (v : N) : Prop :=
  exists pr, q_rank pb (k - 1) (fst (snd e)) 0 = Ok pr /\ pr < 2 ^ pq /\
    (if k + 1 =? lenN D then v = pr else
     exists br, q_rank bb (k - 1) (snd (snd e)) 1 = Ok br /\ br < 2 ^ bq /\ v = N.lor pr (N.shiftl br pq)).
Lemma tab_width : 2 <= pq <= 31 /\ 2 <= bq <= 32.
Proof. split; [apply (vi_pq _ _ _ _ _ VI)|apply (vi_bq _ _ _ _ _ VI)]. Qed.
Lemma lor_shift_lt a b : a < 2 ^ pq -> b < 2 ^ bq -> N.lor a (N.shiftl b pq) < 2 ^ (pq + bq).
Proof.
  intros HA HB. apply lor_lt.
  - eapply N.lt_le_trans; [exact HA|]. apply N.pow_le_mono_r; lia.
  - rewrite N.shiftl_mul_pow2, N.mul_comm, N.pow_add_r. apply N.mul_lt_mono_pos_l; [apply pow2_pos|exact HB].
Qed.
Lemma values_exist pb bb k l : vinv (lenN D) (pb, bb) -> 1 <= k -> nthN D k = Some l ->
  exists vs, Forall2 (value_ok pb bb k) l vs /\ Forall (fun v => v < 2 ^ (pq + if k + 1 =? lenN D then 0 else bq)) vs.
Proof.
  intros (V1 & _ & V3 & V4 & V5) Hk Hl. cbn [fst snd] in *. pose proof (nthN_lt _ _ _ Hl) as LK. pose proof tab_width as [TP TB].
  destruct (nthN_Some (q_seqs pb) (k - 1) ltac:(lia)) as (dp & Hp).
  assert (LP : lenN dp = 2 ^ pq) by (rewrite Forall_forall in V3; apply V3; eapply nthN_In; exact Hp).
  assert (P2 : 4 <= 2 ^ pq) by (change 4 with (2 ^ 2); apply N.pow_le_mono_r; lia).
  assert (B2 : 4 <= 2 ^ bq) by (change 4 with (2 ^ 2); apply N.pow_le_mono_r; lia).
  assert (G : forall e, exists v, value_ok pb bb k e v /\ v < 2 ^ (pq + if k + 1 =? lenN D then 0 else bq)).
  { intros e. destruct (q_rank_ok pb (k - 1) (fst (snd e)) 0 dp Hp ltac:(lia) ltac:(lia)) as (pr & E1 & L1 & _). rewrite LP in L1.
    unfold value_ok. destruct (N.eqb_spec (k + 1) (lenN D)) as [Y|Y].
    - exists pr. rewrite N.add_0_r. split; [|exact L1]. exists pr. auto.
    - destruct (nthN_Some (q_seqs bb) (k - 1) ltac:(lia)) as (db & Hb).
      assert (LB : lenN db = 2 ^ bq) by (rewrite Forall_forall in V5; apply V5; eapply nthN_In; exact Hb).
      destruct (q_rank_ok bb (k - 1) (snd (snd e)) 1 db Hb ltac:(lia) ltac:(lia)) as (br & E2 & L2 & _). rewrite LB in L2.
      exists (N.lor pr (N.shiftl br pq)). split; [|apply lor_shift_lt; assumption]. exists pr. split; [exact E1|]. split; [exact L1|]. exists br. auto. }
  clear - G. induction l as [|e l (vs & I1 & I2)]; [exists []; split; constructor|].
  destruct (G e) as (v & A & B). exists (v :: vs). split; constructor; assumption.
Qed.
(** the unk probability *)
Lemma set_unk_ok l ls unk : nthN D 0 = Some l -> Forall2 (arpa_line (pe_sd env)) l ls -> set_unk env ls unk = Ok (unk_prob D unk).
Proof.
  intros Hl F2. unfold set_unk, unk_prob, entry. change (lenN [[60; 117; 110; 107; 62]] - 1) with 0. rewrite Hl. fold default_unk.
  change [60; 117; 110; 107; 62] with unk_word.
  assert (ND : NoDup (map fst l)). { pose proof (af_distinct _ AF 0) as X. unfold grams, level in X. rewrite Hl in X. exact X. }
  assert (G : forall l0 ls0, Forall2 (arpa_line (pe_sd env)) l0 ls0 -> incl l0 l -> NoDup (map fst l0) -> forall u,
    foldM (fun u l => r <- parse_arpa_line (pe_sd env) l ;;
                    Ok (if (if list_eq_dec N.eq_dec (prec_bytes l r) unk_word then true else false) && feqb u default_unk
                        then r_prob r else u)) ls0 u
    = Ok (if SFeqb u default_unk then match option_map snd (find (fun e : gram * (spec_float * spec_float) => if gram_dec (fst e) [unk_word] then true else false) l0) with Some (p, _) => p | None => u end else u)).
  { intros l0 ls0 H. induction H as [|e x l0 ls0 He H IH]; intros I N0 u.
    - cbn. destruct (SFeqb u default_unk); reflexivity.
    - cbn [foldM find]. cbn [map] in N0. inversion N0 as [|? ? N1 N2]; subst. assert (Hin : In e l) by (apply I; left; reflexivity).
      destruct (parse_arpa_ok (pe_sd env) e x) as (r & E & P0 & P1 & P2); [eapply level_no_tab; eauto|exact He|].
      rewrite E. cbn [bind]. rewrite P0, P1. rewrite IH; [|intros y Hy; apply I; right; exact Hy|exact N2].
      assert (QQ : (if list_eq_dec N.eq_dec (join (fst e)) unk_word then true else false) = if gram_dec (fst e) [unk_word] then true else false).
      { destruct (af_words _ AF 0 l e Hl Hin) as (LG & _). destruct (fst e) as [|w [|w2 g]]; [discriminate LG| |].
        - cbn [join]. destruct (list_eq_dec N.eq_dec w unk_word) as [Q|Q]; destruct (gram_dec [w] [unk_word]) as [Q'|Q']; auto; congruence.
        - rewrite !lenN_cons in LG. lia. }
      rewrite QQ. destruct (gram_dec (fst e) [unk_word]) as [Q|Q]; cbn [andb].
      + change (feqb u default_unk) with (SFeqb u default_unk). destruct (SFeqb u default_unk) eqn:EU.
        * assert (FN : find (fun e : gram * (spec_float * spec_float) => if gram_dec (fst e) [unk_word] then true else false) l0 = None).
          { clear - N1 Q. destruct (find _ l0) as [e'|] eqn:FN; [|reflexivity]. apply find_some in FN. destruct FN as [F1 F2].
            destruct (gram_dec (fst e') [unk_word]) as [Q'|]; [|discriminate]. exfalso. apply N1. rewrite Q, <- Q'. apply in_map. exact F1. }
          rewrite FN. cbn [option_map]. destruct (snd e) as [pe be]. cbn [fst]. destruct (SFeqb pe default_unk); reflexivity.
        * rewrite EU. reflexivity.
      + destruct (SFeqb u default_unk); reflexivity. }
  apply (G l ls F2 (incl_refl _) ND).
Qed.

End Values.
