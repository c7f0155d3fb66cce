From Verif Require Import Prelude BitFacts M_Word P_Word M_Bits Spec P_Bits P_Builder M_CompactVector P_CompactVector
  M_HashVec M_Mph P_Mph P_MphTables M_Text P_Text P_Text2 P_SeqColl M_Pool P_Pool Props_Pool M_Trie P_Trie1 P_Trie3 P_Trie5 Props_MphCount M_Sort Spec_Sort P_Sort.
From Coq Require Import Sorting.Sorted Permutation.

Definition kv {A} (r : list (list N) * A) : list N * A := (join (fst r), snd r).
Lemma gram_bytes_concat {A} (rs : list (list (list N) * A)) : lenN (concat (map fst (map kv rs))) = gram_bytes rs.
Proof. unfold gram_bytes. induction rs as [|r rs IH]; [reflexivity|]. cbn [map concat fst kv]. rewrite lenN_app, IH. reflexivity. Qed.
Lemma sumN_app a b : sumN (a ++ b) = sumN a + sumN b.
Proof. induction a as [|x a IH]; [reflexivity|]. cbn [app sumN fold_right]. change (fold_right N.add 0 (a ++ b)) with (sumN (a ++ b)). rewrite IH. unfold sumN. lia. Qed.
Lemma gram_bytes_app {A} (a b : list (list (list N) * A)) : gram_bytes (a ++ b) = gram_bytes a + gram_bytes b.
Proof. unfold gram_bytes. rewrite map_app. apply sumN_app. Qed.
Lemma gram_bytes_one {A} (r : list (list N) * A) : gram_bytes [r] = lenN (join (fst r)). Proof. unfold gram_bytes, sumN. cbn. lia. Qed.

(** ** the vocabulary *)
Record sort_env_ok (env : senv) (vocab : list (list N * N)) : Prop := {
  sv_words : Forall (fun e => vword (fst e) /\ snd e < 2 ^ 64) vocab;
  sv_size : 0 < lenN vocab < 2 ^ 31;
  sv_room : sumN (map (fun e => lenN (fst e)) vocab) <= se_vram env;
  sv_order : valid_order (hash_domain (lenN vocab)) (se_h env) (map fst vocab) (se_order env) }.
Definition vocab_lines (vocab : list (list N * N)) : list (list N) := map (fun e => format_count_line (fst e) (snd e)) vocab.

Lemma combine_range {A} (l : list A) i w : nthN l i = Some w -> In (w, i) (combine l (range (lenN l))).
Proof.
  intros H. apply (nthN_In _ i). pose proof (nthN_lt _ _ _ H). rewrite nthN_combine, H, nthN_range by assumption. reflexivity.
Qed.
Lemma sort_vocabulary_ok env vocab : sort_env_ok env vocab ->
  exists v, sort_vocabulary env (vocab_lines vocab) = Ok v /\ NoDup (map fst vocab) /\ look_ok (map fst vocab) (vlook (se_h env) v).
Proof.
  intros [SW SS SR SO]. unfold sort_vocabulary, pool_load.
  destruct (pool_load_lines_ok vocab (pool_clear (pool_new (se_vram env))) (se_vram env) []) as (p & EP & RP).
  { eapply pool_clear_rep. apply pool_new_rep. }
  { eapply Forall_impl; [|exact SW]. intros [w c] ((A & B & C & D) & E). auto. }
  { cbn [app]. rewrite bytes_of_concat. exact SR. }
  unfold vocab_lines. rewrite EP. cbn [bind app] in *. pose proof RP as (_ & _ & _ & _ & _ & LX & _). rewrite LX.
  assert (RECS : mapM (pool_record p) (range (lenN vocab)) = Ok vocab).
  { rewrite (mapM_range (pool_record p) (fun x => x) vocab); [rewrite map_id; reflexivity|]. intros i [g a] H. eapply pool_record_ok; eauto. }
  rewrite RECS. cbn [bind].
  assert (LR : lenN (range (lenN vocab)) = lenN vocab) by apply lenN_range.
  destruct (cv_push_holds (range (lenN vocab)) (lenN vocab)) as (b & b' & E1 & E2 & E3).
  { rewrite LR. lia. } { lia. } { apply Forall_forall. intros x Hx. unfold range in Hx. apply In_seqN in Hx. lia. }
  rewrite LR in E1. rewrite E1. cbn [bind]. rewrite E2. cbn [bind].
  assert (LM : lenN (map fst vocab) = lenN vocab) by apply lenN_map.
  assert (CW : c_width (cv_of_builder b') <= 32).
  { unfold cv_of_builder. cbn [c_width]. rewrite (foldM_push_width _ _ _ E2). unfold cvb_new in E1. destruct (64 <? _); [discriminate|]. injection E1 as <-. cbn [cb_width].
    rewrite add64_small by lia. unfold cv_width. destruct (N.eqb_spec (ceil_log2 (lenN vocab + 1)) 0); [lia|]. apply ceil_log2_spec. change (2 ^ 32) with (2 * 2 ^ 31). lia. }
  destruct (svt_build_ok 64 (se_h env) (hash_domain (lenN vocab)) (se_order env) (map fst vocab) (cv_of_builder b') (range (lenN vocab))) as (v & EV & RV).
  { unfold hash_domain. assert (2 <= (lenN vocab * 123 + 99) / 100); [apply N.div_le_lower_bound; lia|]. apply N.div_str_pos. lia. }
  { assumption. } { assumption. } { rewrite <- LM in LR. apply Nat2N.inj. change (lenN (map fst vocab) = lenN (range (lenN vocab))). rewrite lenN_range. assumption. } { left; reflexivity. }
  { rewrite LM. change (2 ^ 64) with (2 ^ 31 * 2 ^ 33). nia. } { rewrite LM. change (2 ^ 64) with (2 ^ 31 * 2 ^ 33). nia. }
  exists v. split; [exact EV|]. split.
  - destruct RV as (_ & _ & _ & pos & _ & PP & _). apply NoDup_map_inv with (f := pos).
    eapply Permutation_NoDup; [apply Permutation_sym, PP|apply NoDup_range].
  - intros buf r w i T H. unfold vlook. rewrite (bytes_at_ok _ _ _ T). cbn [bind]. eapply svt_lookup_in; [exact RV|].
    rewrite <- LM. apply combine_range. assumption.
Qed.

(** ** merging *)
Section Merge.
Context {A : Type}.
Variable LH : handler A.
Variable pay_ok : A -> Prop.
Variable V : list (list N).
Variable look : list N -> byte_range -> res N.
Variable fwd : bool.
Variable k M : N.
Hypothesis ND : NoDup V.
Hypothesis VW : Forall vword V.
Hypothesis VL : lenN V < 2 ^ 64 - 1.
Hypothesis LK : look_ok V look.
Hypothesis HK : 0 < k < 2 ^ 32.
Hypothesis HM : M < 2 ^ 63.
Definition wline (r : list (list N) * A) : list N := h_format LH (join (fst r)) (snd r).
Definition rec_ok (r : list (list N) * A) : Prop := vgram V k (fst r) /\ pay_ok (snd r) /\ lenN (join (fst r)) <= M.
(** a line that was written is read back: its gram at least *)
Hypothesis HP : forall r, rec_ok r -> exists br x, h_parse LH (wline r) = Ok (br, x) /\ holds_text (c_str (wline r)) br (join (fst r)) /\ lenN (c_str (wline r)) < 2 ^ 64.
Definition le (a b : list (list N) * A) : Prop := fst a = fst b \/ before_from fwd V (fst a) (fst b).
Lemma le_trans a b c : le a b -> le b c -> le a c.
Proof.
  intros [E1|H1] [E2|H2]; unfold le.
  - left. congruence. - right. rewrite E1. assumption. - right. rewrite <- E2. assumption. - right. eapply bfrom_trans; eauto.
Qed.
Lemma not_before_le a b : rec_ok a -> rec_ok b -> ~ before_from fwd V (fst a) (fst b) -> le b a.
Proof. intros (Ha & _) (Hb & _) N. destruct (bfrom_total V ND fwd k _ _ Ha Hb) as [E|[H|H]]; [left; congruence|contradiction|right; assumption]. Qed.
Lemma join_ne g : vgram V k g -> join g <> [].
Proof.
  intros [L F] Z. assert (0 < lenN (join g)).
  { apply join_nonempty; [intros ->; change (lenN (@nil (list N))) with 0 in L; lia|]. rewrite Forall_forall in VW. eapply Forall_impl; [|exact F]. intros w I. destruct (VW w I) as (? & ? & _). split; assumption. }
  rewrite Z in H. change (lenN (@nil N)) with 0 in H. lia.
Qed.
Lemma cmp_lines_ok a b : rec_ok a -> rec_ok b -> exists c, cmp_lines LH fwd look (wline a) (wline b) = Ok c /\ (c = true <-> before_from fwd V (fst a) (fst b)).
Proof.
  intros Ha Hb. unfold cmp_lines. destruct (HP a Ha) as (r1 & x1 & E1 & A1 & A2). destruct (HP b Hb) as (r2 & x2 & E2 & B1 & B2). rewrite E1, E2. cbn [bind].
  eapply comparator_ok; eauto; [apply Ha|apply Hb].
Qed.
Lemma merge_loop_ok fuel : forall a r1 b r2, (length r1 + length r2 < fuel)%nat ->
  Forall rec_ok (a :: r1) -> Forall rec_ok (b :: r2) -> StronglySorted le (a :: r1) -> StronglySorted le (b :: r2) ->
  exists out, merge_loop LH fwd look fuel (wline a) (map wline r1) (wline b) (map wline r2) = Ok (map wline out) /\
    Permutation ((a :: r1) ++ (b :: r2)) out /\ StronglySorted le out.
Proof.
  induction fuel as [|f IH]; intros a r1 b r2 Hf F1 F2 S1 S2; [lia|].
  inversion F1 as [|? ? Ha F1']; inversion F2 as [|? ? Hb F2']; subst.
  inversion S1 as [|? ? S1' L1]; inversion S2 as [|? ? S2' L2]; subst.
  cbn [merge_loop]. destruct (cmp_lines_ok a b Ha Hb) as (c & E & C). rewrite E. cbn [bind]. destruct c.
  - assert (AB : le a b) by (right; apply C; reflexivity). destruct r1 as [|x r1]; cbn [map].
    + exists (a :: b :: r2). split; [reflexivity|]. split; [apply Permutation_refl|]. constructor; [assumption|]. constructor; [assumption|].
      eapply Forall_impl; [|exact L2]. intros x Hx. eapply le_trans; eauto.
    + cbn [length] in Hf. destruct (IH x r1 b r2 ltac:(lia) F1' F2 S1' S2) as (out & E2 & P & S). rewrite E2. cbn [bind].
      exists (a :: out). split; [reflexivity|]. split; [cbn [app]; constructor; exact P|]. constructor; [assumption|].
      apply Forall_forall. intros y Hy. apply (Permutation_in _ (Permutation_sym P)) in Hy. apply in_app_or in Hy. rewrite Forall_forall in L1, L2.
      destruct Hy as [Hy|[<-|Hy]]; [apply L1; assumption|assumption|]. eapply le_trans; [exact AB|apply L2; assumption].
  - assert (BA : le b a). { apply not_before_le; [assumption|assumption|]. intros Z. apply C in Z. discriminate. } destruct r2 as [|x r2]; cbn [map].
    + exists (b :: a :: r1). split; [reflexivity|]. split.
      { cbn [app]. apply Permutation_sym. change (b :: a :: r1) with ([b] ++ (a :: r1)). change (a :: r1 ++ [b]) with ((a :: r1) ++ [b]). apply Permutation_app_comm. }
      constructor; [assumption|]. constructor; [assumption|]. eapply Forall_impl; [|exact L1]. intros x Hx. eapply le_trans; eauto.
    + cbn [length] in Hf. destruct (IH a r1 x r2 ltac:(lia) F1 F2' S1 S2') as (out & E2 & P & S). rewrite E2. cbn [bind].
      exists (b :: out). split; [reflexivity|]. split.
      { eapply Permutation_trans; [apply Permutation_sym, Permutation_middle|]. constructor. exact P. }
      constructor; [assumption|]. apply Forall_forall. intros y Hy. apply (Permutation_in _ (Permutation_sym P)) in Hy. apply in_app_or in Hy. rewrite Forall_forall in L1, L2.
      destruct Hy as [[<-|Hy]|Hy]; [assumption| |apply L2; assumption]. eapply le_trans; [exact BA|apply L1; assumption].
Qed.
(** a file holding the records [rs] in order *)
Definition file_of (rs : list (list (list N) * A)) : list (list N) := if h_counts LH then to_string (lenN rs) :: map wline rs else map wline rs.
Definition sorted_recs (rs : list (list (list N) * A)) : Prop := rs <> [] /\ Forall rec_ok rs /\ StronglySorted le rs.
Lemma head_count_ok (rs : list (list (list N) * A)) : lenN rs < 2 ^ 64 -> head_count (to_string (lenN rs) :: map wline rs) = Ok (lenN rs, map wline rs).
Proof.
  intros L. cbn [head_count]. destruct (to_string_ok (lenN rs) L) as (V1 & V2 & V3). unfold c_str.
  pose proof (strtoull_ok [] (to_string (lenN rs)) 0 [] V2 V3 eq_refl ltac:(rewrite V1; assumption)) as S. cbn [app] in S. change (lenN (@nil N)) with 0 in S. rewrite S. cbn [bind]. rewrite V1. reflexivity.
Qed.
Lemma merge_bodies_ok rs1 rs2 : sorted_recs rs1 -> sorted_recs rs2 ->
  exists out, merge_bodies LH fwd look (map wline rs1) (map wline rs2) = Ok (map wline out) /\ Permutation (rs1 ++ rs2) out /\ sorted_recs out.
Proof.
  intros (N1 & F1 & S1) (N2 & F2 & S2). destruct rs1 as [|a r1]; [congruence|]. destruct rs2 as [|b r2]; [congruence|].
  destruct (merge_loop_ok (length (map wline (a :: r1)) + length (map wline (b :: r2))) a r1 b r2) as (out & E & P & S).
  { cbn [map length]. rewrite !map_length. lia. } { assumption. } { assumption. } { assumption. } { assumption. }
  cbn [map] in E |- *. unfold merge_bodies. rewrite E. exists out. split; [reflexivity|]. split; [assumption|]. split.
  - intros ->. apply Permutation_sym, Permutation_nil in P. discriminate.
  - split; [|assumption]. eapply Permutation_Forall; [exact P|]. apply Forall_app. split; assumption.
Qed.
Lemma merge_ok rs1 rs2 : sorted_recs rs1 -> sorted_recs rs2 -> lenN rs1 + lenN rs2 < 2 ^ 64 ->
  exists out, merge LH fwd look (file_of rs1) (file_of rs2) = Ok (file_of out) /\ Permutation (rs1 ++ rs2) out /\ sorted_recs out.
Proof.
  intros S1 S2 L. destruct (merge_bodies_ok rs1 rs2 S1 S2) as (out & E & P & S). exists out. split; [|split; assumption].
  unfold merge, file_of. destruct (h_counts LH); [|exact E]. rewrite !head_count_ok by lia. cbn [bind]. rewrite add64_small by lia.
  destruct (N.eqb_spec (lenN rs1 + lenN rs2) 0) as [Z|Z]; [destruct S1 as (N1 & _); destruct rs1; [congruence|rewrite lenN_cons in Z; lia]|].
  rewrite E. cbn [bind]. f_equal. f_equal. f_equal. rewrite <- lenN_app. unfold lenN. rewrite (Permutation_length P). reflexivity.
Qed.
Lemma lenN_perm {B} (l l' : list B) : Permutation l l' -> lenN l = lenN l'.
Proof. intros P. unfold lenN. rewrite (Permutation_length P). reflexivity. Qed.
Lemma merge_batches_ok fuel : forall rss n out0, (length rss <= fuel)%nat -> (2 <= length rss)%nat -> Forall sorted_recs rss -> lenN (concat rss) < 2 ^ 64 ->
  exists rs, merge_batches LH fwd look fuel (mkso n (map (fun rs => TmpFile (file_of rs)) rss) out0) = Ok (mkso n [OutFile] (out0 ++ file_of rs)) /\
    Permutation (concat rss) rs /\ sorted_recs rs.
Proof.
  induction fuel as [|f IH]; intros rss n out0 Hf H2 HS HL; [lia|].
  destruct rss as [|r1 [|r2 rest]]; [cbn in H2; lia|cbn in H2; lia|].
  inversion HS as [|? ? Ha HS1]; inversion HS1 as [|? ? Hb HS2]; subst. cbn [concat] in HL. rewrite !lenN_app in HL.
  cbn [merge_batches so_files map]. destruct (merge_ok r1 r2 Ha Hb ltac:(lia)) as (o & E & P & S). rewrite E. cbn [bind].
  destruct rest as [|r3 rest].
  - cbn [map so_n so_out]. exists o. split; [|split; [|assumption]].
    + destruct f; reflexivity.
    + cbn [concat]. rewrite app_nil_r. exact P.
  - cbn [map]. cbn [so_n so_out].
    destruct (IH ((r3 :: rest) ++ [o]) n out0) as (rs & E2 & P2 & S2).
    + rewrite app_length. cbn [length] in *. lia.
    + rewrite app_length. cbn [length]. lia.
    + apply Forall_app. split; [assumption|constructor; [assumption|constructor]].
    + rewrite concat_app, lenN_app. cbn [concat]. rewrite app_nil_r, <- (lenN_perm _ _ P), lenN_app. cbn [concat] in HL |- *. rewrite !lenN_app in *. lia.
    + rewrite map_app in E2. cbn [map app] in E2 |- *. rewrite E2. exists rs. split; [reflexivity|]. split; [|assumption].
      eapply Permutation_trans; [|exact P2]. rewrite concat_app. cbn [concat]. rewrite app_nil_r. eapply Permutation_trans; [|apply Permutation_app_comm].
      rewrite app_assoc. apply Permutation_app_tail. assumption.
Qed.

(** ** a batch *)
Variable srt : (@srec A -> @srec A -> res bool) -> list (@srec A) -> list (@srec A).
Hypothesis SRT : std_sort srt.
Definition idx_rel (data : list N) (e : @srec A) (r : list (list N) * A) : Prop := holds_text data (fst e) (join (fst r)) /\ snd e = snd r.
Lemma pool_idx_rel (p : pool A) b : pool_rep p M (map kv b) -> Forall2 (idx_rel (p_data p)) (p_index p) b.
Proof.
  intros (_ & _ & _ & _ & _ & LX & G). rewrite lenN_map in LX. assert (G2 : forall i r, nthN b i = Some r -> exists e, nthN (p_index p) i = Some e /\ idx_rel (p_data p) e r).
  { intros i r H. destruct (G i (join (fst r)) (snd r)) as (pre & post & E & X); [rewrite nthN_map, H; reflexivity|]. eexists. split; [exact X|]. split; [|reflexivity].
    cbn [fst]. rewrite E. apply holds_mid; reflexivity. }
  clear G. revert LX G2. generalize (p_index p) as l, (p_data p) as d. clear. intros l d. revert b. induction l as [|e l IH]; intros b L G.
  - destruct b; [apply Forall2_nil|rewrite lenN_cons in L; unfold lenN in L; cbn [length] in L; lia].
  - destruct b as [|r b]; [rewrite lenN_cons in L; unfold lenN in L; cbn [length] in L; lia|]. rewrite !lenN_cons in L. apply Forall2_cons.
    + destruct (G 0 r eq_refl) as (e' & H & R). cbn in H. injection H as <-. exact R.
    + apply IH; [lia|]. intros i r' H. destruct (G (i + 1) r') as (e' & H' & R); [rewrite nthN_tl; assumption|]. rewrite nthN_tl in H'. eauto.
Qed.
Lemma Forall2_in_l {B C} (R : B -> C -> Prop) l m a : Forall2 R l m -> In a l -> exists b, In b m /\ R a b.
Proof. induction 1 as [|x y l m H F IH]; intros I; [destruct I|]. destruct I as [<-|I]; [exists y; split; [left; reflexivity|assumption]|]. destruct (IH I) as (b & J & Q). exists b. split; [right; assumption|assumption]. Qed.
Lemma so_sort_ok p b s : pool_rep p M (map kv b) -> b <> [] -> Forall rec_ok b ->
  exists b', Permutation b b' /\ sorted_recs b' /\
    so_sort LH fwd look srt s p = Ok (if lenN b =? so_n s then mkso (so_n s) (so_files s ++ [OutFile]) (so_out s ++ file_of b')
                                   else mkso (so_n s) (so_files s ++ [TmpFile (file_of b')]) (so_out s)).
Proof.
  intros R NE F. pose proof (pool_idx_rel p b R) as X. pose proof R as (_ & _ & MV & DT & LD & LX & _). rewrite lenN_map in LX.
  assert (DB : lenN (p_data p) < 2 ^ 64) by (assert (2 ^ 63 < 2 ^ 64) by reflexivity; lia).
  set (cmp := fun x y : @srec A => comparator fwd look (p_data p) (fst x) (p_data p) (fst y)).
  assert (C : forall e f r q, In r b -> In q b -> idx_rel (p_data p) e r -> idx_rel (p_data p) f q -> exists c, cmp e f = Ok c /\ (c = true <-> before_from fwd V (fst r) (fst q))).
  { intros e f r q I1 I2 [T1 _] [T2 _]. unfold cmp. rewrite Forall_forall in F. eapply comparator_ok; eauto; [apply (F r I1)|apply (F q I2)]. }
  assert (CT : forall e f r q, In r b -> In q b -> idx_rel (p_data p) e r -> idx_rel (p_data p) f q -> (cmp e f = Ok true <-> before_from fwd V (fst r) (fst q)) /\ (cmp e f = Ok false <-> ~ before_from fwd V (fst r) (fst q))).
  { intros e f r q I1 I2 T1 T2. destruct (C e f r q I1 I2 T1 T2) as (c & -> & [H1 H2]). destruct c; split; split; intros Z; try discriminate; try reflexivity; auto.
    - exfalso. apply Z. auto. - exfalso. specialize (H2 Z). discriminate. - intros Q. specialize (H2 Q). discriminate. }
  assert (SW : strict_weak cmp (p_index p)).
  { split; [|split; [|split]].
    - intros x y I1 I2. destruct (Forall2_in_l _ _ _ _ X I1) as (r & J1 & Q1). destruct (Forall2_in_l _ _ _ _ X I2) as (q & J2 & Q2). destruct (C _ _ _ _ J1 J2 Q1 Q2) as (c & E & _). eauto.
    - intros x I1. destruct (Forall2_in_l _ _ _ _ X I1) as (r & J1 & Q1). apply (CT _ _ _ _ J1 J1 Q1 Q1). apply bfrom_irrefl. assumption.
    - intros x y z I1 I2 I3. destruct (Forall2_in_l _ _ _ _ X I1) as (r & J1 & Q1). destruct (Forall2_in_l _ _ _ _ X I2) as (q & J2 & Q2). destruct (Forall2_in_l _ _ _ _ X I3) as (t & J3 & Q3).
      intros H1 H2. apply (CT _ _ _ _ J1 J2 Q1 Q2) in H1. apply (CT _ _ _ _ J2 J3 Q2 Q3) in H2. apply (CT _ _ _ _ J1 J3 Q1 Q3). eapply bfrom_trans; eauto.
    - intros x y z I1 I2 I3. destruct (Forall2_in_l _ _ _ _ X I1) as (r & J1 & Q1). destruct (Forall2_in_l _ _ _ _ X I2) as (q & J2 & Q2). destruct (Forall2_in_l _ _ _ _ X I3) as (t & J3 & Q3).
      intros H1 H2 H3 H4. apply (CT _ _ _ _ J1 J2 Q1 Q2) in H1. apply (CT _ _ _ _ J2 J1 Q2 Q1) in H2. apply (CT _ _ _ _ J2 J3 Q2 Q3) in H3. apply (CT _ _ _ _ J3 J2 Q3 Q2) in H4.
      rewrite Forall_forall in F. destruct (bfrom_total V ND fwd k (fst r) (fst q)) as [E1|[?|?]]; [apply (F r J1)|apply (F q J2)| |contradiction|contradiction].
      destruct (bfrom_total V ND fwd k (fst q) (fst t)) as [E2|[?|?]]; [apply (F q J2)|apply (F t J3)| |contradiction|contradiction].
      split; [apply (CT _ _ _ _ J1 J3 Q1 Q3)|apply (CT _ _ _ _ J3 J1 Q3 Q1)]; rewrite E1, E2; apply bfrom_irrefl; assumption. }
  destruct (SRT cmp (p_index p) SW) as [P S]. destruct (Permutation_Forall2 P X) as (b' & PB & X').
  assert (FB : Forall rec_ok b') by (eapply Permutation_Forall; eauto).
  exists b'. split; [assumption|]. split.
  - split; [intros ->; apply Permutation_sym, Permutation_nil in PB; congruence|]. split; [assumption|].
    assert (IN : forall r, In r b' -> In r b) by (intros r; apply Permutation_in; apply Permutation_sym; assumption).
    clear - S X' CT IN FB ND. revert S IN FB. induction X' as [|e r l m H X IH]; intros S IN FB; [constructor|]. inversion S as [|? ? S' L]; inversion FB as [|? ? Q FB']; subst. constructor; [apply IH; auto; intros; apply IN; right; assumption|].
    apply Forall_forall. intros q Iq. assert (exists f, In f l /\ idx_rel (p_data p) f q) as (f & If & Qf).
    { clear - X Iq. induction X as [|x y l m H X IH]; [destruct Iq|]. destruct Iq as [<-|Iq]; [exists x; split; [left; reflexivity|assumption]|]. destruct (IH Iq) as (f & ? & ?). exists f. split; [right; assumption|assumption]. }
    rewrite Forall_forall in L. specialize (L f If). apply (CT f e q r) in L; auto; [|apply IN; right; assumption|apply IN; left; reflexivity].
    apply not_before_le; [|assumption|assumption]. rewrite Forall_forall in FB'. apply FB'. assumption.
  - unfold so_sort. destruct (p_index p) as [|e0 l0] eqn:EI.
    { exfalso. apply NE. destruct b; [reflexivity|]. rewrite lenN_cons in LX. unfold lenN in LX. cbn [length] in LX. lia. }
    rewrite <- EI in *. rewrite MV. fold cmp. unfold flush.
    assert (LN : mapM (fun r : @srec A => g <- bytes_at (p_data p) (fst r) ;; Ok (h_format LH g (snd r))) (srt cmp (p_index p)) = Ok (map wline b')).
    { clear - X'. induction X' as [|e r l m [H1 H2] X IH]; [reflexivity|]. cbn [mapM map]. rewrite (bytes_at_ok _ _ _ H1). cbn [bind]. rewrite H2. rewrite IH. reflexivity. }
    assert (LI : lenN (srt cmp (p_index p)) = lenN b') by (rewrite <- (lenN_perm _ _ P), <- (lenN_perm _ _ PB); exact LX).
    rewrite LN. cbn [bind]. rewrite LI. replace (lenN (p_index p)) with (lenN b) by (symmetry; exact LX). fold (file_of b').
    destruct (lenN b =? so_n s); reflexivity.
Qed.

End Merge.
(** ** the driver of sort_grams *)
Section Grams.
Variable V : list (list N).
Variable look : list N -> byte_range -> res N.
Variable fwd : bool.
Variable k M : N.
Hypothesis ND : NoDup V.
Hypothesis VW : Forall vword V.
Hypothesis VL : lenN V < 2 ^ 64 - 1.
Hypothesis LK : look_ok V look.
Hypothesis HK : 0 < k < 2 ^ 32.
Hypothesis HM : M < 2 ^ 63.
Notation rec_ok := (rec_ok (fun c : N => c < 2 ^ 64) V k M).
Notation file_of := (file_of count_handler).
Notation sorted_recs := (sorted_recs (fun c : N => c < 2 ^ 64) V fwd k M).
Lemma rec_no_tab r : rec_ok r -> ~ In 9 (join (fst r)).
Proof. intros ((_ & F) & _). apply join_no_tab. rewrite Forall_forall in VW. eapply Forall_impl; [|exact F]. intros w I. apply (VW w I). Qed.
Lemma parse_line_rec r : rec_ok r -> parse_count_line (line r) = Ok ((0, lenN (join (fst r))), snd r).
Proof. intros R. unfold line. apply parse_format; [apply rec_no_tab; assumption|apply R]. Qed.
Lemma line_holds r : rec_ok r -> holds_text (c_str (line r)) (0, lenN (join (fst r))) (join (fst r)) /\ lenN (c_str (line r)) < 2 ^ 64.
Proof.
  intros (R1 & R2 & R3). unfold line, format_count_line, c_str. split.
  - change (join (fst r) ++ [c_tab] ++ to_string (snd r)) with (join (fst r) ++ ([c_tab] ++ to_string (snd r))). rewrite <- app_assoc.
    change (join (fst r) ++ ([c_tab] ++ to_string (snd r)) ++ [0]) with ([] ++ join (fst r) ++ (([c_tab] ++ to_string (snd r)) ++ [0])). apply holds_mid; [reflexivity|]. change (lenN (@nil N)) with 0. lia.
  - rewrite !lenN_app, !lenN_cons, !lenN_nil. unfold to_string. pose proof (dec_digits_len 20 (snd r) []). change (lenN (@nil N)) with 0 in *. change (N.of_nat 20) with 20 in *. assert (2 ^ 63 + 22 < 2 ^ 64) by reflexivity. lia.
Qed.
Lemma count_HP r : rec_ok r -> exists br x, h_parse count_handler (wline count_handler r) = Ok (br, x) /\ holds_text (c_str (wline count_handler r)) br (join (fst r)) /\ lenN (c_str (wline count_handler r)) < 2 ^ 64.
Proof.
  intros R. change (wline count_handler r) with (line r). cbn [h_parse count_handler]. exists (0, lenN (join (fst r))), (snd r). split; [apply parse_line_rec; exact R|apply line_holds; exact R].
Qed.
Variable srt : (@srec N -> @srec N -> res bool) -> list (@srec N) -> list (@srec N).
Hypothesis SRT : std_sort srt.
Definition crit_of (num : N) (lines : list (list N)) : crit := match lines with [] => mkcrit num [] [] | l :: r => mkcrit num l r end.
Lemma append_line_ok p held r : pool_rep p M (map kv held) -> rec_ok r ->
  if gram_bytes (held ++ [r]) <=? M then exists p', append_line p (line r) = Ok (true, p') /\ pool_rep p' M (map kv (held ++ [r]))
  else append_line p (line r) = Ok (false, p).
Proof.
  intros R Q. unfold append_line. rewrite (parse_line_rec r Q). cbn [bind]. destruct (line_holds r Q) as [T _]. rewrite (bytes_at_ok _ _ _ T). cbn [bind].
  pose proof (join_ne V k M VW VL HK HM _ (proj1 Q)) as NE. rewrite gram_bytes_app, gram_bytes_one. destruct (N.leb_spec (gram_bytes held + lenN (join (fst r))) M) as [L|L].
  - destruct (pool_append_rep p M (map kv held) (join (fst r)) (snd r) R NE) as (p' & E & R'); [rewrite gram_bytes_concat; assumption|].
    exists p'. rewrite E. split; [reflexivity|]. rewrite map_app. exact R'.
  - pose proof R as (H1 & H2 & H3 & H4 & _). unfold pool_append. rewrite H1, H4, gram_bytes_concat.
    destruct (N.eqb_spec (lenN (join (fst r))) 0) as [Z|_]; [destruct (join (fst r)); [congruence|rewrite lenN_cons in Z; lia]|].
    destruct (N.ltb_spec M (gram_bytes held + lenN (join (fst r)))); [reflexivity|lia].
Qed.
Lemma fill_ok b : forall rest held p num n i fuel, pool_rep p M (map kv held) -> Forall rec_ok (b ++ rest) -> num + lenN (b ++ rest) = n -> n < 2 ^ 64 -> i <= num ->
  (length (b ++ rest) <= fuel)%nat -> gram_bytes (held ++ b) <= M -> (forall r rest', rest = r :: rest' -> M < gram_bytes ((held ++ b) ++ [r])) ->
  exists p', fill fuel n p (crit_of num (map line (b ++ rest))) i = Ok (p', crit_of (num + lenN b) (map line rest), i + lenN b) /\ pool_rep p' M (map kv (held ++ b)).
Proof.
  induction b as [|r b IH]; intros rest held p num n i fuel R F HN HB HI Hf HG HR.
  - cbn [app] in *. rewrite app_nil_r in *. exists p. split; [|assumption]. change (lenN (@nil (list (list N) * N))) with 0. rewrite !N.add_0_r.
    destruct rest as [|r rest].
    + cbn [map crit_of]. destruct fuel; cbn [fill cr_num]; (destruct (N.eqb_spec num n) as [_|Z]; [reflexivity|change (lenN (@nil (list (list N) * N))) with 0 in HN; lia]).
    + rewrite lenN_cons in HN. destruct fuel; [cbn [length] in Hf; lia|]. cbn [map crit_of fill cr_num]. destruct (N.eqb_spec num n) as [Z|_]; [lia|]. cbn [cr_line].
      inversion F as [|? ? Q F']; subst. pose proof (append_line_ok p held r R Q) as A. specialize (HR r rest eq_refl).
      destruct (N.leb_spec (gram_bytes (held ++ [r])) M); [lia|]. rewrite A. reflexivity.
  - cbn [app] in *. rewrite lenN_cons in *. inversion F as [|? ? Q F']; subst. cbn [length] in Hf. destruct fuel as [|f]; [lia|]. cbn [map crit_of fill cr_num].
    destruct (N.eqb_spec num (num + (1 + lenN (b ++ rest)))) as [Z|_]; [lia|]. cbn [cr_line].
    pose proof (append_line_ok p held r R Q) as A. assert (G1 : gram_bytes (held ++ [r]) <= M).
    { replace (held ++ r :: b) with ((held ++ [r]) ++ b) in HG by (rewrite <- app_assoc; reflexivity). rewrite gram_bytes_app in HG. lia. }
    destruct (N.leb_spec (gram_bytes (held ++ [r])) M); [|lia]. destruct A as (p1 & E1 & R1). rewrite E1. cbn [bind]. rewrite add64_small by lia.
    assert (EN : cr_next (mkcrit num (line r) (map line (b ++ rest))) = crit_of (num + 1) (map line (b ++ rest))) by (unfold cr_next; cbn [cr_rest cr_num]; destruct (map line (b ++ rest)); reflexivity).
    rewrite EN. destruct (IH rest (held ++ [r]) p1 (num + 1) (num + (1 + lenN (b ++ rest))) (i + 1) f) as (p2 & E2 & R2); try assumption.
    + lia. + lia. + lia. + rewrite <- app_assoc. exact HG. + intros x rest' E. rewrite <- (app_assoc held [r] b). apply (HR x rest' E).
    + exists p2. rewrite E2. split; [replace (num + 1 + lenN b) with (num + (1 + lenN b)) by lia; replace (i + 1 + lenN b) with (i + (1 + lenN b)) by lia; reflexivity|]. rewrite <- app_assoc in R2. exact R2.
Qed.
(** the batches that are sorted: a last batch of one record is not *)
Fixpoint kept {A} (bs : list (list (list (list N) * A))) : list (list (list (list N) * A)) :=
  match bs with
  | [] => []
  | b :: rest => match rest, b with [], [_] => [] | _, _ => b :: kept rest end
  end.
Lemma batch_loop_ok rs bs : batches M rs bs -> forall num n fuel p files out0, pool_rep p M [] -> Forall rec_ok rs -> num + lenN rs = n -> n < 2 ^ 64 ->
  (0 < lenN rs -> 0 < num \/ (1 < length bs)%nat) -> (0 < n) -> (length bs <= fuel)%nat ->
  exists bs', Forall2 (fun b b' => Permutation b b' /\ sorted_recs b') (kept bs) bs' /\
    batch_loop fuel fwd look srt n (mkso n files out0) p (crit_of num (map line rs)) num = Ok (mkso n (files ++ map (fun b => TmpFile (file_of b)) bs') out0).
Proof.
  induction 1 as [|b rest bs NE GB GR BA IH]; intros num n fuel p files out0 R F HN HB HS HP Hf.
  - exists []. cbn [kept map]. split; [constructor|]. rewrite app_nil_r. change (lenN (@nil (list (list N) * N))) with 0 in HN. rewrite N.add_0_r in HN. subst num.
    destruct fuel; cbn [batch_loop]; rewrite sub64_small by lia; (destruct (N.ltb_spec n (n - 1)) as [Z|_]; [lia|reflexivity]).
  - destruct b as [|r b]; [congruence|]. cbn [app] in *. rewrite lenN_cons in *. rewrite lenN_app in *.
    assert (RB : rest = [] <-> bs = []). { inversion BA as [|b2 rest2 bs2 NE2 ? ? ?]; subst; split; intros E; try reflexivity; try discriminate. destruct b2; [congruence|discriminate]. }
    destruct (N.ltb_spec num (sub64 n 1)) as [LT|GE].
    + assert (KP : kept ((r :: b) :: bs) = (r :: b) :: kept bs).
      { cbn [kept]. destruct bs; [|reflexivity]. assert (rest = []) by (apply RB; reflexivity). subst rest. destruct b; [|reflexivity]. exfalso. rewrite sub64_small in LT by lia. change (lenN (@nil (list (list N) * N))) with 0 in *. lia. }
      rewrite KP. destruct fuel as [|f]; [cbn [length] in Hf; lia|]. cbn [batch_loop]. destruct (N.ltb_spec num (sub64 n 1)) as [_|Z]; [|lia].
      inversion F as [|? ? Q F']; subst. cbn [map crit_of cr_line]. pose proof (append_line_ok p [] r R Q) as A. cbn [app] in A. rewrite gram_bytes_one in A.
      destruct (N.leb_spec (lenN (join (fst r))) M); [|destruct Q as (_ & _ & Q); lia]. destruct A as (p1 & E1 & R1). rewrite E1. cbn [bind].
      assert (EN : cr_next (mkcrit num (line r) (map line (b ++ rest))) = crit_of (num + 1) (map line (b ++ rest))) by (unfold cr_next; cbn [cr_rest cr_num]; destruct (map line (b ++ rest)); reflexivity).
      rewrite EN. set (n := num + (1 + (lenN b + lenN rest))) in *.
      destruct (fill_ok b rest [r] p1 (num + 1) n num (N.to_nat n)) as (p2 & E2 & R2); try assumption; try lia.
      { rewrite lenN_app. lia. } { rewrite app_length. unfold n, lenN. lia. }
      rewrite E2. cbn [bind]. cbn [app] in R2. apply Forall_app in F'. destruct F' as [F1 F2].
      destruct (so_sort_ok count_handler (fun c : N => c < 2 ^ 64) V look fwd k M ND VW VL LK HK HM count_HP srt SRT p2 (r :: b) (mkso n files out0) R2 ltac:(discriminate) ltac:(constructor; assumption)) as (b' & PB & SB & ES). cbn [so_n so_files so_out] in ES.
      rewrite lenN_cons in ES. destruct (N.eqb_spec (1 + lenN b) n) as [Z|_].
      { exfalso. destruct HS as [HS|HS]; [unfold n; lia|lia|]. cbn [length] in HS. destruct bs; [cbn in HS; lia|]. destruct rest as [|x rest]; [destruct RB as [RB _]; specialize (RB eq_refl); discriminate|]. unfold n in Z. rewrite lenN_cons in Z. lia. }
      rewrite ES. cbn [bind].
      destruct (IH (num + 1 + lenN b) n f (pool_clear p2) (files ++ [TmpFile (file_of b')]) out0) as (bs' & FB & EB); try assumption; try lia.
      { eapply pool_clear_rep. exact R2. } { cbn [length] in Hf. lia. }
      exists (b' :: bs'). split; [constructor; [split; assumption|assumption]|].
      rewrite add64_small by lia. replace (num + lenN b + 1) with (num + 1 + lenN b) by lia. rewrite EB. cbn [map]. rewrite <- app_assoc. reflexivity.
    + rewrite sub64_small in GE by lia. assert (Z1 : lenN b = 0 /\ lenN rest = 0) by lia. destruct Z1 as [Z1 Z2].
      destruct b; [|rewrite lenN_cons in Z1; lia]. destruct rest; [|rewrite lenN_cons in Z2; lia]. assert (bs = []) by (apply RB; reflexivity). subst bs.
      exists []. split; [constructor|]. cbn [map]. rewrite app_nil_r. destruct fuel; cbn [batch_loop]; rewrite sub64_small by lia; (destruct (N.ltb_spec num (n - 1)) as [Z|_]; [lia|rewrite ?app_nil_r; reflexivity]).
Qed.
(** everything in one batch *)
Lemma one_batch_ok b fuel p out0 : pool_rep p M [] -> Forall rec_ok b -> 2 <= lenN b < 2 ^ 64 -> gram_bytes b <= M -> (1 <= fuel)%nat ->
  exists b', Permutation b b' /\ sorted_recs b' /\
    batch_loop fuel fwd look srt (lenN b) (mkso (lenN b) [] out0) p (crit_of 0 (map line b)) 0 = Ok (mkso (lenN b) [OutFile] (out0 ++ file_of b')).
Proof.
  intros R F HN GB Hf. destruct fuel as [|f]; [lia|]. destruct b as [|r b]; [change (lenN (@nil (list (list N) * N))) with 0 in HN; lia|].
  cbn [batch_loop]. rewrite sub64_small by lia. destruct (N.ltb_spec 0 (lenN (r :: b) - 1)) as [_|Z]; [|lia].
  inversion F as [|? ? Q F']; subst. cbn [map crit_of cr_line]. pose proof (append_line_ok p [] r R Q) as A. cbn [app] in A. rewrite gram_bytes_one in A.
  destruct (N.leb_spec (lenN (join (fst r))) M); [|destruct Q as (_ & _ & Q); lia]. destruct A as (p1 & E1 & R1). rewrite E1. cbn [bind].
  assert (EN : cr_next (mkcrit 0 (line r) (map line b)) = crit_of 1 (map line b)) by (unfold cr_next; cbn [cr_rest cr_num]; destruct (map line b); reflexivity).
  rewrite EN. rewrite lenN_cons in *.
  destruct (fill_ok b [] [r] p1 1 (1 + lenN b) 0 (N.to_nat (1 + lenN b))) as (p2 & E2 & R2); rewrite ?app_nil_r; try assumption; try lia.
  { unfold lenN. lia. } { intros ? ? Z. discriminate. }
  rewrite app_nil_r in E2. rewrite E2. cbn [bind app] in *.
  destruct (so_sort_ok count_handler (fun c : N => c < 2 ^ 64) V look fwd k M ND VW VL LK HK HM count_HP srt SRT p2 (r :: b) (mkso (1 + lenN b) [] out0) R2 ltac:(discriminate) F) as (b' & PB & SB & ES). cbn [so_n so_files so_out] in ES. rewrite lenN_cons, N.eqb_refl in ES.
  rewrite ES. cbn [bind]. exists b'. split; [assumption|]. split; [assumption|]. rewrite add64_small by lia.
  destruct f; cbn [batch_loop]; rewrite sub64_small by lia; (destruct (N.ltb_spec (0 + lenN b + 1) (1 + lenN b - 1)) as [Z|_]; [lia|reflexivity]).
Qed.
End Grams.
Lemma kept_all {A} (bs : list (list (list (list N) * A))) : (forall bs' r, bs <> bs' ++ [[r]]) -> kept bs = bs.
Proof.
  induction bs as [|b bs IH]; intros H; [reflexivity|]. cbn [kept]. rewrite IH.
  - destruct bs; [|reflexivity]. destruct b as [|r [|? ?]]; try reflexivity. exfalso. apply (H [] r). reflexivity.
  - intros bs' r E. apply (H (b :: bs') r). rewrite E. reflexivity.
Qed.
Lemma kept_single {A} (bs : list (list (list (list N) * A))) r : kept (bs ++ [[r]]) = bs.
Proof.
  induction bs as [|b bs IH]; [reflexivity|]. cbn [app kept]. rewrite IH. destruct (bs ++ [[r]]) eqn:E; [destruct bs; discriminate|]. reflexivity.
Qed.
Lemma batches_concat {A} M (rs : list (list (list N) * A)) bs : batches M rs bs -> concat bs = rs /\ Forall (fun b => b <> []) bs.
Proof. induction 1 as [|b rest bs NE GB GR BA [IH1 IH2]]; [split; [reflexivity|constructor]|]. cbn [concat]. rewrite IH1. split; [reflexivity|constructor; assumption]. Qed.
Lemma batches_exist {A} M (rs : list (list (list N) * A)) : Forall (fun r => lenN (join (fst r)) <= M) rs -> exists bs, batches M rs bs.
Proof.
  induction rs as [|r rs IH]; intros F; [exists []; constructor|]. inversion F as [|? ? H F']; subst. destruct (IH F') as (bs & B). clear IH.
  assert (G : forall held rest : list (list (list N) * A), held <> [] -> gram_bytes held <= M -> Forall (fun r => lenN (join (fst r)) <= M) rest -> exists bs', batches M (held ++ rest) bs').
  { clear. intros held rest. assert (HL : (length rest <= length rest)%nat) by lia. revert HL. generalize (length rest) at 2 as m. intros m. revert held rest.
    induction m as [|m IH]; intros held rest HL NE HG F.
    - destruct rest; [|cbn in HL; lia]. exists [held]. apply one_more; [assumption|assumption|intros ? ? E; discriminate|constructor].
    - destruct rest as [|x rest]; [exists [held]; apply one_more; [assumption|assumption|intros ? ? E; discriminate|constructor]|].
      inversion F as [|? ? Hx F']; subst. cbn [length] in HL. destruct (N.leb_spec (gram_bytes (held ++ [x])) M) as [L|L].
      + destruct (IH (held ++ [x]) rest) as (bs & B); [lia|destruct held; discriminate|assumption|assumption|]. exists bs. rewrite <- app_assoc in B. exact B.
      + destruct (IH [x] rest) as (bs & B); [lia|discriminate|rewrite gram_bytes_one; assumption|assumption|]. exists (held :: bs). apply one_more; auto.
        intros ? ? E. injection E as <- <-. assumption. }
  destruct (G [r] rs) as (bs' & B'); [discriminate|rewrite gram_bytes_one; assumption|assumption|]. exists bs'. exact B'.
Qed.
