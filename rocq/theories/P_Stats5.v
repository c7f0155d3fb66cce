(** * Statistics: the level reports *)
From Coq Require Import Floats.SpecFloat.
From Verif Require Import Prelude BitFacts M_Word P_Word M_Bits Spec P_Bits M_CompactVector P_CompactVector M_DArray M_EF P_EF P_EF2
  M_HashVec M_Mph M_FastEF P_FastEF P_FastEF3 M_SeqColl P_SeqColl M_Trie Spec_Trie P_Trie1 P_Trie2 P_Trie3 P_Trie4 P_Trie5 P_Trie6 M_Save M_Stats Spec_Stats Spec_Report P_Typed
  P_Stats1 P_Stats2 P_Stats3 P_Stats4.
From Coq Require Import Permutation Sorting.Sorted.

Section Levels.
Variable D : list (list (gram * N)).
Variable remap : N.
Hypothesis C : collection D remap.
Notation G := (grams D).
Notation voc := (grams D 0).

(** ** the universe *)
Lemma last_value k g vs : 0 < k < lenN D -> view_holds g vs -> values_of vs (lids D remap k) (child_ptrs (G (k - 1)) (G k)) ->
  gv_univ g = Ok (pv vs (lenN (G k))) /\ gv_size g =? 0 = false.
Proof using C.
  intros Hk (F1 & _ & F2 & _) (VL & _). rewrite lids_len in *. pose proof (lev_nonempty D remap C k ltac:(lia)) as NE.
  assert (0 < lenN (G k)) by (destruct (G k); [congruence|rewrite lenN_cons; lia]).
  rewrite F1, F2. split; [|lia]. f_equal. destruct (nthN_Some vs (lenN (G k) - 1) ltac:(lia)) as (v & Hv).
  unfold pv. destruct (N.eqb_spec (lenN (G k)) 0); [lia|]. rewrite Hv. rewrite <- VL in Hv. apply last_at. exact Hv.
Qed.
(** the part of the universe due to the p-th context *)
Definition part (k : N) (p : N) : N :=
  let b := children (G (k - 1)) (G k) p in let e := children (G (k - 1)) (G k) (p + 1) in
  if b <? e then match nthN (lids D remap k) (e - 1) with Some x => x | None => 0 end else 0.
Lemma universe_sum k vs : 0 < k < lenN D -> values_of vs (lids D remap k) (child_ptrs (G (k - 1)) (G k)) ->
  pv vs (lenN (G k)) = sumN (map (part k) (range (lenN (G (k - 1))))).
Proof using C.
  intros Hk (VL & VV). rewrite lids_len in VL.
  pose proof (lev_NoDup D remap C (k - 1)) as ND. pose proof (lev_PRE D remap C k ltac:(lia)) as PR. pose proof (lev_MON D remap C k ltac:(lia)) as MO.
  assert (K : forall n, n <= lenN (G (k - 1)) -> pv vs (children (G (k - 1)) (G k) n) = sumN (map (part k) (range n))).
  { induction n as [|n IH] using N.peano_ind; intros Hn.
    - rewrite (children_0 (G (k - 1)) (G k)). reflexivity.
    - rewrite <- N.add_1_r in *. specialize (IH ltac:(lia)). rewrite range_snoc, map_app. change (map (part k) [n]) with [part k n]. rewrite sumN_snoc, <- IH. unfold part. cbv zeta.
      pose proof (children_mono _ _ ND PR MO n (n + 1) ltac:(lia)) as MN. pose proof (children_le_all (G (k - 1)) (G k) (n + 1)) as LA.
      set (b := children (G (k - 1)) (G k) n) in *. set (e := children (G (k - 1)) (G k) (n + 1)) in *.
      destruct (N.ltb_spec b e) as [L|L]; [|replace e with b by lia; lia].
      destruct (nthN_Some (lids D remap k) (e - 1)) as (x & Hx); [rewrite lids_len; lia|]. rewrite Hx.
      pose proof (VV b e (e - 1) x) as V. unfold pv at 1. destruct (N.eqb_spec e 0); [lia|]. rewrite V; [lia| |lia|exact Hx].
      apply child_range. exists n. split; [lia|split; reflexivity]. }
  rewrite <- K by lia. f_equal. symmetry. apply (children_all (G (k - 1)) (G k)); assumption.
Qed.
Lemma part_furthest k p g : 0 < k < lenN D -> remap = 0 \/ k <= remap -> nthN (G (k - 1)) p = Some g -> furthest D k g (part k p).
Proof using C.
  intros Hk HR Hg. pose proof (lev_NoDup D remap C (k - 1)) as ND. pose proof (lev_PRE D remap C k ltac:(lia)) as PR. pose proof (lev_MON D remap C k ltac:(lia)) as MO.
  unfold part. set (b := children (G (k - 1)) (G k) p). set (e := children (G (k - 1)) (G k) (p + 1)). cbv zeta.
  assert (PLAIN : forall h, lid D remap k h = vid D (last h [])).
  { intros h. unfold lid. replace ((remap =? 0) || (k <=? remap)) with true; [reflexivity|]. destruct (N.eqb_spec remap 0), (N.leb_spec k remap); cbn; lia. }
  assert (LW : forall h, In h (G k) -> In [last h []] voc).
  { intros h Hh. eapply gram_voc; [exact C|exact Hh|]. pose proof (gram_ne D remap C k h Hh). destruct h as [|w h] using rev_ind; [congruence|]. rewrite last_last. apply in_or_app. right. left. reflexivity. }
  destruct (N.ltb_spec b e) as [L|L].
  - right. pose proof (children_le_all (G (k - 1)) (G k) (p + 1)) as LA. fold e in LA.
    destruct (nthN_Some (G k) (e - 1) ltac:(lia)) as (h & Hh).
    assert (EX : nthN (lids D remap k) (e - 1) = Some (lid D remap k h)) by (unfold lids; rewrite nthN_map, Hh; reflexivity). rewrite EX, PLAIN.
    pose proof (range_par _ _ ND PR MO (e - 1) h p Hh ltac:(fold b; fold e; lia)) as HP. assert (RH : removelast h = g) by congruence.
    split.
    + exists h. split; [eapply nthN_In; exact Hh|]. split; [exact RH|]. apply vid_In. apply LW. eapply nthN_In; exact Hh.
    + intros h' i H1 H2 H3. destruct (In_nthN _ _ H1) as (j & Hj). pose proof (par_range _ _ ND PR MO j h' p Hj ltac:(congruence)) as PRG. fold b e in PRG.
      assert (EI : i = vid D (last h' [])).
      { pose proof (vid_In D _ (LW h' H1)) as V. eapply (NoDup_nthN voc); [apply (voc_NoDup D remap C)|exact H3|exact V]. }
      rewrite EI. rewrite <- !PLAIN. destruct (N.eq_dec j (e - 1)) as [->|NJ]; [rewrite Hj in Hh; injection Hh as ->; lia|].
      apply N.lt_le_incl. apply (lid_increasing D remap C k j (e - 1) h' h); [lia|assumption|assumption|congruence|lia].
  - left. split; [|reflexivity]. intros h Hh E. destruct (In_nthN _ _ Hh) as (j & Hj).
    pose proof (par_range _ _ ND PR MO j h p Hj ltac:(congruence)) as PRG. fold b e in PRG. lia.
Qed.
Lemma Forall2_range {A B} (P : A -> B -> Prop) (f : N -> B) (l : list A) : (forall i a, nthN l i = Some a -> P a (f i)) ->
  Forall2 P l (map f (range (lenN l))).
Proof.
  clear. induction l as [|a l IH] using rev_ind; intros H; [constructor|].
  rewrite lenN_app. change (lenN [a]) with 1. rewrite range_snoc, map_app. cbn [map]. apply Forall2_app.
  - apply IH. intros i x Hi. apply H. rewrite nthN_app1; [exact Hi|]. eapply nthN_lt; exact Hi.
  - constructor; [|constructor]. apply H. rewrite nthN_app2 by lia. rewrite N.sub_diag. reflexivity.
Qed.

(** ** the occurrences of order 2 *)
Lemma occs_right o : 1 < lenN D -> o = fold_left eat_value (lids D remap 1) [] -> NoDup (map fst o) /\
  forall i c, In (i, c) o <-> exists w, nthN voc i = Some [w] /\ c = endings D w /\ 0 < c.
Proof using C.
  intros H1 ->. destruct (eat_all_ok (lids D remap 1)) as [ND HM]. split; [exact ND|]. intros i c. rewrite HM.
  assert (PLAIN : forall h, lid D remap 1 h = vid D (last h [])).
  { intros h. unfold lid. replace ((remap =? 0) || (1 <=? remap)) with true; [reflexivity|]. destruct (N.eqb_spec remap 0), (N.leb_spec 1 remap); cbn; lia. }
  assert (LW : forall h, In h (G 1) -> In [last h []] voc).
  { intros h Hh. eapply gram_voc; [exact C|exact Hh|]. pose proof (gram_ne D remap C 1 h Hh). destruct h as [|w h] using rev_ind; [congruence|]. rewrite last_last. apply in_or_app. right. left. reflexivity. }
  assert (FE : forall w, In [w] voc -> freq (vid D w) (lids D remap 1) = endings D w).
  { intros w Hw. unfold freq, endings, lids. clear HM ND.
    assert (K : forall l, (forall h, In h l -> In h (G 1)) -> lenN (filter (N.eqb (vid D w)) (map (lid D remap 1) l)) =
      lenN (filter (fun g => if list_eq_dec N.eq_dec (last g []) w then true else false) l)).
    { induction l as [|h l IH]; intros HL; [reflexivity|]. cbn [map filter]. rewrite PLAIN. specialize (IH (fun x Hx => HL x (or_intror Hx))).
      destruct (list_eq_dec N.eq_dec (last h []) w) as [E|E].
      - rewrite E, N.eqb_refl, !lenN_cons, IH. reflexivity.
      - destruct (N.eqb_spec (vid D w) (vid D (last h []))) as [E'|E']; [|exact IH]. exfalso. apply E. symmetry. apply (vid_inj D); auto. apply LW. apply HL. left. reflexivity. }
    apply K. auto. }
  split.
  - intros (I & ->). unfold lids in I. apply in_map_iff in I. destruct I as (h & <- & Hh). rewrite PLAIN. exists (last h []).
    split; [apply vid_In; apply LW; exact Hh|]. rewrite FE by (apply LW; exact Hh). split; [reflexivity|].
    unfold endings. assert (I2 : In h (filter (fun g => if list_eq_dec N.eq_dec (last g []) (last h []) then true else false) (G 1))).
    { apply filter_In. split; [exact Hh|]. destruct (list_eq_dec N.eq_dec (last h []) (last h [])); [reflexivity|congruence]. }
    destruct (filter _ (G 1)); [destruct I2|rewrite lenN_cons; lia].
  - intros (w & Hw & -> & P). assert (IW : In [w] voc) by (eapply nthN_In; exact Hw).
    assert (EI : i = vid D w) by (pose proof (vid_In D _ IW) as V; eapply (NoDup_nthN voc); [apply (voc_NoDup D remap C)|exact Hw|exact V]).
    rewrite EI, FE by exact IW. split; [|reflexivity]. unfold endings in P. destruct (filter _ (G 1)) as [|h r] eqn:EFL; [exfalso; change (lenN (@nil gram)) with 0 in P; lia|].
    assert (I2 : In h (filter (fun g => if list_eq_dec N.eq_dec (last g []) w then true else false) (G 1))) by (rewrite EFL; left; reflexivity).
    apply filter_In in I2. destruct I2 as (I2 & I3). destruct (list_eq_dec N.eq_dec (last h []) w) as [E|]; [|discriminate].
    unfold lids. rewrite <- E, <- PLAIN. apply in_map. exact I2.
Qed.

Variables (ho : heap_ops) (cap : N).
Hypothesis HF : heap_functions (ho_push ho) (ho_pop ho).
Hypothesis HK : 0 < cap < 2 ^ 64.
(** ** one level *)
Lemma level_ok k a prev : k < lenN D -> l_size a = lenN (G k) -> (k = 0 -> gv_size (l_grams a) = 0) -> (0 < k -> gram_lev D remap (l_grams a) k) ->
  (k + 1 < lenN D -> ptr_lev D (l_ptrs a) k) -> (lenN D - 1 <= k -> l_ptrs a = None) ->
  (0 < k -> ptr_lev D prev (k - 1)) ->
  exists r, level_stats ho cap (k + 1) a prev = Ok r /\ level_right D remap cap k r.
Proof using C HF HK.
  intros Hk HS G0 G1 P0 P1 PV. unfold level_stats.
  assert (U : exists u, (if gv_size (l_grams a) =? 0 then Ok None else u <- gv_univ (l_grams a) ;; Ok (Some u)) = Ok u /\
    (k = 0 -> u = None) /\ (0 < k -> remap = 0 \/ k <= remap -> exists us, Forall2 (furthest D k) (G (k - 1)) us /\ u = Some (sumN us))).
  { destruct (N.eq_dec k 0) as [Z|Z].
    - rewrite (G0 Z). exists None. split; [reflexivity|]. split; [reflexivity|lia].
    - destruct (G1 ltac:(lia)) as (vs & Hf & VO). destruct (last_value k _ vs ltac:(lia) Hf VO) as (EL & ->). rewrite EL. cbn [bind].
      eexists. split; [reflexivity|]. split; [lia|]. intros _ HR. exists (map (part k) (range (lenN (G (k - 1))))). split.
      + apply Forall2_range. intros i g Hg. apply part_furthest; [lia|exact HR|exact Hg].
      + f_equal. apply universe_sum; [lia|exact VO]. }
  destruct U as (u & EU & U0 & U1). rewrite EU. cbn [bind].
  assert (P : exists p, match l_ptrs a with Some e => if ef_size e =? 0 then Ok None else p <- ptr_stats ho cap e ;; Ok (Some p) | None => Ok None end = Ok p /\
    if k + 1 <? lenN D then exists q, p = Some q /\ ptrs_right D cap k q else p = None).
  { destruct (N.ltb_spec (k + 1) (lenN D)) as [L|L].
    - destruct (ptr_report_ok D remap C ho cap HF HK _ k L (P0 L)) as (e & r & -> & -> & -> & PR). exists (Some r). split; [reflexivity|]. exists r. auto.
    - rewrite P1 by lia. exists None. auto. }
  destruct P as (p & EP & PP). rewrite EP. cbn [bind].
  assert (T : exists t o, (if (k + 1 =? 2) || (k + 1 =? 3) then ' (t, o) <- entropy_stats (l_grams a) prev ;; Ok (Some t, if k + 1 =? 2 then Some o else None) else Ok (None, None)) = Ok (t, o) /\
    t = (if (k =? 1) || (k =? 2) then Some (fanouts D (k - 1)) else None) /\ (k <> 1 -> o = None) /\ (k = 1 -> o = Some (fold_left eat_value (lids D remap 1) []))).
  { replace (k + 1 =? 2) with (k =? 1) by lia. replace (k + 1 =? 3) with (k =? 2) by lia. destruct ((k =? 1) || (k =? 2)) eqn:E.
    - rewrite (entropy_ok D remap C cap HK (l_grams a) prev k ltac:(lia) (G1 ltac:(lia)) (PV ltac:(lia))). cbn [bind].
      eexists _, _. split; [reflexivity|]. split; [reflexivity|]. destruct (N.eqb_spec k 1) as [E1|E1]; [rewrite E1; split; [congruence|reflexivity]|split; [reflexivity|congruence]].
    - eexists _, _. split; [reflexivity|]. split; [reflexivity|]. split; [reflexivity|lia]. }
  destruct T as (t & o & ET & T1 & T2 & T3). rewrite ET. cbn [bind]. eexists. split; [reflexivity|]. constructor; cbn [lr_size lr_universe lr_ptrs lr_terms lr_occs]; try assumption.
  intros K1. exists (fold_left eat_value (lids D remap 1) []). split; [exact (T3 K1)|]. apply occs_right; [lia|reflexivity].
Qed.

(** ** all levels *)
Definition arrays_facts (arrays : list level) : Prop :=
  (map l_size arrays = map (fun l => lenN l) D /\ forall k a, nthN arrays k = Some a -> (k = 0 -> gv_size (l_grams a) = 0) /\ (lenN D - 1 <= k -> l_ptrs a = None)) /\
  (forall k a, nthN arrays k = Some a -> 0 < k -> gram_lev D remap (l_grams a) k) /\
  (forall k a, nthN arrays k = Some a -> k + 1 < lenN D -> ptr_lev D (l_ptrs a) k).
Lemma levels_ok arrays : arrays_facts arrays -> exists rs, levels_stats ho cap 1 None arrays = Ok rs /\ lenN rs = lenN D /\
  forall k r, nthN rs k = Some r -> level_right D remap cap k r.
Proof using C HF HK.
  intros ((S1 & S2) & F1 & F2). assert (LA : lenN arrays = lenN D) by (rewrite <- (lenN_map l_size), S1, lenN_map; reflexivity).
  assert (SZ : forall k a, nthN arrays k = Some a -> l_size a = lenN (G k)).
  { intros k a Ha. assert (E : nthN (map l_size arrays) k = Some (l_size a)) by (rewrite nthN_map, Ha; reflexivity). rewrite S1, nthN_map in E.
    unfold grams. destruct (nthN D k); [|discriminate]. injection E as <-. rewrite lenN_map. reflexivity. }
  assert (K : forall pre post prev, arrays = pre ++ post -> (pre <> [] -> exists a', prev = l_ptrs a' /\ nthN arrays (lenN pre - 1) = Some a') ->
    exists rs, levels_stats ho cap (lenN pre + 1) prev post = Ok rs /\ lenN rs = lenN post /\ forall k r, nthN rs k = Some r -> level_right D remap cap (lenN pre + k) r).
  { intros pre post. revert pre. induction post as [|a post IH]; intros pre prev E HP.
    - exists []. split; [reflexivity|]. split; [reflexivity|]. intros k r H. apply nthN_lt in H. change (lenN (@nil level_report)) with 0 in H. lia.
    - assert (HA : nthN arrays (lenN pre) = Some a) by (rewrite E; rewrite nthN_app2 by lia; rewrite N.sub_diag; reflexivity).
      pose proof (nthN_lt _ _ _ HA) as LP. rewrite LA in LP. destruct (S2 _ _ HA) as (A1 & A2).
      destruct (level_ok (lenN pre) a prev LP (SZ _ _ HA) A1 (F1 _ _ HA) (F2 _ _ HA) A2) as (r & ER & RR).
      { intros L. destruct HP as (a' & -> & Ha'); [destruct pre; [change (lenN (@nil level)) with 0 in L; lia|discriminate]|].
        apply F2 in Ha'; [exact Ha'|lia]. }
      cbn [levels_stats]. rewrite ER. cbn [bind].
      destruct (IH (pre ++ [a]) (l_ptrs a)) as (rs & ES & LS & RS).
      { rewrite <- app_assoc. exact E. }
      { intros _. exists a. split; [reflexivity|]. rewrite lenN_app. change (lenN [a]) with 1. replace (lenN pre + 1 - 1) with (lenN pre) by lia. exact HA. }
      rewrite lenN_app in ES, RS. change (lenN [a]) with 1 in ES, RS. rewrite ES. cbn [bind]. exists (r :: rs). split; [reflexivity|]. split; [rewrite !lenN_cons, LS; reflexivity|].
      intros k r' H. destruct (N.eq_dec k 0) as [->|NK].
      + injection H as <-. rewrite N.add_0_r. exact RR.
      + replace (lenN pre + k) with (lenN pre + 1 + (k - 1)) by lia. apply RS. rewrite nthN_cons in H. destruct (N.eqb_spec k 0); [lia|exact H]. }
  destruct (K [] arrays None eq_refl ltac:(congruence)) as (rs & ES & LS & RS). change (lenN (@nil level) + 1) with 1 in ES. exists rs. split; [exact ES|]. split; [lia|].
  intros k r H. apply (RS k r H).
Qed.
Lemma sizes_ok arrays : arrays_facts arrays -> arrays_size arrays = lenN (concat D).
Proof using C HK.
  intros ((S1 & _) & _). pose proof (col_order _ _ C) as CO.
  assert (HS : Forall (fun n => n < 2 ^ 31) (map l_size arrays)).
  { rewrite S1. apply Forall_forall. intros n Hn. apply in_map_iff in Hn. destruct Hn as (l & <- & Hl). apply In_nthN in Hl. destruct Hl as (k & Hk). apply (col_size _ _ C k l Hk). }
  assert (LE : lenN arrays <= 8) by (rewrite <- (lenN_map l_size), S1, lenN_map; lia).
  assert (K : forall l acc, Forall (fun n => n < 2 ^ 31) (map l_size l) -> acc + lenN l * 2 ^ 31 < 2 ^ 64 -> fold_left (fun s a => add64 s (l_size a)) l acc = acc + sumN (map l_size l)).
  { clear. induction l as [|a l IH]; intros acc HF HL; cbn [fold_left map]; [rewrite N.add_0_r; reflexivity|]. rewrite lenN_cons in HL. inversion HF; subst.
    rewrite add64_small by lia. rewrite IH by (assumption || lia). rewrite sumN_cons. lia. }
  unfold arrays_size. rewrite K by (assumption || lia). rewrite S1. clear. induction D as [|l r IH]; [reflexivity|]. cbn [map concat]. rewrite sumN_cons, lenN_app, <- IH. reflexivity.
Qed.
End Levels.
(** arrays over fast_ef_sequence *)
Lemma sarr_facts D remap hu arrays : collection D remap -> shape (map (fun l => lenN l) D) (lenN D - 1) arrays ->
  (forall k a, nthN arrays k = Some a -> 0 < k -> exists f vs, s_grams a = Some f /\ fef_rep (hu k) f (lids D remap k) (child_ptrs (grams D (k - 1)) (grams D k)) vs) ->
  (forall k a, nthN arrays k = Some a -> k + 1 < lenN D -> ptr_lev D (s_ptrs a) k) -> arrays_facts D remap (map level_of arrays).
Proof.
  intros C (S1 & S2) HG HP. assert (LA : lenN arrays = lenN D) by (rewrite <- (lenN_map s_size), S1, lenN_map; reflexivity).
  assert (AT : forall k b, nthN (map level_of arrays) k = Some b -> exists a, nthN arrays k = Some a /\ b = level_of a).
  { intros k b H. rewrite nthN_map in H. destruct (nthN arrays k) as [a|]; [|discriminate]. injection H as <-. exists a. auto. }
  split; [split|split].
  - rewrite map_map. exact S1.
  - intros k b H. destruct (AT k b H) as (a & Ha & ->). destruct (S2 k a Ha) as (A1 & A2). split; [|exact A2]. intros Z. cbn [level_of l_grams]. rewrite (A1 Z). reflexivity.
  - intros k b H Hk. destruct (AT k b H) as (a & Ha & ->). destruct (HG k a Ha Hk) as (f & vs & Hf & F1 & F2 & F3 & F4 & F5 & F6 & _). cbn [level_of l_grams]. rewrite Hf.
    exists vs. split; [|exact F3]. pose proof F3 as (VL & _). apply view_fef_holds; [congruence|exact F2|]. rewrite VL, lids_len. pose proof (lev_size D remap C k).
    apply nthN_lt in Ha. pose proof (lev_nonempty D remap C k ltac:(lia)) as NE. destruct (grams D k); [congruence|]. rewrite lenN_cons in *. lia.
  - intros k b H Hk. destruct (AT k b H) as (a & Ha & ->). cbn [level_of l_ptrs]. apply (HP k a Ha Hk).
Qed.
