(** * Property C24: the hash count model *)
From Verif Require Import Prelude BitFacts M_Word P_Word M_Bits Spec P_Bits P_Builder M_CompactVector P_CompactVector
  M_HashVec M_Mph P_Mph P_MphTables P_MphPast M_Text P_Text P_Text2 M_SeqColl P_SeqColl M_Pool P_Pool M_Trie Spec_Trie P_Trie1 P_Trie3 P_Trie4 P_Trie5 M_MphCount.
From Coq Require Import Permutation.

(** what the input files must be: non-empty, of less than 2^31 lines (2^26 with 32-bit keys),
    grams of the k-th file made of k+1 words without tabs *)
Record gram_files (D : list (list (gram * N))) : Prop := {
  gf_order : 2 <= lenN D <= 8;
  gf_size : forall k l, nthN D k = Some l -> l <> [] /\ lenN l < 2 ^ 31;
  gf_words : forall k l g c, nthN D k = Some l -> In (g, c) l -> lenN g = k + 1 /\ Forall (fun w => word w /\ ~ In 9 w) g /\ c < 2 ^ 64 - 1 }.
Record mph_inputs_ok (D : list (list (gram * N))) (env : menv) : Prop := {
  mi_bits : me_hb env = 64 \/ (me_hb env = 32 /\ forall k l, nthN D k = Some l -> lenN l <= 2 ^ 26);
  (* emphf finds a peeling order for the grams of each file (which are then distinct) *)
  mi_orders : forall k l, nthN D k = Some l -> valid_order (hash_domain (lenN l)) (me_h env k) (map (fun e : gram * N => join (fst e)) l) (me_orders env k);
  mi_sorts : Forall2 (fun (l : list (gram * N)) s => Permutation s (with_freq (map snd l))) D (me_sorts env);
  mi_ram : forall k l, nthN D k = Some l -> lenN (concat (map (fun e : gram * N => join (fst e)) l)) <= me_ram env }.


Lemma push_width b v b' : cvb_push_back b v = Ok b' -> cb_width b' = cb_width b.
Proof.
  unfold cvb_push_back. intros H. repeat (apply bind_ok in H; destruct H as (? & _ & H)).
  repeat match type of H with context [let '(_, _) := ?x in _] => destruct x end. cbn beta iota zeta in H.
  repeat (apply bind_ok in H; destruct H as (? & _ & H)). injection H as <-. reflexivity.
Qed.
Lemma foldM_push_width vs : forall b b', foldM cvb_push_back vs b = Ok b' -> cb_width b' = cb_width b.
Proof.
  induction vs as [|v vs IH]; intros b b' H; cbn [foldM] in H; [injection H as <-; reflexivity|].
  destruct (cvb_push_back b v) as [b1| |] eqn:E; cbn [bind] in H; try discriminate. rewrite (IH _ _ H). eapply push_width; eauto.
Qed.
Lemma nthN_combine {A B} (l : list A) : forall (m : list B) i, nthN (combine l m) i = match nthN l i, nthN m i with Some a, Some b => Some (a, b) | _, _ => None end.
Proof.
  induction l as [|a l IH]; intros m i.
  - cbn [combine]. unfold nthN. destruct (N.to_nat i); reflexivity.
  - destruct m as [|b m].
    + cbn [combine]. unfold nthN. destruct (N.to_nat i); cbn [nth_error]; [reflexivity|destruct (nth_error l n); reflexivity].
    + cbn [combine]. rewrite !nthN_cons. destruct (i =? 0); [reflexivity|apply IH].
Qed.
Lemma spaces_word w : ~ In 32 w -> filter (fun c => c =? c_space) w = [].
Proof.
  induction w as [|c w IH]; intros H; [reflexivity|]. cbn [filter]. destruct (N.eqb_spec c c_space) as [E|E]; [exfalso; apply H; left; exact E|]. apply IH. intros I. apply H. right. assumption.
Qed.
Lemma spaces_join g : g <> [] -> Forall word g -> lenN (filter (fun c => c =? c_space) (join g)) = lenN g - 1.
Proof.
  induction g as [|w g IH]; intros NE F; [congruence|]. inversion F as [|? ? [W1 W2] F']; subst. destruct g as [|w2 g].
  - cbn [join]. rewrite spaces_word by assumption. reflexivity.
  - rewrite join_cons by discriminate. rewrite filter_app, spaces_word by assumption. cbn [app filter]. unfold c_space at 1. rewrite N.eqb_refl.
    rewrite lenN_cons, IH by (auto; discriminate). rewrite !lenN_cons. lia.
Qed.
(** reading a dictionary at not_found is out of bounds *)
Lemma get_not_found c vs : cv_holds c vs -> cv_get c not_found = UB.
Proof.
  intros (w & V & (H1 & H2 & H3 & H4 & H5 & H6 & H7 & _) & _). unfold cv_get, load_field. rewrite H2, H3.
  assert (E : mul64 not_found w = 2 ^ 64 - w).
  { unfold mul64, w64. rewrite N.land_ones. unfold not_found. replace ((2 ^ 64 - 1) * w) with ((2 ^ 64 - w) + (w - 1) * 2 ^ 64) by nia.
    rewrite N.mod_add by discriminate. apply N.mod_small. lia. }
  rewrite E. assert (B : shr (2 ^ 64 - w) 6 = 2 ^ 58 - 1).
  { unfold shr. rewrite N.shiftr_div_pow2. symmetry. apply (N.div_unique _ _ _ (64 - w)); [lia|]. change (2 ^ 6) with 64. change (2 ^ 64) with (64 * 2 ^ 58). lia. }
  rewrite B. assert (R : rd (c_bits c) (2 ^ 58 - 1) = UB).
  { unfold rd. destruct (N.ltb_spec (2 ^ 58 - 1) (lenN (c_bits c))) as [Z|Z]; [|reflexivity]. exfalso. rewrite H7 in Z. unfold words_for in Z.
    assert ((lenN vs * w + 63) / 64 < 2 ^ 58); [|lia]. apply N.div_lt_upper_bound; [lia|]. change (64 * 2 ^ 58) with (2 ^ 64). lia. }
  rewrite R. cbn [bind]. destruct (_ <=? 64); reflexivity.
Qed.

Section Build.
Variable D : list (list (gram * N)).
Variable env : menv.
Hypothesis GF : gram_files D.
Hypothesis MI : mph_inputs_ok D env.

Definition mdicts (cb : scb) : Prop := forall k l, nthN D k = Some l ->
  (exists n, sc_size cb k = Ok n /\ n <= lenN l /\ forall e, In e l -> exists r, rank_ok cb k n e r) /\ sc_access (sb_seqs cb) k not_found = UB.
Lemma mdicts_build : exists cb, sc_add_all scb_empty (map (map snd) D) (me_sorts env) = Ok cb /\ mdicts cb.
Proof.
  pose proof (mi_sorts _ _ MI) as F2.
  destruct (sc_add_all_ok (map (map snd) D) (me_sorts env) scb_empty) as (ps & cs & E & L1 & L2 & DK).
  - apply Forall_forall. intros vs Hvs. apply in_map_iff in Hvs. destruct Hvs as (l & <- & Hl). apply In_nthN in Hl. destruct Hl as (k & Hk).
    destruct (gf_size _ GF k l Hk) as [S1 S2]. split; [destruct l; [congruence|discriminate]|]. rewrite lenN_map. split; [lia|].
    apply Forall_forall. intros v Hv. apply in_map_iff in Hv. destruct Hv as ([g c] & <- & He). apply (gf_words _ GF k l g c Hk He).
  - clear - F2. induction F2 as [|l s D0 S0 H F IH]; cbn [map]; constructor; [|exact IH]. eapply Permutation_trans; [exact H|apply eat_with_freq].
  - exists (mkscb ps cs). split; [exact E|]. intros k l Hk. pose proof (nthN_lt _ _ _ Hk) as LK. rewrite map_length in L1, L2.
    destruct (nthN_Some ps k ltac:(unfold lenN in *; lia)) as (p & Hp). destruct (nthN_Some cs k ltac:(unfold lenN in *; lia)) as (c & Hc).
    destruct (nthN_Some (me_sorts env) k) as (s & Hs). { apply Forall2_len in F2. unfold lenN in *. lia. }
    assert (Hv : nthN (map (map snd) D) k = Some (map snd l)) by (rewrite nthN_map, Hk; reflexivity).
    pose proof (DK k _ s p c Hv Hs Hp Hc) as DO. pose proof DO as (D1 & D2 & D3 & D4 & D5).
    split; [exists (lenN s); split; [|split]|].
    + unfold sc_size. cbn [sb_seqs]. rewrite (proj2 (rd_nthN _ _ _) Hc). cbn [bind]. rewrite (cv_holds_size _ _ D1), lenN_map. reflexivity.
    + rewrite <- (lenN_map fst s), <- (lenN_map snd l). unfold lenN. pose proof (NoDup_incl_length D2 (fun v H => proj1 (D3 v) H)). lia.
    + intros e He. destruct (gf_size _ GF k l Hk) as [S1 S2].
      destruct (dict_rank p c (map snd l) s (snd e) DO) as (r & B1 & B2 & B3 & B4); [rewrite lenN_map; lia|apply in_map; assumption|].
      exists r. split; [|split; [assumption|]].
      * unfold sc_rank. cbn [sb_pairs]. rewrite (proj2 (rd_nthN _ _ _) Hp). cbn [bind]. rewrite B1. reflexivity.
      * unfold sc_access. cbn [sb_seqs]. rewrite (proj2 (rd_nthN _ _ _) Hc). cbn [bind]. assumption.
    + unfold sc_access. cbn [sb_seqs]. rewrite (proj2 (rd_nthN _ _ _) Hc). cbn [bind]. eapply get_not_found; eauto.
Qed.

(** a table and the ranks it stores *)
Definition table_rep (cb : scb) (k : N) (l : list (gram * N)) (t : svt) : Prop :=
  exists n rs, Forall2 (rank_ok cb k n) l rs /\ svt_rep (me_hb env) (me_h env k) t (map (fun e : gram * N => join (fst e)) l) rs /\
    hcv_get (me_hb env) (sv_data t) (lenN l) = UB.
Lemma table_ok cb k l : mdicts cb -> nthN D k = Some l -> exists t, mc_table env cb (map (map line) D) k = Ok t /\ table_rep cb k l t.
Proof.
  intros DO Hl. destruct (gf_size _ GF k l Hl) as [S1 S2]. destruct (DO k l Hl) as ((n & SZ & NL & R) & _).
  destruct (exists_list _ _ R) as (rs & F2). assert (LR : lenN rs = lenN l) by (apply Forall2_len in F2; unfold lenN; lia).
  assert (FR : Forall (fun r => r <= n) rs). { clear - F2. induction F2 as [|e r l rs (_ & H & _) F IH]; constructor; [lia|assumption]. }
  set (gs := map (fun e : gram * N => (join (fst e), snd e)) l). set (keys := map (fun e : gram * N => join (fst e)) l).
  assert (UW : map fst gs = keys). { unfold gs, keys. rewrite map_map. reflexivity. }
  assert (LGS : lenN gs = lenN l) by apply lenN_map.
  unfold mc_table. rewrite (proj2 (rd_nthN _ _ (map line l))) by (rewrite nthN_map, Hl; reflexivity). cbn [bind].
  destruct (pool_load_lines_ok gs (pool_clear (pool_new (me_ram env))) (me_ram env) []) as (p & EP & RP).
  { eapply pool_clear_rep. apply pool_new_rep. }
  { apply Forall_forall. intros x Hx. apply in_map_iff in Hx. destruct Hx as ([g c] & <- & He). cbn [fst snd].
    destruct (gf_words _ GF k l g c Hl He) as (LG & FW & HC). assert (GN : g <> []) by (intros ->; change (lenN (@nil (list N))) with 0 in LG; lia).
    split; [|split; [|lia]].
    - intros Z. assert (J : 0 < lenN (join g)) by (apply join_nonempty; [assumption|eapply Forall_impl; [|exact FW]; intros ? [? _]; assumption]). rewrite Z in J. revert J. apply N.nlt_0_r.
    - apply join_no_tab. eapply Forall_impl; [|exact FW]. intros ? [_ ?]. assumption. }
  { cbn [app]. rewrite UW. apply (mi_ram _ _ MI k). assumption. }
  assert (ML : map (fun r => format_count_line (fst r) (snd r)) gs = map line l). { unfold gs. rewrite map_map. reflexivity. }
  rewrite ML in EP. cbn [app] in RP. unfold pool_load. rewrite EP. cbn [bind].
  pose proof RP as (_ & _ & _ & _ & _ & LX & _). rewrite LX, SZ. cbn [bind]. rewrite LGS.
  destruct (cv_push_holds rs n) as (b2 & b2' & E4 & E5 & E6); [lia|lia|assumption|]. rewrite LR in E4. rewrite E4. cbn [bind].
  assert (RECS : mapM (pool_record p) (range (lenN gs)) = Ok gs).
  { rewrite (mapM_range (pool_record p) (fun x => x) gs); [rewrite map_id; reflexivity|]. intros i [g a] H. eapply pool_record_ok; eauto. }
  rewrite <- LGS, RECS. cbn [bind].
  assert (RKF : forall (c : cvb), foldM (fun c (rc : list N * N) => rank <- sc_rank cb k (snd rc) ;; cvb_push_back c rank) gs c = foldM cvb_push_back rs c).
  { unfold gs. intros c. rewrite foldM_map_. cbn [snd]. clear - F2. revert c. induction F2 as [|e r l rs H F IH]; intros c; [reflexivity|]. cbn [foldM].
    destruct H as (H & _). rewrite H. cbn [bind]. destruct (cvb_push_back c r); cbn [bind]; auto. }
  rewrite RKF, E5. cbn [bind]. rewrite UW, LGS.
  assert (LU : lenN keys = lenN l) by apply lenN_map.
  assert (PL : 0 < lenN l) by (destruct l; [congruence|rewrite lenN_cons; lia]).
  assert (CW : c_width (cv_of_builder b2') <= 32 /\ (lenN l <= 2 ^ 26 -> c_width (cv_of_builder b2') <= 27)).
  { unfold cv_of_builder. cbn [c_width]. rewrite (foldM_push_width rs b2 b2' E5). unfold cvb_new in E4. destruct (64 <? _); [discriminate|]. injection E4 as <-. cbn [cb_width].
    rewrite add64_small by lia. unfold cv_width. destruct (N.eqb_spec (ceil_log2 (n + 1)) 0); [lia|].
    split; [apply ceil_log2_spec; change (2 ^ 32) with (2 * 2 ^ 31); lia|]. intros L. apply ceil_log2_spec. change (2 ^ 27) with (2 * 2 ^ 26). lia. }
  destruct (svt_build_ok (me_hb env) (me_h env k) (hash_domain (lenN l)) (me_orders env k) keys (cv_of_builder b2') rs) as (v & EV & RV).
  { unfold hash_domain. assert (2 <= (lenN l * 123 + 99) / 100); [apply N.div_le_lower_bound; lia|]. apply N.div_str_pos. lia. }
  { apply (mi_orders _ _ MI k). assumption. }
  { assumption. }
  { unfold lenN in LU, LR. lia. }
  { destruct (mi_bits _ _ MI) as [B|[B _]]; [left; assumption|right; lia]. }
  { rewrite LU. destruct (mi_bits _ _ MI) as [B|[B L]]; rewrite B; [nia|]. specialize (L k l Hl). destruct CW as [_ CW]. specialize (CW L). change (2 ^ 32) with (64 * 2 ^ 26). nia. }
  { rewrite LU. destruct (mi_bits _ _ MI) as [B|[B L]]; rewrite B; nia. }
  assert (VS : c_size (cv_of_builder b2') = lenN l) by (rewrite (cv_holds_size _ _ E6); exact LR).
  exists v. split; [exact EV|]. exists n, rs. split; [assumption|]. split; [assumption|]. rewrite <- VS. apply (svt_build_past _ _ _ _ _ _ _ EV).
  - destruct (mi_bits _ _ MI) as [B|[B _]]; auto.
  - rewrite VS. destruct (mi_bits _ _ MI) as [B|[B L]]; rewrite B; [nia|]. specialize (L k l Hl). destruct CW as [_ CW]. specialize (CW L). change (2 ^ 32) with (64 * 2 ^ 26). nia.
Qed.

Lemma mapM_exists {A B} (f : A -> res B) (R : A -> B -> Prop) l : (forall a, In a l -> exists b, f a = Ok b /\ R a b) -> exists bs, mapM f l = Ok bs /\ Forall2 R l bs.
Proof using Type.
  clear. induction l as [|a l IH]; intros H; [exists []; split; [reflexivity|constructor]|].
  destruct (H a (or_introl eq_refl)) as (b & E & Rb). destruct IH as (bs & E2 & F); [intros x Hx; apply H; right; assumption|].
  exists (b :: bs). cbn [mapM]. rewrite E. cbn [bind]. rewrite E2. split; [reflexivity|constructor; assumption].
Qed.
Definition mc_rep (m : mcl) : Prop := lenN (mc_tables m) = lenN D /\ exists cb, mc_counts m = sb_seqs cb /\ mdicts cb /\
  forall k l, nthN D k = Some l -> exists t, nthN (mc_tables m) k = Some t /\ table_rep cb k l t.
Lemma mc_build_ok : exists m, mc_build env (map (map line) D) (lenN D) = Ok m /\ mc_rep m.
Proof.
  pose proof (gf_order _ GF) as CO. unfold mc_build.
  assert (U : forall x, x <= 8 -> u8 x = x). { intros x Hx. unfold u8. change 255 with (N.ones 8). rewrite N.land_ones. apply N.mod_small. lia. }
  unfold check_order. rewrite !U by lia. destruct (N.ltb_spec (lenN D) 2); [lia|]. destruct (N.ltb_spec 8 (lenN D)); [lia|]. cbn [bind].
  set (files := map (map line) D). assert (LF : lenN files = lenN D) by apply lenN_map.
  replace (mapM (rd files) (range (lenN D))) with (mapM (rd files) (range (lenN files))) by (rewrite LF; reflexivity). rewrite (mapM_range (rd files) (fun x => x) files) by (intros i a H2; apply rd_nthN; assumption). rewrite map_id. cbn [bind].
  assert (VAL : mapM (fun lines => mapM (fun l => ' (_, c) <- parse_count_line l ;; Ok c) lines) files = Ok (map (map snd) D)).
  { unfold files. assert (H2 : forall l, In l D -> mapM (fun l => ' (_, c) <- parse_count_line l ;; Ok c) (map line l) = Ok (map snd l)).
    { intros l Hl. apply In_nthN in Hl. destruct Hl as (k & Hk).
      assert (H3 : forall l0, incl l0 l -> mapM (fun l => ' (_, c) <- parse_count_line l ;; Ok c) (map line l0) = Ok (map snd l0)).
      { induction l0 as [|[g c] l0 IH]; intros I; [reflexivity|]. cbn [map mapM]. destruct (gf_words _ GF k l g c Hk) as (LG & FW & HC); [apply I; left; reflexivity|].
        unfold line at 1. cbn [fst snd]. rewrite parse_format; [|apply join_no_tab; eapply Forall_impl; [|exact FW]; intros ? [_ ?]; assumption|lia].
        cbn [bind]. rewrite IH by (intros x Hx; apply I; right; assumption). reflexivity. }
      apply H3. apply incl_refl. }
    revert H2. generalize D as D1. clear. induction D1 as [|l D1 IH]; intros H2; [reflexivity|]. cbn [map mapM]. rewrite (H2 l (or_introl eq_refl)). cbn [bind].
    rewrite IH by (intros; apply H2; right; assumption). reflexivity. }
  rewrite VAL. cbn [bind]. destruct mdicts_build as (cb & EC & DO). rewrite EC. cbn [bind].
  destruct (mapM_exists (mc_table env cb files) (fun k t => forall l, nthN D k = Some l -> table_rep cb k l t) (range (lenN D))) as (ts & ET & F).
  { intros k Hk. unfold range in Hk. apply In_seqN in Hk. destruct (nthN_Some D k ltac:(lia)) as (l & Hl). destruct (table_ok cb k l DO Hl) as (t & E & R).
    exists t. split; [exact E|]. intros l' Hl'. congruence. }
  rewrite ET. cbn [bind]. eexists. split; [reflexivity|].
  assert (LT : lenN ts = lenN D). { apply Forall2_len in F. pose proof (lenN_range (lenN D)) as LR. unfold lenN at 1 in LR. unfold lenN at 1. lia. }
  split; [exact LT|]. exists cb. split; [reflexivity|]. split; [assumption|]. intros k l Hl. pose proof (nthN_lt _ _ _ Hl) as LK. cbn [mc_tables].
  destruct (nthN_Some ts k ltac:(lia)) as (t & Ht). exists t. split; [assumption|].
  assert (Hr : nthN (range (lenN D)) k = Some k) by (apply nthN_range; assumption).
  apply (Forall2_nthN _ _ _ _ _ _ F Hr Ht). assumption.
Qed.

Lemma lookup_present m k l g c buf r : mc_rep m -> nthN D k = Some l -> In (g, c) l -> holds_text buf r (join g) -> mc_lookup env m buf r = Ok c.
Proof.
  intros (LT & cb & EC & DO & TS) Hl Hg HT. destruct (gf_words _ GF k l g c Hl Hg) as (LG & FW & HC).
  assert (GN : g <> []) by (intros ->; change (lenN (@nil (list N))) with 0 in LG; lia).
  unfold mc_lookup. rewrite (bytes_at_ok _ _ _ HT). cbn [bind]. rewrite spaces_join by (first [assumption|eapply Forall_impl; [|exact FW]; intros ? [? _]; assumption]).
  replace (lenN g - 1) with k by lia. destruct (TS k l Hl) as (t & Ht & n & rs & F2 & SR & PA). rewrite (proj2 (rd_nthN _ _ _) Ht). cbn [bind].
  destruct (In_nthN _ _ Hg) as (i & Hi). destruct (nthN_Some rs i) as (rk & Hr). { apply nthN_lt in Hi. apply Forall2_len in F2. unfold lenN in *. lia. }
  rewrite (svt_lookup_in _ _ _ _ _ (join g) rk SR). 2:{ eapply nthN_In. rewrite nthN_combine, nthN_map, Hi, Hr. reflexivity. }
  cbn [bind]. rewrite EC. pose proof (Forall2_nthN _ _ _ _ _ _ F2 Hi Hr) as (_ & _ & A). exact A.
Qed.
Lemma lookup_any m k l g buf r : mc_rep m -> nthN D k = Some l -> holds_text buf r g -> lenN (filter (fun c => c =? c_space) g) = k ->
  (mc_lookup env m buf r = UB /\ exists t, nthN (mc_tables m) k = Some t /\ mph_lookup (sv_h t) (me_h env k g) = Ok (lenN l)) \/
  (exists g' c, In (g', c) l /\ mc_lookup env m buf r = if mix (me_hb env) (me_h env k (join g')) =? mix (me_hb env) (me_h env k g) then Ok c else UB).
Proof.
  intros (LT & cb & EC & DO & TS) Hl HT SP. destruct (TS k l Hl) as (t & Ht & n & rs & F2 & SR & PA).
  assert (PA' : hcv_get (me_hb env) (sv_data t) (lenN (map (fun e : gram * N => join (fst e)) l)) = UB) by (rewrite lenN_map; exact PA).
  destruct (svt_lookup_past _ _ _ _ _ g SR PA') as [(A & B)|(key & rk & I & _ & _ & E)].
  - left. split; [unfold mc_lookup; rewrite (bytes_at_ok _ _ _ HT); cbn [bind]; rewrite SP, (proj2 (rd_nthN _ _ _) Ht); cbn [bind]; rewrite B; reflexivity|].
    exists t. rewrite lenN_map in A. auto.
  - right. destruct (In_nthN _ _ I) as (i & Hi). rewrite nthN_combine, nthN_map in Hi. destruct (nthN l i) as [[g' c]|] eqn:Hgi; [|discriminate].
    destruct (nthN rs i) as [rk'|] eqn:Hri; [|discriminate]. cbn [option_map fst] in Hi. injection Hi as <- <-.
    exists g', c. split; [eapply nthN_In; eauto|]. unfold mc_lookup. rewrite (bytes_at_ok _ _ _ HT). cbn [bind]. rewrite SP.
    rewrite (proj2 (rd_nthN _ _ _) Ht). cbn [bind]. rewrite E. cbn [bind]. rewrite EC.
    destruct (_ =? _); [|apply (DO k l Hl)]. pose proof (Forall2_nthN _ _ _ _ _ _ F2 Hgi Hri) as (_ & _ & A). exact A.
Qed.
End Build.

(** ** C24 *)
(** Construction succeeds, and every indexed gram is answered with its count. *)
Theorem C24_lookup_indexed : forall (D : list (list (gram * N))) (env : menv),
  gram_files D -> mph_inputs_ok D env ->
  exists m, mc_build env (map (map line) D) (lenN D) = Ok m /\
    forall k l g c, nthN D k = Some l -> In (g, c) l -> forall buf r, holds_text buf r (join g) -> mc_lookup env m buf r = Ok c.
Proof.
  intros D env GF MI. destruct (mc_build_ok D env GF MI) as (m & E & R). exists m. split; [exact E|]. intros. eapply lookup_present; eauto.
Qed.
(** What happens for any other text [g] with k spaces, k below the order: either [g] hashes past the
    last slot of the table; or it hashes to the slot of some gram g', and
    - if the fingerprints agree the count of g' is answered,
    - otherwise the dictionary of counts is read at position 2^64 - 1: undefined behaviour.
    In particular not_found is never answered. *)
Theorem C24_absent_refuted : forall (D : list (list (gram * N))) (env : menv),
  gram_files D -> mph_inputs_ok D env ->
  exists m, mc_build env (map (map line) D) (lenN D) = Ok m /\
    forall g k l, nthN D k = Some l -> lenN (filter (fun c => c =? 32) g) = k -> forall buf r, holds_text buf r g ->
      (exists t, nthN (mc_tables m) k = Some t /\ mph_lookup (sv_h t) (me_h env k g) = Ok (lenN l)) \/
      (exists g' c, In (g', c) l /\
        (mix (me_hb env) (me_h env k (join g')) = mix (me_hb env) (me_h env k g) -> mc_lookup env m buf r = Ok c) /\
        (mix (me_hb env) (me_h env k (join g')) <> mix (me_hb env) (me_h env k g) -> mc_lookup env m buf r = UB)).
Proof.
  intros D env GF MI. destruct (mc_build_ok D env GF MI) as (m & E & R). exists m. split; [exact E|]. intros g k l Hl SP buf r HT.
  destruct (lookup_any D env m k l g buf r R Hl HT SP) as [(_ & A)|(g' & c & I & A)]; [left; assumption|right]. exists g', c. split; [assumption|]. rewrite A.
  destruct (N.eqb_spec (mix (me_hb env) (me_h env k (join g'))) (mix (me_hb env) (me_h env k g))) as [X|X]; split; intros; congruence.
Qed.
(** For every text (any bytes): a lookup that ends answers the count of an indexed gram with as many spaces and the same fingerprint.
    So a text that is not indexed, and whose fingerprint no gram of its order has, is never answered at all (not even by not_found):
    the lookup reads out of bounds. *)
Theorem C24_any_answer : forall (D : list (list (gram * N))) (env : menv),
  gram_files D -> mph_inputs_ok D env ->
  exists m, mc_build env (map (map line) D) (lenN D) = Ok m /\
    forall g buf r, holds_text buf r g ->
      let k := lenN (filter (fun c => c =? 32) g) in
      (forall c, mc_lookup env m buf r = Ok c ->
        exists l g', nthN D k = Some l /\ In (g', c) l /\ mix (me_hb env) (me_h env k (join g')) = mix (me_hb env) (me_h env k g)) /\
      ((forall l g' c, nthN D k = Some l -> In (g', c) l -> mix (me_hb env) (me_h env k (join g')) <> mix (me_hb env) (me_h env k g)) ->
        mc_lookup env m buf r = UB).
Proof.
  intros D env GF MI. destruct (mc_build_ok D env GF MI) as (m & E & R). exists m. split; [exact E|]. intros g buf r HT k.
  destruct (N.le_gt_cases (lenN D) k) as [L|L].
  - assert (U : mc_lookup env m buf r = UB).
    { destruct R as (LT & _). unfold mc_lookup. rewrite (bytes_at_ok _ _ _ HT). cbn [bind]. unfold rd, c_space. rewrite LT. fold k. destruct (N.ltb_spec k (lenN D)); [lia|reflexivity]. }
    rewrite U. split; [discriminate|reflexivity].
  - destruct (nthN_Some D k L) as (l & Hl). destruct (lookup_any D env m k l g buf r R Hl HT eq_refl) as [(U & _)|(g' & c' & I & A)].
    + rewrite U. split; [discriminate|reflexivity].
    + rewrite A. destruct (N.eqb_spec (mix (me_hb env) (me_h env k (join g'))) (mix (me_hb env) (me_h env k g))) as [X|X].
      * split; [intros c [= <-]; exists l, g'; auto|]. intros NF. exfalso. exact (NF l g' c' Hl I X).
      * split; [discriminate|reflexivity].
Qed.
(** A query with as many spaces as the order or more reads past the array of tables. *)
Theorem C24_long_query_refuted : forall (D : list (list (gram * N))) (env : menv),
  gram_files D -> mph_inputs_ok D env ->
  exists m, mc_build env (map (map line) D) (lenN D) = Ok m /\
    forall g buf r, holds_text buf r g -> lenN D <= lenN (filter (fun c => c =? 32) g) -> mc_lookup env m buf r = UB.
Proof.
  intros D env GF MI. destruct (mc_build_ok D env GF MI) as (m & E & R). exists m. split; [exact E|]. intros g buf r HT L.
  destruct R as (LT & _). unfold mc_lookup. rewrite (bytes_at_ok _ _ _ HT). cbn [bind]. unfold rd, c_space. rewrite LT. 
  destruct (N.ltb_spec (lenN (filter (fun c => c =? 32) g)) (lenN D)); [lia|reflexivity].
Qed.

(** an instance *)
Definition exm_D : list (list (gram * N)) := [
  [([[97]], 5); ([[98]], 3); ([[99]], 2)];
  [([[97]; [98]], 3); ([[98]; [99]], 2); ([[99]; [97]], 3)]].
Definition exm_h (k : N) (s : list N) : triple :=
  match k, s with
  | 0, [97] | 1, [97; 32; 98] => (0, 1, 0)
  | 0, [98] | 1, [98; 32; 99] => (1, 1, 0)
  | 0, [99] | 1, [99; 32; 97] => (1, 0, 0)
  | _, c :: _ => (c, c, c)
  | _, [] => (0, 0, 0)
  end.
Definition exm_env (hb : N) : menv := mkmenv hb exm_h (fun _ => [(3, 0, 4); (1, 3, 4); (2, 1, 4)]) (map (fun l => with_freq (map snd l)) exm_D) 100.
Definition exm_ask (hb : N) (qs : list gram) : res (list (option N)) :=
  m <- mc_build (exm_env hb) (map (map line) exm_D) 2 ;;
  Ok (map (fun q => match mc_lookup (exm_env hb) m (join q) (0, lenN (join q)) with Ok x => Some x | _ => None end) qs).
Example C24_example_hyps : forall hb, hb = 32 \/ hb = 64 -> gram_files exm_D /\ mph_inputs_ok exm_D (exm_env hb).
Proof.
  intros hb HB.
  assert (KS : forall k l, nthN exm_D k = Some l -> k = 0 \/ k = 1). { intros k l H. apply nthN_lt in H. change (lenN exm_D) with 2 in H. lia. }
  split; split.
  - vm_compute. split; discriminate.
  - intros k l H. destruct (KS k l H) as [->| ->]; injection H as <-; (split; [discriminate|reflexivity]).
  - intros k l g c H I. destruct (KS k l H) as [->| ->]; injection H as <-; cbn in I;
      repeat (destruct I as [I|I]; [injection I as <- <-; split; [reflexivity|split; [|reflexivity]];
        repeat (constructor; [split; [split; [discriminate|cbn; intuition discriminate]|cbn; intuition discriminate]|]); constructor|]); destruct I.
  - destruct HB as [-> | ->]; [right; split; [reflexivity|]|left; reflexivity]. intros k l H. destruct (KS k l H) as [->| ->]; injection H as <-; vm_compute; discriminate.
  - intros k l H. assert (V : forall h ks, (h : list N -> triple) = exm_h k -> map h ks = [(0, 1, 0); (1, 1, 0); (1, 0, 0)] -> valid_order 2 h ks [(3, 0, 4); (1, 3, 4); (2, 1, 4)]).
    { intros h ks Eh Em. destruct ks as [|a [|b [|c [|? ?]]]]; try discriminate Em. cbn [map] in Em. injection Em as E1 E2 E3. split.
      - exists [a; b; c]. split; [apply Permutation_refl|]. constructor; [|constructor; [|constructor; [|constructor]]]; unfold edge_of; rewrite ?E1, ?E2, ?E3; cbn.
        + apply perm_swap.
        + apply Permutation_refl.
        + apply perm_swap.
      - repeat constructor; cbn; intros I; repeat (destruct I as [I|I]; [discriminate|]); destruct I. }
    destruct (KS k l H) as [->| ->]; injection H as <-; apply V; reflexivity.
  - cbn [me_sorts exm_env]. clear KS. generalize exm_D. intros E. induction E as [|l D IH]; [constructor|constructor; [apply Permutation_refl|exact IH]].
  - intros k l H. destruct (KS k l H) as [->| ->]; injection H as <-; vm_compute; discriminate.
Qed.
Example C24_example :
  exm_ask 32 (concat (map (map fst) exm_D)) = Ok (map Some [5; 3; 2; 3; 2; 3]) /\ exm_ask 64 (concat (map (map fst) exm_D)) = Ok (map Some [5; 3; 2; 3; 2; 3]) /\
  exm_ask 64 [[[100]]; [[97]; [97]]; [[97]; [97]; [97]]] = Ok [None; None; None].
Proof. repeat split; vm_compute; reflexivity. Qed.

Print Assumptions C24_lookup_indexed.
Print Assumptions C24_absent_refuted.
Print Assumptions C24_long_query_refuted.
Print Assumptions C24_any_answer.
