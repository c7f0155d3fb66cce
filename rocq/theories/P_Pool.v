From Verif Require Import Prelude BitFacts Spec M_Text P_Text P_Text2 M_Pool.

(** [p] holds the records [rs] *)
Definition pool_rep {A} (p : pool A) (M : N) (rs : list (list N * A)) : Prop :=
  p_max p = M /\ p_cap p = M /\ p_moved p = false /\ p_data p = concat (map fst rs) /\ lenN (p_data p) <= M /\
  lenN (p_index p) = lenN rs /\
  forall k g a, nthN rs k = Some (g, a) -> exists pre post,
    p_data p = pre ++ g ++ post /\ nthN (p_index p) k = Some ((lenN pre, lenN pre + lenN g), a).

Lemma pool_new_rep {A} M : pool_rep (pool_new M : pool A) M [].
Proof.
  repeat split; try reflexivity. cbn. change (lenN (@nil N)) with 0. lia. intros k g a H. unfold nthN in H. destruct (N.to_nat k); discriminate.
Qed.
Lemma pool_clear_rep {A} (p : pool A) M rs : pool_rep p M rs -> pool_rep (pool_clear p) M [].
Proof.
  intros (H1 & H2 & H3 & H4 & H5 & H6). repeat split; try assumption; try reflexivity. cbn. change (lenN (@nil N)) with 0. lia.
  intros k g a H. unfold nthN in H. destruct (N.to_nat k); discriminate.
Qed.
Lemma nthN_snoc_inv {A} (l : list A) x k y : nthN (l ++ [x]) k = Some y -> nthN l k = Some y \/ (k = lenN l /\ y = x).
Proof.
  intros H. destruct (N.lt_ge_cases k (lenN l)) as [L|L].
  - rewrite nthN_app1 in H by assumption. auto.
  - pose proof (nthN_lt _ _ _ H) as K. rewrite lenN_app in K. change (lenN [x]) with 1 in K. assert (k = lenN l) by lia. subst k.
    rewrite nthN_app2, N.sub_diag in H by lia. cbn in H. injection H as ->. auto.
Qed.
Lemma pool_append_rep {A} (p : pool A) M rs g (a : A) : pool_rep p M rs -> g <> [] ->
  lenN (concat (map fst rs)) + lenN g <= M ->
  exists p', pool_append p g a = (true, p') /\ pool_rep p' M (rs ++ [(g, a)]).
Proof.
  intros (H1 & H2 & H3 & H4 & H5 & H6 & H7) NE HM. unfold pool_append. rewrite H1, H2, H3, H4.
  destruct (N.eqb_spec (lenN g) 0) as [Z|Z]; [destruct g; [congruence|rewrite lenN_cons in Z; lia]|].
  destruct (N.ltb_spec M (lenN (concat (map fst rs)) + lenN g)); [lia|]. eexists. split; [reflexivity|].
  rewrite lenN_app. destruct (N.ltb_spec M (lenN (concat (map fst rs)) + lenN g)); [lia|].
  split; [reflexivity|]. split; [reflexivity|]. split; [reflexivity|]. cbn [p_data p_index].
  split; [rewrite map_app, concat_app; cbn; rewrite app_nil_r; reflexivity|]. split; [rewrite lenN_app; lia|].
  split; [rewrite !lenN_app, H6; reflexivity|].
  intros k g' a' Hk. apply nthN_snoc_inv in Hk. destruct Hk as [Hk|[-> E]].
  - destruct (H7 k g' a' Hk) as (pre & post & E1 & E2). rewrite H4 in E1. exists pre, (post ++ g). split.
    + rewrite E1. rewrite <- !app_assoc. reflexivity.
    + rewrite nthN_app1; [assumption|]. eapply nthN_lt; eauto.
  - injection E as -> ->. exists (concat (map fst rs)), []. split; [rewrite app_nil_r; reflexivity|].
    rewrite <- H6, nthN_app2, N.sub_diag by lia. reflexivity.
Qed.
Lemma pool_record_ok {A} (p : pool A) M rs k g a : pool_rep p M rs -> nthN rs k = Some (g, a) -> pool_record p k = Ok (g, a).
Proof.
  intros (H1 & H2 & H3 & H4 & H5 & H6 & H7) Hk. destruct (H7 k g a Hk) as (pre & post & E1 & E2).
  unfold pool_record. rewrite (proj2 (rd_nthN _ _ _) E2). cbn [bind]. rewrite H3. cbn [fst snd].
  destruct (N.leb_spec (lenN pre) (lenN pre + lenN g)); [|lia].
  destruct (N.leb_spec (lenN pre + lenN g) (lenN (p_data p))); [|rewrite E1, !lenN_app in *; lia]. cbn [andb].
  rewrite E1. replace (lenN pre + lenN g - lenN pre) with (lenN g) by lia. unfold lenN. rewrite !Nat2N.id.
  rewrite skipn_app, skipn_all, Nat.sub_diag. cbn [skipn app]. rewrite firstn_app, Nat.sub_diag, firstn_all. cbn [firstn]. rewrite app_nil_r. reflexivity.
Qed.

(** loading a count file *)
Lemma pool_load_lines_ok : forall (gs : list (list N * N)) p M rs, pool_rep p M rs ->
  Forall (fun r => fst r <> [] /\ ~ In 9 (fst r) /\ snd r < 2 ^ 64) gs ->
  lenN (concat (map fst (rs ++ gs))) <= M ->
  exists p', pool_load_lines p (map (fun r => format_count_line (fst r) (snd r)) gs) = Ok p' /\ pool_rep p' M (rs ++ gs).
Proof.
  induction gs as [|[g c] gs IH]; intros p M rs R HF HM; cbn [map pool_load_lines].
  - exists p. rewrite app_nil_r. auto.
  - inversion HF as [|? ? (A1 & A2 & A3) HF']; subst. cbn [fst snd] in *. rewrite parse_format by assumption. cbn [bind fst snd].
    assert (T : firstn (N.to_nat (lenN g - 0)) (skipn (N.to_nat 0) (c_str (format_count_line g c))) = g).
    { rewrite N.sub_0_r. unfold lenN. rewrite Nat2N.id. change (N.to_nat 0) with 0%nat. cbn [skipn]. unfold c_str, format_count_line.
      rewrite <- app_assoc, firstn_app, Nat.sub_diag, firstn_all. cbn [firstn]. apply app_nil_r. }
    rewrite T.
    destruct (pool_append_rep p M rs g c R A1) as (p' & E & R').
    { rewrite map_app, concat_app in HM. cbn [map concat fst] in HM. rewrite !lenN_app in HM. lia. }
    rewrite E. replace (rs ++ (g, c) :: gs) with ((rs ++ [(g, c)]) ++ gs) in * by (rewrite <- app_assoc; reflexivity). apply IH; assumption.
Qed.
