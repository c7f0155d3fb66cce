(** * Proofs about save and load *)
From Coq Require Import Floats.SpecFloat.
From Verif Require Import Prelude BitFacts M_Word M_Bits M_CompactVector M_DArray M_EF M_HashVec M_Mph M_FastEF M_SeqColl
  M_Trie M_MphCount M_Score M_Quant M_MphProb M_Save Spec_Save P_Quant.

Lemma len_le k : forall x, length (le_bytes k x) = k.
Proof. induction k as [|k IH]; intros x; [reflexivity|]. cbn [le_bytes length]. rewrite IH. reflexivity. Qed.
Lemma le_round k : forall x, x < 2 ^ (8 * N.of_nat k) -> le_value (le_bytes k x) = x.
Proof.
  induction k as [|k IH]; intros x H.
  - cbn in *. lia.
  - cbn [le_bytes le_value]. rewrite IH.
    + pose proof (N.div_mod x 256). lia.
    + apply N.div_lt_upper_bound; [lia|]. replace (8 * N.of_nat (S k)) with (8 + 8 * N.of_nat k) in H by lia.
      rewrite N.pow_add_r in H. exact H.
Qed.
Lemma pod_ok k x : x < 2 ^ (8 * N.of_nat k) -> restores (save_pod k) (load_pod k) x.
Proof.
  intros H tail. unfold load_pod, save_pod. pose proof (len_le k x) as L.
  destruct (Nat.ltb_spec (length (le_bytes k x ++ tail)) k) as [C|_]; [rewrite app_length in C; lia|].
  rewrite firstn_app, skipn_app, L, Nat.sub_diag. cbn [firstn skipn]. rewrite <- L at 1.
  rewrite firstn_all, app_nil_r, le_round by assumption. rewrite <- L at 1. rewrite skipn_all. reflexivity.
Qed.
Lemma pod1_ok x : is_u8 x -> restores (save_pod 1) (load_pod 1) x.
Proof. intros H. apply pod_ok. exact H. Qed.
Lemma pod2_ok x : is_u16 x -> restores (save_pod 2) (load_pod 2) x.
Proof. intros H. apply pod_ok. exact H. Qed.
Lemma pod8_ok x : is_u64 x -> restores (save_pod 8) (load_pod 8) x.
Proof. intros H. apply pod_ok. exact H. Qed.

Lemma seq_ok {A} sv (ld : list N -> res (A * list N)) l : Forall (restores sv ld) l ->
  forall tail, load_seq ld (length l) (save_seq sv l ++ tail) = Ok (l, tail).
Proof.
  induction 1 as [|a l H F IH]; intros tail; [reflexivity|]. unfold save_seq in *. cbn [map concat length load_seq].
  rewrite <- app_assoc, H. cbn [bind]. cbv beta iota. rewrite IH. reflexivity.
Qed.
Lemma seqN_ok {A} sv (ld : list N -> res (A * list N)) l n : lenN l = n -> Forall (restores sv ld) l ->
  forall tail, load_seq ld (N.to_nat n) (save_seq sv l ++ tail) = Ok (l, tail).
Proof. intros L F tail. replace (N.to_nat n) with (length l) by (unfold lenN in L; lia). apply seq_ok. assumption. Qed.

Lemma vec_ok k (l : list N) : is_vec (fun x => x < 2 ^ (8 * N.of_nat k)) l -> restores (save_vec k) (load_vec k) l.
Proof.
  intros (F & L) tail. unfold save_vec, load_vec. rewrite <- app_assoc, (pod8_ok (lenN l) L). cbn [bind]. cbv beta iota.
  apply seqN_ok; [reflexivity|]. eapply Forall_impl; [|exact F]. intros a H. apply pod_ok. exact H.
Qed.
Lemma vec8_ok l : is_vec is_u64 l -> restores (save_vec 8) (load_vec 8) l.
Proof. intros H. apply vec_ok. exact H. Qed.
Lemma vec2_ok l : is_vec is_u16 l -> restores (save_vec 2) (load_vec 2) l.
Proof. intros H. apply vec_ok. exact H. Qed.

Ltac step H := rewrite <- ?app_assoc, H by assumption; cbn [bind]; cbv beta iota.

Lemma bv_ok v : t_bv v -> restores save_bv load_bv v.
Proof. intros (H1 & H2) tail. unfold save_bv, load_bv. step pod8_ok. step vec8_ok. destruct v; reflexivity. Qed.
Lemma cv_ok v : t_cv v -> restores save_cv load_cv v.
Proof. intros (H1 & H2 & H3 & H4) tail. unfold save_cv, load_cv. step pod8_ok. step pod8_ok. step pod8_ok. step vec8_ok. destruct v; reflexivity. Qed.
Lemma hcv_ok hb v : hb = 32 \/ hb = 64 -> t_hcv hb v -> restores (save_hcv hb) (load_hcv hb) v.
Proof.
  intros HB (H1 & H2 & H3 & H4) tail. unfold save_hcv, load_hcv. step pod8_ok. step pod8_ok. step pod8_ok.
  rewrite vec_ok by (destruct HB; subst; exact H4). cbn [bind]. cbv beta iota. destruct v; reflexivity.
Qed.
Lemma ct_ok v : t_ct v -> restores save_ct load_ct v.
Proof.
  intros (H1 & H2 & H3 & H4 & H5) tail. unfold save_ct, load_ct. step pod8_ok. step pod8_ok. step pod8_ok. step pod8_ok. step bv_ok.
  destruct v; reflexivity.
Qed.
Lemma i64_round z : is_i64 z -> to_i64 (of_i64 z) = z /\ is_u64 (of_i64 z).
Proof.
  intros H. unfold is_i64, is_u64, to_i64, of_i64 in *.
  pose proof (Z.mod_pos_bound z (2 ^ 64) ltac:(lia)) as M.
  split; [|apply N2Z.inj_lt; rewrite Z2N.id by lia; exact (proj2 M)].
  destruct (Z.lt_ge_cases z 0) as [C|C].
  - assert (E : (z mod 2 ^ 64 = z + 2 ^ 64)%Z) by (symmetry; apply Z.mod_unique with (-1)%Z; lia).
    rewrite E. destruct (N.ltb_spec (Z.to_N (z + 2 ^ 64)) (2 ^ 63)); [lia|]. rewrite Z2N.id by lia. lia.
  - rewrite Z.mod_small by lia. destruct (N.ltb_spec (Z.to_N z) (2 ^ 63)); [apply Z2N.id; lia|lia].
Qed.
Lemma darr_ok_ d : t_darr d -> restores save_darr load_darr d.
Proof.
  intros (H1 & (H2 & H2') & H3 & H4) tail. unfold save_darr, load_darr. step pod8_ok.
  assert (V : is_vec is_u64 (map of_i64 (d_blk d))).
  { split; [|rewrite lenN_map; assumption]. apply Forall_map. eapply Forall_impl; [|exact H2]. intros z Hz. apply i64_round. assumption. }
  step (vec8_ok _ V). step vec2_ok. step vec8_ok.
  replace (map to_i64 (map of_i64 (d_blk d))) with (d_blk d); [destruct d; reflexivity|].
  rewrite map_map. rewrite <- (map_id (d_blk d)) at 1. apply map_ext_in. intros z Hz. rewrite Forall_forall in H2.
  symmetry. apply i64_round. apply H2. assumption.
Qed.

(** options *)
Lemma opt_ok {A} sv (ld : list N -> res (A * list N)) dflt is_dflt o :
  restores sv ld dflt -> is_dflt dflt = true ->
  match o with Some x => restores sv ld x /\ is_dflt x = false | None => True end ->
  restores (save_opt sv dflt) (load_opt ld is_dflt) o.
Proof.
  intros D E H tail. unfold save_opt, load_opt. destruct o as [x|].
  - destruct H as (R & N). rewrite R. cbn [bind]. rewrite N. reflexivity.
  - rewrite D. cbn [bind]. rewrite E. reflexivity.
Qed.

Lemma t_bv0 : t_bv bv0. Proof. split; [vm_compute; reflexivity|]. split; [constructor|vm_compute; reflexivity]. Qed.
Lemma is_vec0 {A} (P : A -> Prop) : is_vec P [].
Proof. split; [constructor|vm_compute; reflexivity]. Qed.
Lemma u64_0 : is_u64 0. Proof. vm_compute. reflexivity. Qed.
Lemma t_cv0 : t_cv cv0. Proof. split; [apply u64_0|]. split; [apply u64_0|]. split; [apply u64_0|]. apply is_vec0. Qed.
Lemma t_darr0 : t_darr darr0. Proof. split; [apply u64_0|]. split; [apply is_vec0|]. split; apply is_vec0. Qed.

Lemma d0_ok o : t_opt t_darr (fun d => d_pos d <> 0) o ->
  restores (save_opt save_darr darr0) (load_opt load_darr (fun d => d_pos d =? 0)) o.
Proof.
  intros H. apply opt_ok; [apply darr_ok_, t_darr0|reflexivity|]. destruct o as [d|]; [|exact I]. destruct H as (T & B).
  split; [apply darr_ok_; assumption|apply N.eqb_neq; assumption].
Qed.
Lemma ef_ok e : t_ef e -> restores save_ef load_ef e.
Proof.
  intros ((H1 & H2 & H3 & H4) & H5 & H6) tail. unfold save_ef, load_ef. cbv zeta.
  step pod1_ok. step bv_ok. step darr_ok_. step d0_ok. step bv_ok. step pod8_ok. destruct e as [[] ? ?]; reflexivity.
Qed.
Lemma t_ef0 : t_ef ef0.
Proof. split; [|split; [exact I|vm_compute; reflexivity]]. split; [vm_compute; reflexivity|]. split; [apply t_bv0|]. split; [apply t_darr0|apply t_bv0]. Qed.
Lemma pss_ok p : t_pss p -> restores save_pss load_pss p.
Proof. intros (H1 & H2) tail. unfold save_pss, load_pss. step pod8_ok. step ef_ok. destruct p; reflexivity. Qed.
Lemma icw_ok p : t_icw p -> restores save_icw load_icw p.
Proof. intros (H1 & H2 & H3 & H4) tail. unfold save_icw, load_icw. step pod8_ok. step bv_ok. step bv_ok. step darr_ok_. destruct p; reflexivity. Qed.

Section Ext.
  Variable x : ext.
  Hypothesis XOK : ext_ok x.

  Lemma mphf_ok m : t_mphf m -> restores (save_mphf x) (load_mphf x) m.
  Proof.
    intros (H1 & H2 & H3) tail. unfold save_mphf, load_mphf. step pod8_ok. step pod8_ok. rewrite (proj2 (proj2 XOK)) by assumption.
    cbn [bind]. destruct m; reflexivity.
  Qed.
  Lemma svt_ok hb t : hb = 32 \/ hb = 64 -> t_svt hb t -> restores (save_svt x hb) (load_svt x hb) t.
  Proof.
    intros HB (H1 & H2) tail. unfold save_svt, load_svt. step mphf_ok. rewrite hcv_ok by assumption. cbn [bind]. destruct t; reflexivity.
  Qed.
  Lemma dvt_ok t : t_dvt t -> restores (save_dvt x) (load_dvt x) t.
  Proof. intros (H1 & H2) tail. unfold save_dvt, load_dvt. step mphf_ok. step ct_ok. destruct t; reflexivity. Qed.
  Lemma umph_ok t : t_umph t -> restores (save_umph x) (load_umph x) t.
  Proof. intros (H1 & H2) tail. unfold save_umph, load_umph. step mphf_ok. step cv_ok. destruct t; reflexivity. Qed.
  Lemma t_umph0 : t_umph (umph0 x).
  Proof. split; [|apply t_cv0]. split; [apply XOK|]. split; [apply XOK|apply is_vec0]. Qed.
  Lemma off_ok o : t_opt t_umph (fun t => m_bv (ut_h t) <> []) o ->
    restores (save_opt (save_umph x) (umph0 x)) (load_opt (load_umph x) (fun t => match m_bv (ut_h t) with [] => true | _ => false end)) o.
  Proof.
    intros H. apply opt_ok; [apply umph_ok, t_umph0|reflexivity|]. destruct o as [d|]; [|exact I]. destruct H as (T & B).
    split; [apply umph_ok; assumption|]. destruct (m_bv (ut_h d)); [congruence|reflexivity].
  Qed.
  Lemma fef_ok f : t_fef f -> restores (save_fef x) (load_fef x) f.
  Proof.
    intros (H1 & H2 & H3 & (H4 & H5 & H6 & H7)) tail. unfold save_fef, load_fef. cbv zeta.
    step pod8_ok. step off_ok. step vec8_ok. step bv_ok. step darr_ok_. step bv_ok. step pod1_ok. destruct f as [? ? ? []]; reflexivity.
  Qed.
  Lemma t_fef0 : t_fef fef0.
  Proof.
    split; [vm_compute; reflexivity|]. split; [exact I|]. split; [split; [constructor|vm_compute; reflexivity]|]. apply t_ef0.
  Qed.
  Lemma grams_ok o : t_opt t_fef (fun f => f_size f <> 0) o ->
    restores (save_opt (save_fef x) fef0) (load_opt (load_fef x) (fun f => f_size f =? 0)) o.
  Proof.
    intros H. apply opt_ok; [apply fef_ok, t_fef0|reflexivity|]. destruct o as [d|]; [|exact I]. destruct H as (T & B).
    split; [apply fef_ok; assumption|apply N.eqb_neq; assumption].
  Qed.
  Lemma ranks_ok_ k r : t_ranks k r -> restores save_ranks (load_ranks k) r.
  Proof.
    intros H tail. destruct k, r as [s|p]; cbn [t_ranks save_ranks load_ranks] in *; try contradiction.
    - rewrite icw_ok by assumption. reflexivity.
    - rewrite pss_ok by assumption. reflexivity.
  Qed.
  Lemma t_ranks0 k : t_ranks k (ranks0 k).
  Proof.
    destruct k; cbn [t_ranks ranks0].
    - split; [vm_compute; reflexivity|]. split; [apply t_bv0|]. split; [apply t_bv0|apply t_darr0].
    - split; [vm_compute; reflexivity|apply t_ef0].
  Qed.
  Lemma sarr_ok k order a : t_sarr k order a -> restores (save_sarr x k order) (load_sarr x k order) a.
  Proof.
    intros (H1 & H2 & H3 & H4) tail. unfold save_sarr, load_sarr. step pod8_ok.
    assert (R : restores (save_opt save_ranks (ranks0 k)) (load_opt (load_ranks k) ranks_dflt) (s_ranks a)).
    { apply opt_ok; [apply ranks_ok_, t_ranks0|destruct k; reflexivity|]. destruct (s_ranks a) as [r|]; [|exact I]. destruct H3 as (T & B).
      split; [apply ranks_ok_; assumption|]. destruct r; apply N.eqb_neq; assumption. }
    assert (P : restores (save_opt save_ef ef0) (load_opt load_ef (fun e => ef_size e =? 0)) (s_ptrs a)).
    { apply opt_ok; [apply ef_ok, t_ef0|reflexivity|]. destruct (s_ptrs a) as [e|]; [|exact I]. destruct H4 as (T & B).
      split; [apply ef_ok; assumption|apply N.eqb_neq; assumption]. }
    destruct (N.eqb_spec order 1).
    - cbn [bind app]. step R. step P. destruct a as [n g r p]; cbn [s_grams s_size s_ranks s_ptrs] in *; subst; reflexivity.
    - step grams_ok. step R. step P. destruct a; reflexivity.
  Qed.
  Lemma sc_ok order l : lenN l = order -> Forall t_cv l -> forall tail, load_sc order (save_sc l ++ tail) = Ok (l, tail).
  Proof. intros L F. apply seqN_ok; [assumption|]. eapply Forall_impl; [|exact F]. intros c H. apply cv_ok. assumption. Qed.
  Lemma arrays_ok k : forall l order, (forall i a, nthN l i = Some a -> t_sarr k (i + order) a) ->
    forall tail, load_arrays x k order (length l) (save_arrays x k order l ++ tail) = Ok (l, tail).
  Proof.
    induction l as [|a l IH]; intros order H tail; [reflexivity|]. cbn [save_arrays load_arrays length].
    rewrite <- app_assoc, sarr_ok by (apply (H 0); reflexivity). cbn [bind]. cbv beta iota.
    rewrite IH; [reflexivity|]. intros i b Hb. replace (i + (order + 1)) with (i + 1 + order) by lia. apply H.
    rewrite <- Hb. unfold nthN. replace (N.to_nat (i + 1)) with (S (N.to_nat i)) by lia. reflexivity.
  Qed.
  Lemma trie_ok k t : t_trie k t -> restores (save_trie x k) (load_trie x k) t.
  Proof.
    intros (H1 & H2 & H3 & H4 & H5 & H6 & H7) tail. unfold save_trie, load_trie.
    step pod1_ok. step pod1_ok. rewrite sc_ok by assumption. cbn [bind]. cbv beta iota.
    rewrite svt_ok by (assumption || (right; reflexivity)). cbn [bind]. cbv beta iota.
    replace (N.to_nat (t_order t)) with (length (t_arrays t)) by (unfold lenN in H6; lia).
    rewrite arrays_ok by assumption. cbn [bind]. destruct t; reflexivity.
  Qed.
  Lemma tables_ok hb l n : hb = 32 \/ hb = 64 -> lenN l = n -> Forall (t_svt hb) l ->
    forall tail, load_seq (load_svt x hb) (N.to_nat n) (save_seq (save_svt x hb) l ++ tail) = Ok (l, tail).
  Proof. intros HB L F. apply seqN_ok; [assumption|]. eapply Forall_impl; [|exact F]. intros c H. apply svt_ok; assumption. Qed.
  Lemma mcl_ok hb m : hb = 32 \/ hb = 64 -> t_mcl hb m -> restores (save_mcl x hb) (load_mcl x hb) m.
  Proof.
    intros HB (H1 & H2 & H3 & H4 & H5) tail. unfold save_mcl, load_mcl. step pod1_ok. rewrite sc_ok by assumption. cbn [bind]. cbv beta iota.
    rewrite tables_ok by assumption. cbn [bind]. destruct m; reflexivity.
  Qed.
  Lemma qsc_ok n q : n < 2 ^ 63 -> t_qsc n q -> forall tail, load_qsc n (save_qsc q ++ tail) = Ok (q, tail).
  Proof using.
    clear. intros HN (H1 & H2 & H3 & H4) tail. unfold save_qsc, load_qsc. destruct (N.leb_spec (2 ^ 63) n); [lia|].
    rewrite <- app_assoc. rewrite (seqN_ok (save_pod 1) (load_pod 1) (q_bits q) n H1).
    2: { eapply Forall_impl; [|exact H3]. intros b Hb. apply pod1_ok. assumption. }
    cbn [bind]. cbv beta iota.
    assert (E : save_seq (fun l => save_vec 4 (map f_bits l)) (q_seqs q) = save_seq (save_vec 4) (map (map f_bits) (q_seqs q))).
    { unfold save_seq. rewrite map_map. reflexivity. }
    rewrite E, (seqN_ok (save_vec 4) (load_vec 4) (map (map f_bits) (q_seqs q)) n).
    - cbn [bind]. cbv beta iota. rewrite map_map. replace (map (fun l => map f_of_bits (map f_bits l)) (q_seqs q)) with (q_seqs q); [destruct q; reflexivity|].
      rewrite <- (map_id (q_seqs q)) at 1. apply map_ext_in. intros l Hl. rewrite Forall_forall in H4. destruct (H4 l Hl) as (F & _).
      rewrite map_map. rewrite <- (map_id l) at 1. apply map_ext_in. intros f Hf. symmetry. apply f_of_bits_f_bits.
      rewrite Forall_forall in F. apply F. assumption.
    - rewrite lenN_map. assumption.
    - apply Forall_map. eapply Forall_impl; [|exact H4]. intros l (F & L). apply vec_ok. split; [|rewrite lenN_map; assumption].
      apply Forall_map. eapply Forall_impl; [|exact F]. intros f Hf. pose proof (f_bits_lt f Hf). change (8 * N.of_nat 4) with 32. lia.
  Qed.
  Lemma mpl_ok hb m : hb = 32 \/ hb = 64 -> t_mpl hb m -> restores (save_mpl x hb) (load_mpl x hb) m.
  Proof.
    intros HB (H1 & H2 & H3 & H4 & H5 & H6 & H7) tail. unfold save_mpl, load_mpl. unfold is_u8 in H1.
    rewrite <- ?app_assoc. rewrite pod1_ok by exact H1. cbn [bind]. cbv beta iota.
    pose proof (f_bits_lt _ H3) as FL. rewrite (pod_ok 4) by (change (8 * N.of_nat 4) with 32; lia). cbn [bind]. cbv beta iota.
    rewrite !sub64_small by lia. rewrite qsc_ok by (assumption || lia). cbn [bind]. cbv beta iota.
    rewrite qsc_ok by (assumption || lia). cbn [bind]. cbv beta iota.
    rewrite tables_ok by assumption. cbn [bind]. rewrite f_of_bits_f_bits by assumption. destruct m; reflexivity.
  Qed.
  Lemma file_ok {A} header sv (ld : list N -> res (A * list N)) a : is_u8 header -> restores sv ld a ->
    file_header (save_file header sv a) = Ok header /\
    load_file ld (save_file header sv a) = Ok (a, lenN (save_file header sv a)).
  Proof using.
    clear. intros H R. unfold file_header, load_file, save_file. split.
    - rewrite (pod1_ok header H). reflexivity.
    - rewrite (pod1_ok header H). cbn [bind]. cbv beta iota. rewrite <- (app_nil_r (sv a)) at 1. rewrite R. cbn [bind]. cbv beta iota.
      rewrite N.sub_0_r. reflexivity.
  Qed.
End Ext.
