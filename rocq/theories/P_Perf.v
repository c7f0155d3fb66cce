(** * Proofs about the lookup benchmark *)
From Coq Require Import String Floats.SpecFloat.
From Verif Require Import Prelude BitFacts M_Word P_Word Spec P_Bits M_Text P_Text P_Text2 M_Pool M_Trie M_TriePef Spec_Trie P_Trie1 P_Trie3 P_Trie4 P_Trie5
  M_MphCount M_Save M_SavePef Spec_SavePef P_SavePef1 P_SavePef2 P_Typed M_Programs M_Stats P_EF2 P_Stats4 Props_Trie M_Perf Spec_Perf.

(** ** the pool of the queries *)
Fixpoint ends (o : N) (gs : list gram) : list N := match gs with [] => [] | g :: gs => (o + lenN (join g)) :: ends (o + lenN (join g)) gs end.
Lemma perf_append_ok data offs l g : query_line l g -> ~ In 9 (join g) -> perf_append (data, offs) l = Ok (data ++ join g, offs ++ [lenN data + lenN (join g)]).
Proof.
  intros Q T. unfold perf_append, split_upon_check_end, c_tab. cbn [fst snd].
  assert (E : seek_end (S (length (c_str l))) (c_str l) 0 (lenN l) 9 = Ok (lenN (join g))).
  { pose proof (seek_end_ok 9 (join g) T []) as SE. cbn [app] in SE. change (lenN (@nil N)) with 0 in SE. rewrite N.add_0_l in SE. unfold c_str. destruct Q as [->|(note & ->)].
    - rewrite <- (app_nil_l [0]) at 2. apply SE; [rewrite app_length; cbn; lia|]. left. split; reflexivity.
    - rewrite <- app_assoc. apply SE; [rewrite !app_length; cbn; lia|]. right. split; [exists note; reflexivity|]. rewrite lenN_app, lenN_cons. lia. }
  rewrite E. cbn [bind]. assert (H : holds_text (c_str l) (0, lenN (join g)) (join g)).
  { unfold c_str. destruct Q as [->|(note & ->)]; [apply (holds_mid [] (join g) [0]); reflexivity|]. rewrite <- app_assoc. apply (holds_mid [] (join g) ((9 :: note) ++ [0])); reflexivity. }
  rewrite (bytes_at_ok _ _ _ H). cbn [bind]. rewrite lenN_app. reflexivity.
Qed.
Lemma perf_load_from : forall lines gs data offs, Forall2 query_line lines gs -> Forall (fun g => ~ In 9 (join g)) gs ->
  foldM perf_append lines (data, offs) = Ok (data ++ concat (map join gs), offs ++ ends (lenN data) gs).
Proof.
  intros lines gs data offs F. revert data offs. induction F as [|l g lines gs Q F IH]; intros data offs T; [cbn; rewrite !app_nil_r; reflexivity|].
  inversion T; subst. cbn [foldM]. rewrite (perf_append_ok data offs l g Q) by assumption. cbn [bind]. rewrite IH by assumption. cbn [map concat ends]. rewrite lenN_app, <- !app_assoc. reflexivity.
Qed.
Lemma perf_load_ok lines gs : Forall2 query_line lines gs -> Forall (fun g => ~ In 9 (join g)) gs -> perf_load lines = Ok (concat (map join gs), 0 :: ends 0 gs).
Proof. intros F T. unfold perf_load. rewrite (perf_load_from lines gs [] [0] F T). reflexivity. Qed.
Lemma length_ends : forall gs o, length (ends o gs) = length gs.
Proof. induction gs as [|g gs IH]; intros o; [reflexivity|]. cbn [ends length]. rewrite IH. reflexivity. Qed.
Lemma ends_at : forall pre post o, nthN (o :: ends o (pre ++ post)) (lenN pre) = Some (o + lenN (concat (map join pre))).
Proof.
  induction pre as [|g pre IH]; intros post o; [cbn [map concat]; change (lenN (@nil N)) with 0; rewrite N.add_0_r; reflexivity|].
  cbn [app ends map concat]. rewrite lenN_cons, lenN_app, N.add_assoc, <- (IH post (o + lenN (join g))).
  unfold nthN. replace (N.to_nat (1 + lenN pre)) with (S (N.to_nat (lenN pre))) by lia. reflexivity.
Qed.
Section Run.
Context {S : Type}.
Variable ask : S -> list N -> byte_range -> res (N * S).
Variable Inv : S -> Prop.
Variable D : list (list (gram * N)).
Hypothesis ASK : forall g c buf r s, indexed D g c -> holds_text buf r (join g) -> Inv s -> exists s', ask s buf r = Ok (c, s') /\ Inv s'.
Variable gs : list gram.
Variable cs : list N.
Hypothesis GC : Forall2 (indexed D) gs cs.
Lemma perf_run_ok : forall post cpost pre s, gs = pre ++ post -> Forall2 (indexed D) post cpost -> Inv s ->
  exists s', perf_run ask (concat (map join gs)) (0 :: ends 0 gs) (lenN pre) (length post) s = Ok (cpost, s') /\ Inv s'.
Proof.
  induction post as [|g post IH]; intros cpost pre s E F IS; inversion F as [|? c ? cp HI F']; subst; [exists s; split; [reflexivity|exact IS]|].
  cbn [length perf_run]. rewrite (proj2 (rd_nthN _ _ _) (ends_at pre (g :: post) 0)). cbn [bind].
  assert (E2 : pre ++ g :: post = (pre ++ [g]) ++ post) by (rewrite <- app_assoc; reflexivity).
  assert (L2 : lenN (pre ++ [g]) = lenN pre + 1) by (rewrite lenN_app; reflexivity).
  pose proof (ends_at (pre ++ [g]) post 0) as EA. rewrite <- E2 in EA. rewrite <- L2, (proj2 (rd_nthN _ _ _) EA). cbn [bind].
  destruct (ASK g c (concat (map join (pre ++ g :: post))) (0 + lenN (concat (map join pre)), 0 + lenN (concat (map join (pre ++ [g])))) s HI) as (s1 & E1 & I1); [|exact IS|].
  { rewrite map_app, concat_app. cbn [map concat]. apply holds_mid; [reflexivity|]. rewrite map_app, concat_app, lenN_app. cbn [map concat]. rewrite app_nil_r. lia. }
  rewrite E1. cbn [bind]. cbv beta iota. destruct (IH cp (pre ++ [g]) s1 E2 F' I1) as (s2 & E3 & I2). rewrite E3. cbn [bind]. cbv beta iota. exists s2. split; [reflexivity|exact I2].
Qed.
Lemma perf_runs_ok : forall runs s, Inv s -> perf_runs ask (concat (map join gs)) (0 :: ends 0 gs) runs s = Ok (repeat cs runs).
Proof.
  induction runs as [|n IH]; intros s IS; [reflexivity|]. cbn [perf_runs length]. rewrite length_ends. replace (Datatypes.S (length gs) - 1)%nat with (length gs) by lia.
  destruct (perf_run_ok gs cs [] s eq_refl GC IS) as (s' & E & I'). change (lenN (@nil gram)) with 0 in E. rewrite E. cbn [bind]. cbv beta iota. rewrite (IH s' I'). reflexivity.
Qed.
End Run.

(** ** sizes *)
Lemma same_sizes l l' : Forall2 same_parr l l' -> map p_size l' = map p_size l.
Proof. induction 1 as [|a b l l' (H & _) F IH]; [reflexivity|]. cbn [map]. rewrite IH, H. reflexivity. Qed.
Lemma wr_sizes l k a b l' : nthN l k = Some a -> wr l k b = Ok l' -> p_size b = p_size a -> map p_size l' = map p_size l.
Proof. intros Ha E HS. apply wr_inv in E. destruct E as [_ ->]. apply (map_setN _ _ _ _ _ Ha HS). Qed.
Lemma pbuild_order_sizes env v cb remap files arrays ord arrays' : pbuild_order env v cb remap files arrays ord = Ok arrays' -> map p_size arrays' = map p_size arrays.
Proof.
  intros E. unfold pbuild_order in E. apply bind_inv in E. destruct E as (prv & _ & E). apply bind_inv in E. destruct E as (cur & _ & E). apply bind_inv in E. destruct E as (mr & _ & E).
  apply bind_inv in E. destruct E as (b & _ & E). apply bind_inv in E. destruct E as ([[ptrs b'] arr0] & E0 & E). cbv beta iota in E. apply ngrams_same in E0. apply same_Forall2, same_sizes in E0.
  apply bind_inv in E. destruct E as (a & Ha & E). apply bind_inv in E. destruct E as (a1 & E1 & E). apply bind_inv in E. destruct E as (arr1 & Ew & E).
  apply bind_inv in E. destruct E as (a' & Ha' & E). apply bind_inv in E. destruct E as (a2 & E2 & Ew2).
  unfold pab_build in E1. apply bind_inv in E1. destruct E1 as (ids & _ & E1). apply bind_inv in E1. destruct E1 as (f & _ & E1).
  unfold pab_build_ranks in E1. apply bind_inv in E1. destruct E1 as (vs & _ & E1). apply bind_inv in E1. destruct E1 as (r & _ & E1). injection E1 as <-.
  unfold pa_build_pointers in E2. apply bind_inv in E2. destruct E2 as (e & _ & E2). injection E2 as <-.
  apply rd_inv in Ha, Ha'. rewrite (wr_sizes _ _ _ _ _ Ha' Ew2 eq_refl), (wr_sizes _ _ _ _ _ Ha Ew eq_refl). exact E0.
Qed.
Lemma ptrie_build_sizes env D order remap t : order = lenN D -> ptrie_build env (map (map line) D) order remap = Ok t -> map p_size (pt_arrays t) = map lenN D.
Proof.
  intros -> E. unfold ptrie_build in E. apply bind_inv in E. destruct E as (? & _ & E). apply bind_inv in E. destruct E as (? & _ & E).
  replace (range (lenN D)) with (range (lenN (map (map line) D))) in E by (rewrite lenN_map; reflexivity).
  rewrite (mapM_range (rd (map (map line) D)) (fun x => x) (map (map line) D)) in E by (intros i a H2; apply rd_nthN; assumption). rewrite map_id in E. cbn [bind] in E.
  apply bind_inv in E. destruct E as (values & _ & E). apply bind_inv in E. destruct E as (cb & _ & E). apply bind_inv in E. destruct E as (l1 & _ & E).
  apply bind_inv in E. destruct E as ([v arr] & EV & E). cbv beta iota in E. apply bind_inv in E. destruct E as (arr' & EO & E). injection E as <-. cbn [pt_arrays].
  assert (H0 : map p_size arr = map lenN D).
  { unfold pbuild_vocabulary in EV. apply bind_inv in EV. destruct EV as (p & _ & EV). apply bind_inv in EV. destruct EV as (recs & _ & EV). apply bind_inv in EV. destruct EV as (s0 & _ & EV).
    apply bind_inv in EV. destruct EV as (b & _ & EV). apply bind_inv in EV. destruct EV as (rk & _ & EV). apply bind_inv in EV. destruct EV as (a0 & Ha & EV). apply bind_inv in EV. destruct EV as (a1 & E1 & EV).
    apply bind_inv in EV. destruct EV as (arr1 & Ew & EV). apply bind_inv in EV. destruct EV as (i1 & _ & EV). apply bind_inv in EV. destruct EV as (i2 & _ & EV). apply bind_inv in EV. destruct EV as (v1 & _ & EV). injection EV as _ <-.
    unfold pab_build_ranks in E1. apply bind_inv in E1. destruct E1 as (vs & _ & E1). apply bind_inv in E1. destruct E1 as (r & _ & E1). injection E1 as <-.
    apply rd_inv in Ha. rewrite (wr_sizes _ _ _ _ _ Ha Ew eq_refl), map_map, map_map. apply map_ext. intro l. cbn [parr_new p_size]. apply lenN_map. }
  refine (foldM_inv (fun a => map p_size a = map lenN D) _ _ _ _ _ H0 EO). intros a ord a' _ HI E. rewrite (pbuild_order_sizes _ _ _ _ _ _ _ _ E). exact HI.
Qed.
Lemma parrays_size_ok (D : list (list (gram * N))) arrays : lenN D <= 8 -> (forall k l, nthN D k = Some l -> lenN l < 2 ^ 31) -> map p_size arrays = map lenN D -> parrays_size arrays = lenN (concat D).
Proof.
  intros LD SZ S1.
  assert (HS : Forall (fun n => n < 2 ^ 31) (map p_size arrays)).
  { rewrite S1. apply Forall_forall. intros n Hn. apply in_map_iff in Hn. destruct Hn as (l & <- & Hl). apply In_nthN in Hl. destruct Hl as (k & Hk). exact (SZ k l Hk). }
  assert (LE : lenN arrays <= 8) by (rewrite <- (lenN_map p_size), S1, lenN_map; lia).
  assert (K : forall l acc, Forall (fun n => n < 2 ^ 31) (map p_size l) -> acc + lenN l * 2 ^ 31 < 2 ^ 64 -> fold_left (fun s a => add64 s (p_size a)) l acc = acc + sumN (map p_size l)).
  { clear. induction l as [|a l IH]; intros acc HF HL; cbn [fold_left map]; [rewrite N.add_0_r; reflexivity|]. rewrite lenN_cons in HL. inversion HF; subst.
    rewrite add64_small by lia. rewrite IH by (assumption || lia). rewrite sumN_cons. lia. }
  unfold parrays_size. rewrite K by (assumption || lia). rewrite S1. clear. induction D as [|l r IH]; [reflexivity|]. cbn [map concat]. rewrite sumN_cons, lenN_app, <- IH. reflexivity.
Qed.
