(** * Proofs about the programs for counts *)
From Coq Require Import String Floats.SpecFloat.
From Verif Require Import Prelude BitFacts M_Word M_Text P_Text P_Text2 M_Pool M_Trie Spec_Trie P_Trie3 P_Trie5 M_ArpaFile Spec_ArpaFile P_ArpaFile M_GramFile Spec_GramFile P_GramFile Props_GramFile M_Header
  Spec M_TriePef M_MphCount M_Save M_SavePef M_Programs Spec_Programs.

Lemma join_bytes c g : In c (join g) -> c = 32 \/ exists w, In w g /\ In c w.
Proof.
  induction g as [|w g IH]; [intros []|]. destruct g as [|w2 g].
  - cbn [join]. intros H. right. exists w. split; [left; reflexivity|exact H].
  - rewrite join_cons by discriminate. intros H. apply in_app_iff in H. destruct H as [H|[H|H]].
    + right. exists w. split; [left; reflexivity|exact H].
    + left. symmetry. exact H.
    + destruct (IH H) as [E|(v & V1 & V2)]; [left; exact E|]. right. exists v. split; [right; exact V1|exact V2].
Qed.
Lemma line_no_nl e : snd e < 2 ^ 64 -> (forall w, In w (fst e) -> ~ In 10 w) -> no_newline (line e).
Proof.
  intros C F I. unfold line, format_count_line in I. apply in_app_iff in I. destruct I as [I|I].
  - apply join_bytes in I. destruct I as [I|(w & W1 & W2)]; [discriminate|]. exact (F w W1 W2).
  - apply in_app_iff in I. destruct I as [[I|[]]|I]; [discriminate|]. exact (digits_no_nl (snd e) C I).
Qed.

Section Dir.
Variable D : list (list (gram * N)).
Variable d : dir.
Hypothesis HD : holds_counts d D.
Hypothesis NN : no_newlines D.
Hypothesis SZ : forall k l, nthN D k = Some l -> l <> [] /\ lenN l < 2 ^ 64.
Hypothesis CT : forall k l e, nthN D k = Some l -> In e l -> snd e < 2 ^ 64 - 1.
Hypothesis PL : forall k l e, nthN D k = Some l -> In e l -> parse_count_line (line e) = Ok ((0, lenN (join (fst e))), snd e).
Lemma dir_file k l : nthN D k = Some l -> match d (k + 1) with Some data => gram_lines data | None => Throw end = Ok (map line l).
Proof.
  intros Hl. rewrite (HD k l Hl). destruct (SZ k l Hl) as [NE L]. rewrite <- (lenN_map line l), <- (app_nil_r (count_file _ _)). apply C44_lines.
  - destruct l; [congruence|discriminate].
  - rewrite lenN_map. exact L.
  - apply Forall_forall. intros x Hx. apply in_map_iff in Hx. destruct Hx as ([g c] & <- & He). pose proof (CT k l _ Hl He). apply line_no_nl; [lia|]. cbn [fst]. intros w Hw. refine (NN l g c w _ He Hw). eapply nthN_In. exact Hl.
Qed.
Lemma dir_lines_ok : dir_lines d (lenN D) = Ok (map (map line) D).
Proof. unfold dir_lines. apply mapM_range. intros i l Hl. exact (dir_file i l Hl). Qed.

Context {S : Type}.
Variable ask : S -> list N -> byte_range -> res (N * S).
Variable Inv : S -> Prop.
Hypothesis ASK : forall k l e s, nthN D k = Some l -> In e l -> Inv s -> exists s', ask s (c_str (line e)) (0, lenN (join (fst e))) = Ok (snd e, s') /\ Inv s'.
Lemma check_lines_ok k l : nthN D k = Some l -> forall l0 i s order, incl l0 l -> Inv s -> exists s', check_lines ask order i (map line l0) s = Ok ([], s') /\ Inv s'.
Proof.
  intros Hl. induction l0 as [|e l0 IH]; intros i s order I IS; [exists s; split; [reflexivity|exact IS]|]. cbn [map check_lines].
  assert (He : In e l) by (apply I; left; reflexivity). rewrite (PL k l e Hl He). cbn [bind]. cbv beta iota.
  destruct (ASK k l e s Hl He IS) as (s1 & E1 & I1). rewrite E1. cbn [bind]. cbv beta iota. pose proof (CT k l e Hl He) as CE.
  destruct (N.eqb_spec (snd e) not_found) as [Z|_]; [unfold not_found in Z; lia|]. rewrite N.eqb_refl. apply IH; [|exact I1]. intros y Hy. apply I. right. exact Hy.
Qed.
Lemma check_model_ok : forall n k s, k + N.of_nat n = lenN D -> Inv s -> check_model ask d (k + 1) n s = Ok [].
Proof.
  induction n as [|n IH]; intros k s E IS; [reflexivity|]. cbn [check_model]. destruct (nthN_Some D k ltac:(lia)) as (l & Hl). rewrite (dir_file k l Hl). cbn [bind].
  destruct (check_lines_ok k l Hl l 0 s (k + 1) (incl_refl l) IS) as (s' & E' & I'). rewrite E'. cbn [bind]. cbv beta iota. rewrite IH; [reflexivity|lia|exact I'].
Qed.
End Dir.

(** the header of a trie of counts *)
Lemma trie_header pef remap r : remap <= 2 -> exists h,
  bh_get (mkbh (Some (if pef : bool then 2 else 1)) (Some 0) (Some remap) None (Some (match r with R_IC => 0 | R_PSEF => 1 | R_PSPEF => 2 end))) = Ok h /\ h < 2 ^ 8 /\
  bh_parse h = type_name pef remap r /\ dispatch trie_count_types (type_name pef remap r) = Some (pef, negb (remap =? 0), r) /\ dispatch hash_count_types (type_name pef remap r) = None.
Proof.
  intros R. assert (RC : remap = 0 \/ remap = 1 \/ remap = 2) by lia. destruct RC as [->|[->| ->]], pef, r; eexists; (split; [vm_compute; reflexivity|]; split; [reflexivity|]; split; [vm_compute; reflexivity|]; split; vm_compute; reflexivity).
Qed.
Lemma hash_header kb : kb = 4 \/ kb = 8 -> exists h,
  bh_get (mkbh (Some 0) (Some 0) None (Some kb) None) = Ok h /\ h < 2 ^ 8 /\
  bh_parse h = (if (kb =? 4)%N then "mph32_count_lm" else "mph64_count_lm")%string /\ dispatch hash_count_types (bh_parse h) = Some (8 * kb).
Proof. intros [->| ->]; eexists; (split; [vm_compute; reflexivity|]; split; [reflexivity|]; split; vm_compute; reflexivity). Qed.
