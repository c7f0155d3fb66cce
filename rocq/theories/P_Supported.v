(** * Proofs: scoring uses the supported part of a table only *)
From Coq Require Import Floats.SpecFloat.
From Verif Require Import Prelude M_Word BitFacts M_Score Spec_Katz Spec_Supported P_Score1 P_Score2.

Section SUP.
Context {V A : Type}.
Variable M : list V -> option A.

Lemma In_prefixes (g h : list V) : In h (prefixes g) <-> h <> [] /\ exists b, g = h ++ b.
Proof using Type.
  revert h. induction g as [|x g IH]; intro h; cbn [prefixes].
  - split; [intros []|]. intros (N0 & b & E). destruct h; [congruence|discriminate].
  - cbn [In]. rewrite in_map_iff. split.
    + intros [<-|(h' & <- & H)]; [split; [discriminate|exists g; reflexivity]|]. apply IH in H. destruct H as (_ & b & ->). split; [discriminate|]. exists b. reflexivity.
    + intros (N0 & b & E). destruct h as [|y h]; [congruence|]. cbn [app] in E. injection E as <- E. destruct h as [|z h]; [left; reflexivity|].
      right. exists (z :: h). split; [reflexivity|]. apply IH. split; [discriminate|]. exists b. exact E.
Qed.
Lemma In_infixes (g h : list V) : In h (infixes g) <-> h <> [] /\ exists a b, g = a ++ h ++ b.
Proof using Type.
  induction g as [|x g IH]; cbn [infixes].
  - split; [intros []|]. intros (N0 & a & b & E). destruct a; [destruct h; [congruence|discriminate]|discriminate].
  - rewrite in_app_iff, In_prefixes, IH. split.
    + intros [(N0 & b & E)|(N0 & a & b & ->)]; (split; [exact N0|]); [exists [], b; exact E|exists (x :: a), b; reflexivity].
    + intros (N0 & a & b & E). destruct a as [|y a]; [left; split; [exact N0|exists b; exact E]|]. cbn [app] in E. injection E as _ E. right. split; [exact N0|]. exists a, b. exact E.
Qed.

Definition all_listed (g : list V) : Prop := forall h a b, h <> [] -> g = a ++ h ++ b -> M h <> None.
Lemma supported_cases g : (all_listed g /\ supported M g = M g) \/ (~ all_listed g /\ supported M g = None).
Proof using Type.
  unfold supported. destruct (forallb _ (infixes g)) eqn:E.
  - left. split; [|reflexivity]. intros h a b N0 EG. rewrite forallb_forall in E. specialize (E h (proj2 (In_infixes g h) (conj N0 (ex_intro _ a (ex_intro _ b EG))))). destruct (M h); discriminate.
  - right. split; [|reflexivity]. intro H. assert (F : forallb (fun h => match M h with Some _ => true | None => false end) (infixes g) = true); [|congruence].
    apply forallb_forall. intros h HI. apply In_infixes in HI. destruct HI as (N0 & a & b & EG). specialize (H h a b N0 EG). destruct (M h); congruence.
Qed.
Lemma supported_all g : all_listed g -> supported M g = M g.
Proof using Type. intro H. destruct (supported_cases g) as [[_ E]|[N0 _]]; [exact E|contradiction]. Qed.
Lemma supported_listed g : supported M g <> None -> all_listed g.
Proof using Type. intro H. destruct (supported_cases g) as [[E _]|[_ E]]; [exact E|congruence]. Qed.
Lemma supported_some g v : supported M g = Some v -> M g = Some v.
Proof using Type. intro H. destruct (supported_cases g) as [[_ E]|[_ E]]; congruence. Qed.
Lemma listed_supported g : g <> [] -> all_listed g -> supported M g <> None.
Proof using Type. intros N0 H. rewrite (supported_all g H). apply (H g [] []); [exact N0|]. cbn. rewrite app_nil_r. reflexivity. Qed.
Lemma all_listed_part a g b : all_listed (a ++ g ++ b) -> all_listed g.
Proof using Type. intros H h a' b' N0 ->. apply (H h (a ++ a') (b' ++ b) N0). rewrite !app_assoc. reflexivity. Qed.
(** an n-gram whose beginning and end are supported is supported if it is listed *)
Lemma supported_ext x c v : supported M (x :: c) <> None -> supported M (c ++ [v]) <> None -> supported M (x :: c ++ [v]) = M (x :: c ++ [v]).
Proof using Type.
  intros H1 H2. apply supported_listed in H1. apply supported_listed in H2. destruct (M (x :: c ++ [v])) as [val|] eqn:E.
  - rewrite <- E. apply supported_all. intros h a b N0 EG. destruct a as [|y a]; cbn [app] in EG.
    + destruct b as [|z b] using rev_ind; [rewrite app_nil_r in EG; subst h; congruence|]. change (x :: c ++ [v]) with ((x :: c) ++ [v]) in EG.
      rewrite app_assoc in EG. apply app_inj_tail in EG. destruct EG as [EG _]. exact (H1 h [] b N0 EG).
    + injection EG as _ EG. exact (H2 h a b N0 EG).
  - destruct (supported M (x :: c ++ [v])) eqn:E2; [|reflexivity]. apply supported_some in E2. congruence.
Qed.
Lemma supported_one w : supported M [w] = M [w].
Proof using Type.
  destruct (M [w]) as [a|] eqn:E.
  - rewrite <- E. apply supported_all. intros h a' b N0 EG. destruct a' as [|y a']; cbn [app] in EG.
    + destruct h as [|z h]; [congruence|]. injection EG as <- EG. destruct h; [congruence|discriminate].
    + injection EG as _ EG. destruct a'; [destruct h; [congruence|discriminate]|discriminate].
  - destruct (supported M [w]) eqn:E2; [|reflexivity]. apply supported_some in E2. congruence.
Qed.
End SUP.

Lemma supported_closed {V} (M : list V -> option (F * F)) : closed (supported M).
Proof.
  intros g x y H. apply supported_listed in H. split; apply listed_supported.
  - destruct g; discriminate.
  - apply (all_listed_part M [x] (g ++ [y]) []). rewrite app_nil_r. exact H.
  - discriminate.
  - apply (all_listed_part M [] (x :: g) [y]). exact H.
Qed.
(** in a closed table everything is supported *)
Lemma closed_part {V} (M : list V -> option (F * F)) : closed M -> forall h a b, h <> [] -> M (a ++ h ++ b) <> None -> M h <> None.
Proof.
  intros HC h a. revert h. induction a as [|x a IH]; intros h b N0 H; cbn [app] in H.
  - induction b as [|y b IHb] using rev_ind; [rewrite app_nil_r in H; exact H|]. apply IHb. destruct h as [|z h]; [congruence|]. cbn [app] in *. rewrite app_assoc in H. exact (proj2 (HC _ _ _ H)).
  - apply (IH h b N0). destruct (a ++ h ++ b) as [|y l] eqn:E using rev_ind; [destruct a; [destruct h; [congruence|discriminate]|discriminate]|]. exact (proj1 (HC _ _ _ H)).
Qed.
Lemma supported_same {V} (M : list V -> option (F * F)) : closed M -> forall g, supported M g = M g.
Proof.
  intros HC g. destruct (M g) as [v|] eqn:E.
  - rewrite <- E. apply supported_all. intros h a b N0 ->. apply (closed_part M HC h a b N0). congruence.
  - destruct (supported M g) eqn:E2; [|reflexivity]. apply supported_some in E2. congruence.
Qed.

Lemma supported_cong {V A} (M M' : list V -> option A) : (forall g, M g = M' g) -> forall g, supported M g = supported M' g.
Proof.
  intros E g. unfold supported. rewrite E. replace (forallb (fun h => match M h with Some _ => true | None => false end) (infixes g)) with (forallb (fun h => match M' h with Some _ => true | None => false end) (infixes g)); [reflexivity|]. induction (infixes g) as [|h l IH]; [reflexivity|]. cbn [forallb]. rewrite E, IH. reflexivity.
Qed.

(** ** equal tables, equal scores *)
Section EXT.
Context {V : Type}.
Variables M1 M2 : list V -> option (F * F).
Hypothesis HM : forall g, M1 g = M2 g.
Lemma katz_ext unk h w : katz M1 unk h w = katz M2 unk h w.
Proof. induction h as [|x h IH]; cbn [katz app]; rewrite ?HM; [reflexivity|]. rewrite IH. reflexivity. Qed.
Lemma longest_ext f g m : (forall j, f j = g j) -> longest f m = longest g m.
Proof. intro H. induction m as [|m IH]; cbn [longest]; [reflexivity|]. rewrite H, IH. reflexivity. Qed.
Lemma kept_ext n l : kept M1 n l = kept M2 n l.
Proof. induction l as [|x l IH]; cbn [kept]; [reflexivity|]. rewrite IH. apply longest_ext. intro j. unfold informs. rewrite HM. reflexivity. Qed.
Lemma kept_scores_ext unk n ws : kept_scores M1 unk n ws = kept_scores M2 unk n ws.
Proof. unfold kept_scores. apply map_ext. intros [i w]. cbn [fst snd]. rewrite kept_ext, katz_ext. reflexivity. Qed.
Lemma extended_nonzero_ext : extended_nonzero M1 -> extended_nonzero M2.
Proof. intros H h w N0 L. rewrite <- HM in L. destruct (H h w N0 L) as (p & b & E & Z). exists p, b. rewrite <- HM. auto. Qed.
End EXT.

(** ** one call of score on any table *)
Section ANY.
Context {V W R S : Type}.
Variable M : list V -> option (F * F).
Variable n : N.
Variable rh : list V.
Variable v : V.
Lemma sup_step st (pw : list W) k : st_rep (supported M) n st pw rh -> k + 1 <= ps_length st -> supported M (ctx rh k ++ [v]) <> None ->
  supported M (ctx rh (k + 1) ++ [v]) = M (ctx rh (k + 1) ++ [v]) /\ M (ctx rh k ++ [v]) <> None.
Proof using Type.
  intros Rp HK HM. pose proof (sr_le _ _ _ _ _ Rp) as HL. destruct (ctx_S rh k ltac:(lia)) as (x & E).
  destruct (sr_back _ _ _ _ _ Rp (k + 1) ltac:(lia)) as (p & b & E1 & _). rewrite E in *. split.
  - apply supported_ext; [congruence|exact HM].
  - destruct (supported M (ctx rh k ++ [v])) as [z|] eqn:E2; [|congruence]. apply supported_some in E2. congruence.
Qed.
Lemma probe_sup st (pw : list W) (probe : N -> W -> R -> res (option (F * option F * R))) J : st_rep (supported M) n st pw rh ->
  probe_ok M n rh v probe J (ps_length st) pw -> probe_ok (supported M) n rh v probe J (ps_length st) pw.
Proof using Type.
  intros Rp HP k r w HJ HK HM HW. destruct (sup_step st pw k Rp HK HM) as [E E0]. rewrite E. exact (HP k r w HJ HK E0 HW).
Qed.
Lemma probe_s_sup st (pw : list W) (probe : N -> W -> R -> S -> res (option (F * option F * R) * S)) J Inv : st_rep (supported M) n st pw rh ->
  probe_ok_s M n rh v probe J Inv (ps_length st) pw -> probe_ok_s (supported M) n rh v probe J Inv (ps_length st) pw.
Proof using Type.
  intros Rp HP k r w s HJ HI HK HM HW. destruct (sup_step st pw k Rp HK HM) as [E E0]. rewrite E. exact (HP k r w s HJ HI HK E0 HW).
Qed.
(** the sr_ facts the probes rely on *)
Lemma st_rep_listed st (pw : list W) : st_rep (supported M) n st pw rh -> forall j, 1 <= j <= ps_length st -> M (ctx rh j) <> None.
Proof using Type. intros Rp j Hj. destruct (sr_back _ _ _ _ _ Rp j Hj) as (p & b & E & _). apply supported_some in E. congruence. Qed.
End ANY.
Theorem score_step_any {V W R} (M : list V -> option (F * F)) unk n (rh : list V) v (probe : N -> W -> R -> res (option (F * option F * R))) J st pw w r0 :
  2 <= n <= 8 -> st_rep (supported M) n st pw rh -> lenN rh < 2 ^ 62 -> probe_ok M n rh v probe J (ps_length st) pw -> (M [v] <> None -> J 0 r0) ->
  exists st', score_with unk (match M [v] with Some (p, b) => Some (p, b, r0) | None => None end) probe st w
    = Ok (katz (supported M) unk (ctx rh (ps_length st)) v, st', match M [v] with Some _ => false | None => true end) /\
    st_rep (supported M) n st' (w :: pw) (v :: rh) /\
    ps_oovs st' = match M [v] with Some _ => ps_oovs st | None => add64 (ps_oovs st) 1 end.
Proof.
  intros Hn Rp HB HP HJ. pose proof (score_step (supported M) unk n Hn (supported_closed M) rh v probe J st pw w r0 Rp HB (probe_sup M n rh v st pw probe J Rp HP)) as H.
  rewrite supported_one in H. exact (H HJ).
Qed.
Theorem score_step_s_any {V W R T} (M : list V -> option (F * F)) unk n (rh : list V) v (probe : N -> W -> R -> T -> res (option (F * option F * R) * T)) J Inv st pw w r0 s :
  2 <= n <= 8 -> st_rep (supported M) n st pw rh -> lenN rh < 2 ^ 62 -> probe_ok_s M n rh v probe J Inv (ps_length st) pw -> (M [v] <> None -> J 0 r0) -> Inv s ->
  exists st' s', score_with_s unk (match M [v] with Some (p, b) => Some (p, b, r0) | None => None end) probe st w s
    = Ok (katz (supported M) unk (ctx rh (ps_length st)) v, st', match M [v] with Some _ => false | None => true end, s') /\
    st_rep (supported M) n st' (w :: pw) (v :: rh) /\
    ps_oovs st' = match M [v] with Some _ => ps_oovs st | None => add64 (ps_oovs st) 1 end /\ Inv s'.
Proof.
  intros Hn Rp HB HP HJ IS. pose proof (score_step_s (supported M) unk n Hn (supported_closed M) rh v probe J Inv st pw w r0 s Rp HB (probe_s_sup M n rh v st pw probe J Inv Rp HP)) as H.
  rewrite supported_one in H. exact (H HJ IS).
Qed.
