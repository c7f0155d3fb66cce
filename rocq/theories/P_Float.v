(** * The float operations of the model are IEEE 754 operations on real numbers

    The SpecFloat operations of the standard library, used by M_Score and M_Quant, are
    tied to real arithmetic through Flocq.  The rounding lemmas follow
    Flocq.IEEE754.PrimFloat, for an arbitrary format. *)
From Coq Require Import Reals Psatz.
From Flocq Require Import Core BinarySingleNaN Round.
From Coq Require Import Floats.SpecFloat.
From Verif Require Import Prelude M_Word BitFacts M_Text M_Score M_Quant.

Section Format.
Variables prec emax : Z.
Context (Hprec : Prec_gt_0 prec) (Hemax : Prec_lt_emax prec emax).
Notation fexp := (SpecFloat.fexp prec emax).
Notation rnd x := (round radix2 fexp ZnearestE x).
Notation fmt x := (generic_format radix2 fexp x).
Let Vexp : Valid_exp fexp := FLT_exp_valid (SpecFloat.emin prec emax) prec.
Local Existing Instance Vexp.
Notation rv := (SF2R radix2).

Lemma round_nearest_even_equiv s m l : round_nearest_even m l = choice_mode mode_NE s m l.
Proof. case l; [reflexivity|intro c]. case c; [|reflexivity..]. now simpl; unfold Round.cond_incr; case Z.even. Qed.
Lemma round_aux_equiv sx mx ex lx :
  SpecFloat.binary_round_aux prec emax sx mx ex lx = BinarySingleNaN.binary_round_aux prec emax mode_NE sx mx ex lx.
Proof.
  unfold SpecFloat.binary_round_aux, BinarySingleNaN.binary_round_aux. set (mrse' := SpecFloat.shr_fexp _ _ _).
  case mrse'; intros mrs' e'; simpl. now rewrite (round_nearest_even_equiv sx).
Qed.
Lemma round_equiv s m e : SpecFloat.binary_round prec emax s m e = BinarySingleNaN.binary_round prec emax mode_NE s m e.
Proof.
  unfold SpecFloat.binary_round, BinarySingleNaN.binary_round, shl_align_fexp.
  set (mez := SpecFloat.shl_align _ _ _); case mez as [mz ez]. apply round_aux_equiv.
Qed.
Lemma normalize_equiv m e szero :
  SpecFloat.binary_normalize prec emax m e szero = B2SF (BinarySingleNaN.binary_normalize prec emax Hprec Hemax mode_NE m e szero).
Proof.
  case m as [|p|p].
  - now simpl.
  - simpl; rewrite B2SF_SF2B; apply round_equiv.
  - simpl; rewrite B2SF_SF2B; apply round_equiv.
Qed.

(** normalization rounds an exact number to nearest even *)
Lemma normalize_ok m e szero : (Rabs (rnd (F2R (Float radix2 m e))) < bpow radix2 emax)%R ->
  let z := SpecFloat.binary_normalize prec emax m e szero in
  valid_binary prec emax z = true /\ is_finite_SF z = true /\ rv z = rnd (F2R (Float radix2 m e)).
Proof.
  intros H z. unfold z. rewrite normalize_equiv. split; [apply valid_binary_B2SF|].
  pose proof (binary_normalize_correct prec emax Hprec Hemax mode_NE m e szero) as C. cbv zeta in C.
  rewrite Rlt_bool_true in C by exact H. destruct C as (C1 & C2 & _).
  rewrite is_finite_SF_B2SF, SF2R_B2SF. split; assumption.
Qed.
Lemma normalize_over m e szero : (bpow radix2 emax <= Rabs (rnd (F2R (Float radix2 m e))))%R ->
  SpecFloat.binary_normalize prec emax m e szero = S754_infinity (Rlt_bool (F2R (Float radix2 m e)) 0).
Proof.
  intro H. rewrite normalize_equiv.
  pose proof (binary_normalize_correct prec emax Hprec Hemax mode_NE m e szero) as C. cbv zeta in C.
  rewrite Rlt_bool_false in C by exact H. exact C.
Qed.

Lemma align_val s m e e' : (e' <= e)%Z -> F2R (Float radix2 (cond_Zopp s (Zpos m)) e) = F2R (Float radix2 (cond_Zopp s (Zpos (fst (SpecFloat.shl_align m e e')))) e').
Proof.
  intro H. pose proof (shl_align_correct' m e e' H) as C.
  destruct (SpecFloat.shl_align m e e') as [m' e'']. cbn [fst snd] in *.
  destruct C as [C _]. destruct s; cbn [cond_Zopp]; [|symmetry; exact C]. rewrite !F2R_Zopp. f_equal. symmetry. exact C.
Qed.
Lemma add_val sx mx ex sy my ey : let ez := Z.min ex ey in
  F2R (Float radix2 (cond_Zopp sx (Zpos (fst (SpecFloat.shl_align mx ex ez))) + cond_Zopp sy (Zpos (fst (SpecFloat.shl_align my ey ez)))) ez)
  = (rv (S754_finite sx mx ex) + rv (S754_finite sy my ey))%R.
Proof.
  intro ez. unfold SF2R. rewrite (align_val sx mx ex ez), (align_val sy my ey ez) by (unfold ez; lia).
  unfold F2R. cbn [Fnum Fexp]. rewrite plus_IZR. ring.
Qed.
Lemma sub_val sx mx ex sy my ey : let ez := Z.min ex ey in
  F2R (Float radix2 (cond_Zopp sx (Zpos (fst (SpecFloat.shl_align mx ex ez))) - cond_Zopp sy (Zpos (fst (SpecFloat.shl_align my ey ez)))) ez)
  = (rv (S754_finite sx mx ex) - rv (S754_finite sy my ey))%R.
Proof.
  intro ez. unfold SF2R. rewrite (align_val sx mx ex ez), (align_val sy my ey ez) by (unfold ez; lia).
  unfold F2R. cbn [Fnum Fexp]. rewrite minus_IZR. ring.
Qed.

(** addition rounds the exact sum *)
Lemma add_ok x y : is_finite_SF x = true -> is_finite_SF y = true -> fmt (rv x) -> fmt (rv y) ->
  (Rabs (rnd (rv x + rv y)) < bpow radix2 emax)%R ->
  is_finite_SF (SFadd prec emax x y) = true /\ rv (SFadd prec emax x y) = rnd (rv x + rv y).
Proof.
  intros Fx Fy Gx Gy H.
  destruct x as [sx|sx| |sx mx ex], y as [sy|sy| |sy my ey]; try discriminate.
  - cbn [SFadd]. replace (rv (S754_zero sx) + rv (S754_zero sy))%R with 0%R by (cbn; ring).
    rewrite round_0 by apply valid_rnd_N. destruct (Bool.eqb sx sy); split; reflexivity.
  - cbn [SFadd]. replace (rv (S754_zero sx) + rv (S754_finite sy my ey))%R with (rv (S754_finite sy my ey)) by (cbn [SF2R]; ring).
    rewrite round_generic by (try apply valid_rnd_N; assumption). split; reflexivity.
  - cbn [SFadd]. replace (rv (S754_finite sx mx ex) + rv (S754_zero sy))%R with (rv (S754_finite sx mx ex)) by (cbn [SF2R]; ring).
    rewrite round_generic by (try apply valid_rnd_N; assumption). split; reflexivity.
  - rewrite <- (add_val sx mx ex sy my ey) in H |- *. cbn [SFadd]. apply (normalize_ok _ _ false) in H. destruct H as (_ & H1 & H2). split; assumption.
Qed.
(** division *)
Lemma div_ok x y : is_finite_SF x = true -> is_finite_SF y = true -> rv y <> 0%R ->
  (Rabs (rnd (rv x / rv y)) < bpow radix2 emax)%R ->
  is_finite_SF (SFdiv prec emax x y) = true /\ rv (SFdiv prec emax x y) = rnd (rv x / rv y).
Proof.
  intros Fx Fy Ny H. destruct y as [sy|sy| |sy my ey]; try discriminate; [exfalso; apply Ny; reflexivity|].
  destruct x as [sx|sx| |sx mx ex]; try discriminate.
  - cbn [SFdiv]. split; [reflexivity|]. replace (rv (S754_zero sx)) with 0%R by reflexivity. unfold Rdiv. rewrite Rmult_0_l, round_0 by apply valid_rnd_N. reflexivity.
  - pose proof (Bdiv_correct_aux prec emax Hprec Hemax mode_NE sx mx ex sy my ey) as C. cbv zeta in C.
    cbn [SFdiv]. destruct (SFdiv_core_binary prec emax (Z.pos mx) ex (Z.pos my) ey) as [[mz ez] lz]. rewrite round_aux_equiv.
    destruct C as [_ C]. rewrite Rlt_bool_true in C by exact H. destruct C as (C1 & C2 & _). split; assumption.
Qed.
(** subtraction, with overflow *)
Lemma sub_ok x y : is_finite_SF x = true -> is_finite_SF y = true -> fmt (rv x) -> fmt (rv y) ->
  valid_binary prec emax x = true -> valid_binary prec emax y = true ->
  valid_binary prec emax (SFsub prec emax x y) = true /\
  ((is_finite_SF (SFsub prec emax x y) = true /\ rv (SFsub prec emax x y) = rnd (rv x - rv y) /\ (Rabs (rnd (rv x - rv y)) < bpow radix2 emax)%R) \/
   (SFsub prec emax x y = S754_infinity (Rlt_bool (rv x - rv y) 0) /\ (bpow radix2 emax <= Rabs (rnd (rv x - rv y)))%R)).
Proof.
  intros Fx Fy Gx Gy Vx Vy.
  assert (lt_emax : forall z, valid_binary prec emax z = true -> (Rabs (rv z) < bpow radix2 emax)%R).
  { intros z Vz. rewrite <- (B2R_SF2B prec emax z Vz). apply abs_B2R_lt_emax. }
  destruct x as [sx|sx| |sx mx ex], y as [sy|sy| |sy my ey]; try discriminate.
  - cbn [SFsub]. replace (rv (S754_zero sx) - rv (S754_zero sy))%R with 0%R by (cbn; ring).
    rewrite round_0 by apply valid_rnd_N. rewrite Rabs_R0.
    destruct (Bool.eqb sx (negb sy)); (split; [reflexivity|]); left; (split; [reflexivity|]); (split; [reflexivity|]); apply bpow_gt_0.
  - cbn [SFsub]. split; [exact Vy|]. left. split; [reflexivity|].
    assert (E : (rv (S754_zero sx) - rv (S754_finite sy my ey))%R = rv (S754_finite (negb sy) my ey)).
    { cbn [SF2R]. rewrite Rminus_0_l, <- F2R_Zopp. f_equal. f_equal. destruct sy; reflexivity. }
    assert (G : fmt (rv (S754_finite (negb sy) my ey))).
    { rewrite <- E. replace (rv (S754_zero sx) - rv (S754_finite sy my ey))%R with (- rv (S754_finite sy my ey))%R by (cbn [SF2R]; ring). apply generic_format_opp. exact Gy. }
    rewrite E, round_generic by (try apply valid_rnd_N; exact G). split; [reflexivity|]. apply lt_emax. exact Vy.
  - cbn [SFsub]. split; [exact Vx|]. left. split; [reflexivity|].
    replace (rv (S754_finite sx mx ex) - rv (S754_zero sy))%R with (rv (S754_finite sx mx ex)) by (cbn [SF2R]; ring).
    rewrite round_generic by (try apply valid_rnd_N; exact Gx). split; [reflexivity|]. apply lt_emax. exact Vx.
  - cbn [SFsub]. rewrite <- (sub_val sx mx ex sy my ey).
    set (z := (cond_Zopp sx _ - cond_Zopp sy _)%Z). set (ez := Z.min ex ey).
    split; [rewrite normalize_equiv; apply valid_binary_B2SF|].
    destruct (Rlt_or_le (Rabs (rnd (F2R (Float radix2 z ez)))) (bpow radix2 emax)) as [L|L].
    + left. destruct (normalize_ok _ _ false L) as (_ & H1 & H2). auto.
    + right. split; [|exact L]. apply normalize_over. exact L.
Qed.
Lemma fmt_valid x : valid_binary prec emax x = true -> fmt (rv x).
Proof. intro V. rewrite <- (B2R_SF2B prec emax x V). apply generic_format_B2R. Qed.
Lemma cmp_ok x y : is_finite_SF x = true -> is_finite_SF y = true -> valid_binary prec emax x = true -> valid_binary prec emax y = true ->
  SFcompare x y = Some (Rcompare (rv x) (rv y)).
Proof.
  intros Fx Fy Vx Vy. rewrite <- (B2SF_SF2B prec emax x Vx), <- (B2SF_SF2B prec emax y Vy) at 1.
  change (SFcompare (B2SF ?a) (B2SF ?b)) with (Bcompare a b).
  rewrite Bcompare_correct by (rewrite is_finite_SF2B; assumption). rewrite !B2R_SF2B. reflexivity.
Qed.
End Format.
