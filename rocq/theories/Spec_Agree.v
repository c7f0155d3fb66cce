(** * Specification for C56: what two indexes over the same data have in common *)
From Coq Require Import Floats.SpecFloat.
From Verif Require Import Prelude Spec_Katz M_ScoreCorpus.

(** two runs of the score program end with the same report: the same numbers of tokens, sentences and unknown words, and
    the same sums of log probabilities (+0 and -0 are the same number) *)
Definition same_report (r1 r2 : res (totals * N)) : Prop :=
  exists t1 t2 n, r1 = Ok (t1, n) /\ r2 = Ok (t2, n) /\
    tt_sentences t1 = tt_sentences t2 /\ tt_oovs t1 = tt_oovs t2 /\ feq (tt_prob t1) (tt_prob t2) /\ feq (tt_oov_prob t1) (tt_oov_prob t2).
