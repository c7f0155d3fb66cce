(** * What the programs for probabilities are asked *)
From Coq Require Import String Floats.SpecFloat.
From Verif Require Import Prelude M_Score M_Quant M_MphProb Spec_Save M_Programs Spec_Programs M_ProbPrograms M_ScoreCorpus.

Definition prob_type_name (pef : bool) (remap : N) : string :=
  (if pef then "pef" else "ef") ++ (if (remap =? 0)%N then "_trie" else "_rtrie") ++ "_prob_lm".
Definition hash_prob_name (bytes : N) : string := if (bytes =? 4)%N then "mph32_prob_lm" else "mph64_prob_lm".
(** an option with a value, or without it the default *)
Definition option_is {A} (o : option A) (default value : A) : Prop := o = Some value \/ o = None /\ value = default.
(** the probability of unknown words: a negative float given by its bits, or -100 *)
Definition unk_is (o : option N) (unk : F) : Prop := is_float unk /\ (o = Some (f_bits unk) /\ SFltb unk (S754_zero false) = true \/ o = None /\ unk = default_unk).
(** the arguments ask for this structure, order, remapping order, bits and probability of unknown words *)
Definition asks_prob (a : prob_args) (pef : bool) (order remap p b : N) (unk : F) : Prop :=
  ra_type a = structure_name pef /\ ra_order a = order /\ option_is (ra_remap a) 0%N remap /\
  option_is (ra_p a) 8%N p /\ option_is (ra_b a) 8%N b /\ unk_is (ra_unk a) unk.
Definition asks_hash_prob (a : prob_args) (bytes order p b : N) (unk : F) : Prop :=
  ra_bytes a = bytes /\ ra_order a = order /\ option_is (ra_p a) 8%N p /\ option_is (ra_b a) 8%N b /\ unk_is (ra_unk a) unk.
(** the totals a run of score printed *)
Definition printed (r : res scored) : res (totals * N) :=
  s <- r ;; match s with Totals t n => Ok (t, n) | Not_supported _ => Throw end.
