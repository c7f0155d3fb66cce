(** * What print_stats must print for the file of a model (C55), in terms of the n-grams and values of the input files *)
From Coq Require Import Floats.SpecFloat.
From Verif Require Import Prelude Spec Spec_Trie M_Stats Spec_Stats Spec_Report Spec_Katz Spec_Arpa.

(** a trie of counts in a file of [bytes] bytes *)
Definition counts_right (D : list (list (gram * N))) (remap cap bytes : N) (r : trie_report) : Prop :=
  tr_order r = lenN D /\ tr_grams r = lenN (concat D) /\ tr_bytes r = bytes /\
  tr_vocab r + tr_values r + tr_grams_bytes r + tr_ranks_bytes r + tr_ptrs_bytes r <= bytes /\
  tr_unique r = map (fun l => distinct (map snd l)) D /\
  lenN (tr_levels r) = lenN D /\ forall k lr, nthN (tr_levels r) k = Some lr -> level_right D remap cap k lr.
(** a trie of probabilities: its levels hold the n-grams with their words in reverse order *)
Definition probs_right (D : entries) (remap cap bytes : N) (r : tprob_report) : Prop :=
  qr_order r = lenN D /\ qr_grams r = lenN (concat D) /\ qr_bytes r = bytes /\
  qr_vocab r + qr_probs r + qr_backoffs r + qr_grams_bytes r + qr_ranks_bytes r + qr_ptrs_bytes r <= bytes /\
  lenN (qr_levels r) = lenN D /\ forall k lr, nthN (qr_levels r) k = Some lr -> level_right (reversed D) remap cap k lr.
(** hash models with keys of [kb] bytes *)
Definition hash_counts_right (D : list (list (gram * N))) (kb bytes : N) (r : mph_report) : Prop :=
  mr_order r = lenN D /\ mr_grams r = lenN (concat D) /\ mr_bytes r = bytes /\ mr_unique r = map (fun l => distinct (map snd l)) D /\
  mr_keys r = kb * lenN (concat D) /\ mr_keys r + mr_counts r = fst (mr_values r) + sumN (mr_tables r) /\ mr_keys r + mr_counts r + mr_functions r = bytes.
Definition hash_probs_right (D : entries) (kb bytes : N) (r : mph_report) : Prop :=
  mr_order r = lenN D /\ mr_grams r = lenN (concat D) /\ mr_bytes r = bytes /\
  mr_keys r = kb * lenN (concat D) /\ mr_keys r + mr_counts r = fst (mr_values r) + snd (mr_values r) + sumN (mr_tables r) /\ mr_keys r + mr_counts r + mr_functions r = bytes.
