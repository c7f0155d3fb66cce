(** * Specification vocabulary for scoring a corpus *)
From Coq Require Import Floats.SpecFloat.
From Verif Require Import Prelude Spec Spec_Trie Spec_Katz.

(** the text of a corpus: the words of a line are separated by single spaces, each line ends with a newline *)
Definition corpus_bytes (lines : list gram) : list N := concat (map (fun ws => join ws ++ [10]) lines).
(** words without space or newline, and at least one in a line; a word may be empty (two spaces in a row, a space at the end of a
    line; a blank line is the line of one empty word) *)
Definition corpus_ok (lines : list gram) : Prop :=
  Forall (fun ws => ws <> [] /\ Forall (fun w => ~ In 32 w /\ ~ In 10 w) ws) lines.
(** sum of binary32 floats, from left to right, starting from 0 *)
Definition fsum (l : list spec_float) : spec_float := fold_left fplus l (S754_zero false).
(** the elements whose flag is set *)
Definition select {A} (l : list A) (b : list bool) : list A := map fst (filter snd (combine l b)).

Section REPORT.
Variable M : gram -> option (spec_float * spec_float).
Variable unk : spec_float.
Variable n : nat.
Definition oov (w : list N) : bool := match M [w] with Some _ => false | None => true end.
(** log probability of a sentence: the sum of those of its words *)
Definition sentence_prob (ws : gram) : spec_float := fsum (katz_scores M unk n ws).
(** of a corpus: the sum of those of its sentences *)
Definition corpus_prob (lines : list gram) : spec_float := fsum (map sentence_prob lines).
(** of the unknown words of a corpus *)
Definition corpus_oov_prob (lines : list gram) : spec_float :=
  fsum (concat (map (fun ws => select (katz_scores M unk n ws) (map oov ws)) lines)).
(** the same with the scores of the kept contexts (Spec_Katz.v) *)
Definition kept_corpus_prob (lines : list gram) : spec_float := fsum (map (fun ws => fsum (kept_scores M unk n ws)) lines).
Definition kept_corpus_oov_prob (lines : list gram) : spec_float :=
  fsum (concat (map (fun ws => select (kept_scores M unk n ws) (map oov ws)) lines)).
Definition corpus_oovs (lines : list gram) : N := lenN (filter oov (concat lines)).
End REPORT.
