(** * Specification for C47: the sentences a probability trie over uniform_pef scores as it should *)
From Coq Require Import Floats.SpecFloat.
From Verif Require Import Prelude Spec Spec_Trie Spec_TriePef M_Score Spec_Katz Spec_Arpa.

(** Whenever the sentence has the words c h v, with c h and h v listed and some word before h v listed, then c h v itself
    is listed, or it is told apart (Spec_TriePef) from the n-grams that are; the trie holds the n-grams reversed. *)
Definition pef_safe (D : entries) (remap : N) (ws : list (list N)) : Prop :=
  forall pre c h v post, ws = pre ++ c :: h ++ v :: post -> lenN h + 2 <= lenN D ->
    entry D (c :: h) <> None -> entry D (h ++ [v]) <> None -> (exists c', entry D (c' :: h ++ [v]) <> None) ->
    entry D (c :: h ++ [v]) <> None \/ told_apart (reversed D) remap (lenN h + 1) (rev (c :: h ++ [v])).
