(** * Collections of counts before sorting *)
From Verif Require Import Prelude Spec Spec_Trie Spec_Sort.
From Coq Require Import Permutation Sorting.Sorted.

(** the input of a count trie in any order: as [collection], but each gram listed once instead of in lexicographic order *)
Record unsorted (U : list (list (gram * N))) (remap : N) : Prop := {
  us_order : 2 <= lenN U <= 8;
  us_size : forall k l, nthN U k = Some l -> l <> [] /\ lenN l < 2 ^ 31;
  us_words : forall k g, In g (grams U k) -> lenN g = k + 1 /\ Forall (fun w => word w /\ ~ In 9 w /\ In [w] (grams U 0)) g;
  us_bytes : forall k g, In g (grams U k) -> lenN (join g) < 2 ^ 32;
  us_once : forall k, NoDup (grams U k);
  us_prefix : forall k g, 0 < k -> In g (grams U k) -> In (removelast g) (grams U (k - 1));
  us_remap : remap <= 2;
  us_suffix : forall k g, 0 < remap -> remap < k -> In g (grams U k) -> In (skipn (N.to_nat (k - remap)) g) (grams U remap);
  us_counts : Forall (Forall (fun e => snd e < 2 ^ 64)) U }.

(** [D] is [U] with each file after the first sorted lexicographically *)
Definition sorted_version (U D : list (list (gram * N))) : Prop :=
  Forall2 (@Permutation (gram * N)) U D /\ nthN D 0 = nthN U 0 /\
  forall k, 0 < k -> StronglySorted (gram_lt (grams U 0)) (grams D k).

(** the words of the unigram file with their counts *)
Definition words_of (l : list (gram * N)) : list (list N * N) := map (fun e => (concat (fst e), snd e)) l.
