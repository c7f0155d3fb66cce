(** * Specification vocabulary for n-gram collections *)
From Verif Require Import Prelude Spec.
From Coq Require Import Sorting.Sorted.

(** an n-gram: its words; the n-grams of one order in file order, each with its count *)
Notation gram := (list (list N)) (only parsing).
Definition level : Type := list (gram * N).
Definition gram_dec : forall a b : gram, {a = b} + {a <> b} := list_eq_dec (list_eq_dec N.eq_dec).
(** the n-grams of the k-th file, k = 0 for the unigrams *)
Definition grams {A} (D : list (list (gram * A))) (k : N) : list gram := match nthN D k with Some l => map fst l | None => [] end.

(** order of the words: the order of the unigram file *)
Definition word_lt (voc : list gram) (a b : list N) : Prop := exists i j, i < j /\ nthN voc i = Some [a] /\ nthN voc j = Some [b].
(** lexicographic order of n-grams of equal length *)
Inductive gram_lt (voc : list gram) : gram -> gram -> Prop :=
| gram_lt_here a b r s : length r = length s -> word_lt voc a b -> gram_lt voc (a :: r) (b :: s)
| gram_lt_next a r s : gram_lt voc r s -> gram_lt voc (a :: r) (a :: s).

(** the number of n-grams of [cur] whose prefix is among the first [j] of [prev] *)
Definition children (prev cur : list gram) (j : N) : N :=
  lenN (filter (fun g => if in_dec gram_dec (removelast g) (firstn (N.to_nat j) prev) then true else false) cur).
Definition child_ptrs (prev cur : list gram) : list N := map (children prev cur) (range (lenN prev + 1)).

(** what the input files of the trie must be: non-empty files of less than 2^31 lines;
    distinct unigrams; grams of the k-th file made of k+1 vocabulary words, in strictly
    increasing lexicographic order; each prefix in the previous file; with a remapping
    order r > 0, the last r+1 words of each longer gram in the file of order r+1 *)
Record collection {A} (D : list (list (gram * A))) (remap : N) : Prop := {
  col_order : 2 <= lenN D <= 8;
  col_size : forall k l, nthN D k = Some l -> l <> [] /\ lenN l < 2 ^ 31;
  col_words : forall k g, In g (grams D k) -> lenN g = k + 1 /\ Forall (fun w => word w /\ ~ In 9 w /\ In [w] (grams D 0)) g;
  col_bytes : forall k g, In g (grams D k) -> lenN (join g) < 2 ^ 32;
  col_unigrams : NoDup (grams D 0);
  col_sorted : forall k, 0 < k -> StronglySorted (gram_lt (grams D 0)) (grams D k);
  col_prefix : forall k g, 0 < k -> In g (grams D k) -> In (removelast g) (grams D (k - 1));
  col_remap : remap <= 2;
  col_suffix : forall k g, 0 < remap -> remap < k -> In g (grams D k) -> In (skipn (N.to_nat (k - remap)) g) (grams D remap) }.
