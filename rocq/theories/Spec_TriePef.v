(** * Specification for C42: which levels a trie over uniform_pef can search *)
From Verif Require Import Prelude Spec Spec_Pef M_Trie Spec_Trie.

(** [g], a gram of the k-th file (k + 1 words), is the first choice of its context: without
    remapping (or for k <= remap) its last word is the first unigram; with remapping, its
    suffix of remap + 1 words comes first among the grams of the file [remap] with the same context *)
Definition first_choice {A} (D : list (list (gram * A))) (remap k : N) (g : gram) : Prop :=
  if (remap =? 0) || (k <=? remap) then nthN (grams D 0) 0 = Some [last g []]
  else let s := skipn (N.to_nat (k - remap)) g in
       forall i j h, nthN (grams D remap) i = Some s -> nthN (grams D remap) j = Some h -> removelast h = removelast s -> i <= j.
(** a level stored in one piece cannot be searched when its first gram is not a first choice and all the others are *)
Definition level_searchable {A} (D : list (list (gram * A))) (remap k : N) : Prop :=
  lenN (grams D k) <= piece (k + 1) ->
  lenN (grams D k) = 1 \/ Forall (first_choice D remap k) (grams D k) \/
  exists i g, 0 < i /\ nthN (grams D k) i = Some g /\ ~ first_choice D remap k g.

(** [g], of k + 1 words and not in the k-th file, is told apart: it is not the first choice of its context, and
    some gram of the k-th file has the same context and a last word that comes later in the vocabulary *)
Definition told_apart {A} (D : list (list (gram * A))) (remap k : N) (g : gram) : Prop :=
  ~ first_choice D remap k g /\ exists w, word_lt (grams D 0) (last g []) w /\ In (removelast g ++ [w]) (grams D k).

(** [s] is one of the n-grams of [remap] + 1 words that the query [q] contains after its first word *)
Definition inner (remap : N) (q s : gram) : Prop :=
  0 < remap /\ exists p, 0 < p /\ p + remap < lenN q /\ s = firstn (N.to_nat (remap + 1)) (skipn (N.to_nat p) q).
(** the query is told apart: its inner n-grams are listed or told apart and, if they are all listed, so is its shortest prefix that is not listed *)
Definition query_told_apart {A} (D : list (list (gram * A))) (remap : N) (q : gram) : Prop :=
  (forall s, inner remap q s -> In s (grams D remap) \/ told_apart D remap remap s) /\
  ((forall s, inner remap q s -> In s (grams D remap)) ->
   forall j, 0 < j < lenN q -> In (firstn (N.to_nat j) q) (grams D (j - 1)) -> ~ In (firstn (N.to_nat (j + 1)) q) (grams D j) ->
     told_apart D remap j (firstn (N.to_nat (j + 1)) q)).
