(** * Specification vocabulary for the statistics report (C49) *)
From Verif Require Import Prelude Spec Spec_Trie.
From Coq Require Import Permutation Sorting.Sorted.

(** the number of n-grams of the next order that extend [g], an n-gram of the k-th file, by one word *)
Definition extensions {A} (D : list (list (gram * A))) (k : N) (g : gram) : N :=
  lenN (filter (fun h => if gram_dec (removelast h) g then true else false) (grams D (k + 1))).
(** those of all n-grams of the k-th file, in file order; n-grams without extension left out *)
Definition fanouts {A} (D : list (list (gram * A))) (k : N) : list N :=
  filter (fun c => 0 <? c) (map (extensions D k) (grams D k)).
(** the number of bigrams that end with [w] *)
Definition endings {A} (D : list (list (gram * A))) (w : list N) : N :=
  lenN (filter (fun g => if list_eq_dec N.eq_dec (last g []) w then true else false) (grams D 1)).

(** [top]: the [k] largest of [l] (all of them if there are less), largest first *)
Definition largest (k : N) (l top : list N) : Prop :=
  exists rest, Permutation l (top ++ rest) /\ lenN top = N.min k (lenN l) /\
    StronglySorted (fun a b => b <= a) top /\ forall a b, In a top -> In b rest -> b <= a.
Definition minimum (l : list N) (m : N) : Prop := In m l /\ forall x, In x l -> m <= x.
Definition maximum (l : list N) (m : N) : Prop := In m l /\ forall x, In x l -> x <= m.

(** std::push_heap, std::pop_heap with std::greater (C++17 [alg.heap.operations]): on a vector whose
    elements except the last are a heap, push makes the whole vector one; pop moves the first
    element to the end and leaves the others a heap *)
Definition is_heap (l : list N) : Prop :=
  forall i x y, 0 < i -> nthN l i = Some x -> nthN l ((i - 1) / 2) = Some y -> y <= x.
Record heap_functions (push pop : list N -> list N) : Prop := {
  hf_push : forall l x, is_heap l -> is_heap (push (l ++ [x])) /\ Permutation (push (l ++ [x])) (l ++ [x]);
  hf_pop : forall x l, is_heap (x :: l) -> exists l', pop (x :: l) = l' ++ [x] /\ Permutation l' l /\ is_heap l' }.

(** the greatest vocabulary position of the last word of an extension of [g], an n-gram of file k - 1;
    0 if there is no extension *)
Definition furthest {A} (D : list (list (gram * A))) (k : N) (g : gram) (u : N) : Prop :=
  ((forall h, In h (grams D k) -> removelast h <> g) /\ u = 0) \/
  ((exists h, In h (grams D k) /\ removelast h = g /\ nthN (grams D 0) u = Some [last h []]) /\
   forall h i, In h (grams D k) -> removelast h = g -> nthN (grams D 0) i = Some [last h []] -> i <= u).
(** the number of values without repetitions *)
Definition distinct (l : list N) : N := lenN (nodup N.eq_dec l).
