(** * Specification of the order of n-grams and of the external sort (C28, C29) *)
From Verif Require Import Prelude BitFacts Spec.
From Coq Require Import Sorting.Sorted Permutation.

(** the vocabulary [V] lists the words; [before V xs ys]: at the first place where the
    word sequences differ, the word of [xs] stands earlier in [V] *)
Definition before (V : list (list N)) (xs ys : list (list N)) : Prop :=
  exists p x y s t i j, xs = p ++ x :: s /\ ys = p ++ y :: t /\ nthN V i = Some x /\ nthN V j = Some y /\ i < j.
(** prefix order: words from left to right; suffix order: from right to left *)
Definition before_from (fwd : bool) (V : list (list N)) (xs ys : list (list N)) : Prop :=
  if fwd then before V xs ys else before V (rev xs) (rev ys).
(** a list of records in that order *)
Definition in_order {A} (fwd : bool) (V : list (list N)) (rs : list (list (list N) * A)) : Prop :=
  StronglySorted (fun a b => fst a = fst b \/ before_from fwd V (fst a) (fst b)) rs.

(** a word of a vocabulary file *)
Definition vword (w : list N) : Prop := w <> [] /\ ~ In 32 w /\ ~ In 9 w /\ ~ In 10 w.
(** an n-gram of [k] words of the vocabulary *)
Definition vgram (V : list (list N)) (k : N) (g : list (list N)) : Prop := lenN g = k /\ Forall (fun w => In w V) g.

(** the contract of std::sort: given a strict weak order it permutes the elements so that
    none is followed by a smaller one.  ([Ok true]: the comparator answered true.) *)
Definition strict_weak {A} (cmp : A -> A -> res bool) (l : list A) : Prop :=
  (forall x y, In x l -> In y l -> exists b, cmp x y = Ok b) /\
  (forall x, In x l -> cmp x x = Ok false) /\
  (forall x y z, In x l -> In y l -> In z l -> cmp x y = Ok true -> cmp y z = Ok true -> cmp x z = Ok true) /\
  (forall x y z, In x l -> In y l -> In z l -> cmp x y = Ok false -> cmp y x = Ok false ->
     cmp y z = Ok false -> cmp z y = Ok false -> cmp x z = Ok false /\ cmp z x = Ok false).
Definition std_sort {A} (srt : (A -> A -> res bool) -> list A -> list A) : Prop :=
  forall cmp l, strict_weak cmp l -> Permutation l (srt cmp l) /\ StronglySorted (fun a b => cmp b a = Ok false) (srt cmp l).

(** the batches in which a list of records is held in [room] bytes, each as long as possible *)
Definition gram_bytes {A} (rs : list (list (list N) * A)) : N := sumN (map (fun r => lenN (join (fst r))) rs).
Inductive batches {A} (room : N) : list (list (list N) * A) -> list (list (list (list N) * A)) -> Prop :=
| no_batch : batches room [] []
| one_more b rest bs : b <> [] -> gram_bytes b <= room ->
    (forall r rest', rest = r :: rest' -> room < gram_bytes (b ++ [r])) ->
    batches room rest bs -> batches room (b ++ rest) (b :: bs).
