(** * Specification: the supported part of a table of n-grams

    An entry is supported if every contiguous part of its n-gram is listed too.  Nothing here refers
    to the scoring code. *)
From Coq Require Import List.
Import ListNotations.

(** the nonempty beginnings of a list *)
Fixpoint prefixes {V} (g : list V) : list (list V) :=
  match g with [] => [] | x :: g' => [x] :: map (cons x) (prefixes g') end.
(** its nonempty contiguous parts *)
Fixpoint infixes {V} (g : list V) : list (list V) :=
  match g with [] => [] | x :: g' => prefixes (x :: g') ++ infixes g' end.

(** the table [M] without its unsupported entries *)
Definition supported {V A} (M : list V -> option A) (g : list V) : option A :=
  if forallb (fun h => match M h with Some _ => true | None => false end) (infixes g) then M g else None.
