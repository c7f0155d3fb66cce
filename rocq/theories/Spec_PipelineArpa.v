(** * ARPA files before sorting *)
From Coq Require Import Floats.SpecFloat.
From Verif Require Import Prelude Spec Spec_Trie Spec_Sort Spec_Arpa Spec_ArpaFile Spec_SortArpa.
From Coq Require Import Permutation Sorting.Sorted.

(** the entries a probability trie is made of, in any order: an ARPA file whose n-grams consist of listed words and come with
    their n-1 last words (and, when the words are remapped, with their remap+1 first words) *)
Record unsorted_arpa (U : entries) (remap : N) : Prop := {
  ua_file : arpa_file U;
  ua_voc : forall k g w, In g (grams U k) -> In w g -> In [w] (grams U 0);
  ua_bytes : forall k g, In g (grams U k) -> lenN (join g) < 2 ^ 32;
  ua_shorter : forall k g, 0 < k -> In g (grams U k) -> In (tl g) (grams U (k - 1));
  ua_remap : remap <= 2;
  ua_context : forall k g, 0 < remap -> remap < k -> In g (grams U k) -> In (firstn (N.to_nat (remap + 1)) g) (grams U remap) }.

(** [rr x]: what is read back from the text written for the number x, before a tab, and after a tab at the end of a line *)
Definition rereads (sd : list N -> N -> spec_float * N) (fmt : spec_float -> list N) (rr : spec_float -> spec_float) : Prop :=
  forall x, ~ In 10 (fmt x) /\ lenN (fmt x) < 2 ^ 32 /\ valid_binary 24 128 (rr x) = true /\
    (forall post, sd (fmt x ++ 9 :: post) 0 = (rr x, lenN (fmt x))) /\
    (forall pre, fst (sd (pre ++ 9 :: fmt x ++ [0]) (lenN pre)) = rr x).
(** an entry written and read back: zero back-offs are left out, positive probabilities are read as 0 *)
Definition reread (rr : spec_float -> spec_float) (e : gram * (spec_float * spec_float)) : gram * (spec_float * spec_float) :=
  (fst e, (if SFltb (S754_zero false) (rr (fst (snd e))) then S754_zero false else rr (fst (snd e)),
           match snd (snd e) with S754_zero _ => S754_zero false | b => rr b end)).

(** [D] is [U] with the entries of each section after the first written, sorted by their words from right to left, and read back *)
Definition sorted_arpa (U : entries) (rr : spec_float -> spec_float) (D : entries) : Prop :=
  lenN D = lenN U /\ nthN D 0 = nthN U 0 /\
  forall k l l', 0 < k -> nthN U k = Some l -> nthN D k = Some l' ->
    Permutation (map (reread rr) l) l' /\ StronglySorted (gram_lt (grams U 0)) (map (fun e => rev (fst e)) l').
