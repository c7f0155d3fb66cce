(** * Specification vocabulary for ARPA files *)
From Coq Require Import Floats.SpecFloat.
From Verif Require Import Prelude Spec Spec_Trie.

(** the n-grams of each order with their log probability and back-off weight (binary32 floats) *)
Definition entries : Type := list (list (gram * (spec_float * spec_float))).

(** the line of an entry: probability, tab, words separated by single spaces, and possibly a tab and
    the back-off, which is 0 when missing; positive probabilities count as 0.  [sd]: what the C library
    reads as a number at a position of a text (value, end position). *)
Definition arpa_line (sd : list N -> N -> spec_float * N) (e : gram * (spec_float * spec_float)) (line : list N) : Prop :=
  exists num rest p,
    line = num ++ 9 :: join (fst e) ++ rest /\
    sd (line ++ [0]) 0 = (p, lenN num) /\
    fst (snd e) = (if SFltb (S754_zero false) p then S754_zero false else p) /\
    ((rest = [] /\ snd (snd e) = S754_zero false) \/
     (exists t, rest = 9 :: t /\ fst (sd (line ++ [0]) (lenN num + 1 + lenN (join (fst e)))) = snd (snd e))).

(** an ARPA file: 2 to 8 orders, non-empty sections, n-grams of the k-th section made of k+1 words without
    tabs, each listed once; the numbers are binary32 floats *)
Record arpa_file (D : entries) : Prop := {
  af_order : 2 <= lenN D <= 8;
  af_size : forall k l, nthN D k = Some l -> l <> [] /\ lenN l < 2 ^ 31;
  af_words : forall k l e, nthN D k = Some l -> In e l -> lenN (fst e) = k + 1 /\ Forall (fun w => word w /\ ~ In 9 w) (fst e);
  af_distinct : forall k, NoDup (grams D k);
  af_floats : forall k l e, nthN D k = Some l -> In e l ->
    valid_binary 24 128 (fst (snd e)) = true /\ valid_binary 24 128 (snd (snd e)) = true }.

(** the entry of an n-gram *)
Definition entry (D : entries) (g : gram) : option (spec_float * spec_float) :=
  match nthN D (lenN g - 1) with
  | Some l => option_map snd (find (fun e => if gram_dec (fst e) g then true else false) l)
  | None => None
  end.

(** the table after quantization: the values of the orders above 1 are replaced through [qp] (probabilities)
    and [qb] (back-offs); the highest order has no back-offs *)
Definition quantized (D : entries) (qp qb : N -> spec_float -> spec_float) (g : gram) : option (spec_float * spec_float) :=
  match entry D g with
  | None => None
  | Some (p, b) =>
      if lenN g =? 1 then Some (p, b)
      else Some (qp (lenN g) p, if lenN g =? lenN D then S754_zero false else qb (lenN g) b)
  end.

(** probability of an unknown word: the default -100, unless given or listed for the word "<unk>" *)
Definition unk_prob (D : entries) (given : spec_float) : spec_float :=
  if SFeqb given (S754_finite true 13107200 (-17)) then
    match entry D [[60; 117; 110; 107; 62]] with Some (p, _) => p | None => given end
  else given.

(** the words of a text [join ws] at address [p] *)
Fixpoint word_ranges (p : N) (ws : list (list N)) : list (N * N) :=
  match ws with [] => [] | w :: ws => (p, p + lenN w) :: word_ranges (p + lenN w + 1) ws end.

(** the n-grams read from right to left *)
Definition reversed {A} (D : list (list (gram * A))) : list (list (gram * A)) := map (map (fun e => (rev (fst e), snd e))) D.
