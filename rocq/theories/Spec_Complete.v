(** * Specification for C57: which files a build can have accepted *)
From Coq Require Import Sorted.
From Verif Require Import Prelude Spec Spec_Trie.

(** [g] is the text of a count line before its first tab, or the whole line if it has no tab *)
Definition before_tab (l g : list N) : Prop := ~ In 9 g /\ (l = g \/ exists r, l = g ++ 9 :: r).
(** [p] is [g] without its last word, and [s] is [g] without its first word; words are separated by single spaces *)
Definition without_last (g p : list N) : Prop := exists w, ~ In 32 w /\ g = p ++ 32 :: w.
Definition without_first (g s : list N) : Prop := exists w, ~ In 32 w /\ g = w ++ 32 :: s.
(** [g] is the text of an ARPA line that follows the character after its number, up to the next tab or the end; [e]: where the number ends *)
Definition after_number (e : N) (l g : list N) : Prop := exists pre, lenN pre = e + 1 /\ ~ In 9 g /\ (l = pre ++ g \/ exists r, l = pre ++ g ++ 9 :: r).

(** every line of [cur] continues a line of [prv] ([R]), and the lines continued come in the order of [prv] *)
Definition continues (R : list N -> list N -> Prop) (prv cur : list (list N)) : Prop :=
  exists at_ : list N, Forall2 (fun l i => exists l', nthN prv i = Some l' /\ R l' l) cur at_ /\ StronglySorted N.le at_.
(** the two relations: for count files (prefixes), and for the sections of an ARPA file (suffixes; [e] gives where the number of a line ends) *)
Definition by_prefix (l' l : list N) : Prop := exists g p, before_tab l g /\ before_tab l' p /\ without_last g p.
Definition by_suffix (e : list N -> N) (l' l : list N) : Prop := exists g s, after_number (e l) l g /\ after_number (e l') l' s /\ without_first g s.

(** the same about n-grams, given as lists of words: the n-gram [cut g] of each n-gram [g] of order k+2 is an
    n-gram of order k+1 ([removelast]: without the last word, [tl]: without the first word), and these come in
    the order of the file of order k+1 *)
Definition grams_continue {A} (cut : gram -> gram) (D : list (list (gram * A))) (k : N) : Prop :=
  exists at_ : list N, Forall2 (fun g i => nthN (grams D k) i = Some (cut g)) (grams D (k + 1)) at_ /\ StronglySorted N.le at_.
(** n-grams of k+1 non-empty words without spaces and tabs, of less than 2^62 bytes; nothing else is assumed:
    the files can have any order, repetitions, and words that are not in the vocabulary *)
Definition plain_grams {A} (D : list (list (gram * A))) : Prop :=
  forall k g, In g (grams D k) -> lenN g = k + 1 /\ Forall (fun w => word w /\ ~ In 9 w) g /\ lenN (join g) < 2 ^ 62.

(** ** sorted input *)
(** files of n-grams over their vocabulary, in no particular order: what [collection] (Spec_Trie) says except
    the order of the lines and the presence of prefixes *)
Record gram_files {A} (D : list (list (gram * A))) : Prop := {
  gf_order : 2 <= lenN D <= 8;
  gf_size : forall k l, nthN D k = Some l -> l <> [] /\ lenN l < 2 ^ 31;
  gf_words : forall k g, In g (grams D k) -> lenN g = k + 1 /\ Forall (fun w => word w /\ ~ In 9 w /\ In [w] (grams D 0)) g;
  gf_bytes : forall k g, In g (grams D k) -> lenN (join g) < 2 ^ 32;
  gf_distinct : forall k, NoDup (grams D k) }.
