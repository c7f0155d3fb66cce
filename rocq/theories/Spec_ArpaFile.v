(** * Specification: the text of an ARPA file *)
From Verif Require Import Prelude M_Text.

(** decimal digits *)
Definition decimal (n : N) : list N := to_string n.
(** lines, each ended by a newline *)
Definition text_of (ls : list (list N)) : list N := concat (map (fun l => l ++ [10]) ls).
Definition blanks (n : nat) : list (list N) := repeat [] n.

(** "ngram i=count" for the orders i, i+1, ... *)
Fixpoint count_lines (i : N) (counts : list N) : list (list N) :=
  match counts with
  | [] => []
  | c :: cs => ([110; 103; 114; 97; 109; 32] ++ decimal i ++ [61] ++ decimal c) :: count_lines (i + 1) cs
  end.
(** "\i-grams:" *)
Definition title (i : N) : list N := [92] ++ decimal i ++ [45; 103; 114; 97; 109; 115; 58].
(** the sections of the orders i, i+1, ...: a title, the lines, one blank line, and for all but the last
    section any number of further blank lines *)
Fixpoint section_lines (i : N) (secs : list (list (list N))) (gaps : list nat) : list (list N) :=
  match secs with
  | [] => []
  | s :: rest => (title i :: s) ++ blanks (S (match rest with [] => O | _ => hd O gaps end)) ++ section_lines (i + 1) rest (tl gaps)
  end.

(** an ARPA text with these sections: blank lines, "\data\", the numbers of lines of the sections, at least
    one blank line, the sections, "\end\", and anything after that line *)
Definition arpa_text (data : list N) (secs : list (list (list N))) : Prop :=
  exists b0 b1 gaps tail,
    data = text_of (blanks b0 ++ [[92; 100; 97; 116; 97; 92]] ++ count_lines 1 (map lenN secs) ++ blanks (S b1) ++ section_lines 1 secs gaps) ++
           [92; 101; 110; 100; 92] ++ tail /\
    (tail = [] \/ exists t, tail = 10 :: t) /\
    1 <= lenN secs < 256 /\ Forall (Forall (fun l => ~ In 10 l)) secs /\
    lenN data < 2 ^ 64 - 1 /\ Forall (fun s => lenN s < 2 ^ 64) secs.
