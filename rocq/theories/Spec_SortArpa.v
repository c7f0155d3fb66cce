(** * Specification of sort_arpa (C43) *)
From Coq Require Import Floats.SpecFloat.
From Verif Require Import Prelude Spec Spec_Trie Spec_Arpa Spec_ArpaFile.

(** an ARPA text with exactly one blank line between two sections, none of them empty *)
Definition plain_arpa (data : list N) (secs : list (list (list N))) : Prop :=
  exists b0 b1 tail,
    data = text_of (blanks b0 ++ [[92; 100; 97; 116; 97; 92]] ++ count_lines 1 (map lenN secs) ++ blanks (S b1) ++ section_lines 1 secs []) ++
           [92; 101; 110; 100; 92] ++ tail /\
    1 <= lenN secs < 256 /\ Forall (fun s => s <> []) secs /\ Forall (Forall (fun l => l <> [] /\ ~ In 10 l)) secs /\ Forall (fun s => lenN s < 2 ^ 64) secs.

(** what the C library must do with the numbers it prints: the text has no newline, and when it is
    followed by a tab, reading a number stops at that tab *)
Definition prints (sd : list N -> N -> spec_float * N) (fmt : spec_float -> list N) : Prop :=
  forall x, ~ In 10 (fmt x) /\ lenN (fmt x) < 2 ^ 32 /\ forall post, snd (sd (fmt x ++ 9 :: post) 0) = lenN (fmt x).

(** the line written for an entry: back-offs equal to zero are left out *)
Definition printed (fmt : spec_float -> list N) (e : gram * (spec_float * spec_float)) : list N :=
  fmt (fst (snd e)) ++ 9 :: join (fst e) ++ (match snd (snd e) with S754_zero _ => [] | b => 9 :: fmt b end).

(** the decimal text that the C++ standard prescribes for std::to_string of a float: "%f", six decimals,
    rounded to nearest, ties to even *)
Definition round_even (a b : N) : N :=
  let q := a / b in let r := a mod b in
  if 2 * r <? b then q else if b <? 2 * r then q + 1 else if N.even q then q else q + 1.
Definition fixed6 (x : spec_float) : list N :=
  let text (s : bool) (n : N) :=
    (if s then [45] else []) ++ M_Text.to_string (n / 10 ^ 6) ++ 46 :: map (fun i => 48 + (n / 10 ^ i) mod 10) [5; 4; 3; 2; 1; 0] in
  match x with
  | S754_zero s => text s 0
  | S754_infinity s => (if s then [45] else []) ++ [105; 110; 102]
  | S754_nan => [110; 97; 110]
  | S754_finite s m e =>
      text s (match e with
              | Zneg p => round_even (Npos m * 10 ^ 6) (2 ^ Npos p)
              | _ => Npos m * 10 ^ 6 * 2 ^ Z.to_N e
              end)
  end.
