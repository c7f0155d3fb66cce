(** * Specification of the integer codes: bit strings *)
From Verif Require Import Prelude Spec M_Codes.

(** Elias gamma code of n >= 0: with n+1 = 2^l + r, r < 2^l: l zeros, a one, r on l bits *)
Definition gamma_code (n : N) : list bool :=
  let l := N.log2 (n + 1) in repN false l ++ [true] ++ bits_of (n + 1 - 2 ^ l) l.
(** Elias delta code: the length l as a gamma code, then r *)
Definition delta_code (n : N) : list bool :=
  let l := N.log2 (n + 1) in gamma_code l ++ bits_of (n + 1 - 2 ^ l) l.
Definition item_code (i : item) : list bool :=
  match i with
  | Raw x len => bits_of x len
  | Gamma n => gamma_code n
  | GammaNonzero n => gamma_code (n - 1)
  | Delta n => delta_code n
  end.
Definition item_value (i : item) : N :=
  match i with Raw x _ => x | Gamma n => n | GammaNonzero n => n | Delta n => n end.
(** the values each operation accepts *)
Definition item_ok (i : item) : Prop :=
  match i with
  | Raw x len => len < 64 /\ x < 2 ^ len
  | Gamma n => n + 1 < 2 ^ 64
  | GammaNonzero n => 0 < n < 2 ^ 64
  | Delta n => n + 1 < 2 ^ 64
  end.
Definition items_code (l : list item) : list bool := concat (map item_code l).
(** the values and the end positions of the codes of [l] laid out from position [p] *)
Fixpoint expected (p : N) (l : list item) : list (N * N) :=
  match l with
  | [] => []
  | i :: r => let p' := p + lenN (item_code i) in (item_value i, p') :: expected p' r
  end.
