(** * Specification: Katz back-off over a table of n-grams

    [M g] is the entry of the n-gram [g] (its words, oldest first): log probability and
    back-off weight.  Nothing here refers to the scoring code. *)
From Coq Require Import Floats.SpecFloat List ZArith.
Import ListNotations.

(** sum of two binary32 floats *)
Definition fplus : spec_float -> spec_float -> spec_float := SFadd 24%Z 128%Z.
Definition is_zero (x : spec_float) : bool := match x with S754_zero _ => true | _ => false end.
(** equal as numbers: the two zeros are not distinguished *)
Definition feq (x y : spec_float) : Prop := x = y \/ (is_zero x = true /\ is_zero y = true).

Section KATZ.
Context {V : Type}.
Variable M : list V -> option (spec_float * spec_float).
Variable unk : spec_float.

(** log probability of [w] after the context [h]: the entry of [h w] if it is listed;
    otherwise the probability after the context without its oldest word, plus the
    back-off weight of [h] if [h] is listed; unknown words have probability [unk] *)
Fixpoint katz (h : list V) (w : V) : spec_float :=
  match M (h ++ [w]) with
  | Some (p, _) => p
  | None => match h with
            | [] => unk
            | _ :: h' => match M h with
                         | Some (_, b) => fplus (katz h' w) b
                         | None => katz h' w
                         end
            end
  end.

(** the last n elements *)
Definition lastn {A} (n : nat) (l : list A) : list A := skipn (length l - n) l.

(** the probabilities of the words of a sentence, each after at most [n - 1] words *)
Definition katz_scores (n : nat) (ws : list V) : list spec_float :=
  map (fun iw => katz (lastn (n - 1) (firstn (fst iw) ws)) (snd iw)) (combine (seq 0 (length ws)) ws).

(** the table is closed: it lists the two n-grams of an n+1-gram, ... *)
Definition closed : Prop :=
  forall g x y, (M (x :: g ++ [y]) <> None) -> M (g ++ [y]) <> None /\ M (x :: g) <> None.
(** ... and a context that is followed by some word has a nonzero back-off weight *)
Definition extended_nonzero : Prop :=
  forall h w, h <> [] -> M (h ++ [w]) <> None -> exists p b, M h = Some (p, b) /\ is_zero b = false.

(** ** The context a model with a state keeps
    A context informs if it is listed with a nonzero back-off weight.  After each word the longest
    informing suffix of the kept context and the word is kept, of at most n - 1 words. *)
Definition informs (g : list V) : bool := match M g with Some (_, b) => negb (is_zero b) | None => false end.
(** the largest j <= m with f j, or 0 *)
Fixpoint longest (f : nat -> bool) (m : nat) : nat :=
  match m with O => O | S m' => if f m then m else longest f m' end.
(** how many of the words read so far (latest first) are kept *)
Fixpoint kept (n : nat) (read : list V) : nat :=
  match read with
  | [] => O
  | _ :: before => longest (fun j => informs (rev (firstn j read))) (Nat.min (S (kept n before)) (n - 1))
  end.
(** the probabilities of the words of a sentence, each after its kept context *)
Definition kept_scores (n : nat) (ws : list V) : list spec_float :=
  map (fun iw => let before := firstn (fst iw) ws in katz (lastn (kept n (rev before)) before) (snd iw)) (combine (seq 0 (length ws)) ws).
End KATZ.
