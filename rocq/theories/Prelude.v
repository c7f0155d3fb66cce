(** * Prelude: outcomes, 64-bit machine arithmetic, word arrays.

    Everything the C++ code can do to a 64-bit word is written here with its
    wrap-around.  Undefined behaviour of the C++ program (out-of-range vector
    access, over-wide shift, ...) is a distinct outcome [UB], an exception is
    [Throw]; nothing is silently totalised. *)
From Coq Require Export List NArith ZArith Lia Bool.
From Coq Require Export ZifyBool ZifyNat ZifyN.
Export ListNotations.
Open Scope N_scope.

#[export] Set Warnings "-notation-overridden".

(** ** Outcomes *)
Inductive res (A : Type) : Type :=
| Ok (a : A)        (* normal return *)
| UB                (* C++ undefined behaviour *)
| Throw.            (* C++ exception / abort *)
Arguments Ok {A} a.
Arguments UB {A}.
Arguments Throw {A}.

Definition bind {A B} (r : res A) (f : A -> res B) : res B :=
  match r with Ok a => f a | UB => UB | Throw => Throw end.
Notation "x <- e ;; k" := (bind e (fun x => k))
  (at level 61, e at next level, right associativity).
Notation "' p <- e ;; k" := (bind e (fun x => let p := x in k))
  (at level 61, p pattern, e at next level, right associativity).

(** ** 64-bit words: [uint64_t] arithmetic of the C++ code *)
Definition w64 (x : N) : N := N.land x (N.ones 64).
Definition add64 (a b : N) : N := w64 (a + b).
(* a - b in uint64_t *)
Definition sub64 (a b : N) : N := w64 (w64 a + (2 ^ 64 - w64 b)).
Definition mul64 (a b : N) : N := w64 (a * b).
(* x << s with s < 64; the result is truncated to 64 bits *)
Definition shl (x s : N) : N := w64 (N.shiftl x s).
(* x >> s *)
Definition shr (x s : N) : N := N.shiftr x s.
(* ~x *)
Definition not64 (x : N) : N := N.ldiff (N.ones 64) x.

(* the same shifts with the C++ rule that a shift count >= 64 is undefined *)
Definition shlU (x s : N) : res N := if s <? 64 then Ok (shl x s) else UB.
Definition shrU (x s : N) : res N := if s <? 64 then Ok (shr x s) else UB.

(** [not_found = uint64_t(-1)]  (util.hpp 61) *)
Definition not_found : N := 2 ^ 64 - 1.

(** ** Arrays: [std::vector] with [operator[]] undefined out of range *)
Definition lenN {A} (l : list A) : N := N.of_nat (length l).

Definition rd {A} (l : list A) (i : N) : res A :=
  if i <? lenN l
  then match nth_error l (N.to_nat i) with Some a => Ok a | None => UB end
  else UB.

(** the i-th element, if any *)
Definition nthN {A} (l : list A) (i : N) : option A := nth_error l (N.to_nat i).

Fixpoint set_nth {A} (l : list A) (i : nat) (a : A) : list A :=
  match l, i with
  | [], _ => []
  | _ :: r, O => a :: r
  | x :: r, S j => x :: set_nth r j a
  end.

Definition wr {A} (l : list A) (i : N) (a : A) : res (list A) :=
  if i <? lenN l then Ok (set_nth l (N.to_nat i) a) else UB.

(** [0, 1, ..., n-1] shifted by [s] *)
Fixpoint seqN (s : N) (n : nat) : list N :=
  match n with O => [] | S k => s :: seqN (N.succ s) k end.

Definition range (n : N) : list N := seqN 0 (N.to_nat n).

(** monadic iteration *)
Fixpoint foldM {A S} (f : S -> A -> res S) (l : list A) (s : S) : res S :=
  match l with
  | [] => Ok s
  | a :: r => s' <- f s a ;; foldM f r s'
  end.

Fixpoint mapM {A B} (f : A -> res B) (l : list A) : res (list B) :=
  match l with
  | [] => Ok []
  | a :: r => b <- f a ;; bs <- mapM f r ;; Ok (b :: bs)
  end.

(** A loop with explicit fuel; running out of fuel is [Throw]-free and
    visible: it is reported as [UB] and excluded by the theorems. *)
Fixpoint loop {S R} (fuel : nat) (body : S -> res (S + R)) (s : S) : res R :=
  match fuel with
  | O => UB
  | S k => x <- body s ;;
           match x with inl s' => loop k body s' | inr r => Ok r end
  end.

(** [essentials::words_for(bits)] = number of 64-bit words for [bits] bits *)
Definition words_for (bits : N) : N := (bits + 63) / 64.

Definition repN {A} (a : A) (n : N) : list A := repeat a (N.to_nat n).

(* sanity of the machine arithmetic *)
Example sub64_wraps : sub64 0 1 = 2 ^ 64 - 1.
Proof. reflexivity. Qed.
Example shl_truncates : shl (2 ^ 63 + 1) 1 = 2.
Proof. reflexivity. Qed.
