(** * What an enumerator over a sorted list answers *)
From Verif Require Import Prelude M_CEF.

(** the value at position [i], the universe [u] after the end *)
Definition value_at (vs : list N) (u i : N) : N := match nthN vs i with Some y => y | None => u end.
(** number of values below [x], that is the first position holding at least [x] *)
Definition lower_bound (vs : list N) (x : N) : N := lenN (filter (fun y => y <? x) vs).

(** the position after a call made at position [i] *)
Definition position_after (vs : list N) (u i : N) (o : ecall) : N :=
  match o with
  | EMove p => p
  | EGeq x => if x =? value_at vs u i then i else lower_bound vs x
  | ENext => i + 1
  | EPrev => i
  end.
Definition answer (vs : list N) (u i : N) (o : ecall) : N * N :=
  match o with
  | EPrev => (i, if i =? 0 then 0 else value_at vs u (i - 1))
  | _ => let j := position_after vs u i o in (j, value_at vs u j)
  end.
(** what may be called at position [i]: positions up to the end; no search past the universe once the end is reached *)
Definition call_ok (vs : list N) (u i : N) (o : ecall) : Prop :=
  match o with
  | EMove p => p <= lenN vs
  | EGeq x => i < lenN vs \/ x <= u
  | ENext => i < lenN vs
  | EPrev => True
  end.
Fixpoint answers (vs : list N) (u i : N) (os : list ecall) : list (N * N) :=
  match os with [] => [] | o :: os => answer vs u i o :: answers vs u (position_after vs u i o) os end.
Fixpoint calls_ok (vs : list N) (u i : N) (os : list ecall) : Prop :=
  match os with [] => True | o :: os => call_ok vs u i o /\ calls_ok vs u (position_after vs u i o) os end.
