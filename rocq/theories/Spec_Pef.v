(** * Specification for C16: what a partitioned Elias-Fano sequence stores *)
From Verif Require Import Prelude Spec.

(** the value stored just before index [b] (0 when there is none) *)
Definition before (vs : list N) (b : N) : N :=
  if b =? 0 then 0 else match nthN vs (b - 1) with Some x => x | None => 0 end.
(** every id is stored as a value: itself plus the value before its range *)
Definition stored_values (vs ids ptrs : list N) : Prop :=
  lenN vs = lenN ids /\
  forall b e k id, is_range ptrs b e -> b <= k < e -> nthN ids k = Some id -> nthN vs k = Some (id + before vs b).
Definition increasing_in_ranges (ids ptrs : list N) : Prop :=
  forall b e k x y, is_range ptrs b e -> b <= k -> k + 1 < e -> nthN ids k = Some x -> nthN ids (k + 1) = Some y -> x < y.

(** the sequence is cut in pieces of this size *)
Definition piece (order : N) : N := if 2 <? order then 128 else 64.
(** a search that would run past the last piece: the range ends at the end of
    a sequence whose length is a multiple of the piece, and the id exceeds the last one *)
Definition searchable (ids : list N) (order e id : N) : Prop :=
  e < lenN ids \/ lenN ids mod piece order <> 0 \/ exists x, nthN ids (lenN ids - 1) = Some x /\ id <= x.
(** what a sequence of one piece must satisfy: not all values equal, and the first and last less than 2^31 - 1 apart *)
Definition short_ok (vs : list N) (order : N) : Prop :=
  lenN vs <= piece order -> exists x y, nthN vs 0 = Some x /\ nthN vs (lenN vs - 1) = Some y /\ (lenN vs = 1 \/ x < y) /\ y < x + (2 ^ 31 - 1).

(** the calls a client makes *)
Inductive call := Get (pos : N) | Find (b e id : N).
Definition call_ok (ids ptrs : list N) (order : N) (c : call) : Prop :=
  match c with
  | Get p => p < lenN ids
  | Find b e id => is_range ptrs b e /\ id < 2 ^ 63 /\ searchable ids order e id
  end.
Definition is_get (c : call) : bool := match c with Get _ => true | _ => false end.
