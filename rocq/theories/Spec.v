(** * Specification vocabulary

    Small, model-independent definitions used in the statements of the
    property theorems. *)
From Verif Require Import Prelude.

(** positions of the one bits of [V] among the first [n] positions, increasing *)
Definition ones_pos (V n : N) : list N := filter (N.testbit V) (range n).
(** positions of the zero bits *)
Definition zeros_pos (V n : N) : list N :=
  filter (fun i => negb (N.testbit V i)) (range n).

(** ** lists of bits, first element = position 0 = least significant *)
Definition bits_of (v len : N) : list bool := map (N.testbit v) (range len).
Fixpoint num_of (l : list bool) : N :=
  match l with [] => 0 | b :: r => N.b2n b + 2 * num_of r end.
Definition bit_at (l : list bool) (i : N) : bool := nth (N.to_nat i) l false.
(** [l[pos .. pos+len)] *)
Definition slice {A} (l : list A) (pos len : N) : list A :=
  firstn (N.to_nat len) (skipn (N.to_nat pos) l).
(** [l] with [l[pos .. pos+|s|)] replaced by [s] *)
Definition overwrite {A} (l : list A) (pos : N) (s : list A) : list A :=
  firstn (N.to_nat pos) l ++ s ++ skipn (N.to_nat pos + length s) l.
(** positions >= p of the bits of [l] equal to [b], increasing *)
Definition positions (b : bool) (l : list bool) (p : N) : list N :=
  filter (fun i => (p <=? i) && Bool.eqb (bit_at l i) b) (range (lenN l)).

(** ** a history of array writes *)
Definition last_write (ops : list (N * N)) (j init : N) : N :=
  fold_left (fun cur o => if fst o =? j then snd o else cur) ops init.

(** ** sums *)
Definition sumN (l : list N) : N := fold_right N.add 0 l.
(** the element written last at index j by a history of (index, element) writes *)
Definition last_set {A} (ops : list (N * A)) (j : N) (init : A) : A :=
  fold_left (fun cur o => if fst o =? j then snd o else cur) ops init.

(** ** groups of a level: a pointer list 0 = p0 <= p1 <= ... <= pm = n splits
    0..n-1 into the consecutive ranges [p_j, p_(j+1)) *)
Definition pointers_for (ptrs : list N) (n : N) : Prop :=
  nthN ptrs 0 = Some 0 /\ 2 <= lenN ptrs /\ nthN ptrs (lenN ptrs - 1) = Some n /\
  forall i x y, nthN ptrs i = Some x -> nthN ptrs (i + 1) = Some y -> x <= y.
Definition is_range (ptrs : list N) (b e : N) : Prop :=
  exists j, nthN ptrs j = Some b /\ nthN ptrs (j + 1) = Some e.
(** no descent inside a range *)
Definition sorted_in_ranges (ids ptrs : list N) : Prop :=
  forall b e k x y, is_range ptrs b e -> b <= k -> k + 1 < e ->
    nthN ids k = Some x -> nthN ids (k + 1) = Some y -> x <= y.
(** the starts of the ranges with at least t elements *)
Definition long_starts (t : N) (ptrs : list N) : list N :=
  map fst (filter (fun r => t <=? snd r - fst r) (combine ptrs (tl ptrs))).
(** r is the answer to "where in [b, e) is x?" *)
Definition search_result (ids : list N) (b e x r : N) : Prop :=
  (b <= r < e /\ nthN ids r = Some x) \/
  (r = not_found /\ forall p, b <= p < e -> nthN ids p <> Some x).

(** ** texts: words separated by single spaces (byte 32) *)
Fixpoint join (ws : list (list N)) : list N :=
  match ws with [] => [] | [w] => w | w :: r => w ++ 32 :: join r end.
(** a non-empty byte string without spaces *)
Definition word (w : list N) : Prop := w <> [] /\ ~ In 32 w.
(** the bytes of memory [buf] addressed by the range [r] *)
Definition text (buf : list N) (r : N * N) : list N := slice buf (fst r) (snd r - fst r).
(** [r] is a range of [buf] holding the bytes [s] *)
Definition holds_text (buf : list N) (r : N * N) (s : list N) : Prop :=
  fst r <= snd r <= lenN buf /\ text buf r = s.
(** value of a list of decimal digit characters *)
Definition dec_value (ds : list N) : N := fold_left (fun a d => 10 * a + (d - 48)) ds 0.
