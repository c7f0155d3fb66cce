(** * integer_codes.hpp: Elias gamma and delta codes

    Model of include/sequences/integer_codes.hpp (all of it).  The codes are
    written to a [bit_vector_builder] and read with a [bits_iterator]
    (bit_vector.hpp 10-64, model in M_Bits.v). *)
From Verif Require Import Prelude M_Word M_Bits.

(** lines 9-15; [1 << l] with l >= 64 (n = 2^64-1) is undefined *)
Definition write_gamma (b : bvb) (n : N) : res bvb :=
  let nn := add64 n 1 in
  let l := msb nn in
  hb <- shlU 1 l ;;
  b <- bvb_append_bits b hb (l + 1) ;;
  bvb_append_bits b (N.lxor nn hb) l.

(** lines 17-20; the assert is compiled out, n = 0 wraps around *)
Definition write_gamma_nonzero (b : bvb) (n : N) : res bvb := write_gamma b (sub64 n 1).

(** lines 22-25 *)
Definition read_gamma (v : bv) (it : bit) : res (N * bit) :=
  ' (l, it) <- bit_skip_zeros v it ;;
  ' (x, it) <- bit_get_bits v it l ;;
  h <- shlU 1 l ;;
  Ok (sub64 (N.lor x h) 1, it).

(** lines 27-29 *)
Definition read_gamma_nonzero (v : bv) (it : bit) : res (N * bit) :=
  ' (x, it) <- read_gamma v it ;; Ok (add64 x 1, it).

(** lines 31-37 *)
Definition write_delta (b : bvb) (n : N) : res bvb :=
  let nn := add64 n 1 in
  let l := msb nn in
  hb <- shlU 1 l ;;
  b <- write_gamma b l ;;
  bvb_append_bits b (N.lxor nn hb) l.

(** lines 39-42 *)
Definition read_delta (v : bv) (it : bit) : res (N * bit) :=
  ' (l, it) <- read_gamma v it ;;
  ' (x, it) <- bit_get_bits v it l ;;
  h <- shlU 1 l ;;
  Ok (sub64 (N.lor x h) 1, it).

(** ** One field of a stream, written and read back *)
Inductive item := Raw (x len : N) | Gamma (n : N) | GammaNonzero (n : N) | Delta (n : N).
Definition write_item (b : bvb) (i : item) : res bvb :=
  match i with
  | Raw x len => bvb_append_bits b x len
  | Gamma n => write_gamma b n
  | GammaNonzero n => write_gamma_nonzero b n
  | Delta n => write_delta b n
  end.
(** read a field of the same kind as [i] (the value inside [i] is not used) *)
Definition read_item (v : bv) (it : bit) (i : item) : res (N * bit) :=
  match i with
  | Raw _ len => bit_get_bits v it len
  | Gamma _ => read_gamma v it
  | GammaNonzero _ => read_gamma_nonzero v it
  | Delta _ => read_delta v it
  end.
(** read fields one after the other: values, and the position of the cursor
    ([bits_iterator::position], bit_vector.hpp 50-52) after each of them *)
Fixpoint read_items (v : bv) (it : bit) (l : list item) : res (list (N * N)) :=
  match l with
  | [] => Ok []
  | i :: r => ' (x, it) <- read_item v it i ;;
              rest <- read_items v it r ;; Ok ((x, bi_pos it) :: rest)
  end.
