(** * Model of the single-word helpers of include/utils/util.hpp *)
From Verif Require Import Prelude SelectTable.

(** util.hpp 443-450 [msb(x)]: 63 - clz(x); for x = 0 the local [ret] keeps
    -1U and is truncated to uint8_t, i.e. 255 (the assert is compiled out). *)
Definition msb (x : N) : N := if x =? 0 then 255 else N.log2 x.

(** util.hpp 452-463 [msb(x, ret)] / [bsr64]: None when x = 0 *)
Definition msb_opt (x : N) : option N := if x =? 0 then None else Some (N.log2 x).

(** __builtin_ctzll on a non-zero word *)
Fixpoint ctz_pos (p : positive) : N :=
  match p with xO q => 1 + ctz_pos q | _ => 0 end.

(** util.hpp 465-471 [lsb(x, ret)] *)
Definition lsb_opt (x : N) : option N :=
  match x with 0 => None | Npos p => Some (ctz_pos p) end.

(** util.hpp 473-478 [lsb(x)] : 255 when x = 0 *)
Definition lsb (x : N) : N := match lsb_opt x with Some r => r | None => 255 end.

(** util.hpp 480-482 *)
Definition ceil_log2 (x : N) : N := if 1 <? x then msb (x - 1) + 1 else 0.

(** util.hpp 484-486 *)
Definition floor_log2 (x : N) : N := if 1 <? x then msb x else 0.

(** util.hpp 541-545, IntType1 = uint64_t; division by zero is undefined *)
Definition ceil_div (a d : N) : res N :=
  if d =? 0 then UB else Ok (sub64 (add64 a d) 1 / d).

(** util.hpp 488-490 *)
Definition ones_step_4 : N := 0x1111111111111111.
Definition ones_step_8 : N := 0x0101010101010101.
Definition msbs_step_8 : N := mul64 0x80 ones_step_8.

(** util.hpp 492-497; each line is one assignment to x *)
Definition byte_counts (x : N) : N :=
  let x := sub64 x (shr (N.land x (mul64 0xa ones_step_4)) 1) in
  let x := add64 (N.land x (mul64 3 ones_step_4))
                 (N.land (shr x 2) (mul64 3 ones_step_4)) in
  N.land (add64 x (shr x 4)) (mul64 0x0f ones_step_8).

(** util.hpp 499-501 *)
Definition bytes_sum (x : N) : N := shr (mul64 x ones_step_8) 56.

(** util.hpp 503-509, the portable branch (TONGRAMS_USE_POPCNT off) *)
Definition popcount (x : N) : N := bytes_sum (byte_counts x).

(** util.hpp 524-539, the portable branch (TONGRAMS_USE_PDEP off).
    The right shifts by [place] are undefined when place = 64 (k not below
    the number of ones). *)
Definition select_in_word (x k : N) : res N :=
  let byte_sums := mul64 (byte_counts x) ones_step_8 in
  let k_step_8 := mul64 k ones_step_8 in
  let geq_k_step_8 :=
    N.land (sub64 (N.lor k_step_8 msbs_step_8) byte_sums) msbs_step_8 in
  let place := mul64 (popcount geq_k_step_8) 8 in
  prev <- shrU (shl byte_sums 8) place ;;
  let byte_rank := sub64 k (N.land prev 0xFF) in
  xb <- shrU x place ;;
  e <- rd select_in_byte_table (N.lor (N.land xb 0xFF) (shl byte_rank 8)) ;;
  Ok (place + e).
