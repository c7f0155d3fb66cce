(** * compact_elias_fano.hpp: the members no sequence of the library uses

    [bitsize] and [prev_value] of include/sequences/compact_elias_fano.hpp, and runs of calls on one enumerator
    (the other members are in M_Pef). *)
From Verif Require Import Prelude M_Word M_Bits M_CompactVector M_Codes M_FastEF M_Pef.

(** bitsize, lines 57-60 *)
Definition cef_bitsize (u n : N) : res N := o <- cof_new 0 u n ;; Ok (of_end o).

(** prev_value, lines 220-239; [u_pos] is position() of the unary_iterator *)
Definition cen_prev_value (v : bv) (pad : list N) (c : cen) : res N :=
  let o := ce_of c in
  if ce_pos c =? 0 then Ok 0
  else
    ph <- (if ce_pos c <? of_n o then he <- hi_of c ;; bv_predecessor1 v (sub64 (u_pos he) 1)
           else bv_predecessor1 v (sub64 (of_lo o) 1)) ;;
    let ph := sub64 ph (of_ho o) in
    let pp := ce_pos c - 1 in
    w <- word56 v pad (of_lo o + pp * of_lb o) ;;
    Ok (N.lor (shl (sub64 (sub64 ph pp) 1) (of_lb o)) (N.land w (of_mask o))).

(** a call on an enumerator: move (144-172), next_geq (174-203), next (209-218), prev_value (220-239) *)
Inductive ecall := EMove (p : N) | EGeq (x : N) | ENext | EPrev.
(** its answer (position and value; for prev_value the position, line 241, and the value returned) and the enumerator after it *)
Definition cen_call (v : bv) (pad : list N) (c : cen) (o : ecall) : res (N * N * cen) :=
  match o with
  | EMove p => c <- cen_move v pad c p ;; Ok (ce_pos c, ce_val c, c)
  | EGeq x => c <- cen_next_geq v pad c x ;; Ok (ce_pos c, ce_val c, c)
  | ENext => c <- cen_next v pad c ;; Ok (ce_pos c, ce_val c, c)
  | EPrev => y <- cen_prev_value v pad c ;; Ok (ce_pos c, y, c)
  end.
(** a run of calls: all answers *)
Fixpoint cen_calls (v : bv) (pad : list N) (c : cen) (os : list ecall) : res (list (N * N)) :=
  match os with
  | [] => Ok []
  | o :: os => ' (p, y, c) <- cen_call v pad c o ;; rest <- cen_calls v pad c os ;; Ok ((p, y) :: rest)
  end.
