(** * Model of include/vectors/compact_vector.hpp *)
From Verif Require Import Prelude M_Word M_Bits.

(** compact_vector, lines 320-324 *)
Record cv := mkcv { c_size : N; c_width : N; c_mask : N; c_bits : list N }.

(** compact_vector::builder, lines 205-212.  [cb_shift] is the int64_t
    m_cur_shift, kept modulo 2^64 as the arithmetic of lines 133-146 does. *)
Record cvb := mkcvb { cb_size : N; cb_width : N; cb_mask : N; cb_back : N;
                      cb_block : N; cb_shift : N; cb_bits : list N }.

(** [!w ? w + 1 : w], lines 67 and 81 *)
Definition cv_width (w : N) : N := if w =? 0 then 1 else w.

(** lines 65-77; the mask is computed from w (so it is 0 when w = 0) *)
Definition cvb_new (n w : N) : res cvb :=
  if 64 <? cv_width w then Throw
  else Ok (mkcvb n (cv_width w) (width_mask 0 w) 0 0 0
                 (repN 0 (words_for (mul64 n (cv_width w))))).

(** lines 79-88 *)
Definition cvb_resize (b : cvb) (n w : N) : res cvb :=
  if 64 <? cv_width w then Throw
  else Ok (mkcvb n (cv_width w) (width_mask 0 w) (cb_back b) (cb_block b) (cb_shift b)
                 (vec_resize (cb_bits b) (words_for (mul64 n (cv_width w))))).

(** lines 106-125 *)
Definition cvb_set (b : cvb) (i v : N) : res cvb :=
  let back := if i =? sub64 (cb_size b) 1 then v else cb_back b in
  ws <- store_field (cb_bits b) (mul64 i (cb_width b)) (cb_mask b) v (cb_width b) ;;
  Ok (mkcvb (cb_size b) (cb_width b) (cb_mask b) back (cb_block b) (cb_shift b) ws).

(** lines 127-147 *)
Definition cvb_push_back (b : cvb) (v : N) : res cvb :=
  m1 <- shlU (cb_mask b) (cb_shift b) ;;
  v1 <- shlU v (cb_shift b) ;;
  ws <- upd (cb_bits b) (cb_block b) (fun w => N.land w (not64 m1)) ;;
  ws <- upd ws (cb_block b) (fun w => N.lor w v1) ;;
  let res_shift := sub64 64 (cb_shift b) in
  ' (ws, block, shift) <-
    (if res_shift <? cb_width b then
       let block := cb_block b + 1 in
       m2 <- shrU (cb_mask b) res_shift ;;
       v2 <- shrU v res_shift ;;
       ws <- upd ws block (fun w => N.land w (not64 m2)) ;;
       ws <- upd ws block (fun w => N.lor w v2) ;;
       Ok (ws, block, sub64 0 res_shift)
     else Ok (ws, cb_block b, cb_shift b)) ;;
  let shift := add64 shift (cb_width b) in
  let '(block, shift) := if shift =? 64 then (block + 1, 0) else (block, shift) in
  Ok (mkcvb (cb_size b) (cb_width b) (cb_mask b) v block shift ws).

(** lines 95-104 *)
Definition cvb_fill (b : cvb) (vs : list N) : res cvb :=
  if cb_width b =? 0 then Throw else foldM cvb_push_back vs b.

(** lines 149-158 *)
Definition cvb_get (b : cvb) (i : N) : res N :=
  load_field (cb_bits b) (mul64 i (cb_width b)) (cb_mask b) (cb_width b).

(** builder::back, lines 189-191 *)
Definition cvb_back (b : cvb) : N := cb_back b.

(** lines 221-226 (also 215-219); the mask is recomputed from the width *)
Definition cv_of_builder (b : cvb) : cv :=
  mkcv (cb_size b) (cb_width b) (width_mask 0 (cb_width b)) (cb_bits b).

(** lines 172-178: builder::build(cv) copies the mask *)
Definition cvb_build (b : cvb) : cv :=
  mkcv (cb_size b) (cb_width b) (cb_mask b) (cb_bits b).

(** lines 228-241; [max + 1] wraps *)
Definition cv_build (vs : list N) : res cv :=
  let max := fold_left (fun m v => if m <? v then v else m) vs 0 in
  b <- cvb_new (lenN vs) (ceil_log2 (add64 max 1)) ;;
  b <- cvb_fill b vs ;;
  Ok (cv_of_builder b).

(** lines 243-252 *)
Definition cv_get (c : cv) (i : N) : res N :=
  load_field (c_bits c) (mul64 i (c_width c)) (c_mask c) (c_width c).

(** lines 255-262 *)
Definition cv_access (c : cv) (i : N) : res N :=
  let pos := mul64 i (c_width c) in
  w <- load_u64 (c_bits c) (shr pos 3) ;;
  Ok (N.land (shr w (N.land pos 7)) (c_mask c)).

(** lines 268-270 *)
Definition cv_back (c : cv) : res N := cv_get c (sub64 (c_size c) 1).

(** ** iterator, lines 9-62 *)
Record cvit := mkcvit { ci_i : N; ci_block : N; ci_shift : N }.

(** lines 10-15 *)
Definition cvit_new (c : cv) (i : N) : cvit :=
  mkcvit i (shr (mul64 i (c_width c)) 6) (N.land (mul64 i (c_width c)) 63).

(** lines 17-20 and 42-61: reading moves the bit cursor *)
Definition cvit_deref (c : cv) (it : cvit) : res (N * cvit) :=
  ' (val, block, shift) <-
    (if add64 (ci_shift it) (c_width c) <=? 64 then
       w <- rd (c_bits c) (ci_block it) ;;
       x <- shrU w (ci_shift it) ;;
       Ok (N.land x (c_mask c), ci_block it, ci_shift it)
     else
       let res_shift := sub64 64 (ci_shift it) in
       w <- rd (c_bits c) (ci_block it) ;;
       x <- shrU w (ci_shift it) ;;
       w' <- rd (c_bits c) (ci_block it + 1) ;;
       y <- shlU w' res_shift ;;
       Ok (N.lor x (N.land y (c_mask c)), ci_block it + 1, sub64 0 res_shift)) ;;
  let shift := add64 shift (c_width c) in
  let '(block, shift) := if shift =? 64 then (block + 1, 0) else (block, shift) in
  Ok (val, mkcvit (ci_i it) block shift).

(** lines 22-25 *)
Definition cvit_incr (it : cvit) : cvit := mkcvit (ci_i it + 1) (ci_block it) (ci_shift it).

(** the loop [for (k < n) { out.push_back( *it ); ++it; }] of a client *)
Fixpoint cvit_take (c : cv) (it : cvit) (n : nat) : res (list N) :=
  match n with
  | O => Ok []
  | S k => ' (v, it) <- cvit_deref c it ;;
           vs <- cvit_take c (cvit_incr it) k ;; Ok (v :: vs)
  end.
(** operator==, lines 27-29 *)
Definition cvit_eq (a b : cvit) : bool := ci_i a =? ci_i b.
(** begin and end of a vector, lines 282-288 *)
Definition cv_begin (c : cv) (pos : N) : cvit := cvit_new c pos.
Definition cv_end (c : cv) : cvit := cvit_new c (c_size c).
(** the loop [for (; it != end; ++it) out.push_back( *it )] of a client; [fuel] bounds the number of iterations *)
Fixpoint cvit_loop (fuel : nat) (c : cv) (it en : cvit) : res (list N) :=
  match fuel with
  | O => UB
  | S f => if cvit_eq it en then Ok []
           else ' (v, it) <- cvit_deref c it ;; vs <- cvit_loop f c (cvit_incr it) en ;; Ok (v :: vs)
  end.
