(** * Model of include/sequences/ef_sequence.hpp *)
From Verif Require Import Prelude M_Word M_Bits M_DArray.

(** The part shared with fast_ef_sequence (members m_l, m_high_bits,
    m_high_bits_d1, m_low_bits): ef_sequence.hpp 153-157, fast_ef_sequence.hpp 260-263 *)
Record efc := mkefc { e_l : N; e_high : bv; e_d1 : darr; e_low : bv }.

(** m_l = uint8_t((n && u / n) ? msb(u / n) : 0): ef_sequence.hpp 22, fast_ef_sequence.hpp 454 *)
Definition ef_l (n u : N) : N :=
  if negb (n =? 0) && negb (u / n =? 0) then msb (u / n) mod 256 else 0.

(** state of the loop: high builder, low builder, last, i *)
Record efs := mkefs { fs_high : bvb; fs_low : bvb; fs_last : N; fs_i : N }.

(** one iteration: ef_sequence.hpp 29-41, fast_ef_sequence.hpp 461-473 *)
Definition ef_step (l : N) (s : efs) (v : N) : res efs :=
  if negb (fs_i s =? 0) && (v <? fs_last s) then Throw else
  m <- shlU 1 l ;;
  let low_mask := sub64 m 1 in
  lo <- (if l =? 0 then Ok (fs_low s) else bvb_append_bits (fs_low s) (N.land v low_mask) l) ;;
  hi <- bvb_set (fs_high s) (add64 (shr v l) (fs_i s)) true ;;
  Ok (mkefs hi lo v (fs_i s + 1)).

(** ef_sequence.hpp 21-45, fast_ef_sequence.hpp 453-477.  reserve has no observable effect. *)
Definition efc_build (vs : list N) (u : N) : res efc :=
  let n := lenN vs in
  let l := ef_l n u in
  let high := bvb_new (add64 (add64 n (shr u l)) 1) false in
  s <- foldM (ef_step l) vs (mkefs high (bvb_new 0 false) 0 0) ;;
  let hv := bv_build (fs_high s) in
  d1 <- d_build false hv ;;
  Ok (mkefc l hv d1 (bv_build (fs_low s))).

(** operator[]: ef_sequence.hpp 51-55, fast_ef_sequence.hpp 57-60 *)
Definition efc_get (e : efc) (i : N) : res N :=
  s <- d_select false (e_d1 e) (e_high e) i ;;
  h <- shlU (sub64 s i) (e_l e) ;;
  lo <- bv_get_bits (e_low e) (mul64 i (e_l e)) (e_l e) ;;
  Ok (N.lor h lo).

(** iterator: ef_sequence.hpp 61-106, fast_ef_sequence.hpp 149-202.
    [fi_enum] is None while m_high_enum is uninitialised. *)
Record efit := mkefit { fi_i : N; fi_enum : option uit; fi_buf : N; fi_avail : N }.

(** chunks_in_word: ef_sequence.hpp 66-72 *)
Definition ef_chunks (l : N) : N := if l =? 0 then 0 else 64 / l.

(** ef_sequence.hpp 62-79 *)
Definition efit_new (e : efc) (i : N) : res efit :=
  let avail := if e_l e =? 0 then d_pos (e_d1 e) else 0 in
  if d_pos (e_d1 e) =? 0 then Ok (mkefit i None 0 avail)
  else
    pos <- d_select false (e_d1 e) (e_high e) i ;;
    it <- uit_new (e_high e) pos ;;
    Ok (mkefit i (Some it) 0 avail).

(** ef_sequence.hpp 81-95 *)
Definition efit_next (e : efc) (it : efit) : res (N * efit) :=
  ' (buf, avail) <-
    (if fi_avail it =? 0 then
       w <- bv_get_word64 (e_low e) (mul64 (fi_i it) (e_l e)) ;;
       Ok (w, sub64 (ef_chunks (e_l e)) 1)
     else Ok (fi_buf it, fi_avail it - 1)) ;;
  match fi_enum it with
  | None => UB
  | Some en =>
      ' (high, en) <- uit_next (e_high e) en ;;
      m <- shlU 1 (e_l e) ;;
      let low := N.land buf (sub64 m 1) in
      h <- shlU (sub64 high (fi_i it)) (e_l e) ;;
      buf' <- shrU buf (e_l e) ;;
      Ok (N.lor h low, mkefit (fi_i it + 1) (Some en) buf' avail)
  end.

(** k successive calls of next() *)
Fixpoint efit_take (e : efc) (it : efit) (k : nat) : res (list N) :=
  match k with
  | O => Ok []
  | S k => ' (v, it) <- efit_next e it ;; vs <- efit_take e it k ;; Ok (v :: vs)
  end.

(** ef_sequence, lines 153-158 *)
Record ef := mkef { ef_core : efc; ef_d0 : option darr; ef_size : N }.

(** ef_sequence::build, lines 19-49 *)
Definition ef_build (vs : list N) (u : N) (index_on_zeros : bool) : res ef :=
  c <- efc_build vs u ;;
  d0 <- (if index_on_zeros then d <- d_build true (e_high c) ;; Ok (Some d) else Ok None) ;;
  Ok (mkef c d0 (lenN vs)).

Definition ef_get (e : ef) (i : N) : res N := efc_get (ef_core e) i.

(** lines 108-110 *)
Definition ef_pair (e : ef) (i : N) : res (N * N) :=
  a <- ef_get e i ;; b <- ef_get e (add64 i 1) ;; Ok (a, b).

(** lines 116-118 *)
Definition ef_universe (e : ef) : res N := ef_get e (sub64 (ef_size e) 1).

(** ** pointer_sequence.hpp (instantiated with ef_sequence) *)
(** build, lines 10-12; back() of an empty vector is undefined *)
Definition ptr_build (ps : list N) : res ef :=
  last <- rd ps (sub64 (lenN ps) 1) ;; ef_build ps last false.
(** operator[], lines 14-17 *)
Definition ptr_range (e : ef) (i : N) : res (N * N) := ef_pair e i.

(** ** prefix_summed_sequence.hpp (instantiated with ef_sequence) *)
Record pss := mkpss { ps_size : N; ps_seq : ef }.
(** the loop of lines 17-21 *)
Fixpoint prefix_sums (last : N) (vs : list N) : list N :=
  match vs with
  | [] => []
  | v :: r => let value := add64 v last in value :: prefix_sums value r
  end.
(** build, lines 12-23; [order] is passed as index_on_zeros *)
Definition pss_build (vs : list N) (order : N) : res pss :=
  let ps := prefix_sums 0 vs in
  last <- rd ps (sub64 (lenN ps) 1) ;;
  s <- ef_build ps last (negb (order =? 0)) ;;
  Ok (mkpss (lenN vs) s).
(** operator[], lines 25-27 *)
Definition pss_get (p : pss) (i : N) : res N :=
  a <- ef_get (ps_seq p) i ;;
  b <- (if i =? 0 then Ok 0 else ef_get (ps_seq p) (sub64 i 1)) ;;
  Ok (sub64 a b).

(** ** indexed_codewords_sequence.hpp *)
Record icw := mkicw { ic_size : N; ic_cw : bv; ic_idx : bv; ic_d1 : darr }.
(** one iteration of lines 24-32: (codewords, index, pos) *)
Definition icw_step (s : bvb * bvb * N) (v : N) : res (bvb * bvb * N) :=
  let '(cws, idx, pos) := s in
  let len := floor_log2 (add64 v 2) in
  m <- shlU 1 len ;;
  let cw := sub64 (add64 v 2) m in
  cws <- bvb_set_bits cws pos cw len ;;
  idx <- bvb_set idx pos true ;;
  Ok (cws, idx, add64 pos len).
(** build, lines 12-41 *)
Definition icw_build (vs : list N) : res icw :=
  let bits := fold_left (fun b v => add64 b (floor_log2 (add64 v 2))) vs 0 in
  ' (cws, idx, pos) <- foldM icw_step vs (bvb_new bits false, bvb_new (add64 bits 1) false, 0) ;;
  idx <- bvb_set idx pos true ;;
  let ix := bv_build idx in
  d1 <- d_build false ix ;;
  Ok (mkicw (lenN vs) (bv_build cws) ix d1).
(** operator[], lines 43-53 *)
Definition icw_get (s : icw) (i : N) : res N :=
  pos <- d_select false (ic_d1 s) (ic_idx s) i ;;
  e <- uit_new (ic_idx s) (add64 pos 1) ;;
  ' (next, _) <- uit_next (ic_idx s) e ;;
  let len := sub64 next pos in
  cw <- bv_get_bits (ic_cw s) pos len ;;
  m <- shlU 1 len ;;
  Ok (sub64 (add64 cw m) 2).
(** iterator, lines 55-86: m_pos, m_len, m_it *)
Record icit := mkicit { it_pos : N; it_len : N; it_it : uit }.
(** lines 56-60 *)
Definition icit_new (s : icw) (pos : N) : res icit :=
  e <- uit_new (ic_idx s) pos ;;
  ' (p, e) <- uit_next (ic_idx s) e ;;
  Ok (mkicit p 0 e).
(** operator*, lines 62-67 *)
Definition icit_deref (s : icw) (it : icit) : res (N * icit) :=
  ' (p, e) <- uit_next (ic_idx s) (it_it it) ;;
  let len := sub64 p (it_pos it) in
  cw <- bv_get_bits (ic_cw s) (it_pos it) len ;;
  m <- shlU 1 len ;;
  Ok (sub64 (add64 cw m) 2, mkicit (it_pos it) len e).
(** operator++, lines 69-71 *)
Definition icit_incr (it : icit) : icit := mkicit (add64 (it_pos it) (it_len it)) (it_len it) (it_it it).
(** lines 73-75 *)
Definition icit_eq (a b : icit) : bool := it_pos a =? it_pos b.
(** lines 88-94 *)
Definition icw_begin (s : icw) : res icit := icit_new s 0.
Definition icw_end (s : icw) : res icit := icit_new s (v_size (ic_cw s)).
(** the range-for loop of a client: [fuel] bounds the number of iterations *)
Fixpoint icw_iterate (fuel : nat) (s : icw) (it en : icit) : res (list N) :=
  match fuel with
  | O => UB
  | S f => if icit_eq it en then Ok []
           else ' (v, it) <- icit_deref s it ;; vs <- icw_iterate f s (icit_incr it) en ;; Ok (v :: vs)
  end.
