(** * compact_elias_fano.hpp and uniform_pef_sequence.hpp

    Model of include/sequences/compact_elias_fano.hpp (all but [bitsize] and
    the unused [prev_value]) and of include/sequences/uniform_pef_sequence.hpp.
    Bit offsets inside the data are computed without reduction modulo 2^64
    (they are bounded by the size of the data in memory).  Prefetches and
    asserts (compiled out in release builds) have no effect. *)
From Verif Require Import Prelude M_Word M_Bits M_CompactVector M_Codes M_FastEF.

(** pef_global_parameters.hpp: the two sampling parameters *)
Definition log_sampling0 : N := 9.
Definition log_sampling1 : N := 8.

(** ** compact_elias_fano *)
(** the struct [offsets], lines 38-54 *)
Record cof := mkcof { of_u : N; of_n : N; of_lb : N; of_mask : N; of_hl : N; of_ps : N; of_p0 : N; of_p1 : N;
                      of_p0o : N; of_p1o : N; of_ho : N; of_lo : N; of_end : N }.

(** the constructor of [offsets], lines 15-36; n = 0 divides by zero when the universe is not 0 (and n > 0 is asserted) *)
Definition cof_new (base u n : N) : res cof :=
  if n =? 0 then UB else
  let lb := if n <? u then msb (u / n) else 0 in
  let hl := n + shr u lb + 2 in
  let ps := ceil_log2 hl in
  let p0 := shr (hl - n) log_sampling0 in
  let p1 := shr n log_sampling1 in
  let p1o := base + p0 * ps in
  let ho := p1o + p1 * ps in
  let lo := ho + hl in
  Ok (mkcof u n lb (sub64 (shl 1 lb) 1) hl ps p0 p1 base p1o ho lo (lo + n * lb)).

(** the loop of the lambda set_ptr0s, lines 80-89 *)
Fixpoint set_ptr0s_loop (fuel : nat) (o : cof) (b : bvb) (ptr0 end_zeros rank_end : N) : res bvb :=
  if shl ptr0 log_sampling0 <? end_zeros then
    match fuel with
    | O => UB
    | S f =>
        b <- (if ptr0 =? 0 then Ok b
              else bvb_set_bits b (of_p0o o + (ptr0 - 1) * of_ps o) (add64 (shl ptr0 log_sampling0) rank_end) (of_ps o)) ;;
        set_ptr0s_loop f o b (ptr0 + 1) end_zeros rank_end
    end
  else Ok b.
(** set_ptr0s, lines 76-90 *)
Definition set_ptr0s (o : cof) (b : bvb) (begin_ end_ rank_end : N) : res bvb :=
  let begin_zeros := sub64 begin_ rank_end in
  let end_zeros := sub64 end_ rank_end in
  ptr0 <- ceil_div begin_zeros (shl 1 log_sampling0) ;;
  set_ptr0s_loop (S (N.to_nat (end_zeros / 512))) o b ptr0 end_zeros rank_end.

(** the locals of the loop of lines 92-125 *)
Record cws := mkcws { cw_b : bvb; cw_i : N; cw_last : N; cw_lh : N }.
(** one iteration, lines 95-125 *)
Definition cef_step (o : cof) (s : cws) (v : N) : res cws :=
  if negb (cw_i s =? 0) && (v <? cw_last s) then Throw else
  let high := add64 (add64 (shr v (of_lb o)) (cw_i s)) 1 in
  let low := N.land v (of_mask o) in
  b <- bvb_set (cw_b s) (of_ho o + high) true ;;
  b <- bvb_set_bits b (of_lo o + cw_i s * of_lb o) low (of_lb o) ;;
  b <- (if negb (cw_i s =? 0) && (N.land (cw_i s) (sub64 (shl 1 log_sampling1) 1) =? 0) then
          bvb_set_bits b (of_p1o o + (shr (cw_i s) log_sampling1 - 1) * of_ps o) high (of_ps o)
        else Ok b) ;;
  b <- set_ptr0s o b (add64 (cw_lh s) 1) high (cw_i s) ;;
  Ok (mkcws b (cw_i s + 1) v high).

(** write, lines 62-129 *)
Definition cef_write (b : bvb) (vs : list N) (u : N) : res bvb :=
  let n := lenN vs in
  o <- cof_new (b_size b) u n ;;
  let b := bvb_zero_extend b (of_end o - b_size b) in
  s <- foldM (cef_step o) vs (mkcws b 0 0 0) ;;
  set_ptr0s o (cw_b s) (add64 (cw_lh s) 1) (of_hl o) n.

(** compact_elias_fano::enumerator, members lines 381-386.  [ce_hi] is None
    while m_high_enumerator is default-constructed (uninitialised). *)
Record cen := mkcen { ce_of : cof; ce_pos : N; ce_val : N; ce_hi : option uit }.

(** the constructor, lines 136-142 *)
Definition cen_new (offset u n : N) : res cen :=
  o <- cof_new offset u n ;; Ok (mkcen o n u None).

(** the bits [v] are followed in memory by the words [pad], which get_word56 may reach *)
Definition word56 (v : bv) (pad : list N) (pos : N) : res N :=
  bv_get_word56 (mkbv (v_bits v ++ pad) (v_size v)) pos.

(** read_low, lines 324-328 *)
Definition cen_low (v : bv) (pad : list N) (o : cof) (pos : N) : res N :=
  w <- word56 v pad (of_lo o + pos * of_lb o) ;; Ok (N.land w (of_mask o)).

(** the value at [pos] whose high bit is at [hp]: lines 162-165 and 330-334 *)
Definition cen_join (o : cof) (hp pos low : N) : N :=
  N.lor (shl (sub64 (sub64 (sub64 hp (of_ho o)) pos) 1) (of_lb o)) low.

(** an uninitialised cursor cannot be used *)
Definition hi_of (c : cen) : res uit := match ce_hi c with Some it => Ok it | None => UB end.

(** the loop of lines 159-161 *)
Fixpoint uit_nexts (k : nat) (v : bv) (it : uit) : res uit :=
  match k with
  | O => Ok it
  | S k => ' (_, it) <- uit_next v it ;; uit_nexts k v it
  end.

(** pointer, pointer0, pointer1, lines 364-379 *)
Definition cen_pointer (v : bv) (pad : list N) (o : cof) (offset i : N) : res N :=
  if i =? 0 then Ok 0
  else w <- word56 v pad (offset + (i - 1) * of_ps o) ;; m <- shlU 1 (of_ps o) ;; Ok (N.land w (sub64 m 1)).

(** slow_move, lines 246-270 *)
Definition cen_slow_move (v : bv) (pad : list N) (c : cen) (position : N) : res cen :=
  let o := ce_of c in
  if position =? of_n o then Ok (mkcen o position (of_u o) (ce_hi c))
  else
    let skip := sub64 position (ce_pos c) in
    ' (he, to_skip) <-
      (if (ce_pos c <? position) && (shr skip log_sampling1 =? 0) then
         he <- hi_of c ;; Ok (he, sub64 skip 1)
       else
         let ptr := shr position log_sampling1 in
         hp <- cen_pointer v pad o (of_p1o o) ptr ;;
         he <- uit_new v (of_ho o + hp) ;;
         Ok (he, sub64 position (shl ptr log_sampling1))) ;;
    he <- uit_skip v he to_skip ;;
    ' (hp, he) <- uit_next v he ;;
    low <- cen_low v pad o position ;;
    Ok (mkcen o position (cen_join o hp position low) (Some he)).

(** linear_scan_threshold, line 318 (and 245 of uniform_pef_sequence.hpp) *)
Definition pef_linear : N := 8.

(** move, lines 144-172; the returned pair is (ce_pos, ce_val) of the result *)
Definition cen_move (v : bv) (pad : list N) (c : cen) (position : N) : res cen :=
  let o := ce_of c in
  if position =? ce_pos c then Ok c
  else
    let skip := sub64 position (ce_pos c) in
    if (ce_pos c <? position) && (skip <=? pef_linear) then
      if position =? of_n o then Ok (mkcen o position (of_u o) (ce_hi c))
      else
        he <- hi_of c ;;
        he <- uit_nexts (N.to_nat skip) v he ;;
        low <- cen_low v pad o position ;;
        Ok (mkcen o position (cen_join o (u_pos he) position low) (Some he))
    else cen_slow_move v pad c position.

(** next_reader, lines 336-348: (cursor, high_base, lower_base) *)
Definition nrd_new (o : cof) (he : uit) (position : N) : uit * N * N :=
  (he, of_ho o + position + 1, of_lo o + position * of_lb o).
(** operator(), lines 350-356 *)
Definition nrd_next (v : bv) (pad : list N) (o : cof) (r : uit * N * N) : res (N * (uit * N * N)) :=
  let '(he, hb, lb) := r in
  ' (hp, he) <- uit_next v he ;;
  w <- word56 v pad lb ;;
  let low := N.land w (of_mask o) in
  Ok (N.lor (shl (sub64 hp hb) (of_lb o)) low, (he, hb + 1, lb + of_lb o)).

(** the do-while loop of lines 188-196; [pos] is m_position before the increment *)
Fixpoint geq_linear (fuel : nat) (v : bv) (pad : list N) (o : cof) (r : uit * N * N) (pos lower : N) : res (N * N * uit) :=
  match fuel with
  | O => UB
  | S f =>
      let pos := pos + 1 in
      if pos <? of_n o then
        ' (val, r) <- nrd_next v pad o r ;;
        if val <? lower then geq_linear f v pad o r pos lower
        else Ok (pos, val, fst (fst r))
      else Ok (pos, of_u o, fst (fst r))
  end.

(** the loop of lines 304-315 *)
Fixpoint geq_scan (fuel : nat) (v : bv) (pad : list N) (o : cof) (r : uit * N * N) (pos lower : N) : res (N * N * uit) :=
  match fuel with
  | O => UB
  | S f =>
      if pos =? of_n o then Ok (pos, of_u o, fst (fst r))
      else
        ' (val, r) <- nrd_next v pad o r ;;
        if lower <=? val then Ok (pos, val, fst (fst r))
        else geq_scan f v pad o r (pos + 1) lower
  end.

(** slow_next_geq, lines 272-316 *)
Definition cen_slow_next_geq (v : bv) (pad : list N) (c : cen) (lower : N) : res cen :=
  let o := ce_of c in
  if of_u o <=? lower then cen_move v pad c (of_n o)
  else
    let high_lower := shr lower (of_lb o) in
    let cur_high := shr (ce_val c) (of_lb o) in
    let high_diff := sub64 high_lower cur_high in
    ' (he, to_skip) <-
      (if (ce_val c <? lower) && (shr high_diff log_sampling0 =? 0) then
         he <- hi_of c ;; Ok (he, high_diff)
       else
         let ptr := shr high_lower log_sampling0 in
         hp <- cen_pointer v pad o (of_p0o o) ptr ;;
         he <- uit_new v (of_ho o + hp) ;;
         Ok (he, sub64 high_lower (shl ptr log_sampling0))) ;;
    he <- uit_skip0 v he to_skip ;;
    let pos := sub64 (sub64 (u_pos he) (of_ho o)) high_lower in
    ' (pos, val, he) <- geq_scan (S (S (N.to_nat (of_n o)))) v pad o (nrd_new o he pos) pos lower ;;
    Ok (mkcen o pos val (Some he)).

(** next_geq, lines 174-203 *)
Definition cen_next_geq (v : bv) (pad : list N) (c : cen) (lower : N) : res cen :=
  let o := ce_of c in
  if lower =? ce_val c then Ok c
  else
    let high_diff := sub64 (shr lower (of_lb o)) (shr (ce_val c) (of_lb o)) in
    if (ce_val c <? lower) && (high_diff <=? pef_linear) then
      he <- hi_of c ;;
      ' (pos, val, he) <- geq_linear (S (S (N.to_nat (of_n o)))) v pad o (nrd_new o he (ce_pos c + 1)) (ce_pos c) lower ;;
      Ok (mkcen o pos val (Some he))
    else cen_slow_next_geq v pad c lower.

(** next, lines 209-218 *)
Definition cen_next (v : bv) (pad : list N) (c : cen) : res cen :=
  let o := ce_of c in
  let pos := ce_pos c + 1 in
  if pos <? of_n o then
    he <- hi_of c ;;
    ' (hp, he) <- uit_next v he ;;
    low <- cen_low v pad o pos ;;
    Ok (mkcen o pos (cen_join o hp pos low) (Some he))
  else Ok (mkcen o pos (of_u o) (ce_hi c)).

(** ** uniform_pef_sequence *)
(** members, lines 516-523 (the enumerator is kept apart, as [pen]) *)
Record pef := mkpef { pf_size : N; pf_univ : N; pf_parts : N; pf_ubs : cv; pf_data : bv; pf_log : N }.

(** a default-constructed compact_vector::builder: n = 0, w = 0 (compact_vector.hpp 65-77) *)
Definition cvb_empty : cvb := mkcvb 0 1 0 0 0 0 [].

(** one partition of the loop of lines 106-132: (bv_sequences, cur_base, endpoints, upper_bounds) *)
Definition pef_part (psz : N) (vals : list N) (s : bvb * N * list N * list N) (p : N) : res (bvb * N * list N * list N) :=
  let '(b, base, ends, ubs) := s in
  let vs := firstn (N.to_nat psz) (skipn (N.to_nat (p * psz)) vals) in
  match vs with
  | [] => UB                       (* cur_partition.back() of an empty vector *)
  | _ =>
      let value := last vs 0 in
      let cur := map (fun v => sub64 v base) vs in
      b <- cef_write b cur (add64 (last cur 0) 1) ;;
      Ok (b, value, ends ++ [b_size b], ubs ++ [value])
  end.

(** write, lines 53-149; [vals] are the n values of the iterator *)
Definition pef_write (vals : list N) (universe order : N) : res pef :=
  match vals with
  | [] => UB                       (* reading the first value of an empty input *)
  | first :: _ =>
      let n := lenN vals in
      let log := if 2 <? order then 7 else 6 in
      let psz := shl 1 log in
      parts <- ceil_div n psz ;;
      if parts =? 1 then
        let cur := map (fun v => sub64 v first) vals in
        let back := last cur 0 in
        b <- bvb_append_bits (bvb_new 0 false) first (ceil_log2 (add64 universe 1)) ;;
        b <- (if 1 <? n then
                if add64 (add64 first back) 1 =? universe then write_delta b 0 else write_delta b back
              else Ok b) ;;
        b <- cef_write b cur (add64 back 1) ;;
        Ok (mkpef n universe parts (cv_of_builder cvb_empty) (bv_build b) log)
      else
        ' (seqs, _, ends, ubs) <- foldM (pef_part psz vals) (range parts) (bvb_new 0 false, first, [], [first]) ;;
        ub <- cvb_resize cvb_empty (lenN ubs) (ceil_log2 (add64 (last ubs 0) 1)) ;;
        ub <- foldM cvb_push_back ubs ub ;;
        let ebits := ceil_log2 (add64 (b_size seqs) 1) in
        b <- write_gamma (bvb_new 0 false) ebits ;;
        b <- foldM (fun b e => bvb_append_bits b e ebits) (removelast ends) b ;;
        b <- bvb_append b seqs ;;
        Ok (mkpef n universe parts (cv_of_builder ub) (bv_build b) log)
  end.

(** build(begin, n, pointers, order), lines 17-46: the loop that adds the
    last value of the previous range to the ids is the one of
    fast_ef_sequence.hpp 29-53, modelled by [fef_values] *)
Definition pef_build (ids ptrs : list N) (order : N) : res pef :=
  vals <- fef_values ids ptrs ;;
  u <- rd vals (sub64 (lenN vals) 1) ;;
  pef_write vals u order.
(** build(begin, n, universe, order), lines 48-51 *)
Definition pef_build_u (vals : list N) (universe order : N) : res pef := pef_write vals universe order.

(** the enumerator's members, lines 441-463 (those that change) *)
Record pen := mkpen { en_ebits : N; en_eoff : N; en_soff : N; en_pos : N; en_part : N; en_begin : N; en_end : N;
                      en_base : N; en_ub : N; en_cef : cen; en_first : bool }.

(** the value of a uint64_t converted to int and back to uint64_t *)
Definition i32 (x : N) : N := let y := x mod 2 ^ 32 in if y <? 2 ^ 31 then y else y + (2 ^ 64 - 2 ^ 32).

(** Reads of the upper bounds and of the data; [pd_data], [pd_ubs] are the words
    that can be read after the end of the two arrays (compact_vector::access and
    bit_vector::get_word56 load 8 bytes). *)
Record pads := mkpads { pd_data : list N; pd_ubs : list N }.
Definition pef_ub (pd : pads) (f : pef) (i : N) : res N :=
  let c := pf_ubs f in
  cv_access (mkcv (c_size c) (c_width c) (c_mask c) (c_bits c ++ pd_ubs pd)) i.

(** switch_partition, lines 413-439 *)
Definition pef_switch (pd : pads) (f : pef) (e : pen) (p : N) : res pen :=
  endpoint <- (if p =? 0 then Ok 0 else bv_get_bits (pf_data f) (en_eoff e + (p - 1) * en_ebits e) (en_ebits e)) ;;
  let begin_ := shl p (pf_log f) in
  let end_ := N.min (pf_size f) (shl (p + 1) (pf_log f)) in
  ub <- pef_ub pd f (p + 1) ;;
  base <- pef_ub pd f p ;;
  c <- cen_new (en_soff e + endpoint) (add64 (sub64 ub base) 1) (sub64 end_ begin_) ;;
  Ok (mkpen (en_ebits e) (en_eoff e) (en_soff e) (en_pos e) p begin_ end_ base ub c (en_first e)).

Definition with_cef (e : pen) (pos : N) (c : cen) : pen :=
  mkpen (en_ebits e) (en_eoff e) (en_soff e) pos (en_part e) (en_begin e) (en_end e) (en_base e) (en_ub e) c (en_first e).

(** slow_move, lines 340-354: the value and the new state *)
Definition pef_slow_move (pd : pads) (f : pef) (e : pen) (pos : N) : res (N * pen) :=
  if pos =? pf_size f then
    e <- (if 1 <? pf_parts f then pef_switch pd f e (sub64 (pf_parts f) 1) else Ok e) ;;
    c <- cen_move (pf_data f) (pd_data pd) (en_cef e) (of_n (ce_of (en_cef e))) ;;
    Ok (pf_univ f, with_cef e pos c)
  else
    e <- pef_switch pd f e (shr pos (pf_log f)) ;;
    c <- cen_move (pf_data f) (pd_data pd) (en_cef e) (sub64 pos (en_begin e)) ;;
    Ok (add64 (en_base e) (ce_val c), with_cef e pos c).

(** move, lines 247-257 *)
Definition pef_move (pd : pads) (f : pef) (e : pen) (pos : N) : res (N * pen) :=
  if (en_begin e <=? pos) && (pos <? en_end e) then
    c <- cen_move (pf_data f) (pd_data pd) (en_cef e) (sub64 pos (en_begin e)) ;;
    Ok (add64 (en_base e) (ce_val c), with_cef e pos c)
  else pef_slow_move pd f e pos.

(** init, lines 198-243 *)
Definition pef_init (pd : pads) (f : pef) : res pen :=
  let v := pf_data f in
  let it := bit_new 0 in
  if pf_parts f =? 1 then
    ' (base, it) <- bit_get_bits v it (ceil_log2 (add64 (pf_univ f) 1)) ;;
    ' (ub, it) <- (if 1 <? pf_size f then
                     ' (d, it) <- read_delta v it ;;
                     Ok (i32 (if d =? 0 then sub64 (sub64 (pf_univ f) base) 1 else d), it)
                   else Ok (0, it)) ;;
    if ub =? 2 ^ 31 - 1 then UB                (* ub + 1 overflows an int *)
    else
      c <- cen_new (bi_pos it) (add64 ub 1) (pf_size f) ;;
      Ok (mkpen 0 0 0 0 0 0 (pf_size f) base (add64 base ub) c true)
  else
    ' (ebits, it) <- read_gamma v it ;;
    let eoff := bi_pos it in
    let soff := eoff + ebits * (pf_parts f - 1) in
    c0 <- cen_new 0 0 1 ;;                      (* placeholder for the uninitialised members *)
    ' (_, e) <- pef_slow_move pd f (mkpen ebits eoff soff 0 0 0 0 0 0 c0 true) 0 ;;
    Ok e.

(** scan, lines 328-338 *)
Fixpoint ub_scan (fuel : nat) (pd : pads) (f : pef) (lo hi lower : N) : res N :=
  if lo <=? hi then
    match fuel with
    | O => UB
    | S k => x <- pef_ub pd f lo ;;
             if lower <=? x then Ok lo else ub_scan k pd f (lo + 1) hi lower
    end
  else Ok lo.
Definition pef_scan (pd : pads) (f : pef) (lo hi lower : N) : res N :=
  ub_scan (S (N.to_nat (hi - lo))) pd f lo hi lower.

(** the while loop of lines 301-325 *)
Fixpoint ub_bsearch (fuel : nat) (pd : pads) (f : pef) (pid lo hi lower : N) : res N :=
  if lo <=? hi then
    match fuel with
    | O => UB
    | S k =>
        let mid := (lo + hi) / 2 in
        x <- pef_ub pd f mid ;;
        if lower <? x then
          let hi := if mid =? 0 then 0 else mid - 1 in
          y <- pef_ub pd f hi ;;
          if y <? lower then Ok mid
          else if sub64 hi lo <=? pef_linear then pef_scan pd f lo hi lower
          else ub_bsearch k pd f pid lo hi lower
        else if x <? lower then
          let lo := mid + 1 in
          y <- (if lo =? sub64 (c_size (pf_ubs f)) 1 then cv_back (pf_ubs f) else pef_ub pd f lo) ;;
          let pid := if lower <? y then lo else pid in
          if sub64 hi lo <=? pef_linear then pef_scan pd f lo hi lower
          else ub_bsearch k pd f pid lo hi lower
        else Ok mid
    end
  else Ok pid.
(** bsearch, lines 286-326 *)
Definition pef_bsearch (pd : pads) (f : pef) (lower pb pe : N) : res N :=
  if sub64 pe pb <=? pef_linear then pef_scan pd f pb pe lower
  else ub_bsearch 64 pd f pb pb pe lower.

(** the answer of next_geq inside the current partition, lines 262-267 *)
Definition pef_geq_here (pd : pads) (f : pef) (e : pen) (lower : N) : res (N * N * pen) :=
  c <- cen_next_geq (pf_data f) (pd_data pd) (en_cef e) (sub64 lower (en_base e)) ;;
  let pos := add64 (en_begin e) (ce_pos c) in
  Ok (pos, add64 (en_base e) (ce_val c), with_cef e pos c).

(** next_geq and slow_next_geq, lines 259-280 and 356-381; they call each
    other, [fuel] bounds the depth.  The result is (position, value, state). *)
Fixpoint pef_next_geq (fuel : nat) (pd : pads) (f : pef) (e : pen) (lower part_end : N) : res (N * N * pen) :=
  if (en_base e <=? lower) && (lower <=? en_ub e) then pef_geq_here pd f e lower
  else if part_end <? en_part e then Ok (en_pos e, not_found, e)
  else if lower <? en_base e then Ok (en_pos e, not_found, e)
  else
    match fuel with
    | O => UB
    | S k =>
        if pf_parts f =? 1 then
          (if lower <? en_base e then ' (x, e) <- pef_move pd f e 0 ;; Ok (0, x, e)
           else ' (x, e) <- pef_move pd f e (pf_size f) ;; Ok (pf_size f, x, e))
        else
          pid <- pef_bsearch pd f lower (en_part e + 1) (part_end + 1) ;;
          if pid =? 0 then ' (x, e) <- pef_move pd f e 0 ;; Ok (0, x, e)
          else if pid =? c_size (pf_ubs f) then ' (x, e) <- pef_move pd f e (pf_size f) ;; Ok (pf_size f, x, e)
          else
            e <- pef_switch pd f e (pid - 1) ;;
            pef_next_geq k pd f e lower part_end
    end.

(** operator[], lines 155-157 *)
Definition pef_get (pd : pads) (f : pef) (e : pen) (pos : N) : res (N * pen) := pef_move pd f e pos.

(** find, lines 159-191 *)
Definition pef_find (pd : pads) (f : pef) (e : pen) (b r : N) (id : N) : res (N * pen) :=
  if b =? r then Ok (not_found, e)
  else if id =? 0 then Ok (b, e)
  else
    e <- (if 1 <? pf_parts f then pef_switch pd f e (shr b (pf_log f)) else Ok e) ;;
    ' (prev, e) <- (if b =? 0 then Ok (0, e) else pef_get pd f e (sub64 b 1)) ;;
    let id := add64 id prev in
    ' (pos, val, e) <- pef_next_geq 2 pd f e id (shr r (pf_log f)) ;;
    Ok (if val =? id then pos else not_found, e).

(** next and slow_next, lines 384-411: the value and the new state *)
Definition pef_next (pd : pads) (f : pef) (e : pen) : res (N * pen) :=
  if en_first e then
    c <- cen_move (pf_data f) (pd_data pd) (en_cef e) 0 ;;
    Ok (add64 (en_base e) (ce_val c),
        mkpen (en_ebits e) (en_eoff e) (en_soff e) (en_pos e) (en_part e) (en_begin e) (en_end e) (en_base e) (en_ub e) c false)
  else
    let pos := en_pos e + 1 in
    if pos <? en_end e then
      c <- cen_next (pf_data f) (pd_data pd) (en_cef e) ;;
      Ok (add64 (en_base e) (ce_val c), with_cef e pos c)
    else if pos =? pf_size f then
      c <- cen_next (pf_data f) (pd_data pd) (en_cef e) ;;
      Ok (pf_univ f, with_cef e pos c)
    else
      e <- pef_switch pd f e (en_part e + 1) ;;
      c <- cen_move (pf_data f) (pd_data pd) (en_cef e) 0 ;;
      Ok (add64 (en_base e) (ce_val c), with_cef e pos c).
