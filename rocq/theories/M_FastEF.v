(** * Model of include/sequences/fast_ef_sequence.hpp *)
From Verif Require Import Prelude M_Word M_Bits M_DArray M_EF M_CompactVector M_HashVec M_Mph.

(** members, lines 257-263; [f_off] is None when m_offsets was never built *)
Record fef := mkfef { f_size : N; f_off : option uit_t; f_samp : list N; f_core : efc }.

(** lines 20-22 *)
Definition sampling_threshold : N := 128.
Definition log2_sampling_threshold : N := 7.
Definition linear_scan_threshold : N := 64.

(** ** build *)
(** lines 41-46: the do-while loop; state (index of pointers_it, start, end, run);
    dereferencing pointers_it past the last element is undefined *)
Fixpoint next_run (fuel : nat) (ptrs : list N) (pi : N) (end_ : N) : res (N * N * N * N) :=
  match fuel with
  | O => UB
  | S f =>
      let start := end_ in
      let pi := pi + 1 in
      end_ <- rd ptrs pi ;;
      let run := sub64 end_ start in
      if run =? 0 then next_run f ptrs pi end_ else Ok (pi, start, end_, run)
  end.

(** locals of lines 31-37 *)
Record fbs := mkfbs { b_vals : list N; b_prev : N; b_pi : N; b_start : N; b_end : N; b_run : N; b_within : N }.

(** one iteration of lines 38-52.  values.back() is read as the last element. *)
Definition fef_value (ptrs : list N) (s : fbs) (v : N) : res fbs :=
  s <- (if b_within s =? b_run s then
          ' (pi, start, end_, run) <- next_run (S (length ptrs)) ptrs (b_pi s) (b_end s) ;;
          back <- (if lenN (b_vals s) =? 0 then Ok 0 else rd (b_vals s) (lenN (b_vals s) - 1)) ;;
          Ok (mkfbs (b_vals s) back pi start end_ run 0)
        else Ok s) ;;
  Ok (mkfbs (b_vals s ++ [add64 v (b_prev s)]) (b_prev s) (b_pi s) (b_start s) (b_end s) (b_run s) (b_within s + 1)).

(** lines 29-53: the values from the ids and the pointers *)
Definition fef_values (ids ptrs : list N) : res (list N) :=
  start <- rd ptrs 0 ;; end_ <- rd ptrs 1 ;;
  s <- foldM (fef_value ptrs) ids (mkfbs [] 0 1 start end_ (sub64 end_ start) 0) ;;
  Ok (b_vals s).

(** one iteration of the inner loop of lines 408-418: the queue (data, m_low) and the samplings *)
Definition fill_node (vals : list N) (s : list (N * N) * N * list N) (i : N) : res (list (N * N) * N * list N) :=
  let '(q, low, samp) := s in
  ' (l, h) <- rd q low ;;
  let mid := shr (add64 l h) 1 in
  x <- rd vals mid ;;
  Ok (q ++ [(l, mid); (add64 mid 1, h)], low + 1, samp ++ [x]).
(** fill_samplings, lines 398-420 *)
Definition fill_samplings (lo hi height : N) (vals samp : list N) : res (list N) :=
  ' (q, low, samp) <-
    foldM (fun s h => nodes <- shlU 1 h ;; foldM (fill_node vals) (range nodes) s)
          (range height) ([(lo, hi)], 0, samp) ;;
  Ok samp.

(** one iteration of lines 431-445: (ptr_begin, from, to, samplings) *)
Definition samp_step (vals : list N) (s : N * list N * list N * list N) (ptr_end : N) : res (N * list N * list N * list N) :=
  let '(b, from, to, samp) := s in
  let range := sub64 ptr_end b in
  if sampling_threshold <=? range then
    let height := sub64 (ceil_log2 range) log2_sampling_threshold in
    prev <- (if b =? 0 then Ok 0 else rd vals (sub64 b 1)) ;;
    samp' <- fill_samplings b ptr_end height vals (samp ++ [prev]) ;;
    Ok (ptr_end, from ++ [b], to ++ [lenN samp], samp')
  else Ok (ptr_end, from, to, samp).

(** lines 425-451; [order] is the peeling order found by the sorter for the keys [from] *)
Definition fef_samplings (h : N -> triple) (order : list edge) (vals ptrs : list N) : res (option uit_t * list N) :=
  match ptrs with
  | [] => UB
  | p0 :: rest =>
      ' (_, from, to, samp) <- foldM (samp_step vals) rest (p0, [], [], []) ;;
      off <- (match from with
              | [] => Ok None
              | _ => t <- umpht_build h (hash_domain (lenN from)) order from to ;; Ok (Some t)
              end) ;;
      Ok (off, samp)
  end.

(** lines 26-55 and 422-478; values.back() of an empty vector is undefined *)
Definition fef_build (h : N -> triple) (order : list edge) (ids ptrs : list N) : res fef :=
  vals <- fef_values ids ptrs ;;
  u <- rd vals (sub64 (lenN vals) 1) ;;
  ' (off, samp) <- fef_samplings h order vals ptrs ;;
  c <- efc_build vals u ;;
  Ok (mkfef (lenN vals) off samp c).

(** operator[], lines 57-60 *)
Definition fef_get (f : fef) (i : N) : res N := efc_get (f_core f) i.

(** ** search *)
(** lines 288-297: first element of [lo, hi) whose high part is not below high_id.
    None: not found; Some (it, v, lo): the loop was left *)
Fixpoint scan_high (fuel : nat) (c : efc) (it : uit) (v lo hi high_id : N) : res (option (uit * N * N)) :=
  if sub64 v lo <? high_id then
    match fuel with
    | O => UB
    | S f =>
        let lo := add64 lo 1 in
        if lo =? hi then Ok None
        else ' (v, it) <- uit_next (e_high c) it ;; scan_high f c it v lo hi high_id
    end
  else Ok (Some (it, v, lo)).

(** lines 329-347, [run] iterations left *)
Fixpoint scan_low (run : nat) (c : efc) (avail word lo low_id : N) : res N :=
  match run with
  | O => Ok not_found
  | S r =>
      ' (word, avail) <-
        (if avail =? 0 then w <- bv_get_word64 (e_low c) (mul64 lo (e_l c)) ;; Ok (w, sub64 (ef_chunks (e_l c)) 1)
         else Ok (word, avail - 1)) ;;
      m <- shlU 1 (e_l c) ;;
      let cur_low := N.land word (sub64 m 1) in
      if cur_low =? low_id then Ok lo
      else if low_id <? cur_low then Ok not_found
      else word' <- shrU word (e_l c) ;; scan_low r c avail word' (add64 lo 1) low_id
  end.

(** scan, lines 280-350 *)
Definition fef_scan (c : efc) (lo hi id lower_bound : N) : res N :=
  let begin_ := add64 lo (shr lower_bound (e_l c)) in
  it <- uit_new (e_high c) begin_ ;;
  let high_id := shr id (e_l c) in
  ' (v, it) <- uit_next (e_high c) it ;;
  r <- scan_high (S (N.to_nat (v_size (e_high c)))) c it v lo hi high_id ;;
  match r with
  | None => Ok not_found
  | Some (it, v, lo) =>
      if high_id <? sub64 v lo then Ok not_found
      else
        let avail := if e_l c =? 0 then d_pos (e_d1 c) else 0 in
        m <- shlU 1 (e_l c) ;;
        let low_id := N.land id (sub64 m 1) in
        it <- uit_skip0 (e_high c) it 1 ;;
        let run := N.min (sub64 (u_pos it) v) (sub64 hi lo) in
        scan_low (N.to_nat run) c avail 0 lo low_id
  end.

(** bsearch_scan, lines 352-370 *)
Fixpoint bsearch_scan (fuel : nat) (c : efc) (lo hi id lower_bound : N) : res N :=
  if linear_scan_threshold <? sub64 hi lo then
    match fuel with
    | O => UB
    | S f =>
        let mid := shr (add64 lo hi) 1 in
        v <- efc_get c mid ;;
        if id =? v then Ok mid
        else if id <? v then bsearch_scan f c lo mid id lower_bound
        else bsearch_scan f c (add64 mid 1) hi id v
    end
  else fef_scan c lo hi id lower_bound.

(** the sampling tree, lines 123-139: inl = position found, inr = (lo, hi, lower_bound) *)
Fixpoint samp_descend (height : nat) (samp : list N) (base i lo hi id lower_bound : N) : res (N + N * N * N) :=
  match height with
  | O => Ok (inr (lo, hi, lower_bound))
  | S k =>
      sample <- rd samp (add64 base i) ;;
      let mid := shr (add64 lo hi) 1 in
      if id =? sample then Ok (inl mid)
      else if id <? sample then samp_descend k samp base (shl i 1) lo mid id lower_bound
      else samp_descend k samp base (add64 (shl i 1) 1) (add64 mid 1) hi id sample
  end.

(** find, lines 66-147 *)
Definition fef_find (h : N -> triple) (f : fef) (r : N * N) (id : N) : res N :=
  let '(lo, hi) := r in
  let run := sub64 hi lo in
  if sampling_threshold <=? run then
    base <- (match f_off f with None => UB | Some t => umpht_lookup h t lo end) ;;
    prev_upper <- rd (f_samp f) base ;;
    let id := add64 id prev_upper in
    let height := sub64 (ceil_log2 run) log2_sampling_threshold in
    d <- samp_descend (N.to_nat height) (f_samp f) base 1 lo hi id prev_upper ;;
    match d with
    | inl pos => Ok pos
    | inr (lo, hi, lb) => bsearch_scan (S (N.to_nat (sub64 hi lo))) (f_core f) lo hi id lb
    end
  else
    prev_upper <- (if lo =? 0 then Ok 0 else fef_get f (sub64 lo 1)) ;;
    bsearch_scan (S (N.to_nat run)) (f_core f) lo hi (add64 id prev_upper) prev_upper.
