(** * Model of the self-check programs: test/test_compact_vector.cpp, test_hash_compact_vector.cpp,
      test_fast_ef_sequence.cpp and test_uniform_pef_sequence.cpp

    The random number generators are outside the code modelled: a program is given the numbers it will draw as a function of how many
    it has drawn before ([uniform_int_rng] of essentials and std::uniform_int_distribution promise a number between their bounds, which
    the theorems assume).  Printing, timing and the path "./tmp.out" are left out.  The result is the exit status; std::abort and
    std::terminate are [Throw]. *)
From Verif Require Import Prelude M_Word M_Bits M_CompactVector M_HashVec M_DArray M_EF M_Mph M_FastEF M_Pef M_Save.

(** util::check: include/utils/util.hpp 354-362 *)
Definition check (got expected : N) : res unit := if got =? expected then Ok tt else Throw.

(** [for (i = 0; i < n; ++i) body(i)] *)
Definition for_each (n : N) (body : N -> res unit) : res unit := foldM (fun _ i => body i) (range n) tt.

(** ** test_compact_vector.cpp *)

(** [for (auto val : values) check(i++, val, *it++)], with [it] at the start of [v]: lines 48-52, 60-64, 88-92.
    The loop ends when the iterator reaches size(); going past the end of [v] would be undefined. *)
Fixpoint check_iterated (c : cv) (it : cvit) (v : list N) (m : nat) : res unit :=
  match m with
  | O => Ok tt
  | S m =>
      ' (x, it) <- cvit_deref c it ;;
      y <- rd v 0 ;;
      _ <- check x y ;; check_iterated c (cvit_incr it) (tl v) m
  end.
Definition check_values (c : cv) (v : list N) : res unit := check_iterated c (cvit_new c 0) v (N.to_nat (c_size c)).

(** one of the ten rounds: lines 57-66 *)
Definition filler_round (n w : N) (v : list N) (c : cv) : res cv :=
  b <- cvb_new n w ;; b <- cvb_fill b v ;;
  let c := cvb_build b in
  _ <- check_values c v ;; Ok c.

(** main: lines 8-95.  (The 32-bit counter of lines 40-43 and 82-85 makes the loops endless for [n >= 2 ^ 32]; here it is not bounded.)
    The distribution ends at 2 ^ (w - 1). *)
Definition test_compact_vector (n w : N) (draw : N -> N) : res N :=
  if 64 <? w then Ok 1
  else if (n =? 0) || (w =? 0) then Ok 1
  else
    let v := map draw (range n) in
    b <- cvb_new n w ;;
    b <- foldM cvb_push_back v b ;;
    let c := cv_of_builder b in
    _ <- for_each n (fun i => x <- cv_get c i ;; y <- rd v i ;; check x y) ;;
    _ <- check (c_size c) n ;;
    _ <- check_values c v ;;
    c <- foldM (fun c _ => filler_round n w v c) (range 10) c ;;
    let file := save_file 0 save_cv c in
    ' (loaded, _) <- load_file load_cv file ;;
    _ <- for_each (c_size loaded) (fun i => x <- cv_get loaded i ;; y <- rd v i ;; check x y) ;;
    _ <- check_values loaded v ;;
    Ok 0.

(** ** test_hash_compact_vector.cpp *)

(** lines 29-35 and 46-52 *)
Definition check_pairs (hb n : N) (c : hcv) (keys values : list N) : res unit :=
  for_each n (fun i => ' (k, v) <- hcv_get hb c i ;; y <- rd keys i ;; _ <- check k y ;; z <- rd values i ;; check v z).

(** perf_test: lines 10-54.  Key and value alternate in the draws; the key is narrowed to hash_t.  The bound of the distribution,
    pow(2, w - 1) converted to uint64_t, is undefined for w = 0 and w > 64, where the constructor of the builder aborts first. *)
Definition perf_test (hb n w : N) (draw : N -> N) : res N :=
  let keys := map (fun i => trunc hb (draw (2 * i))) (range n) in
  let values := map (fun i => draw (2 * i + 1)) (range n) in
  c <- hcv_new hb n w ;;
  c <- foldM (fun c i => k <- rd keys i ;; v <- rd values i ;; hcv_set hb c i k v) (range n) c ;;
  _ <- check_pairs hb n c keys values ;;
  let file := save_file 0 (save_hcv hb) c in
  ' (loaded, _) <- load_file (load_hcv hb) file ;;
  _ <- check_pairs hb n loaded keys values ;;
  Ok 0.
(** main: lines 56-85 *)
Definition test_hash_compact_vector (n hash_width w : N) (draw : N -> N) : res N :=
  if n =? 0 then Throw
  else if hash_width =? 32 then perf_test 32 n w draw
  else if hash_width =? 64 then perf_test 64 n w draw
  else Throw.

(** ** the data of test_fast_ef_sequence.cpp and test_uniform_pef_sequence.cpp *)

(** the loop that cuts [0, n) into ranges: test_fast_ef_sequence.cpp 34-48, test_uniform_pef_sequence.cpp 61-75; the offsets pushed to
    [pointers].  A loop that runs out of [fuel] does not end. *)
Fixpoint cut (fuel : nat) (draw : N -> N) (k offset n : N) : res (list N) :=
  if offset <? n then
    match fuel with
    | O => UB
    | S fuel =>
        let offset := add64 offset (draw k) in
        let offset := if n <? offset then n else offset in
        rest <- cut fuel draw (k + 1) offset n ;; Ok (offset :: rest)
    end
  else Ok [].
(** pointers and pointer_ranges *)
Definition cut_pointers (draw : N -> N) (n : N) : res (list N) := rest <- cut (N.to_nat n) draw 0 0 n ;; Ok (0 :: rest).
Definition ranges_of (pointers : list N) : list (N * N) := combine pointers (tl pointers).

(** the values of one range after its first: test_fast_ef_sequence.cpp 58-61, test_uniform_pef_sequence.cpp 90-93; [c] numbers have been drawn *)
Fixpoint grow (draw : N -> N) (c last : N) (m : nat) : list N :=
  match m with
  | O => []
  | S m => let x := add64 last (draw c) in x :: grow draw (c + 1) x m
  end.
(** all ranges: test_fast_ef_sequence.cpp 52-63, test_uniform_pef_sequence.cpp 83-95 *)
Fixpoint fill_ranges (draw : N -> N) (c : N) (rs : list (N * N)) : list N :=
  match rs with
  | [] => []
  | (b, e) :: rs => (0 :: grow draw c 0 (N.to_nat (e - (b + 1)))) ++ fill_ranges draw (c + (e - (b + 1))) rs
  end.

(** the range of index [i]: test_fast_ef_sequence.cpp 74-78 and 88-92, test_uniform_pef_sequence.cpp 106-110 and 119-123 *)
Definition range_at (rs : list (N * N)) (j i : N) : res (N * (N * N)) :=
  r <- rd rs j ;;
  if snd r <=? i then r <- rd rs (j + 1) ;; Ok (j + 1, r) else Ok (j, r).

(** ** test_fast_ef_sequence.cpp *)

(** the two loops, lines 70-82 and 85-97; [h] and [order] are the hash function and the peeling order of the sampled ranges, as in M_FastEF *)
Definition fef_iterate (f : fef) (n : N) (rs : list (N * N)) (values : list N) : res unit :=
  it <- efit_new (f_core f) 0 ;;
  _ <- foldM (fun (s : efit * N) i =>
    let '(it, j) := s in
    ' (j, r) <- range_at rs j i ;;
    ' (x, it) <- efit_next (f_core f) it ;;
    base <- (if fst r =? 0 then Ok 0 else fef_get f (fst r)) ;;
    y <- rd values i ;;
    _ <- check (sub64 x base) y ;; Ok (it, j)) (range n) (it, 0) ;;
  Ok tt.
Definition fef_finds (h : N -> triple) (f : fef) (n : N) (rs : list (N * N)) (values : list N) : res unit :=
  _ <- foldM (fun j i =>
    ' (j, r) <- range_at rs j i ;;
    y <- rd values i ;;
    pos <- fef_find h f r y ;;
    _ <- check pos i ;; Ok j) (range n) 0 ;;
  Ok tt.
(** main: lines 8-101 *)
Definition test_fast_ef (h : N -> triple) (order : list N -> list edge) (n max_range_len : N) (range_draw value_draw : N -> N) : res N :=
  if n <? max_range_len then Ok 1
  else if (n =? 0) || (max_range_len =? 0) then Ok 1
  else
    pointers <- cut_pointers range_draw n ;;
    let rs := ranges_of pointers in
    let values := fill_ranges value_draw 0 rs in
    f <- fef_build h (order pointers) values pointers ;;
    _ <- fef_iterate f n rs values ;;
    _ <- fef_finds h f n rs values ;;
    Ok 0.

(** ** test_uniform_pef_sequence.cpp *)

(** the values of the first part: lines 33-39 *)
Definition running (draw : N -> N) (n : N) : list N := grow draw 0 0 (N.to_nat n).
(** lines 49-52 and 56-58 *)
Definition pef_iterate_all (pd : pads) (f : pef) (n : N) (values : list N) : res unit :=
  it <- pef_init pd f ;;
  _ <- foldM (fun it i => ' (x, it) <- pef_next pd f it ;; y <- rd values i ;; _ <- check x y ;; Ok it) (range n) it ;;
  Ok tt.
Definition pef_get_all (pd : pads) (f : pef) (n : N) (values : list N) (e : pen) : res unit :=
  _ <- foldM (fun e i => ' (x, e) <- pef_get pd f e i ;; y <- rd values i ;; _ <- check x y ;; Ok e) (range n) e ;;
  Ok tt.
(** lines 28-60; order 2 *)
Definition pef_part1 (pd : pads) (n : N) (draw : N -> N) : res unit :=
  let values := running draw n in
  f <- pef_build_u values (last values 0) 2 ;;
  e <- pef_init pd f ;;
  _ <- pef_iterate_all pd f n values ;;
  pef_get_all pd f n values e.
(** lines 102-115: the enumerator [it] and the one inside the sequence *)
Definition pef_iterate (pd : pads) (f : pef) (e : pen) (n : N) (rs : list (N * N)) (values : list N) : res pen :=
  it <- pef_init pd f ;;
  ' (_, e, _) <- foldM (fun (s : pen * pen * N) i =>
    let '(it, e, j) := s in
    ' (j, r) <- range_at rs j i ;;
    ' (x, it) <- pef_next pd f it ;;
    ' (base, e) <- (if fst r =? 0 then Ok (0, e) else pef_get pd f e (fst r)) ;;
    y <- rd values i ;;
    _ <- check (sub64 x base) y ;; Ok (it, e, j)) (range n) (it, e, 0) ;;
  Ok e.
(** lines 117-129 *)
Definition pef_finds (pd : pads) (f : pef) (e : pen) (n : N) (rs : list (N * N)) (values : list N) : res unit :=
  _ <- foldM (fun (s : pen * N) i =>
    let '(e, j) := s in
    ' (j, r) <- range_at rs j i ;;
    y <- rd values i ;;
    ' (pos, e) <- pef_find pd f e (fst r) (snd r) y ;;
    _ <- check pos i ;; Ok (e, j)) (range n) (e, 0) ;;
  Ok tt.
(** lines 61-131 *)
Definition pef_part2 (pd : pads) (n : N) (range_draw value_draw : N -> N) : res unit :=
  pointers <- cut_pointers range_draw n ;;
  let rs := ranges_of pointers in
  let values := fill_ranges value_draw 0 rs in
  f <- pef_build values pointers 2 ;;
  e <- pef_init pd f ;;
  e <- pef_iterate pd f e n rs values ;;
  pef_finds pd f e n rs values.
(** main: lines 8-132.  [pd1] and [pd2]: the memory after the arrays of the two sequences, as in M_Pef *)
Definition test_uniform_pef (pd1 pd2 : pads) (n max_range_len : N) (draw range_draw value_draw : N -> N) : res N :=
  if (n =? 0) || (max_range_len =? 0) then Throw
  else
    _ <- pef_part1 pd1 n draw ;;
    _ <- pef_part2 pd2 n range_draw value_draw ;;
    Ok 0.
