(** * Model of include/sequences/darray.hpp *)
From Verif Require Import Prelude M_Word M_Bits.

(** darray members, lines 144-147.  [d_blk] are int64_t, [d_sub] are uint16_t. *)
Record darr := mkdarr { d_pos : N; d_blk : list Z; d_sub : list N; d_ovf : list N }.

(** block_size, subblock_size, max_in_block_distance: lines 140-142 *)
Definition d_block_size : N := 1024.
Definition d_subblock_size : N := 32.
Definition d_max_distance : N := 2 ^ 16.

(** identity_getter / negating_getter, lines 150-160; [neg] selects the second *)
Definition d_getter (neg : bool) (ws : list N) (i : N) : res N :=
  w <- rd ws i ;; Ok (if neg then not64 w else w).

(** int64_t(x) of a uint64_t x, and uint64_t(z) of an int64_t *)
Definition to_i64 (x : N) : Z := if x <? 2 ^ 63 then Z.of_N x else (Z.of_N x - 2 ^ 64)%Z.
Definition of_i64 (z : Z) : N := Z.to_N (z mod 2 ^ 64)%Z.
Definition u16 (x : N) : N := x mod 2 ^ 16.

(** the locals of the constructor: lines 15-18 and the member m_positions *)
Record dbuild := mkdbuild { db_cur : list N; db_blk : list Z; db_sub : list N; db_ovf : list N; db_n : N }.

(** every [subblock_size]-th element of the current block:
    the loops of lines 122-126 and 132-135 *)
Definition d_steps (n : N) : list N :=
  map (fun k => k * d_subblock_size) (range ((n + (d_subblock_size - 1)) / d_subblock_size)).

(** flush_cur_block, lines 115-138; front()/back() of an empty vector are undefined *)
Definition d_flush (s : dbuild) : res dbuild :=
  let cur := db_cur s in
  front <- rd cur 0 ;;
  back <- rd cur (sub64 (lenN cur) 1) ;;
  if sub64 back front <? d_max_distance then
    subs <- mapM (fun i => x <- rd cur i ;; Ok (u16 (sub64 x front))) (d_steps (lenN cur)) ;;
    Ok (mkdbuild [] (db_blk s ++ [to_i64 front]) (db_sub s ++ subs) (db_ovf s) (db_n s))
  else
    Ok (mkdbuild [] (db_blk s ++ [(- to_i64 (lenN (db_ovf s)) - 1)%Z])
                 (db_sub s ++ map (fun _ => u16 (2 ^ 64 - 1)) (d_steps (lenN cur)))
                 (db_ovf s ++ cur) (db_n s)).

(** lines 24-38, one iteration per one bit of the word (fuel 65) *)
Fixpoint d_scan (fuel : nat) (size : N) (s : dbuild) (cur_pos cur_word : N) : res dbuild :=
  match fuel with
  | O => UB
  | S f =>
      match lsb_opt cur_word with
      | None => Ok s
      | Some l =>
          let cur_pos := cur_pos + l in
          let cur_word := shr cur_word l in
          if size <=? cur_pos then Ok s else
          let s1 := mkdbuild (db_cur s ++ [cur_pos]) (db_blk s) (db_sub s) (db_ovf s) (db_n s) in
          s2 <- (if lenN (db_cur s1) =? d_block_size then d_flush s1 else Ok s1) ;;
          let s3 := mkdbuild (db_cur s2) (db_blk s2) (db_sub s2) (db_ovf s2) (db_n s2 + 1) in
          d_scan f size s3 (cur_pos + 1) (shr cur_word 1)
      end
  end.

(** constructor, lines 13-47 *)
Definition d_build (neg : bool) (v : bv) : res darr :=
  s <- foldM (fun s wi => w <- d_getter neg (v_bits v) wi ;; d_scan 65 (v_size v) s (shl wi 6) w)
             (range (lenN (v_bits v))) (mkdbuild [] [] [] [] 0) ;;
  s <- (if lenN (db_cur s) =? 0 then Ok s else d_flush s) ;;
  Ok (mkdarr (db_n s) (db_blk s) (db_sub s) (db_ovf s)).

(** lines 79-84: the scanning loop *)
Fixpoint d_sel_loop (fuel : nat) (neg : bool) (ws : list N) (word_idx word rem : N) : res (N * N * N) :=
  match fuel with
  | O => UB
  | S f =>
      let pc := popcount word in
      if rem <? pc then Ok (word_idx, word, rem)
      else w <- d_getter neg ws (word_idx + 1) ;; d_sel_loop f neg ws (word_idx + 1) w (rem - pc)
  end.

(** select, lines 56-88 *)
Definition d_select (neg : bool) (d : darr) (v : bv) (idx : N) : res N :=
  let block := idx / d_block_size in
  block_pos <- rd (d_blk d) block ;;
  if (block_pos <? 0)%Z then
    let overflow_pos := of_i64 (- block_pos - 1)%Z in
    rd (d_ovf d) (overflow_pos + N.land idx (d_block_size - 1))
  else
    let subblock := idx / d_subblock_size in
    sb <- rd (d_sub d) subblock ;;
    let start_pos := of_i64 block_pos + sb in
    let reminder := N.land idx (d_subblock_size - 1) in
    if reminder =? 0 then Ok start_pos
    else
      let word_idx := shr start_pos 6 in
      let word_shift := N.land start_pos 63 in
      w <- d_getter neg (v_bits v) word_idx ;;
      ' (word_idx, word, rem) <-
        d_sel_loop (S (length (v_bits v))) neg (v_bits v) word_idx
                   (N.land w (shl (N.ones 64) word_shift)) reminder ;;
      p <- select_in_word word rem ;;
      Ok (shl word_idx 6 + p).
