(** * Model of include/vectors/bit_vector.hpp *)
From Verif Require Import Prelude M_Word.

(** bit_vector_builder, lines 195-198.  [m_cur_word] always points at the last
    word of [m_bits] when it is used; [b_cur] records whether that pointer is
    valid ([resize] may leave it dangling). *)
Record bvb := mkbvb { b_bits : list N; b_size : N; b_cur : bool }.

(** bit_vector, lines 376-378 *)
Record bv := mkbv { v_bits : list N; v_size : N }.

(** bit_vector.hpp 67-76.  For an empty builder [m_cur_word] is uninitialised. *)
Definition bvb_new (size : N) (init : bool) : bvb :=
  let bits := repN (if init then N.ones 64 else 0) (words_for size) in
  let bits := if (negb (size =? 0)) && (init && negb (N.land size 63 =? 0))
              then removelast bits ++ [shr (last bits 0) (64 - N.land size 63)]
              else bits in
  mkbvb bits size (negb (size =? 0)).

(** bit_vector.hpp 78-81 *)
Definition bvb_init (b : bvb) : bvb := mkbvb [] 0 false.

(** bit_vector.hpp 87-94 *)
Definition bvb_zero_extend (b : bvb) (n : N) : bvb :=
  let size := b_size b + n in
  let needed := sub64 (words_for size) (lenN (b_bits b)) in
  if needed =? 0 then mkbvb (b_bits b) size (b_cur b)
  else mkbvb (b_bits b ++ repN 0 needed) size true.

(** in-place update of one word:  m_bits[i] = f(m_bits[i]) *)
Definition upd (ws : list N) (i : N) (f : N -> N) : res (list N) :=
  w <- rd ws i ;; wr ws i (f w).

(** bit_vector.hpp 96-101 *)
Definition bvb_set (b : bvb) (pos : N) (bit : bool) : res bvb :=
  let word := shr pos 6 in
  let pos_in_word := N.land pos 63 in
  ws <- upd (b_bits b) word (fun w => N.land w (not64 (shl 1 pos_in_word))) ;;
  ws <- upd ws word (fun w => N.lor w (shl (N.b2n bit) pos_in_word)) ;;
  Ok (mkbvb ws (b_size b) (b_cur b)).

(** The two-word masked store.  The same statements occur in
    bit_vector.hpp 108-119 (set_bits), compact_vector.hpp 113-124 (set). *)
Definition store_field (ws : list N) (pos mask v len : N) : res (list N) :=
  let word := shr pos 6 in
  let pos_in_word := N.land pos 63 in
  ws <- upd ws word (fun w => N.land w (not64 (shl mask pos_in_word))) ;;
  ws <- upd ws word (fun w => N.lor w (shl v pos_in_word)) ;;
  let stored := 64 - pos_in_word in
  if stored <? len then
    (* [stored] is at most 63 here because len <= 64 *)
    ms <- shrU mask stored ;;
    vs <- shrU v stored ;;
    ws <- upd ws (word + 1) (fun w => N.land w (not64 ms)) ;;
    upd ws (word + 1) (fun w => N.lor w vs)
  else Ok ws.

(** bit_vector.hpp 103-120 *)
Definition bvb_set_bits (b : bvb) (pos bits len : N) : res bvb :=
  if len =? 0 then Ok b else
  let mask := if len =? 64 then N.ones 64 else sub64 (shl 1 len) 1 in
  ws <- store_field (b_bits b) pos mask bits len ;;
  Ok (mkbvb ws (b_size b) (b_cur b)).

(** bit_vector.hpp 122-137 *)
Definition bvb_append_bits (b : bvb) (bits len : N) : res bvb :=
  if len =? 0 then Ok b else
  let pos_in_word := N.land (b_size b) 63 in
  let size := b_size b + len in
  if pos_in_word =? 0 then Ok (mkbvb (b_bits b ++ [bits]) size true)
  else if b_cur b then
    ws <- upd (b_bits b) (sub64 (lenN (b_bits b)) 1) (fun w => N.lor w (shl bits pos_in_word)) ;;
    if (64 - pos_in_word) <? len
    then Ok (mkbvb (ws ++ [shr bits (64 - pos_in_word)]) size true)
    else Ok (mkbvb ws size true)
  else UB.

(** bit_vector.hpp 269-278 (and 139-148 on the builder) *)
Definition get_word64 (ws : list N) (pos : N) : res N :=
  let block := shr pos 6 in
  let shift := N.land pos 63 in
  w <- rd ws block ;;
  let word := shr w shift in
  if negb (shift =? 0) && (block + 1 <? lenN ws) then
    w' <- rd ws (block + 1) ;;
    Ok (N.lor word (shl w' (64 - shift)))
  else Ok word.

(** m_bits.resize(k): truncates or pads with zeros *)
Definition vec_resize (ws : list N) (k : N) : list N :=
  firstn (N.to_nat k) ws ++ repN 0 (k - lenN ws).

(** bit_vector.hpp 162-171: the unaligned loop; [cur] is the index of [*cur_word] *)
Fixpoint append_loop (ws rhs : list N) (cur shift : N) : res (list N) :=
  match rhs with
  | [] => UB                                  (* rhs.m_bits.back() of an empty vector *)
  | [w] =>
      ws <- upd ws cur (fun x => N.lor x (shl w shift)) ;;
      if cur <? sub64 (lenN ws) 1
      then wr ws (cur + 1) (shr w (64 - shift))
      else Ok ws
  | w :: rest =>
      ws <- upd ws cur (fun x => N.lor x (shl w shift)) ;;
      ws <- wr ws (cur + 1) (shr w (64 - shift)) ;;
      append_loop ws rest (cur + 1) shift
  end.

(** std::copy(rhs.begin(), rhs.end(), ws.begin() + pos) *)
Fixpoint copy_at (ws rhs : list N) (pos : N) : res (list N) :=
  match rhs with
  | [] => Ok ws
  | w :: r => ws <- wr ws pos w ;; copy_at ws r (pos + 1)
  end.

(** bit_vector.hpp 150-174 *)
Definition bvb_append (b rhs : bvb) : res bvb :=
  if b_size rhs =? 0 then Ok b else
  let pos := lenN (b_bits b) in
  let shift := b_size b mod 64 in
  let size := b_size b + b_size rhs in
  let ws := vec_resize (b_bits b) (words_for size) in
  ws <- (if shift =? 0 then copy_at ws (b_bits rhs) pos
         else append_loop ws (b_bits rhs) (sub64 pos 1) shift) ;;
  Ok (mkbvb ws size true).

(** bit_vector.hpp 176-179; m_cur_word is not updated *)
Definition bvb_resize (b : bvb) (size : N) : bvb :=
  mkbvb (vec_resize (b_bits b) (words_for size)) size false.

(** bit_vector.hpp 204-211 *)
Definition bv_build (b : bvb) : bv := mkbv (b_bits b) (b_size b).

(** bit_vector.hpp 238-243 *)
Definition bv_get (v : bv) (i : N) : res N :=
  w <- rd (v_bits v) (shr i 6) ;;
  Ok (N.land (shr w (N.land i 63)) 1).

(** [-(len == 64) | ((1ULL << len) - 1)]: when len = 64 the shift count is
    out of range; [junk] is whatever value the machine delivers for it.  The
    result does not depend on it (lemma [width_mask_ones]). *)
Definition width_mask (junk len : N) : N :=
  N.lor (if len =? 64 then N.ones 64 else 0)
        (sub64 (if len <? 64 then shl 1 len else junk) 1).

(** The two-word masked load: bit_vector.hpp 250-258, compact_vector.hpp
    150-157 and 244-251. *)
Definition load_field (ws : list N) (pos mask len : N) : res N :=
  let block := shr pos 6 in
  let shift := N.land pos 63 in
  if shift + len <=? 64 then
    w <- rd ws block ;; Ok (N.land (shr w shift) mask)
  else
    w <- rd ws block ;;
    w' <- rd ws (block + 1) ;;
    Ok (N.lor (shr w shift) (N.land (shl w' (64 - shift)) mask)).

(** bit_vector.hpp 245-259 *)
Definition bv_get_bits (v : bv) (pos len : N) : res N :=
  if len =? 0 then Ok 0 else load_field (v_bits v) pos (width_mask 0 len) len.

(** An unaligned little-endian 8-byte load at byte offset [off]; reading past
    the end of the array is undefined. *)
Definition load_u64 (ws : list N) (off : N) : res N :=
  let block := off / 8 in
  let sh := 8 * (off mod 8) in
  w <- rd ws block ;;
  if sh =? 0 then Ok w
  else w' <- rd ws (block + 1) ;; Ok (N.lor (shr w sh) (shl w' (64 - sh))).

(** bit_vector.hpp 262-266 *)
Definition bv_get_word56 (v : bv) (pos : N) : res N :=
  w <- load_u64 (v_bits v) (shr pos 3) ;; Ok (shr w (N.land pos 7)).

(** bit_vector.hpp 269-278 *)
Definition bv_get_word64 (v : bv) (pos : N) : res N := get_word64 (v_bits v) pos.

(** bit_vector.hpp 288-291: [block] is decremented with wrap-around *)
Fixpoint pred1_loop (fuel : nat) (ws : list N) (block word : N) : res N :=
  match fuel with
  | O => UB
  | S k => match msb_opt word with
           | Some r => Ok (block * 64 + r)
           | None => let block := sub64 block 1 in
                     w <- rd ws block ;; pred1_loop k ws block w
           end
  end.

(** bit_vector.hpp 280-293 *)
Definition bv_predecessor1 (v : bv) (pos : N) : res N :=
  let block := pos / 64 in
  let shift := 64 - pos mod 64 - 1 in
  w <- rd (v_bits v) block ;;
  pred1_loop (S (S (length (v_bits v)))) (v_bits v) block (shr (shl w shift) shift).

(** ** unary_iterator, bit_vector.hpp 309-374 *)
Record uit := mkuit { u_pos : N; u_buf : N }.

(** lines 312-318 *)
Definition uit_new (v : bv) (pos : N) : res uit :=
  w <- rd (v_bits v) (shr pos 6) ;;
  Ok (mkuit pos (N.land w (shl (N.ones 64) (N.land pos 63)))).

(** m_position & ~uint64_t(63) *)
Definition align64 (p : N) : N := N.land p (not64 63).

(** lines 327-330 *)
Fixpoint next_loop (fuel : nat) (ws : list N) (pos buf : N) : res (N * N * N) :=
  match fuel with
  | O => UB
  | S k => match lsb_opt buf with
           | Some r => Ok (pos, buf, r)
           | None => let pos := add64 pos 64 in
                     buf <- rd ws (shr pos 6) ;; next_loop k ws pos buf
           end
  end.

(** lines 324-335: returns the position and the new iterator *)
Definition uit_next (v : bv) (it : uit) : res (N * uit) :=
  ' (pos, buf, r) <- next_loop (S (S (length (v_bits v)))) (v_bits v) (u_pos it) (u_buf it) ;;
  let p := align64 pos + r in
  Ok (p, mkuit p (N.land buf (sub64 buf 1))).

(** lines 342-346 and 359-363; [neg] complements the words read (skip0) *)
Fixpoint skip_loop (fuel : nat) (neg : bool) (ws : list N) (pos buf skipped k : N)
  : res (N * N * N) :=
  match fuel with
  | O => UB
  | S f =>
      let w := popcount buf in
      if skipped + w <=? k then
        let pos := add64 pos 64 in
        x <- rd ws (pos / 64) ;;
        skip_loop f neg ws pos (if neg then not64 x else x) (skipped + w) k
      else Ok (pos, buf, skipped)
  end.

(** lines 338-351 *)
Definition uit_skip (v : bv) (it : uit) (k : N) : res uit :=
  ' (pos, buf, skipped) <-
     skip_loop (S (S (length (v_bits v)))) false (v_bits v) (u_pos it) (u_buf it) 0 k ;;
  piw <- select_in_word buf (k - skipped) ;;
  Ok (mkuit (align64 pos + piw) (N.land buf (shl (N.ones 64) piw))).

(** lines 354-368 *)
Definition uit_skip0 (v : bv) (it : uit) (k : N) : res uit :=
  let piw := u_pos it mod 64 in
  let buf := N.land (not64 (u_buf it)) (shl (N.ones 64) piw) in
  ' (pos, buf, skipped) <-
     skip_loop (S (S (length (v_bits v)))) true (v_bits v) (u_pos it) buf 0 k ;;
  piw <- select_in_word buf (k - skipped) ;;
  Ok (mkuit (align64 pos + piw) (N.land (not64 buf) (shl (N.ones 64) piw))).

(** ** bits_iterator, bit_vector.hpp 10-64 *)
Record bit := mkbit { bi_pos : N; bi_buf : N; bi_avail : N }.

(** lines 12-15 (the prefetch has no observable effect) *)
Definition bit_new (pos : N) : bit := mkbit pos 0 0.

(** lines 55-58 *)
Definition bit_fill (v : bv) (it : bit) : res bit :=
  w <- bv_get_word64 v (bi_pos it) ;; Ok (mkbit (bi_pos it) w 64).

(** lines 17-31; requires len <= 64 (a longer shift is undefined) *)
Definition bit_get_bits (v : bv) (it : bit) (len : N) : res (N * bit) :=
  it <- (if bi_avail it <? len then bit_fill v it else Ok it) ;;
  if len =? 64 then
    Ok (bi_buf it, mkbit (bi_pos it + len) (bi_buf it) (sub64 (bi_avail it) len))
  else
    m <- shlU 1 len ;;
    Ok (N.land (bi_buf it) (sub64 m 1),
        mkbit (bi_pos it + len) (shr (bi_buf it) len) (sub64 (bi_avail it) len)).

(** lines 35-40 *)
Fixpoint skip_zeros_loop (fuel : nat) (v : bv) (it : bit) (zs : N) : res (bit * N) :=
  match fuel with
  | O => UB
  | S k => if bi_buf it =? 0 then
             let it' := mkbit (bi_pos it + bi_avail it) (bi_buf it) 0 in
             f <- bit_fill v it' ;;
             skip_zeros_loop k v f (zs + bi_avail it)
           else Ok (it, zs)
  end.

(** lines 33-48 *)
Definition bit_skip_zeros (v : bv) (it : bit) : res (N * bit) :=
  ' (it, zs) <- skip_zeros_loop (S (S (length (v_bits v)))) v it 0 ;;
  let l := lsb (bi_buf it) in
  Ok (zs + l, mkbit (bi_pos it + (l + 1)) (shr (shr (bi_buf it) l) 1)
                    (sub64 (bi_avail it) (l + 1))).
