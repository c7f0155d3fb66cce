(** * Model of the byte and text helpers

    include/utils/util.hpp (namespaces bytes, bits, building_util, binary_search),
    include/utils/parsers.hpp (count lines), include/utils/iterators.hpp.

    Memory is one buffer, a list of bytes; a pointer is an index into it and
    reading outside is undefined.  The buffer of a std::string holds its
    characters followed by the terminating 0. *)
From Verif Require Import Prelude.

Definition byte_range : Type := N * N.
Definition c_space : N := 32.
Definition c_tab : N := 9.
Definition c_nl : N := 10.

(** the memory of a std::string *)
Definition c_str (s : list N) : list N := s ++ [0].

(** ** namespace bytes (util.hpp 68-203) *)

(** lines 78-79: advance until the separator *)
Fixpoint seek (fuel : nat) (buf : list N) (pos sep : N) : res N :=
  match fuel with
  | O => UB
  | S f => c <- rd buf pos ;; if c =? sep then Ok pos else seek f buf (pos + 1) sep
  end.
(** lines 75-81 *)
Definition split_upon (s : list N) (sep : N) : res byte_range :=
  p <- seek (S (length (c_str s))) (c_str s) 0 sep ;; Ok (0, p).

(** lines 90-94 *)
Fixpoint seek_end (fuel : nat) (buf : list N) (pos end_ sep : N) : res N :=
  match fuel with
  | O => UB
  | S f => if pos =? end_ then Ok pos
           else c <- rd buf pos ;; if c =? sep then Ok pos else seek_end f buf (pos + 1) end_ sep
  end.
(** lines 85-96 *)
Definition split_upon_check_end (s : list N) (sep : N) : res byte_range :=
  p <- seek_end (S (length (c_str s))) (c_str s) 0 (lenN s) sep ;; Ok (0, p).

(** [while ( *pos-- != ' ');] returns pos after the loop; the address before the
    first byte is represented by the wrapped value *)
Fixpoint seek_back (fuel : nat) (buf : list N) (pos : N) : res N :=
  match fuel with
  | O => UB
  | S f => c <- rd buf pos ;; if c =? c_space then Ok (sub64 pos 1) else seek_back f buf (sub64 pos 1)
  end.
(** lines 98-105 *)
Definition predecessor (buf : list N) (r : byte_range) : res byte_range :=
  p <- seek_back (S (length buf)) buf (sub64 (snd r) 1) ;; Ok (fst r, add64 p 1).
(** lines 116-121 *)
Definition suffix (buf : list N) (r : byte_range) : res byte_range :=
  p <- seek (S (length buf)) buf (fst r) c_space ;; Ok (p + 1, snd r).

(** lines 134-145: state pos, spaces, end *)
Fixpoint back_to_loop (fuel : nat) (buf : list N) (first off pos spaces end_ : N) : res byte_range :=
  if pos =? first then Ok (add64 pos 1, end_) else
  match fuel with
  | O => UB
  | S f =>
      c <- rd buf pos ;;
      if c =? c_space then
        let spaces := spaces + 1 in
        let end_ := if spaces =? off then pos else end_ in
        if spaces =? off + 1 then Ok (add64 pos 1, end_)
        else back_to_loop f buf first off (sub64 pos 1) spaces end_
      else back_to_loop f buf first off (sub64 pos 1) spaces end_
  end.
(** lines 128-147 *)
Definition back_to (buf : list N) (r : byte_range) (off : N) : res byte_range :=
  let pos := sub64 (snd r) 1 in
  back_to_loop (S (length buf)) buf (fst r) off pos 0 pos.

(** lines 160-171: state pos, spaces, begin *)
Fixpoint to_loop (fuel : nat) (buf : list N) (last off pos spaces begin_ : N) : res byte_range :=
  if pos =? last then Ok (begin_, pos) else
  match fuel with
  | O => UB
  | S f =>
      c <- rd buf pos ;;
      if c =? c_space then
        let spaces := spaces + 1 in
        let begin_ := if spaces =? off then pos + 1 else begin_ in
        if spaces =? off + 1 then Ok (begin_, pos)
        else to_loop f buf last off (pos + 1) spaces begin_
      else to_loop f buf last off (pos + 1) spaces begin_
  end.
(** lines 154-174 *)
Definition to (buf : list N) (r : byte_range) (off : N) : res byte_range :=
  to_loop (S (length buf)) buf (snd r) off (fst r) 0 (fst r).

(** lines 176-183 *)
Definition next (buf : list N) (r : byte_range) : res byte_range :=
  p <- seek (S (length buf)) buf (snd r + 1) c_space ;; Ok (snd r + 1, p).
(** lines 185-194 *)
Definition prev (buf : list N) (r : byte_range) : res byte_range :=
  p <- seek_back (S (length buf)) buf (sub64 (fst r) 2) ;;
  Ok (add64 p 2, sub64 (fst r) 1).

(** memcmp over [len] bytes: equal or not *)
Fixpoint memeq (fuel : nat) (bx by_ : list N) (x y : N) : res bool :=
  match fuel with
  | O => Ok true
  | S f => a <- rd bx x ;; b <- rd by_ y ;; if a =? b then memeq f bx by_ (x + 1) (y + 1) else Ok false
  end.
(** lines 196-202; the two ranges may lie in different buffers *)
Definition equal_bytes (bx by_ : list N) (x y : byte_range) : res bool :=
  let len := sub64 (snd x) (fst x) in
  if len =? sub64 (snd y) (fst y) then memeq (N.to_nat len) bx by_ (fst x) (fst y) else Ok false.

(** ** namespace bits: pack and unpack (util.hpp 36-52).
    Floats are 32-bit patterns; the union keeps the other half of the word
    (first zeroed, then the half written last time, which is also zero). *)
Definition f32 (x : N) : N := N.land x (N.ones 32).
(** writing the float member of the union *)
Definition union_set (u f : N) : N := N.lor (shl (shr u 32) 32) (f32 f).
Definition pack (prob backoff : N) : N :=
  let u := union_set 0 backoff in
  let packed := shl u 32 in
  let u := union_set u prob in
  N.lor packed u.
Definition unpack (packed : N) : N * N :=
  let mask := sub64 (shl 1 32) 1 in
  (f32 (N.land packed mask), f32 (shr packed 32)).

(** ** namespace building_util (util.hpp 292-315).  The callers pass a value
    read from the command line; the parameter type is uint8_t. *)
Definition u8 (x : N) : N := N.land x 255.
(** lines 292-301 *)
Definition check_order (order : N) : res unit :=
  let order := u8 order in
  if order <? 2 then Throw else if 8 <? order then Throw else Ok tt.
(** lines 303-309 *)
Definition check_remapping_order (order : N) : res unit :=
  let order := u8 order in if 2 <? order then Throw else Ok tt.

(** ** util::binary_search (util.hpp 379-397), the adaptor's first/second being
    reads of the pair at an index *)
Fixpoint bsearch (fuel : nat) (s : list (N * N)) (x lo hi : N) : res (option N) :=
  match fuel with
  | O => UB
  | S f =>
      if lo <=? hi then
        let mid := add64 lo (shr (sub64 hi lo) 1) in
        ' (v, r) <- rd s mid ;;
        if v =? x then Ok (Some r)
        else if x <? v then bsearch f s x lo (sub64 mid 1)
        else bsearch f s x (add64 mid 1) hi
      else Ok None
  end.
Definition binary_search (s : list (N * N)) (n x : N) : res (option N) :=
  bsearch (S (S (length s))) s x 0 (sub64 n 1).

(** ** decimal numbers [C library: std::to_string, strtoull] *)
Fixpoint dec_digits (fuel : nat) (n : N) (acc : list N) : list N :=
  match fuel with
  | O => acc
  | S f => let acc := (48 + n mod 10) :: acc in
           if n / 10 =? 0 then acc else dec_digits f (n / 10) acc
  end.
(** std::to_string(uint64_t); 2^64 has 20 digits *)
Definition to_string (n : N) : list N := dec_digits 20 n [].

Definition is_digit (c : N) : bool := (48 <=? c) && (c <=? 57).
(** isspace in the C locale *)
Definition is_space (c : N) : bool := (c =? 32) || ((9 <=? c) && (c <=? 13)).
(** strtoull(p, nullptr, 10): leading blanks, optional sign, digits, saturation *)
Fixpoint skip_space (fuel : nat) (buf : list N) (pos : N) : res N :=
  match fuel with
  | O => UB
  | S f => c <- rd buf pos ;; if is_space c then skip_space f buf (pos + 1) else Ok pos
  end.
Fixpoint read_digits (fuel : nat) (buf : list N) (pos acc : N) : res N :=
  match fuel with
  | O => UB
  | S f => c <- rd buf pos ;;
           if is_digit c then read_digits f buf (pos + 1) (10 * acc + (c - 48)) else Ok acc
  end.
Definition strtoull (buf : list N) (pos : N) : res N :=
  p <- skip_space (S (length buf)) buf pos ;;
  c <- rd buf p ;;
  let neg := c =? 45 in
  let p := if (c =? 45) || (c =? 43) then p + 1 else p in
  v <- read_digits (S (length buf)) buf p 0 ;;
  Ok (if 2 ^ 64 <=? v then 2 ^ 64 - 1 else if neg then sub64 0 v else v).

(** ** count lines (parsers.hpp 13-29, 86-91) *)
Definition parse_count_line (line : list N) : res (byte_range * N) :=
  br <- split_upon_check_end line c_tab ;;
  if snd br =? lenN line then Ok (br, 0)
  else c <- strtoull (c_str line) (snd br + 1) ;; Ok (br, c).
Definition format_count_line (gram : list N) (count : N) : list N :=
  gram ++ [c_tab] ++ to_string count.

(** ** iterators.hpp *)
(** forward_byte_range_iterator, lines 93-124 of the file: (m_cur_pos, m_end) *)
(** has_next, lines 104-106 *)
Definition fwd_has_next (it : N * N) : bool := fst it <? snd it.
(** the loop of lines 110-114 *)
Fixpoint fwd_seek (fuel : nat) (buf : list N) (pos end_ : N) : res N :=
  match fuel with
  | O => UB
  | S f => if pos =? end_ then Ok pos
           else c <- rd buf pos ;;
                if (c =? c_space) || (c =? c_nl) then Ok pos else fwd_seek f buf (pos + 1) end_
  end.
(** next, lines 108-118 *)
Definition fwd_next (buf : list N) (it : N * N) : res (byte_range * (N * N)) :=
  p <- fwd_seek (S (length buf)) buf (fst it) (snd it) ;;
  Ok ((fst it, p), (p + 1, snd it)).
(** a client's loop [while (it.has_next()) out.push_back(it.next())] *)
Fixpoint fwd_all (fuel : nat) (buf : list N) (it : N * N) : res (list byte_range) :=
  match fuel with
  | O => UB
  | S f => if fwd_has_next it then
             ' (br, it) <- fwd_next buf it ;; brs <- fwd_all f buf it ;; Ok (br :: brs)
           else Ok []
  end.

(** backward_byte_range_iterator, lines 126-154: (m_begin, m_cur_pos) *)
Fixpoint bwd_seek (fuel : nat) (buf : list N) (begin_ pos : N) : res N :=
  match fuel with
  | O => UB
  | S f => if pos =? begin_ then Ok pos
           else c <- rd buf pos ;; if c =? c_space then Ok pos else bwd_seek f buf begin_ (sub64 pos 1)
  end.
(** next, lines 137-148 *)
Definition bwd_next (buf : list N) (it : N * N) : res (byte_range * (N * N)) :=
  p <- bwd_seek (S (length buf)) buf (fst it) (sub64 (snd it) 1) ;;
  Ok ((if p =? fst it then fst it else p + 1, snd it), (fst it, p)).
(** k successive calls *)
Fixpoint bwd_take (k : nat) (buf : list N) (it : N * N) : res (list byte_range) :=
  match k with
  | O => Ok []
  | S k => ' (br, it) <- bwd_next buf it ;; brs <- bwd_take k buf it ;; Ok (br :: brs)
  end.

(** text_lines, lines 11-64: (m_pos, m_num_words, m_eol) *)
Record tlines := mktl { tl_pos : N; tl_words : N; tl_eol : bool }.
Definition tl_init : tlines := mktl 0 0 false.
(** the loop of lines 29-34 *)
Fixpoint tl_seek (fuel : nat) (buf : list N) (pos : N) : res (N * bool) :=
  match fuel with
  | O => UB
  | S f => c <- rd buf pos ;;
           if c =? c_space then Ok (pos, false)
           else if c =? c_nl then Ok (pos, true)
           else tl_seek f buf (pos + 1)
  end.
(** next_word, lines 27-39 *)
Definition tl_next (buf : list N) (t : tlines) : res (byte_range * tlines) :=
  ' (p, nl) <- tl_seek (S (length buf)) buf (tl_pos t) ;;
  Ok ((tl_pos t, p), mktl (p + 1) (tl_words t + 1) (if nl then true else tl_eol t)).
(** begin_line, lines 41-43; end_of_line, 45-47; end_of_file, 49-51 *)
Definition tl_begin_line (t : tlines) : tlines := mktl (tl_pos t) (tl_words t) false.
Definition tl_eof (buf : list N) (t : tlines) : bool := tl_pos t =? lenN buf.
(** the inner loop of src/score.cpp 40-53 *)
Fixpoint tl_line (fuel : nat) (buf : list N) (t : tlines) : res (list byte_range * tlines) :=
  match fuel with
  | O => UB
  | S f => if tl_eol t then Ok ([], t)
           else ' (br, t) <- tl_next buf t ;; ' (brs, t) <- tl_line f buf t ;; Ok (br :: brs, t)
  end.
(** the outer loop of src/score.cpp 32-61 *)
Fixpoint tl_corpus (fuel : nat) (buf : list N) (t : tlines) : res (list (list byte_range) * tlines) :=
  match fuel with
  | O => UB
  | S f => if tl_eof buf t then Ok ([], t)
           else ' (l, t) <- tl_line (S (length buf)) buf (tl_begin_line t) ;;
                ' (ls, t) <- tl_corpus f buf t ;; Ok (l :: ls, t)
  end.
